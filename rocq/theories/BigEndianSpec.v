(** Specification of big-endian words. *)
From Verif Require Import Base.

(** The number written by bytes, most significant first. *)
Fixpoint number (bs : list N) : N :=
  match bs with
  | [] => 0
  | b :: r => b * 256 ^ N.of_nat (List.length r) + number r
  end.
Definition bytes_ok (bs : list N) : Prop := Forall (fun b => b < 256) bs.
(** The bytes of a word. *)
Fixpoint bytes_of (k : nat) (w : N) : list N :=
  match k with O => [] | S n => w / 256 ^ N.of_nat n mod 256 :: bytes_of n w end.
(** Word [pos] of a sequence of bytes: [k] bytes starting at [k * pos]. *)
Definition word_at (k : nat) (bs : list N) (pos : nat) : list N := firstn k (skipn (k * pos) bs).
