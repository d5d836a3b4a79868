(** A file under construction. *)
From Verif Require Import Base Device.

(** The content of a file that was empty, after some operations: bytes go to the position, which moves on. *)
Fixpoint put_at (pos : nat) (b : N) (f : list N) : list N :=
  match pos, f with
  | O, [] => [b]
  | O, _ :: r => b :: r
  | S n, [] => 0 :: put_at n b []
  | S n, x :: r => x :: put_at n b r
  end.
Definition file_step (s : list N * nat) (o : file_op) : list N * nat :=
  match o with
  | PutByte b => (put_at (snd s) b (fst s), S (snd s))
  | SetPos p => (fst s, p)
  end.
Definition file_after (ops : list file_op) : list N := fst (fold_left file_step ops ([], 0%nat)).

(** The length field of a .bit file with a 88 byte header in front of it, read as a big-endian number. *)
Definition length_field (f : list N) : N := fold_left (fun n b => 256 * n + b) (firstn 4 (skipn 88 f)) 0.
(** Equal outside the length field. *)
Definition same_but_length (f g : list N) : Prop :=
  List.length f = List.length g /\ forall j, (j < 88 \/ 92 <= j)%nat -> nth_error f j = nth_error g j.
