(** Specification for parts built from lists of frame addresses. *)
From Verif Require Import Base.

(** The fields of a frame address. *)
Definition block_field (a : N) : N := a / 2 ^ 23 mod 2 ^ 3.
Definition half_field (a : N) : N := a / 2 ^ 22 mod 2.
Definition row_field (a : N) : N := a / 2 ^ 17 mod 2 ^ 5.
Definition column_field (a : N) : N := a / 2 ^ 7 mod 2 ^ 10.
Definition minor_field (a : N) : N := a mod 2 ^ 7.

(** Address [b] lies in the column of [a], at its frame or above. *)
Definition reaches (b a : N) : Prop :=
  block_field b = block_field a /\ half_field b = half_field a /\ row_field b = row_field a /\
  column_field b = column_field a /\ minor_field a <= minor_field b.

(** What the standard says of std::sort and std::partition. *)
Definition good_sort (sorted_by : (N -> N) -> list N -> list N) : Prop :=
  forall key l, Permutation (sorted_by key l) l /\ StronglySorted (fun x y => key x <= key y) (sorted_by key l).
Definition good_split (split_by : (N -> bool) -> list N -> list N * list N) : Prop :=
  forall f l, let '(a, b) := split_by f l in
    Permutation (a ++ b) l /\ Forall (fun x => f x = true) a /\ Forall (fun x => f x = false) b.

(** Rows and columns are numbered without holes, as in [PartSpec.no_holes], by the listed addresses. *)
Definition listed_at (l : list N) (block half row column : N) : Prop :=
  exists x, In x l /\ block_field x = block /\ half_field x = half /\ row_field x = row /\ column_field x = column.
Definition list_without_holes (l : list N) : Prop :=
  forall x, In x l -> block_field x <= 2 /\
    (forall c, c <= column_field x -> listed_at l (block_field x) (half_field x) (row_field x) c) /\
    (forall r, r <= row_field x -> listed_at l (block_field x) (half_field x) r 0) /\
    listed_at l (block_field x) 0 0 0.
