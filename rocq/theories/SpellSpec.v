(** When two texts say the same, and the plainest text that does: one line for each bit. *)
From Verif Require Import Base Fasm FasmSpec DbSpec Assembler AsmSpec.

(** Some of the features sets bit [k] of the feature called [name]. *)
Definition switches (fs : list fasm_feature) (name : text) (k : N) : Prop :=
  exists f, In f fs /\ ff_name f = name /\ enables f k.
Definition same_switches (fs fs' : list fasm_feature) : Prop := forall name k, switches fs name k <-> switches fs' name k.
(** A name with a tile: something before the first dot. *)
Definition tiled (name : text) : Prop := exists tile rest, first_dot name tile rest.

(** The texts have the same lines, in any order and any number of times. *)
Definition same_lines (t t' : text) : Prop := forall l, In l (getlines t) <-> In l (getlines t').

(** The line [name[k]], [k] in decimal (leading zeros or not). *)
Definition bit_line (b : text * N) (l : text) : Prop :=
  exists ds, DbSpec.decimal ds (snd b) /\ l = fst b ++ tx "[" ++ ds ++ tx "]".
(** The text made of these lines. *)
Definition bit_by_bit (bits : list (text * N)) (t : text) : Prop :=
  exists ls, Forall2 bit_line bits ls /\ t = unlines ls.
