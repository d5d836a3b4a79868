(** A text of some lines of another one. *)
From Verif Require Import Base Assembler AsmSpec.

(** Each line of [t'] is a line of [t]: lines of [t] are taken away (and perhaps put in another order, or repeated). *)
Definition some_lines (t' t : text) : Prop := forall l, In l (getlines t') -> In l (getlines t).
