(** What a feature says about the bits of the file, and when two features contradict each other. *)
From Verif Require Import Base Part Fasm FasmSpec DbText DbJson Database Assembler AsmSpec DbSpec LoadSpec EndSpec.

Section Says.
  Context (e : environment) (root : text) (g : tilegrid) (p : db_part) (pins : list package_pin).

  (** Feature [f] wants bit [i] of word [w] of frame [a] to be 1 ([v] is true) or to be 0. *)
  Definition wants (f : fasm_feature) (v : bool) (a w i : N) : Prop :=
    exists tile rest k bus b l sb, first_dot (ff_name f) tile rest /\ enables f k /\
      listed e root g tile rest k bus b l /\ In sb l /\ sb_set sb = v /\ lands_at b sb a w i.

  (** Two features of the design (or one) want the same bit to be 1 and to be 0. *)
  Definition contradiction (design : fasm_feature -> Prop) : Prop :=
    exists f f' a w i, design f /\ design f' /\ wants f true a w i /\ wants f' false a w i.

  (** These frames have the bit. *)
  Definition frames_have (fs : list (N * list N)) (a w i : N) : Prop :=
    exists ws x, In (a, ws) fs /\ nth_error ws (N.to_nat w) = Some x /\ N.testbit x i = true.
  (** All the bits the feature speaks of are as it wants them. *)
  Definition satisfied (fs : list (N * list N)) (f : fasm_feature) : Prop :=
    forall v a w i, wants f v a w i -> (frames_have fs a w i <-> v = true).
End Says.
