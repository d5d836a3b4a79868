(** What becomes of two designs that are assembled together. *)
From Verif Require Import Base Part DbText DbJson Database Assembler AsmSpec DbSpec JsonSpec LoadSpec EndSpec.

Section Merge.
  Context (e : environment) (root : text) (g : tilegrid) (p : db_part) (pins : list package_pin).
  (** The first design implies STEPDOWN (the tag [tag]) for an IO site of its bank that only the second one uses, and this sets the bit. *)
  Definition given_up (fs fs' : list fasm_feature) (a w i : N) : Prop :=
    exists bank tag tile site, bank_steps_down p pins fs bank tag /\ in_bank (dp_iobanks p) pins bank tile /\ contains (tx "IOB33") tile /\
      ~ site_in_use fs tile site /\ site_in_use fs' tile site /\
      sets_bit e root g (plain_feature (dotted tile (dotted site tag))) a w i.
  (** In a bank in which the first design steps down, the second one uses only IO sites that the first one uses too. *)
  Definition keeps_out (fs fs' : list fasm_feature) : Prop :=
    forall bank tag tile site, bank_steps_down p pins fs bank tag -> in_bank (dp_iobanks p) pins bank tile -> contains (tx "IOB33") tile ->
      site_in_use fs' tile site -> site_in_use fs tile site.
End Merge.
