(** What a disassembler reads in the frames of a bitstream, and when a FASM text is such a reading. *)
From Verif Require Import Base Part Fasm FasmSpec DbText DbJson Database Assembler AsmSpec DbSpec LoadSpec EndSpec ConflictSpec SpellSpec.

Section Reads.
  Context (e : environment) (root : text) (g : tilegrid) (p : db_part) (pins : list package_pin).

  (** The database knows bit [k] of the feature called [name]: as a pseudo pip, or with segment bits. *)
  Definition known (name : text) (k : N) : Prop :=
    exists tile rest, first_dot name tile rest /\
      (listed_pip e root g tile rest \/ exists bus b l, listed e root g tile rest k bus b l).
  (** The frames have all the bits of it as the database lists them, set or cleared... *)
  Definition fits (fs : list (N * list N)) (name : text) (k : N) : Prop :=
    known name k /\ satisfied e root g fs (bit_feature name k).
  (** ... and one of them is set: a disassembler prints the feature.  (Numbers of bits have 32 bits.) *)
  Definition shows_up (fs : list (N * list N)) (name : text) (k : N) : Prop :=
    k < 2 ^ 32 /\ fits fs name k /\ exists a w i, wants e root g (bit_feature name k) true a w i.

  (** The features are a reading of the frames: each fits, and each that shows up is there.  (Whether pseudo pips and features of which all
      bits are cleared are there is open.) *)
  Record reading_of (fs : list (N * list N)) (feats : list fasm_feature) : Prop := {
    rd_fits : forall name k, switches feats name k -> fits fs name k;
    rd_complete : forall name k, shows_up fs name k -> switches feats name k
  }.

  (** What a reading cannot see.  STEPDOWN is asked for only in banks, and under tags, for which the design asks too... *)
  Definition no_other_stepdown (feats feats' : list fasm_feature) : Prop :=
    forall f tile site tag, In f feats' -> uses f tile site tag -> contains (tx "STEPDOWN") tag ->
      exists bank, bank_of_tile p pins tile bank /\ bank_steps_down p pins feats bank tag.
  (** ... and the IO sites in use in the tiles of such banks are in use in the reading too. *)
  Definition sites_still_used (feats feats' : list fasm_feature) : Prop :=
    forall bank tag tile site, bank_steps_down p pins feats bank tag -> in_bank (dp_iobanks p) pins bank tile ->
      contains (tx "IOB33") tile -> site_in_use feats tile site -> site_in_use feats' tile site.
End Reads.
