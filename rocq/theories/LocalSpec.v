(** What a change of the design may reach: the tiles whose features changed and, for STEPDOWN, the IO and clock tiles of their bank. *)
From Verif Require Import Base Absl Part Fasm DbText DbJson Database Assembler AsmSpec EndSpec.

(** The feature is in one of the two designs only. *)
Definition changed (feats feats' : list fasm_feature) (f : fasm_feature) : Prop :=
  (In f feats /\ ~ In f feats') \/ (In f feats' /\ ~ In f feats).

Inductive reached (p : db_part) (pins : list package_pin) (feats feats' : list fasm_feature) (tile : text) : Prop :=
| reached_self : forall f rest, changed feats feats' f -> first_dot (ff_name f) tile rest -> reached p pins feats feats' tile
| reached_bank : forall f tile0 site tag bank,
    changed feats feats' f -> uses f tile0 site tag -> contains (tx "STEPDOWN") tag ->
    bank_of_tile p pins tile0 bank -> in_bank (dp_iobanks p) pins bank tile ->
    contains (tx "IOB33") tile \/ contains (tx "HCLK_IOI3") tile -> reached p pins feats feats' tile.

(** Frame [a] is one of the frames the grid gives to the tile. *)
Definition frame_of_tile (g : tilegrid) (tile : text) (a : N) : Prop :=
  exists t bus b j, maps_to g tile t /\ maps_to (t_bits t) bus b /\ j < bb_frames b /\ a = bb_base b + j.

(** The tile names of the package and of the banks contain no dot. *)
Definition plain_tile_names (p : db_part) (pins : list package_pin) : Prop :=
  forall bank tile, in_bank (dp_iobanks p) pins bank tile -> ~ In dot tile.

(** Words [o] to [o + n - 1] of frame [a] are given to the tile. *)
Definition words_of_tile (g : tilegrid) (tile : text) (a o n : N) : Prop :=
  exists t bus b j, maps_to g tile t /\ maps_to (t_bits t) bus b /\ j < bb_frames b /\ a = bb_base b + j /\
    Z.of_N o = first_word b /\ n = bb_words b.
(** The segment bits of the tile types lie in the words of the blocks, and those in the frames. *)
Definition words_fit (e : environment) (root : text) (g : tilegrid) : Prop :=
  forall tile rest k bus b l sb, listed e root g tile rest k bus b l -> In sb l ->
    exists o, Z.of_N o = first_word b /\ o + bb_words b <= 101 /\ sb_bit sb < 32 * bb_words b.
