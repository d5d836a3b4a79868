(** What the whole program must write, in terms of the files of the database directory and of the
    features of the input only. *)
From Verif Require Import Base Absl Part Frame Fasm FasmSpec DbText DbJson Database Assembler
  AsmSpec PartSpec DbSpec JsonSpec LoadSpec EncodeSpec ConfigSpec ContainerSpec Packet.

Section Described.
  (** A directory, and what its part, grid and package files say ([LoadSpec.database_says]). *)
  Context (e : environment) (root : text) (g : tilegrid) (p : db_part) (pins : list package_pin).

  (** The segment bits and pseudo pips of a tile type, from its files. *)
  Definition type_data (ty : text) (d : tile_db) : Prop :=
    exists dir clb bram pips, type_dir e root ty dir /\ type_paths dir ty clb bram pips /\
      type_says e clb bram pips d.

  (** Feature [rest] of tile [tile] is listed as a pseudo pip, under the name of the tile or of its type. *)
  Definition listed_pip (tile rest : text) : Prop :=
    exists t ty seen d, maps_to g tile t /\ seen_as t rest ty seen /\ type_data ty d /\
      (has_key (td_pips d) (dotted tile seen) \/ has_key (td_pips d) (dotted ty seen)).

  (** Bit [k] of feature [rest] of tile [tile] is listed with the segment bits [l], which count from
      block [b] of the tile. *)
  Definition listed (tile rest : text) (k : N) (bus : bus_type) (b : bits_block) (l : list segment_bit) : Prop :=
    exists t ty seen d segs, maps_to g tile t /\ seen_as t rest ty seen /\ type_data ty d /\
      ~ has_key (td_pips d) (dotted tile seen) /\ ~ has_key (td_pips d) (dotted ty seen) /\
      maps_to (t_bits t) bus b /\ maps_to (td_bits d) bus segs /\ maps_to segs (dotted ty seen, k) l.

  (** The feature sets bit [i] of word [w] of frame [a]. *)
  Definition sets_bit (f : fasm_feature) (a w i : N) : Prop :=
    exists tile rest k bus b l sb, first_dot (ff_name f) tile rest /\ enables f k /\
      listed tile rest k bus b l /\ In sb l /\ sb_set sb = true /\ lands_at b sb a w i.

  (** Everything the feature enables is listed, inside the frames. *)
  Definition covered (f : fasm_feature) : Prop :=
    (exists tile rest, first_dot (ff_name f) tile rest /\
       forall k, enables f k -> listed_pip tile rest \/ exists bus b l, listed tile rest k bus b l) /\
    forall a w i, sets_bit f a w i -> w < 101.

  (** The bank of a tile: that of the first entry of the package about it. *)
  Definition bank_of_tile (tile : text) (bank : N) : Prop :=
    exists l1 l2, bank_pairs (dp_iobanks p) pins = l1 ++ (bank, tile) :: l2 /\ forall b, ~ In (b, tile) l1.

  (** Some IO buffer of the bank asks for STEPDOWN under this tag. *)
  Definition bank_steps_down (fs : list fasm_feature) (bank : N) (tag : text) : Prop :=
    exists f tile site, In f fs /\ uses f tile site tag /\ contains (tx "STEPDOWN") tag /\ bank_of_tile tile bank.

  (** The features this implies: the same tag for the unused sites of the IO tiles of the bank, and
      STEPDOWN of its clock tiles. *)
  Inductive implied (fs : list fasm_feature) : text -> Prop :=
  | implied_site : forall bank tag tile t s fn label,
      bank_steps_down fs bank tag -> in_bank (dp_iobanks p) pins bank tile -> contains (tx "IOB33") tile ->
      maps_to g tile t -> In (s, fn) (t_sites t) -> site_label s label -> ~ site_in_use fs tile label ->
      implied fs (dotted tile (dotted label tag))
  | implied_clock : forall bank tag tile,
      bank_steps_down fs bank tag -> in_bank (dp_iobanks p) pins bank tile -> contains (tx "HCLK_IOI3") tile ->
      implied fs (dotted tile (tx "STEPDOWN")).
  Definition in_design (fs : list fasm_feature) (f : fasm_feature) : Prop :=
    In f fs \/ exists name, implied fs name /\ f = plain_feature name.

  (** The files fit together: the grid and the device are usable, the blocks of the tiles are frames of
      the device, and the segment bits lie in the columns of their block. *)
  Record consistent_description : Prop := {
    cd_grid : usable_grid g;
    cd_sites : numbered_grid g;
    cd_device : usable_device p;
    cd_blocks : forall tile t bus b j, maps_to g tile t -> maps_to (t_bits t) bus b ->
      j < bb_frames b -> is_frame_address p (bb_base b + j);
    cd_columns : forall tile rest k bus b l sb, listed tile rest k bus b l -> In sb l ->
      sb_column sb < bb_frames b
  }.

  (** What the STEPDOWN pass needs of the package: a tile that asks for STEPDOWN is in a bank, and the
      IO tiles of that bank are in the grid. *)
  Definition package_covers (fs : list fasm_feature) : Prop :=
    (forall f tile site tag, In f fs -> uses f tile site tag -> contains (tx "STEPDOWN") tag ->
       exists bank, bank_of_tile tile bank) /\
    (forall bank tag tile, bank_steps_down fs bank tag -> in_bank (dp_iobanks p) pins bank tile ->
       contains (tx "IOB33") tile -> has_key g tile).

  (** All the frames of the device, in order, with exactly the bits of the given features. *)
  Definition configuration_of (feats : list fasm_feature) (fs : list (N * list N)) : Prop :=
    StronglySorted N.lt (map fst fs) /\
    (forall a, In a (map fst fs) <-> is_frame_address p a) /\
    Forall (fun kv => is_frame_content (snd kv)) fs /\
    forall a w i, (exists ws x, In (a, ws) fs /\ nth_error ws (N.to_nat w) = Some x /\ N.testbit x i = true) <->
      exists f, in_design feats f /\ sets_bit f a w i.

  (** The .bit file that programs these frames into the device: header, sync word and the Series-7
      program with the frames as payload. *)
  Definition programs (date time : text) (fs : list (N * list N)) (bytes : list N) : Prop :=
    bytes = bit_file (tx "fpga-source") (tx "fpga-assembler") (tx "fasm") date time
              (sync_preamble ++ series7_words (dp_idcode p) (payload fs)).
End Described.
