(** Specification of what the assembler must produce, in terms of the database
    content and the list of features; independent of the code's loops. *)
From Verif Require Import Base Absl Part Frame Fasm FasmSpec DbText DbJson Database Assembler.

(** The value a key has in an association list: that of its first pair. *)
Definition maps_to {K A} (l : list (K * A)) (k : K) (v : A) : Prop :=
  exists l1 l2, l = l1 ++ (k, v) :: l2 /\ ~ In k (map fst l1).
Definition has_key {K A} (l : list (K * A)) (k : K) : Prop := In k (map fst l).

Definition dot : ascii := "."%char.
(** [a.b] *)
Definition dotted (a b : text) : text := a ++ dot :: b.
(** A name cut at its first dot. *)
Definition first_dot (name a b : text) : Prop := name = dotted a b /\ ~ In dot a.
Definition contains (needle s : text) : Prop := exists a b, s = a ++ needle ++ b.

(** ** Oracles *)
(** Iteration orders are arbitrary but list each element once. *)
Definition good_load (o : load_orders) : Prop :=
  (forall b l, Permutation (lo_tiles o b l) l) /\
  (forall l, Permutation (lo_grid o l) l) /\
  (forall tile l, Permutation (lo_bits o tile l) l) /\
  (forall tile l, Permutation (lo_pins o tile l) l) /\
  (forall tile l, Permutation (lo_sites o tile l) l) /\
  (forall l, Permutation (lo_banks o l) l) /\
  (forall bottom i l, Permutation (lo_row o bottom i l) l).
Definition good_orders (o : orders) : Prop :=
  (forall i j l, Permutation (o_alias o i j l) l) /\
  (forall i l, Permutation (o_buses o i l) l) /\
  (forall l, Permutation (o_banks o l) l) /\
  (forall b l, Permutation (o_tags o b l) l) /\
  good_load (o_load o).

(** ** Which bits a feature stands for *)

(** The feature as an aliased block names it: the part after the first dot is
    replaced if the alias lists it. *)
Inductive renamed (al : bits_alias) (feature : text) : text -> Prop :=
| renamed_listed : forall a site site',
    first_dot feature a site -> maps_to (al_sites al) site site' ->
    renamed al feature (dotted a site')
| renamed_unlisted : forall a site,
    first_dot feature a site -> ~ has_key (al_sites al) site -> renamed al feature feature
| renamed_plain : ~ In dot feature -> renamed al feature feature.

(** The tile type and feature name under which a tile's feature is looked up. *)
Inductive seen_as (t : tile) (feature : text) : text -> text -> Prop :=
| seen_plain :
    (forall bus b, In (bus, b) (t_bits t) -> bb_alias b = None) ->
    seen_as t feature (t_type t) feature
| seen_alias : forall bus b al feature',
    In (bus, b) (t_bits t) -> bb_alias b = Some al -> renamed al feature feature' ->
    seen_as t feature (al_type al) feature'.

(** A tile description is usable: one block per bus, and if several blocks are
    aliased they agree on the type and the names. *)
Definition usable_tile (t : tile) : Prop :=
  NoDup (map fst (t_bits t)) /\
  forall feature ty1 f1 ty2 f2,
    seen_as t feature ty1 f1 -> seen_as t feature ty2 f2 -> ty1 = ty2 /\ f1 = f2.
Definition usable_grid (g : tilegrid) : Prop := forall name t, maps_to g name t -> usable_tile t.

(** First word of the block in the frame, before the alias offset. *)
Definition first_word (b : bits_block) : Z :=
  match bb_alias b with
  | None => bb_offset b
  | Some al => bb_offset b - Z.of_N (al_start_offset al)
  end.

(** Where a segment bit of a block lands (32-bit arithmetic). *)
Definition lands_at (b : bits_block) (sb : segment_bit) (a w i : N) : Prop :=
  a = (bb_base b + sb_column sb) mod 2 ^ 32 /\ i < 32 /\
  Z.of_N (32 * w + i) = ((32 * first_word b + Z.of_N (sb_bit sb)) mod 2 ^ 32)%Z.

(** Address [k] of feature [rest] of tile [tile] is a pseudo pip / has segment bits. *)
Definition pseudo_pip (tls : tiles) (tile rest : text) : Prop :=
  exists t ty seen d,
    maps_to (tl_grid tls) tile t /\ seen_as t rest ty seen /\
    tl_bits tls ty = Ok (Some d) /\
    (has_key (td_pips d) (dotted tile seen) \/ has_key (td_pips d) (dotted ty seen)).

Definition entry (tls : tiles) (tile rest : text) (k : N)
    (bus : bus_type) (b : bits_block) (l : list segment_bit) : Prop :=
  exists t ty seen d segs,
    maps_to (tl_grid tls) tile t /\ seen_as t rest ty seen /\
    tl_bits tls ty = Ok (Some d) /\
    ~ has_key (td_pips d) (dotted tile seen) /\ ~ has_key (td_pips d) (dotted ty seen) /\
    maps_to (t_bits t) bus b /\ maps_to (td_bits d) bus segs /\
    maps_to segs (dotted ty seen, k) l.

(** The addresses a feature enables: the ones of its value. *)
Definition enables (f : fasm_feature) (k : N) : Prop :=
  exists j, j < ff_width f /\ N.testbit (ff_bits f) j = true /\ k = (ff_start f + j) mod 2 ^ 32.

(** The feature asks for segment bit [sb] of block [b] of bus [bus]. *)
Definition asks (tls : tiles) (f : fasm_feature) (bus : bus_type) (b : bits_block)
    (sb : segment_bit) : Prop :=
  exists tile rest k l,
    first_dot (ff_name f) tile rest /\ enables f k /\ entry tls tile rest k bus b l /\ In sb l.

(** The feature requests bit [i] of word [w] of frame [a]. *)
Definition requested (tls : tiles) (f : fasm_feature) (a w i : N) : Prop :=
  exists bus b sb, asks tls f bus b sb /\ sb_set sb = true /\ lands_at b sb a w i.

(** The feature needs frame [a] to be present: one of its bits (set or cleared) lies
    there, or it is one of the frames of a block where it has bits. *)
Definition touched (tls : tiles) (f : fasm_feature) (a : N) : Prop :=
  exists bus b sb, asks tls f bus b sb /\
    (a = (bb_base b + sb_column sb) mod 2 ^ 32
     \/ exists j, j < bb_frames b /\ a = (bb_base b + j) mod 2 ^ 64).

(** The database knows everything the feature enables. *)
Definition known (tls : tiles) (f : fasm_feature) : Prop :=
  exists tile rest, first_dot (ff_name f) tile rest /\
    forall k, enables f k -> pseudo_pip tls tile rest \/ exists bus b l, entry tls tile rest k bus b l.

(** Features as the parser reports them. *)
Definition reported (f : fasm_feature) : Prop := ff_width f <= 64 /\ ff_start f + 64 <= 2 ^ 31.

(** ** Frame sets *)
Definition bit_at (fr : asm_frames) (a w i : N) : bool :=
  match bt_find a fr with
  | Some f => N.testbit (nth (N.to_nat w) f 0) i
  | None => false
  end.
Definition present (fr : asm_frames) (a : N) : Prop := exists f, In (a, f) fr.

(** ** Implied features *)

(** A named feature with one, two... components before the rest. *)
Definition path3 (name tile site tag : text) : Prop :=
  ~ In dot tile /\ ~ In dot site /\ ~ In dot tag /\
  (name = dotted tile (dotted site tag)
   \/ exists rest, name = dotted tile (dotted site (dotted tag rest))).

Definition uses (f : fasm_feature) (tile site tag : text) : Prop :=
  ff_bits f <> 0 /\ path3 (ff_name f) tile site tag.

(** The label of a site inside its tile: the parity of the last digit of its name. *)
Inductive site_label : text -> text -> Prop :=
| site_even : forall p d, In d (tx "02468") -> site_label (p ++ [d]) (tx "IOB_Y0")
| site_odd : forall p d, In d (tx "13579") -> site_label (p ++ [d]) (tx "IOB_Y1").
Definition site_name_ok (s : text) : Prop := exists l, site_label s l.

(** Some IO buffer of the bank asks for STEPDOWN under this tag; the bank of a tile is
    the first of the list of its banks. *)
Definition wants_stepdown (banks : banks_registry) (fs : list fasm_feature) (bank : N) (tag : text)
  : Prop :=
  exists f tile site bs, In f fs /\ uses f tile site tag /\ contains (tx "STEPDOWN") tag /\
    reg_tile_banks banks tile = bank :: bs.

Definition site_in_use (fs : list fasm_feature) (tile site : text) : Prop :=
  exists f tag, In f fs /\ uses f tile site tag.

Inductive stepdown_name (banks : banks_registry) (grid : tilegrid) (fs : list fasm_feature)
  : text -> Prop :=
| sd_site : forall bank tag ts tile t s fn label,
    wants_stepdown banks fs bank tag ->
    reg_tiles banks bank = Some ts -> In tile ts -> contains (tx "IOB33") tile ->
    maps_to grid tile t -> In (s, fn) (t_sites t) -> site_label s label ->
    ~ site_in_use fs tile label ->
    stepdown_name banks grid fs (dotted tile (dotted label tag))
| sd_clock : forall bank tag ts tile,
    wants_stepdown banks fs bank tag ->
    reg_tiles banks bank = Some ts -> In tile ts -> contains (tx "HCLK_IOI3") tile ->
    stepdown_name banks grid fs (dotted tile (tx "STEPDOWN")).

(** The three default features of the PUDC_B pin. *)
Definition pudcb_names (tile label : text) : list text :=
  map (fun s => dotted tile (dotted label s))
    [tx "LVCMOS12_LVCMOS15_LVCMOS18_LVCMOS25_LVCMOS33_LVDS_25_LVTTL_SSTL135_SSTL15_TMDS_33.IN_ONLY";
     tx "LVCMOS25_LVCMOS33_LVTTL.IN";
     tx "PULLTYPE.PULLUP"].
Definition pudcb_pin (grid : tilegrid) (tile site : text) : Prop :=
  exists t fn, In (tile, t) grid /\ In (site, fn) (t_pin_functions t) /\ contains (tx "PUDC_B") fn.

(** A feature that is on, with nothing else said. *)
Definition plain_feature (name : text) : fasm_feature :=
  {| ff_name := name; ff_start := 0; ff_width := 1; ff_bits := 1 |}.

(** Every bit the feature sets lies inside a frame of 101 words. *)
Definition fits (tls : tiles) (f : fasm_feature) : Prop :=
  forall a w i, requested tls f a w i -> w < 101.

(** The descriptions the STEPDOWN pass relies on: a tile that asks for STEPDOWN has a
    bank, the bank has tiles, its IOB33 tiles are in the grid and their sites are
    numbered. *)
Definition stepdown_ready (banks : banks_registry) (grid : tilegrid) (fs : list fasm_feature) : Prop :=
  (forall f tile site tag, In f fs -> uses f tile site tag -> contains (tx "STEPDOWN") tag ->
     reg_tile_banks banks tile <> []) /\
  (forall bank tag, wants_stepdown banks fs bank tag ->
     exists ts, reg_tiles banks bank = Some ts /\
       forall tile, In tile ts -> contains (tx "IOB33") tile ->
         exists t, maps_to grid tile t /\ forall s fn, In (s, fn) (t_sites t) -> site_name_ok s).

(** ** Texts *)

(** The sites the implied features are about are numbered. *)
Definition numbered_grid (grid : tilegrid) : Prop :=
  (forall tile t s fn, maps_to grid tile t -> contains (tx "IOB33") tile -> In (s, fn) (t_sites t) ->
     site_name_ok s) /\
  (forall tile site, pudcb_pin grid tile site -> site_name_ok site).

(** The features of the PUDC_B pin: of the first such pin in the grid, if any. *)
Definition pudcb_default (grid : tilegrid) (l : list fasm_feature) : Prop :=
  (l = [] /\ forall tile site, ~ pudcb_pin grid tile site)
  \/ exists tile site label, pudcb_pin grid tile site /\ site_label site label
       /\ l = map plain_feature (pudcb_names tile label).

(** ** Banks *)

(** The package says that the tile is in the bank. *)
Definition in_bank (iobanks : list (N * text)) (pins : list package_pin) (bank : N) (tile : text) : Prop :=
  (exists suffix, In (bank, suffix) iobanks /\ tile = tx "HCLK_IOI3_" ++ suffix)
  \/ exists p, In p pins /\ pp_bank p = bank /\ pp_tile p = tile.

(** The same as a list of pairs, in the order of the descriptions. *)
Definition bank_pairs (iobanks : list (N * text)) (pins : list package_pin) : list (N * text) :=
  map (fun kv => (fst kv, tx "HCLK_IOI3_" ++ snd kv)) iobanks
  ++ map (fun p => (pp_bank p, pp_tile p)) pins.

(** ** What a FASM file switches on *)

(** Bit [k] of the named feature is 1. *)
Definition bit_feature (name : text) (k : N) : fasm_feature :=
  {| ff_name := name; ff_start := k; ff_width := 1; ff_bits := 1 |}.

(** The bits of a feature line whose value is 1. *)
Definition feature_ones (f : feature) : list fasm_feature :=
  map (fun j => bit_feature (f_name f) (range_lo f + N.of_nat j))
    (filter (fun j => N.testbit (feature_value f) (N.of_nat j)) (seq 0 (N.to_nat (feature_width f)))).
Definition file_ones (l : list item) : list fasm_feature :=
  flat_map (fun i => match i_feature i with None => [] | Some f => feature_ones f end) l.

(** ** Arbitrary texts *)

(** The parser's calls for a line that is accepted; a line that is rejected. *)
Definition line_parsed (sm : shift_model) (line : text) (evs : list event) : Prop :=
  exists r, fasm_parse sm (fun _ => true) true line = Ok {| p_events := evs; p_result := r |}
            /\ r < kUserAbort.
Definition line_failed (sm : shift_model) (line : text) : Prop :=
  exists st, fasm_parse sm (fun _ => true) true line = Ok st /\ kUserAbort <= p_result st.
Definition line_features (evs : list event) : list fasm_feature := flat_map feature_of_event evs.

(** The features of a text. *)
Definition text_features (sm : shift_model) (input : text) (fs : list fasm_feature) : Prop :=
  exists evss, Forall2 (line_parsed sm) (getlines input) evss /\ fs = flat_map line_features evss.

Definition short_lines (input : text) : Prop :=
  forall line, In line (getlines input) -> N.of_nat (List.length line) < 2 ^ 24 - 1.

(** The given features and the STEPDOWN features they imply. *)
Definition all_features (tls : tiles) (fs : list fasm_feature) (f : fasm_feature) : Prop :=
  In f fs \/ exists name, stepdown_name (tl_banks tls) (tl_grid tls) fs name /\ f = plain_feature name.

(** The database of every tile type can be read (or is missing). *)
Definition readable (tls : tiles) : Prop := forall ty, exists md, tl_bits tls ty = Ok md.

(** The database knows bit [k] of the feature. *)
Definition recognised (tls : tiles) (f : fasm_feature) (k : N) : Prop :=
  exists tile rest, first_dot (ff_name f) tile rest /\
    (pseudo_pip tls tile rest \/ exists bus b l, entry tls tile rest k bus b l).
