(** What the JSON files of the database (tilegrid.json, part.json) say, stated as
    relations between a JSON value and the data read from it, independently of the
    readers.  Only the data types are shared with the model. *)
From Verif Require Import Base Part DbText DbJson AsmSpec DbSpec.

(** ** Members *)
(** The value an object gives to a name: the first, should the name be repeated. *)
Definition member (j : json) (name : text) (v : json) : Prop := exists l, j = JObj l /\ maps_to l name v.
Definition no_member (j : json) (name : text) : Prop := exists l, j = JObj l /\ ~ has_key l name.
Definition field {A} (name : text) (R : json -> A -> Prop) (j : json) (x : A) : Prop :=
  exists v, member j name v /\ R v x.
Inductive opt_field {A} (name : text) (R : json -> A -> Prop) (j : json) : option A -> Prop :=
| opt_there : forall x, field name R j x -> opt_field name R j (Some x)
| opt_missing : no_member j name -> opt_field name R j None.

(** A text as a C string: what precedes its first NUL. *)
Definition nul : ascii := "000"%char.
Definition c_string (s t : text) : Prop := ~ In nul t /\ (s = t \/ exists r, s = t ++ nul :: r).

(** ** Plain values *)
Definition json_string (j : json) (s : text) : Prop := j = JStr s.
Definition json_u32 (j : json) (n : N) : Prop := j = JInt (Z.of_N n) /\ n < 2 ^ 32.
Definition json_i32 (j : json) (z : Z) : Prop := j = JInt z /\ (- 2 ^ 31 <= z < 2 ^ 31)%Z.
Definition json_strings (j : json) (ss : list text) : Prop :=
  exists l, j = JArr l /\ Forall2 (fun v s => exists s', v = JStr s' /\ c_string s' s) l ss.

(** ** Objects used as maps *)
(** [m] holds the entries [es], the first one of each key. *)
Definition collects {K A} (es m : list (K * A)) : Prop :=
  NoDup (map fst m) /\ forall k v, maps_to m k v <-> maps_to es k v.
Definition json_map {K A} (key : text -> K -> Prop) (value : json -> A -> Prop) (j : json) (m : list (K * A)) : Prop :=
  exists l es, j = JObj l /\ Forall2 (fun kv e => key (fst kv) (fst e) /\ value (snd kv) (snd e)) l es /\ collects es m.

(** ** Objects used as arrays: the keys are 0, 1, 2, ... in this order. *)
Definition int_key (k : text) (z : Z) : Prop :=
  exists k', c_string k k' /\ signed_field k' z /\ (- 2 ^ 31 <= z < 2 ^ 31)%Z.
Inductive numbered {A} (value : json -> A -> Prop) : Z -> list (text * json) -> list A -> Prop :=
| numbered_done : forall n, numbered value n [] []
| numbered_next : forall n k v l x xs, int_key k n -> value v x -> numbered value (n + 1) l xs ->
    numbered value n ((k, v) :: l) (x :: xs).
Definition json_array {A} (value : json -> A -> Prop) (j : json) (xs : list A) : Prop :=
  exists l, j = JObj l /\ numbered value 0 l xs.

(** ** part.json *)
Inductive bus_name : text -> bus_type -> Prop :=
| name_bram : bus_name (tx "BLOCK_RAM") BusBlockRam
| name_clb : bus_name (tx "CLB_IO_CLK") BusCLBIOCLK
| name_cfg : bus_name (tx "CFG_CLB") BusCFGCLB.
Definition bus_key (k : text) (t : bus_type) : Prop := exists k', c_string k k' /\ bus_name k' t.

Definition json_columns : json -> list N -> Prop := json_array (field (tx "frame_count") json_u32).
Definition json_row : json -> clock_region_row -> Prop := json_map bus_key (field (tx "configuration_columns") json_columns).
Definition json_half : json -> clock_region_half -> Prop := json_array (field (tx "configuration_buses") json_row).
Definition json_regions (j : json) (bt : clock_region_half * clock_region_half) : Prop :=
  field (tx "bottom") (field (tx "rows") json_half) j (fst bt) /\
  field (tx "top") (field (tx "rows") json_half) j (snd bt).

(** The I/O banks: bank number, location of its HCLK tile. *)
Definition bank_key (k : text) (b : N) : Prop := exists k', c_string k k' /\ unsigned_field k' b /\ b < 2 ^ 32.
Definition json_banks : json -> list (N * text) -> Prop :=
  json_map bank_key (fun v s => exists s', v = JStr s' /\ c_string s' s).

Inductive json_part (j : json) (p : db_part) : Prop :=
| part_read : forall banks,
    field (tx "idcode") json_u32 j (dp_idcode p) ->
    opt_field (tx "iobanks") json_banks j banks ->
    dp_iobanks p = match banks with Some b => b | None => [] end ->
    field (tx "global_clock_regions") json_regions j (dp_bottom_rows p, dp_top_rows p) ->
    json_part j p.

(** The document lists frame [m] of column [c] of bus [t] in row [r] of a half, the
    rows and columns counted by their position. *)
Definition lists_frame (j : json) (t : bus_type) (bottom : bool) (r c m : N) : Prop :=
  exists regions half rows rk row buses b1 bk bus b2 cols ck col count,
    member j (tx "global_clock_regions") regions /\
    member regions (if bottom then tx "bottom" else tx "top") half /\
    member half (tx "rows") (JObj rows) /\ nth_error rows (N.to_nat r) = Some (rk, row) /\
    member row (tx "configuration_buses") (JObj buses) /\
    buses = b1 ++ (bk, bus) :: b2 /\ bus_key bk t /\ (forall k v, In (k, v) b1 -> ~ bus_key k t) /\
    member bus (tx "configuration_columns") (JObj cols) /\ nth_error cols (N.to_nat c) = Some (ck, col) /\
    member col (tx "frame_count") (JInt (Z.of_N count)) /\ m < count.

(** ** C integer literals *)
Definition digit_code (base : N) (c : ascii) (d : N) : Prop :=
  d < base /\
  (d < 10 /\ N_of_ascii c = 48 + d \/
   10 <= d /\ (N_of_ascii c = 97 + (d - 10) \/ N_of_ascii c = 65 + (d - 10))).
Definition numeral (base : N) (s : text) (v : N) : Prop :=
  exists ds, Forall2 (digit_code base) s ds /\ v = fold_left (fun a d => a * base + d) ds 0.
(** [r] does not continue a numeral. *)
Definition stops (base : N) (r : text) : Prop :=
  forall c r' d, r = c :: r' -> ~ digit_code base c d.

(** The number at the start of a text, 0 if there is none. *)
Inductive c_number : text -> N -> Prop :=
| c_hex : forall x ds r v, (x = "x" \/ x = "X")%char -> ds <> [] -> numeral 16 ds v -> stops 16 r ->
    c_number ("0"%char :: x :: ds ++ r) v
| c_oct : forall ds r v, numeral 8 ds v -> stops 8 r ->
    (forall x h r' d, ds = [] -> r = x :: h :: r' -> (x = "x" \/ x = "X")%char -> ~ digit_code 16 h d) ->
    c_number ("0"%char :: ds ++ r) v
| c_dec : forall c ds r v, c <> "0"%char -> numeral 10 (c :: ds) v -> stops 10 r -> c_number (c :: ds ++ r) v
| c_none : forall s, stops 10 s -> c_number s 0.

(** A base address: blanks, a sign, a number; what follows is not looked at. *)
Inductive address_text : text -> N -> Prop :=
| addr_plain : forall a s v, spaces a -> (forall c r, s = c :: r -> ~ space c /\ c <> "+"%char /\ c <> "-"%char) ->
    c_number s v -> v < 2 ^ 63 -> address_text (a ++ s) v
| addr_plus : forall a s v, spaces a -> c_number s v -> v < 2 ^ 63 -> address_text (a ++ "+"%char :: s) v
| addr_minus : forall a s v, spaces a -> c_number s v -> v <= 2 ^ 63 ->
    address_text (a ++ "-"%char :: s) ((2 ^ 64 - v) mod 2 ^ 64).
Definition json_address (j : json) (v : N) : Prop := exists s, j = JStr s /\ address_text s v.

(** ** tilegrid.json *)
Definition same_key (k k' : text) : Prop := k' = k.
Definition json_string_map : json -> list (text * text) -> Prop := json_map same_key json_string.
Definition json_alias (j : json) (al : bits_alias) : Prop :=
  field (tx "sites") json_string_map j (al_sites al) /\
  field (tx "start_offset") json_u32 j (al_start_offset al) /\
  field (tx "type") json_string j (al_type al).
Definition json_block (j : json) (b : bits_block) : Prop :=
  opt_field (tx "alias") json_alias j (bb_alias b) /\
  field (tx "baseaddr") json_address j (bb_base b) /\
  field (tx "frames") json_u32 j (bb_frames b) /\
  field (tx "offset") json_i32 j (bb_offset b) /\
  field (tx "words") json_u32 j (bb_words b).
Definition json_bits : json -> list (bus_type * bits_block) -> Prop := json_map bus_key json_block.
Definition json_tile (j : json) (t : tile) : Prop :=
  field (tx "type") json_string j (t_type t) /\
  field (tx "grid_x") json_u32 j (t_x t) /\
  field (tx "grid_y") json_u32 j (t_y t) /\
  opt_field (tx "clock_region") json_string j (t_clock_region t) /\
  field (tx "bits") json_bits j (t_bits t) /\
  field (tx "pin_functions") json_string_map j (t_pin_functions t) /\
  field (tx "sites") json_string_map j (t_sites t) /\
  field (tx "prohibited_sites") json_strings j (t_prohibited t).
Definition json_grid : json -> tilegrid -> Prop := json_map c_string json_tile.

(** ** Where the readers abort instead of reporting an error *)
(** The members of an object are read in order: [l1] without complaint, then one on which [bad] holds. *)
Definition is_object (j : json) : Prop := exists l, j = JObj l.

(** tilegrid.json: the "bits" of a tile is not an object (and nothing before it is wrong). *)
Definition tile_aborts (j : json) : Prop :=
  (exists ty x y cr, field (tx "type") json_string j ty /\ field (tx "grid_x") json_u32 j x /\
     field (tx "grid_y") json_u32 j y /\ opt_field (tx "clock_region") json_string j cr) /\
  exists b, member j (tx "bits") b /\ ~ is_object b.
Definition grid_aborts (j : json) : Prop :=
  exists l1 k v l2 g, j = JObj (l1 ++ (k, v) :: l2) /\ json_grid (JObj l1) g /\ tile_aborts v.

(** part.json: an array key that is a number but not the next one. *)
Inductive array_aborts {A} (value : json -> A -> Prop) (inner : json -> Prop) : Z -> list (text * json) -> Prop :=
| aborts_key : forall n k v l z, int_key k z -> z <> n -> array_aborts value inner n ((k, v) :: l)
| aborts_inner : forall n k v l, int_key k n -> inner v -> array_aborts value inner n ((k, v) :: l)
| aborts_later : forall n k v l x, int_key k n -> value v x -> array_aborts value inner (n + 1) l ->
    array_aborts value inner n ((k, v) :: l).
Definition columns_abort (j : json) : Prop :=
  exists l, j = JObj l /\ array_aborts (field (tx "frame_count") json_u32) (fun _ => False) 0 l.
Definition row_aborts (j : json) : Prop :=
  exists l1 k v l2 row t cols, j = JObj (l1 ++ (k, v) :: l2) /\ json_row (JObj l1) row /\ bus_key k t /\
    member v (tx "configuration_columns") cols /\ columns_abort cols.
Definition half_aborts (j : json) : Prop :=
  exists l, j = JObj l /\ array_aborts (field (tx "configuration_buses") json_row)
    (fun v => exists b, member v (tx "configuration_buses") b /\ row_aborts b) 0 l.
Definition banks_abort (j : json) : Prop :=
  ~ is_object j \/
  exists l1 k v l2 banks b, j = JObj (l1 ++ (k, v) :: l2) /\ json_banks (JObj l1) banks /\
    bank_key k b /\ forall s, v <> JStr s.
Definition regions_abort (j : json) : Prop :=
  (exists b rows, member j (tx "bottom") b /\ member b (tx "rows") rows /\ half_aborts rows) \/
  (exists h t rows, field (tx "bottom") (field (tx "rows") json_half) j h /\
     member j (tx "top") t /\ member t (tx "rows") rows /\ half_aborts rows).
Definition part_aborts (j : json) : Prop :=
  exists id, field (tx "idcode") json_u32 j id /\
    ((exists b, member j (tx "iobanks") b /\ banks_abort b) \/
     (exists o r, opt_field (tx "iobanks") json_banks j o /\
        member j (tx "global_clock_regions") r /\ regions_abort r)).
