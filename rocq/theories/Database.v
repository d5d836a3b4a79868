(** Model of fpga/database.h, fpga/database.cc and fpga/memory-mapped-file.cc. *)
From Verif Require Import Base Absl Part Frame DbText DbJson.

Local Notation "x <- e ;; f" := (obind e (fun x => f))
  (at level 61, e at next level, right associativity).
Local Notation "' p <- e ;; f" := (obind e (fun p => f))
  (at level 61, p pattern, e at next level, right associativity).

(** ** BanksTilesRegistry *)

(** database.h:20-48: the two maps.  The vectors of [br_tiles] are in the iteration
    order of the sets they come from. *)
Record banks_registry := {
  br_banks : list (text * list N);
  br_tiles : list (N * list text)
}.

(** database.cc:37-42 and 46-50: [banks_to_tiles_set[bank].insert(tile)], then
    [tile_to_banks] gets the bank appended. *)
Definition reg_add (st : list (text * list N) * list (N * list text)) (bank : N) (t : text)
  : list (text * list N) * list (N * list text) :=
  let '(t2b, b2t) := st in
  let set := match hm_find N.eqb bank b2t with Some s => s | None => [] end in
  let b2t := hm_set N.eqb bank (hs_insert text_eqb t set) b2t in
  let t2b := hm_insert text_eqb t [] t2b in
  let bs := match hm_find text_eqb t t2b with Some bs => bs | None => [] end in
  (hm_set text_eqb t (bs ++ [bank]) t2b, b2t).

(** database.cc:31-60 Create; [ord] is the iteration order of the set of a bank.
    The order of [banks_to_tiles_set] itself only matters for the order of the new
    map, which nobody iterates. *)
Definition reg_create (ord : N -> list text -> list text)
    (iobanks : list (N * text)) (pins : list package_pin) : banks_registry :=
  let st := fold_left (fun st (kv : N * text) =>
              reg_add st (fst kv) (tx "HCLK_IOI3_" ++ snd kv)) iobanks ([], []) in
  let st := fold_left (fun st p => reg_add st (pp_bank p) (pp_tile p)) pins st in
  {| br_banks := fst st;
     br_tiles := map (fun kv : N * list text => (fst kv, ord (fst kv) (snd kv))) (snd st) |}.

(** database.cc:62-68 *)
Definition reg_tiles (r : banks_registry) (bank : N) : option (list text) :=
  hm_find N.eqb bank (br_tiles r).
(** database.cc:70-76 *)
Definition reg_tile_banks (r : banks_registry) (t : text) : list N :=
  match hm_find text_eqb t (br_banks r) with Some l => l | None => [] end.

(** ** PartDatabase *)

(** database.h:62-65 SegmentsBitsWithPseudoPIPs *)
Record tile_db := { td_pips : ppips; td_bits : list (bus_type * segbits) }.

(** database.h:75-86 Tiles.  [tl_bits] is the std::function getter: it may find
    nothing, and it may be undefined behaviour (the line splitter over a mapped
    file, see [map_file] below). *)
Record tiles := {
  tl_grid : tilegrid;
  tl_bits : text -> outcome (option tile_db);
  tl_banks : banks_registry;
  tl_part : db_part
}.

(** database.h:109-110 segment_bits_cache_ *)
Definition db_cache := list (text * tile_db).

(** database.cc:78-90 AddSegbitsToCache (the returned flag is not used by the only
    caller). *)
Definition add_to_cache (get : text -> outcome (option tile_db)) (tile_type : text)
    (cache : db_cache) : outcome db_cache :=
  if hm_contains text_eqb tile_type cache then Ok cache
  else
    m <- get tile_type ;;
    match m with
    | None => Ok cache
    | Some d => Ok (hm_insert text_eqb tile_type d cache)
    end.

(** Conversion to int32_t (database.cc:392). *)
Definition i32 (z : Z) : Z := ((z + 2 ^ 31) mod 2 ^ 32 - 2 ^ 31)%Z.
(** Conversion of an int32_t or int64_t to uint32_t (database.cc:429,430). *)
Definition u32_of_z (z : Z) : N := Z.to_N (z mod 2 ^ 32).

(** database.cc:379-387: the feature seen through an alias. *)
Definition alias_feature (al : bits_alias) (feature old : text) : text :=
  match split_max 1 "." feature with
  | p0 :: site :: rest =>
      let site := match hm_find text_eqb site (al_sites al) with
                  | Some s => s
                  | None => site
                  end in
      join (tx ".") (p0 :: site :: rest)
  | _ => old
  end.

(** database.cc:372-399: the loop over tile.bits; the state is tile_type,
    aliased_feature and aliased_bits_map. *)
Definition alias_step (feature : text) (st : text * text * list (bus_type * bits_block))
    (pair : bus_type * bits_block) : text * text * list (bus_type * bits_block) :=
  let '(tile_type, aliased, m) := st in
  let '(bus, b) := pair in
  match bb_alias b with
  | Some al =>
      (al_type al, alias_feature al feature aliased,
       hm_insert bus_eqb bus
         {| bb_alias := None; bb_base := bb_base b; bb_frames := bb_frames b;
            bb_offset := i32 (bb_offset b - Z.of_N (al_start_offset al));
            bb_words := bb_words b |} m)
  | None => (tile_type, aliased, hm_insert bus_eqb bus b m)
  end.
(** database.cc:366-399: the loop over the blocks of the tile. *)
Definition resolve_alias (t : tile) (feature : text)
  : text * text * list (bus_type * bits_block) :=
  fold_left (alias_step feature) (t_bits t) (t_type t, feature, []).

Section ConfigBits.
  Context {S : Type}.
  (** database.h:97-98 BitSetter: bus, address, word, index, value. *)
  Context (setter : S -> bus_type -> N -> N -> N -> bool -> outcome S).

  (** database.cc:443-451: the segment bits of one bus. *)
  Definition set_segbits (bus : bus_type) (base offset : N) (s : S) (l : list segment_bit)
    : outcome S :=
    ofold (fun s sb =>
             let address := u32 (base + sb_column sb) in
             let bit_pos := u32 (u32 (offset * 32) + sb_bit sb) in
             setter s bus address (bit_pos / 32) (bit_pos mod 32) (sb_set sb)) l s.

  (** database.cc:427-442: one bus; the state carries [matched]. *)
  Definition set_bus (d : tile_db) (key : tile_feature) (single : bool)
      (st : bool * S) (pair : bus_type * bits_block) : outcome (bool * S) :=
    let '(matched, s) := st in
    let '(bus, b) := pair in
    let base := u32 (bb_base b) in
    let offset := u32_of_z (bb_offset b) in
    match hm_find bus_eqb bus (td_bits d) with
    | None => Ok st
    | Some segs =>
        match hm_find tf_eqb key segs with
        | Some l => s <- set_segbits bus base offset s l ;; Ok (true, s)
        | None => if single then Crash else Ok st
        end
    end.

  (** database.cc:360-454 ConfigBits.  [ord] is the iteration order of
      aliased_bits_map. *)
  Definition config_bits (ord : list (bus_type * bits_block) -> list (bus_type * bits_block))
      (tls : tiles) (cache : db_cache) (tile_name feature : text) (address : N) (s : S)
    : outcome (db_cache * S) :=
    match hm_find text_eqb tile_name (tl_grid tls) with
    | None => Crash
    | Some t =>
        let '(tile_type, aliased, m) := resolve_alias t feature in
        cache <- add_to_cache (tl_bits tls) tile_type cache ;;
        match hm_find text_eqb tile_type cache with
        | None => Crash
        | Some d =>
            if hm_contains text_eqb (join (tx ".") [tile_name; aliased]) (td_pips d)
            then Ok (cache, s)
            else
              let name := join (tx ".") [tile_type; aliased] in
              if hm_contains text_eqb name (td_pips d) then Ok (cache, s)
              else
                '(matched, s) <- ofold (set_bus d (name, address) (List.length m <=? 1)%nat)
                                   (ord m) (false, s) ;;
                if (matched : bool) then Ok (cache, s) else Crash
        end
    end.
End ConfigBits.

(** ** Files *)

(** What the program sees of the file system: the content of the files that can be
    opened (regular files), which paths exist, the regular files below a directory in
    the order the recursive iterator gives them ([None]: the iterator cannot be
    created), and rapidjson's parser. *)
Record environment := {
  e_read : text -> option text;
  e_exists : text -> bool;
  e_walk : text -> option (list text);
  e_json : text -> option json
}.

(** memory-mapped-file.cc:31-47 MemoryMapFile.  The pages of the mapping are filled
    with zeros after the end of the file; nothing is known of what follows the last
    page.  An empty file gives an empty view. *)
Definition kPageSize : nat := 4096.
(** memory-mapped-file.cc:45: what follows the bytes of the file. *)
Definition after_mapping (content : text) : option ascii :=
  if (List.length content mod kPageSize =? 0)%nat then None else Some "000"%char.
(** memory-mapped-file.cc:31-47 MemoryMapFile *)
Definition map_file (e : environment) (path : text) : outcome text :=
  match e_read e path with Some c => Ok c | None => Err end.

(** std::filesystem::path operator/ (database.cc:95,100,124,177-196) *)
Definition path_join (a b : text) : text :=
  match b with
  | "/"%char :: _ => b
  | _ => match a with
         | [] => b
         | _ => if ends_with (tx "/") a then a ++ b else a ++ tx "/" ++ b
         end
  end.
(** path.filename(), path.parent_path() (database.cc:161,162,235): around the last '/' (the recursive iterator
    gives paths of the form directory/name). *)
Definition path_filename (p : text) : text :=
  match rfind_char "/" p with Some n => skipn (n + 1) p | None => p end.
(** database.cc:162 path.parent_path() *)
Definition path_parent (p : text) : text :=
  match rfind_char "/" p with
  | Some O => tx "/"
  | Some n => firstn n p
  | None => []
  end.

(** std::tolower in the C locale (database.cc:172) *)
Definition to_lower (c : ascii) : ascii :=
  if (65 <=? ccode c) && (ccode c <=? 90) then ascii_of_N (ccode c + 32) else c.

(** database.cc:133-148 TileTypeDatabasePaths (the mask and the json paths are never
    read) *)
Record tile_paths := {
  tp_segbits : option text; tp_block_ram : option text; tp_ppips : option text
}.

(** database.cc:178-199: the path, if std::filesystem::exists. *)
Definition if_exists (e : environment) (p : text) : option text :=
  if e_exists e p then Some p else None.

(** database.cc:158-202 GetDatabasePaths *)
Definition tile_type_of_filename (filename : text) : text :=
  firstn (List.length filename - 10 - 5) (skipn 10 filename).
(** database.cc:158-202 GetDatabasePaths *)
Definition get_database_paths (e : environment) (path : text)
    (out : list (text * tile_paths)) : list (text * tile_paths) :=
  let base := path_parent path in
  let tile_type := tile_type_of_filename (path_filename path) in
  let lower := map to_lower tile_type in
  hm_insert text_eqb tile_type
    {| tp_segbits := if_exists e (path_join base (tx "segbits_" ++ lower ++ tx ".db"));
       tp_block_ram := if_exists e (path_join base (tx "segbits_" ++ lower ++ tx ".block_ram.db"));
       tp_ppips := if_exists e (path_join base (tx "ppips_" ++ lower ++ tx ".db")) |} out.

(** database.cc:204-246 IndexTileTypes.  Errors of the iterator on single entries are
    not modelled (such entries are not in [e_walk]). *)
Definition index_tile_types (e : environment) (root : text) : outcome (list (text * tile_paths)) :=
  match e_walk e root with
  | None => Err
  | Some l =>
      Ok (fold_left (fun out path =>
            let filename := path_filename path in
            if starts_with (tx "tile_type_") filename && ends_with (tx ".json") filename
            then get_database_paths e path out else out) l [])
  end.

(** One optional file of database.cc:252-278. *)
Definition parse_opt {A} (e : environment) (parse : option ascii -> text -> outcome A)
    (path : option text) : outcome (option A) :=
  match path with
  | None => Ok None
  | Some p => c <- map_file e p ;; x <- parse (after_mapping c) c ;; Ok (Some x)
  end.

(** database.cc:248-280 ParseTileTypeDatabase *)
Definition parse_tile_type_database (e : environment) (p : tile_paths) : outcome tile_db :=
  pips <- parse_opt e parse_ppips (tp_ppips p) ;;
  clb <- parse_opt e parse_segbits (tp_segbits p) ;;
  bram <- parse_opt e parse_segbits (tp_block_ram p) ;;
  Ok {| td_pips := match pips with Some x => x | None => [] end;
        td_bits := match clb with Some x => [(BusCLBIOCLK, x)] | None => [] end
                   ++ match bram with Some x => [(BusBlockRam, x)] | None => [] end |}.

(** database.cc:321-334: the getter; errors are dropped. *)
Definition tiles_database (e : environment) (paths : list (text * tile_paths)) (tile_type : text)
  : outcome (option tile_db) :=
  match hm_find text_eqb tile_type paths with
  | None => Ok None
  | Some p => match parse_tile_type_database e p with
              | Ok d => Ok (Some d)
              | Err => Ok None
              | Crash => Crash
              | UB => UB
              | NoFuel => NoFuel
              end
  end.

(** database.cc:92-118 ParsePartInfo *)
Definition parse_part_info (e : environment) (root part : text) : outcome part_info :=
  parts <- map_file e (path_join (path_join root (tx "mapping")) (tx "parts.yaml")) ;;
  devices <- map_file e (path_join (path_join root (tx "mapping")) (tx "devices.yaml")) ;;
  infos <- parse_parts_infos parts devices ;;
  match hm_find text_eqb part infos with
  | None => Err
  | Some i => Ok i
  end.

(** The iteration orders of the hash containers of the loaded database: the set of tiles of a bank, the
    tile grid, and for each tile its bits, pin functions and sites; the I/O banks; the buses of each row of
    the two halves (true: bottom) of the part.  absl's containers are seeded per process, and an unmodified
    container always gives the same order. *)
(** The range-for loops over these containers: database.cc:36,54-58,372, assembler.cc:42-46,69-75, arch-xc7-part.cc:29. *)
Record load_orders := {
  lo_tiles : N -> list text -> list text;
  lo_grid : tilegrid -> tilegrid;
  lo_bits : text -> list (bus_type * bits_block) -> list (bus_type * bits_block);
  lo_pins : text -> list (text * text) -> list (text * text);
  lo_sites : text -> list (text * text) -> list (text * text);
  lo_banks : list (N * text) -> list (N * text);
  lo_row : bool -> nat -> clock_region_row -> clock_region_row
}.
(** A tile, the grid, and the part (database-parsers.h:53-70,118-137), their containers in iteration order. *)
Definition order_tile (lo : load_orders) (name : text) (t : tile) : tile :=
  {| t_type := t_type t; t_x := t_x t; t_y := t_y t; t_clock_region := t_clock_region t;
     t_bits := lo_bits lo name (t_bits t);
     t_pin_functions := lo_pins lo name (t_pin_functions t);
     t_sites := lo_sites lo name (t_sites t); t_prohibited := t_prohibited t |}.
(** TileGrid, database-parsers.h:70 *)
Definition order_grid (lo : load_orders) (g : tilegrid) : tilegrid :=
  lo_grid lo (map (fun kv : text * tile => (fst kv, order_tile lo (fst kv) (snd kv))) g).
(** GlobalClockRegionHalf, database-parsers.h:123-126 *)
Fixpoint order_rows (ord : nat -> clock_region_row -> clock_region_row) (i : nat) (h : clock_region_half)
  : clock_region_half :=
  match h with
  | [] => []
  | r :: h' => ord i r :: order_rows ord (S i) h'
  end.
(** struct Part, database-parsers.h:133-137 *)
Definition order_part (lo : load_orders) (p : db_part) : db_part :=
  {| dp_idcode := dp_idcode p;
     dp_bottom_rows := order_rows (lo_row lo true) 0 (dp_bottom_rows p);
     dp_top_rows := order_rows (lo_row lo false) 0 (dp_top_rows p);
     dp_iobanks := lo_banks lo (dp_iobanks p) |}.

(** database.cc:282-295 CreateBanksRegistry *)
Definition create_banks_registry (e : environment) (ord : N -> list text -> list text)
    (p : db_part) (path : text) : outcome banks_registry :=
  c <- map_file e path ;;
  pins <- parse_pins (after_mapping c) c ;;
  Ok (reg_create ord (dp_iobanks p) pins).

(** database.cc:297-357 PartDatabase::Parse (ParseTileGrid 120-130); the parsed containers are put in
    their iteration orders. *)
Definition parse_database (e : environment) (ord : load_orders)
    (root part : text) : outcome tiles :=
  info <- parse_part_info e root part ;;
  gtext <- map_file e (path_join (path_join root (pi_fabric info)) (tx "tilegrid.json")) ;;
  grid <- parse_tilegrid (e_json e gtext) ;;
  paths <- index_tile_types e root ;;
  ptext <- map_file e (path_join (path_join root part) (tx "part.json")) ;;
  p <- parse_part_json (e_json e ptext) ;;
  let p := order_part ord p in
  banks <- create_banks_registry e (lo_tiles ord) p (path_join (path_join root part) (tx "package_pins.csv")) ;;
  Ok {| tl_grid := order_grid ord grid; tl_bits := tiles_database e paths; tl_banks := banks; tl_part := p |}.
