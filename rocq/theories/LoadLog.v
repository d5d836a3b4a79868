(** Model of the messages of a failed database load: the readers of DbText.v, DbJson.v and Database.v with the text
    of the absl::Status they return (fpga/database-parsers.cc, fpga/database.cc, fpga/memory-mapped-file.cc).
    [P_LoadLog] shows that leaving out the texts gives back those readers.  Three texts come from libraries and are
    parameters: rapidjson::Writer's rendering of a value, rapidjson's description of a parse error, strerror. *)
From Verif Require Import Base Absl Part DbText DbJson Database FasmLog.

(** absl::StatusOr<A> with the message of the status (database-parsers.cc:40-60); the other ways to end are those of
    [outcome]. *)
Inductive said (A : Type) : Type :=
| Fine (a : A)
| Says (m : text)
| Aborts
| Undefined
| Unfinished.
Arguments Fine {A} a.
Arguments Says {A} m.
Arguments Aborts {A}.
Arguments Undefined {A}.
Arguments Unfinished {A}.

(** ASSIGN_OR_RETURN, OK_OR_RETURN (database-parsers.cc:44-60): the status is passed on. *)
Definition sbind {A B} (o : said A) (f : A -> said B) : said B :=
  match o with
  | Fine a => f a
  | Says m => Says m
  | Aborts => Aborts
  | Undefined => Undefined
  | Unfinished => Unfinished
  end.
Local Notation "x <- e ;; f" := (sbind e (fun x => f))
  (at level 61, e at next level, right associativity).
Local Notation "' p <- e ;; f" := (sbind e (fun p => f))
  (at level 61, p pattern, e at next level, right associativity).

(** A loop that stops at the first status that is not OK (database-parsers.cc:142-147 and the other loops). *)
Fixpoint sfold {A S} (body : S -> A -> said S) (l : list A) (s : S) : said S :=
  match l with
  | [] => Fine s
  | a :: l' => sbind (body s a) (fun s' => sfold body l' s')
  end.

(** The text dropped. *)
Definition unsaid {A} (o : said A) : outcome A :=
  match o with
  | Fine a => Ok a
  | Says _ => Err
  | Aborts => Crash
  | Undefined => UB
  | Unfinished => NoFuel
  end.
(** A step that has no message of its own: the CHECK of database-parsers.cc:280,321. *)
Definition unchecked {A} (o : outcome A) (m : text) : said A :=
  match o with
  | Ok a => Fine a
  | Err => Says m
  | Crash => Aborts
  | UB => Undefined
  | NoFuel => Unfinished
  end.

(** Texts made by libraries: ValueAsString (database-parsers.cc:91-96), GetParseError_En and the offset
    (database-parsers.cc:380-382,651-653) for a content, strerror for a path that cannot be opened
    (memory-mapped-file.cc:38-39). *)
Record library_texts := { lt_value : json -> text; lt_parse : text -> text; lt_errno : text -> text }.

(** A text between double quotes. *)
Definition quoted (s : text) : text := tx """" ++ s ++ tx """".

Section Texts.
  Context (lt : library_texts).

  (** database-parsers.cc:62-66 IsObject *)
  Definition say_members (j : json) : said (list (text * json)) :=
    match j with JObj l => Fine l | _ => Says (tx "json value not an object") end.
  (** MemberBegin without a check (database-parsers.cc:208,249) *)
  Definition say_members_unchecked (j : json) : said (list (text * json)) :=
    match j with JObj l => Fine l | _ => Aborts end.

  (** database-parsers.cc:74-84 JSONTypeString *)
  Definition type_string (j : json) : text :=
    match j with
    | JNull => tx "null"
    | JBool _ => tx "boolean"
    | JObj _ => tx "object"
    | JArr _ => tx "array"
    | JStr _ => tx "string"
    | JInt _ | JDouble => tx "number"
    end.
  (** database-parsers.cc:98-102 UnexpectedTypeError *)
  Definition unexpected_type {A} (j : json) : said A :=
    Says (tx "could not unmarshal " ++ lt_value lt j ++ tx ", unexpected type: " ++ type_string j).

  (** database-parsers.cc:104-110 Unmarshal of a basic type *)
  Definition say_basic {A} (un : json -> outcome A) (j : json) : said A :=
    match un j with Ok x => Fine x | _ => unexpected_type j end.

  (** database-parsers.cc:112-122 GetMember *)
  Definition say_member {A} (un : json -> said A) (j : json) (name : text) : said A :=
    l <- say_members j ;;
    match find_member name l with
    | None => Says (tx "json attribute " ++ quoted name ++ tx " not found in " ++ lt_value lt j)
    | Some v => un v
    end.
  (** database-parsers.cc:124-133 OptGetMember *)
  Definition say_opt_member {A} (un : json -> said A) (j : json) (name : text) : said (option A) :=
    l <- say_members j ;;
    match find_member name l with
    | None => Fine None
    | Some v => x <- un v ;; Fine (Some x)
    end.

  (** database-parsers.cc:135-148 flat_hash_map<string, string> *)
  Definition say_string_map (j : json) : said (list (text * text)) :=
    l <- say_members j ;;
    sfold (fun m (kv : text * json) =>
             v <- say_basic un_string (snd kv) ;; Fine (hm_insert text_eqb (fst kv) v m)) l [].

  (** database-parsers.cc:150-162 vector<string>; IsArray 68-72 *)
  Definition say_string_list (j : json) : said (list text) :=
    match j with
    | JArr l => sfold (fun acc v => match v with
                                    | JStr s => Fine (acc ++ [c_str s])
                                    | _ => unexpected_type v
                                    end) l []
    | _ => Says (tx "json value not an array")
    end.

  (** database-parsers.cc:164-177 ParseBaseAddress *)
  Definition say_address (s : text) : said N :=
    match base_address_of s with
    | Ok v => Fine v
    | _ => Says (tx "could not parse " ++ s ++ tx " to bits address")
    end.

  (** database-parsers.cc:179-189 BitsBlockAlias *)
  Definition say_alias (j : json) : said bits_alias :=
    sites <- say_member say_string_map j (tx "sites") ;;
    start <- say_member (say_basic un_u32) j (tx "start_offset") ;;
    type <- say_member (say_basic un_string) j (tx "type") ;;
    Fine {| al_sites := sites; al_start_offset := start; al_type := type |}.

  (** database-parsers.cc:191-203 BitsBlock *)
  Definition say_block (j : json) : said bits_block :=
    alias <- say_opt_member say_alias j (tx "alias") ;;
    base <- sbind (say_member (say_basic un_string) j (tx "baseaddr")) say_address ;;
    frames <- say_member (say_basic un_u32) j (tx "frames") ;;
    offset <- say_member (say_basic un_i32) j (tx "offset") ;;
    words <- say_member (say_basic un_u32) j (tx "words") ;;
    Fine {| bb_alias := alias; bb_base := base; bb_frames := frames; bb_offset := offset; bb_words := words |}.

  (** StringToConfigBusType.contains (database-parsers.cc:210-214,294-298) *)
  Definition say_bus (what : text) (s : text) : said bus_type :=
    match bus_of_string s with
    | Ok b => Fine b
    | _ => Says (what ++ quoted s)
    end.

  (** database-parsers.cc:205-220 Bits *)
  Definition say_bits (j : json) : said (list (bus_type * bits_block)) :=
    l <- say_members_unchecked j ;;
    sfold (fun m (kv : text * json) =>
             bus <- say_bus (tx "unknown frame block type ") (c_str (fst kv)) ;;
             b <- say_block (snd kv) ;;
             Fine (hm_insert bus_eqb bus b m)) l [].

  (** database-parsers.cc:222-243 Tile *)
  Definition say_tile (j : json) : said tile :=
    type <- say_member (say_basic un_string) j (tx "type") ;;
    x <- say_member (say_basic un_u32) j (tx "grid_x") ;;
    y <- say_member (say_basic un_u32) j (tx "grid_y") ;;
    clock <- say_opt_member (say_basic un_string) j (tx "clock_region") ;;
    bits <- say_member say_bits j (tx "bits") ;;
    fns <- say_member say_string_map j (tx "pin_functions") ;;
    sites <- say_member say_string_map j (tx "sites") ;;
    prohibited <- say_member say_string_list j (tx "prohibited_sites") ;;
    Fine {| t_type := type; t_x := x; t_y := y; t_clock_region := clock; t_bits := bits;
            t_pin_functions := fns; t_sites := sites; t_prohibited := prohibited |}.

  (** database-parsers.cc:376-399 ParseTileGridJSON; [content] is the text of the file, [doc] what rapidjson makes of it. *)
  Definition say_tilegrid (content : text) (doc : option json) : said tilegrid :=
    match doc with
    | None => Says (tx "json parsing error, " ++ lt_parse lt content)
    | Some (JObj l) =>
        sfold (fun g (kv : text * json) =>
                 let name := c_str (fst kv) in
                 match say_tile (snd kv) with
                 | Fine t => Fine (hm_insert text_eqb name t g)
                 | Says m => Says (tx "could not unmarshal tile " ++ name ++ tx ": " ++ m)
                 | Aborts => Aborts
                 | Undefined => Undefined
                 | Unfinished => Unfinished
                 end) l []
    | Some _ => Says (tx "json value not an object")
    end.

  (** A key that is not a number (database-parsers.cc:251-254,276-279,317-320): [j] is the object. *)
  Definition cannot_parse {A} (key : text) (j : json) : said A :=
    Says (tx "cannot parse " ++ quoted key ++ tx " for " ++ lt_value lt j).

  (** database-parsers.cc:245-260 flat_hash_map<uint32_t, string> *)
  Definition say_iobanks (j : json) : said (list (N * text)) :=
    l <- say_members_unchecked j ;;
    sfold (fun m (kv : text * json) =>
             match atoi_u32 (c_str (fst kv)) with
             | (_, false) => cannot_parse (c_str (fst kv)) j
             | (k, true) => match snd kv with
                            | JStr s => Fine (hm_insert N.eqb k (c_str s) m)
                            | _ => Aborts
                            end
             end) l [].

  (** database-parsers.cc:267-287 ConfigColumnsFramesCount *)
  Definition say_columns (j : json) : said (list N) :=
    l <- say_members j ;;
    '(_, v) <- sfold (fun (st : Z * list N) (kv : text * json) =>
        let '(prev, v) := st in
        match atoi_i32 (c_str (fst kv)) with
        | (_, false) => cannot_parse (c_str (fst kv)) j
        | (key, true) =>
            _ <- unchecked (check_next prev key) [] ;;
            fc <- say_member (say_basic un_u32) (snd kv) (tx "frame_count") ;;
            Fine (key, v ++ [fc])
        end) l ((-1)%Z, []) ;;
    Fine v.

  (** database-parsers.cc:289-306 ClockRegionRow *)
  Definition say_row (j : json) : said clock_region_row :=
    l <- say_members j ;;
    sfold (fun r (kv : text * json) =>
             bus <- say_bus (tx "unknown config bus type ") (c_str (fst kv)) ;;
             cols <- say_member say_columns (snd kv) (tx "configuration_columns") ;;
             Fine (hm_insert bus_eqb bus cols r)) l [].

  (** database-parsers.cc:308-328 GlobalClockRegionHalf *)
  Definition say_half (j : json) : said clock_region_half :=
    l <- say_members j ;;
    '(_, v) <- sfold (fun (st : Z * clock_region_half) (kv : text * json) =>
        let '(prev, v) := st in
        match atoi_i32 (c_str (fst kv)) with
        | (_, false) => cannot_parse (c_str (fst kv)) j
        | (key, true) =>
            _ <- unchecked (check_next prev key) [] ;;
            row <- say_member say_row (snd kv) (tx "configuration_buses") ;;
            Fine (key, v ++ [row])
        end) l ((-1)%Z, []) ;;
    Fine v.

  (** database-parsers.cc:330-352 GlobalClockRegions *)
  Definition say_regions (j : json) : said (clock_region_half * clock_region_half) :=
    match pointer2 (tx "bottom") (tx "rows") j with
    | None => Says (tx "could not find global_clock_region bottom rows")
    | Some jb =>
        bottom <- say_half jb ;;
        match pointer2 (tx "top") (tx "rows") j with
        | None => Says (tx "could not find global_clock_region top rows")
        | Some jt => top <- say_half jt ;; Fine (bottom, top)
        end
    end.

  (** database-parsers.cc:354-369 Part *)
  Definition say_part (j : json) : said db_part :=
    _ <- say_members j ;;
    idcode <- say_member (say_basic un_u32) j (tx "idcode") ;;
    iobanks <- say_opt_member say_iobanks j (tx "iobanks") ;;
    '(bottom, top) <- say_member say_regions j (tx "global_clock_regions") ;;
    Fine {| dp_idcode := idcode; dp_bottom_rows := bottom; dp_top_rows := top;
            dp_iobanks := match iobanks with Some b => b | None => [] end |}.

  (** database-parsers.cc:647-656 ParsePartJSON *)
  Definition say_part_json (content : text) (doc : option json) : said db_part :=
    match doc with
    | None => Says (tx "json parsing error, " ++ lt_parse lt content)
    | Some j => say_part j
    end.

  (** ** Text files *)
  (** database-parsers.cc:405-406 skip_to_eol *)
  Definition say_to_eol (after : option ascii) (it : text) : said (text * text) := unchecked (to_eol after it) [].
  (** database-parsers.cc:413-431 LinesGenerator *)
  Fixpoint say_lines_loop {S} (fuel : nat) (after : option ascii)
      (sink : S -> N -> text -> said S) (line_number : N) (s : S) (it : text) : said S :=
    match it with
    | [] => Fine s
    | _ =>
        match fuel with
        | O => Unfinished
        | S fuel' =>
            let line_number := u32 (line_number + 1) in
            '(line, it) <- say_to_eol after it ;;
            s <- sink s line_number line ;;
            say_lines_loop fuel' after sink line_number s (tl it)
        end
    end.

  (** database-parsers.cc:435-439 MakeInvalidLineStatus *)
  Definition invalid_line {A} (line_number : N) (message : text) : said A :=
    Says (dec_text line_number ++ tx ": " ++ message).

  (** database-parsers.cc:601-630 ParsePackagePinCSVLine *)
  Definition say_pin_line (out : list package_pin) (line_count : N) (line : text) : said (list package_pin) :=
    let segments := map strip (skip_empty (split_char "," line)) in
    if line_count =? 1
    then if texts_eqb segments pins_header then Fine out else invalid_line line_count (tx "missing header")
    else match segments with
         | [] => Fine out
         | [pin; bank; site; tile; fn] =>
             match atoi_u32 bank with
             | (_, false) => invalid_line line_count (tx "could not parse bank (second column) " ++ quoted line)
             | (b, true) => Fine (out ++ [{| pp_pin := pin; pp_bank := b; pp_site := site;
                                             pp_tile := tile; pp_function := fn |}])
             end
         | _ => invalid_line line_count (tx "invalid line " ++ quoted line)
         end.
  (** database-parsers.cc:632-645 ParsePackagePins *)
  Definition say_pins (after : option ascii) (content : text) : said (list package_pin) :=
    match content with
    | [] => Fine []
    | _ => say_lines_loop (List.length content) after say_pin_line 0 [] content
    end.

  (** database-parsers.cc:715-721,755-760: the sink is called for a key that is not empty. *)
  Definition say_flush {S} (sink : S -> text -> props -> said S) (key : text) (ps : props) (s : S) : said S :=
    match key with [] => Fine s | _ => sink s key ps end.
  (** database-parsers.cc:702-752 the loop of ParseMappingYAML *)
  Definition say_yaml_line {S} (sink : S -> text -> props -> said S)
      (st : text * props * S) (line : text) : said (text * props * S) :=
    let '(key, ps, s) := st in
    let trimmed := strip line in
    match trimmed with
    | [] => Fine st
    | c :: _ =>
        if Ascii.eqb c "#" then Fine st
        else if (List.length line =? List.length (strip_leading line))%nat
        then
          s <- say_flush sink key ps s ;;
          if ends_with (tx ":") trimmed
          then Fine (unquote (removelast trimmed), [], s)
          else Says (tx "Top-level key missing trailing colon")
        else
          match find_char ":" trimmed with
          | None => Says (tx "Nested key-value pair missing colon")
          | Some pos =>
              let k := strip (firstn pos trimmed) in
              let v := strip (skipn (pos + 1) trimmed) in
              Fine (key, hm_set text_eqb k (unquote v) ps, s)
          end
    end.
  (** database-parsers.cc:696-763 ParseMappingYAML *)
  Definition say_yaml {S} (sink : S -> text -> props -> said S) (content : text) (s : S) : said S :=
    '(key, ps, s) <- sfold (say_yaml_line sink) (split_char nl content) ([], [], s) ;;
    say_flush sink key ps s.

  (** database-parsers.cc:793-803 the sink for devices.yaml *)
  Definition say_fabric_sink (fabrics : props) (part : text) (ps : props) : said props :=
    match hm_find text_eqb (tx "fabric") ps with
    | None => Says (tx "parts yaml doesn't contain fabric")
    | Some f => Fine (hm_insert text_eqb part f fabrics)
    end.
  (** database-parsers.cc:776-785 ValueOrStatus *)
  Definition say_value (ps : props) (key : text) : said text :=
    match hm_find text_eqb key ps with
    | None => Says (tx "key " ++ quoted key ++ tx " not found")
    | Some v => Fine v
    end.
  (** database-parsers.cc:808-832 the sink for parts.yaml *)
  Definition say_part_sink (fabrics : props) (infos : list (text * part_info)) (part : text) (ps : props)
    : said (list (text * part_info)) :=
    d <- say_value ps (tx "device") ;;
    p <- say_value ps (tx "package") ;;
    sg <- say_value ps (tx "speedgrade") ;;
    match hm_find text_eqb d fabrics with
    | None => Says (tx "could not find fabric for device: " ++ quoted d)
    | Some f => Fine (hm_insert text_eqb part
        {| pi_device := d; pi_fabric := f; pi_package := p; pi_speedgrade := sg |} infos)
    end.
  (** database-parsers.cc:787-836 ParsePartsInfos *)
  Definition say_parts_infos (parts_yaml devices_yaml : text) : said (list (text * part_info)) :=
    fabrics <- say_yaml say_fabric_sink devices_yaml [] ;;
    say_yaml (say_part_sink fabrics) parts_yaml [].

  (** ** The directory *)
  (** memory-mapped-file.cc:34-40; absl::ErrnoToStatus appends ": " and strerror. *)
  Definition say_file (e : environment) (path : text) : said text :=
    match e_read e path with
    | Some c => Fine c
    | None => Says (tx "could not open file: " ++ path ++ tx ": " ++ lt_errno lt path)
    end.

  (** database.cc:92-118 ParsePartInfo *)
  Definition say_part_info (e : environment) (root part : text) : said part_info :=
    parts <- say_file e (path_join (path_join root (tx "mapping")) (tx "parts.yaml")) ;;
    devices <- say_file e (path_join (path_join root (tx "mapping")) (tx "devices.yaml")) ;;
    infos <- say_parts_infos parts devices ;;
    match hm_find text_eqb part infos with
    | None => Says (tx "invalid or unknown part " ++ quoted part)
    | Some i => Fine i
    end.

  (** database.cc:204-246 IndexTileTypes *)
  Definition say_index (e : environment) (root : text) : said (list (text * tile_paths)) :=
    unchecked (index_tile_types e root) (tx "could not initialize directory iterator").

  (** database.cc:282-295 CreateBanksRegistry *)
  Definition say_banks_registry (e : environment) (ord : N -> list text -> list text)
      (p : db_part) (path : text) : said banks_registry :=
    c <- say_file e path ;;
    pins <- say_pins (after_mapping c) c ;;
    Fine (reg_create ord (dp_iobanks p) pins).

  (** database.cc:297-357 PartDatabase::Parse *)
  Definition say_database (e : environment) (ord : load_orders) (root part : text) : said tiles :=
    info <- say_part_info e root part ;;
    gtext <- say_file e (path_join (path_join root (pi_fabric info)) (tx "tilegrid.json")) ;;
    grid <- say_tilegrid gtext (e_json e gtext) ;;
    paths <- say_index e root ;;
    ptext <- say_file e (path_join (path_join root part) (tx "part.json")) ;;
    p <- say_part_json ptext (e_json e ptext) ;;
    let p := order_part ord p in
    banks <- say_banks_registry e (lo_tiles ord) p (path_join (path_join root part) (tx "package_pins.csv")) ;;
    Fine {| tl_grid := order_grid ord grid; tl_bits := tiles_database e paths; tl_banks := banks; tl_part := p |}.
End Texts.
