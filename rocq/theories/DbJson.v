(** Model of the JSON readers of fpga/database-parsers.cc.  rapidjson's own text
    parser is a library and is not modelled: the readers start from the parsed
    value.  RAPIDJSON_ASSERT is the C assert: calling MemberBegin or GetString on
    a value of another type is modelled as [Crash] (a build with NDEBUG would
    have undefined behaviour instead). *)
From Verif Require Import Base Absl Part DbText.

Local Notation "x <- e ;; f" := (obind e (fun x => f))
  (at level 61, e at next level, right associativity).
Local Notation "' p <- e ;; f" := (obind e (fun p => f))
  (at level 61, p pattern, e at next level, right associativity).

(** rapidjson::Value.  Integer literals are [JInt]; other numbers [JDouble].
    Object members keep their document order and may repeat a name. *)
Inductive json :=
| JNull
| JBool (b : bool)
| JInt (z : Z)
| JDouble
| JStr (s : text)
| JArr (l : list json)
| JObj (l : list (text * json)).

(** FindMember (database-parsers.cc:117,129): the first member of that name. *)
Definition find_member (name : text) (l : list (text * json)) : option json :=
  hm_find text_eqb name l.

(** database-parsers.cc:62-66 IsObject; the members. *)
Definition members (j : json) : outcome (list (text * json)) :=
  match j with JObj l => Ok l | _ => Err end.
(** MemberBegin / MemberEnd without a check (database-parsers.cc:208,249,272,292,313). *)
Definition members_unchecked (j : json) : outcome (list (text * json)) :=
  match j with JObj l => Ok l | _ => Crash end.

(** database-parsers.cc:113-123 GetMember, with the Unmarshal to apply. *)
Definition get_member {T} (un : json -> outcome T) (j : json) (name : text) : outcome T :=
  l <- members j ;;
  match find_member name l with
  | None => Err
  | Some v => un v
  end.
(** database-parsers.cc:125-134 OptGetMember *)
Definition opt_get_member {T} (un : json -> outcome T) (j : json) (name : text)
  : outcome (option T) :=
  l <- members j ;;
  match find_member name l with
  | None => Ok None
  | Some v => x <- un v ;; Ok (Some x)
  end.

(** database-parsers.cc:105-111 Unmarshal<T> for the basic types. *)
Definition un_string (j : json) : outcome text :=
  match j with JStr s => Ok s | _ => Err end.
(** database-parsers.cc:105-111 Unmarshal<uint32_t> *)
Definition un_u32 (j : json) : outcome N :=
  match j with
  | JInt z => if ((0 <=? z) && (z <? 2 ^ 32))%Z then Ok (Z.to_N z) else Err
  | _ => Err
  end.
(** database-parsers.cc:105-111 Unmarshal<int32_t> *)
Definition un_i32 (j : json) : outcome Z :=
  match j with
  | JInt z => if ((- 2 ^ 31 <=? z) && (z <? 2 ^ 31))%Z then Ok z else Err
  | _ => Err
  end.

(** database-parsers.cc:136-149 flat_hash_map<string, string> *)
Definition un_string_map (j : json) : outcome (list (text * text)) :=
  l <- members j ;;
  ofold (fun m (kv : text * json) =>
           v <- un_string (snd kv) ;; Ok (hm_insert text_eqb (fst kv) v m)) l [].

(** database-parsers.cc:151-163 vector<string>; GetString() is read as a C string. *)
Definition un_string_list (j : json) : outcome (list text) :=
  match j with
  | JArr l => ofold (fun acc v => match v with
                                  | JStr s => Ok (acc ++ [c_str s])
                                  | _ => Err
                                  end) l []
  | _ => Err
  end.

(** database-parsers.cc:165-177 ParseBaseAddress: the long is converted to
    uint64_t. *)
Definition base_address_of (s : text) : outcome N :=
  let (v, erange) := strtol0 s in
  if erange then Err else Ok (Z.to_N (v mod 2 ^ 64)).

(** database-parsers.h:27-31 *)
Record bits_alias := { al_sites : list (text * text); al_start_offset : N; al_type : text }.
(** database-parsers.h:33-39 *)
Record bits_block := {
  bb_alias : option bits_alias; bb_base : N; bb_frames : N; bb_offset : Z; bb_words : N
}.
(** database-parsers.h:43-68 *)
Record tile := {
  t_type : text; t_x : N; t_y : N; t_clock_region : option text;
  t_bits : list (bus_type * bits_block);
  t_pin_functions : list (text * text); t_sites : list (text * text);
  t_prohibited : list text
}.
(** database-parsers.h:70 *)
Definition tilegrid := list (text * tile).

(** database-parsers.cc:179-189 *)
Definition un_alias (j : json) : outcome bits_alias :=
  sites <- get_member un_string_map j (tx "sites") ;;
  start <- get_member un_u32 j (tx "start_offset") ;;
  type <- get_member un_string j (tx "type") ;;
  Ok {| al_sites := sites; al_start_offset := start; al_type := type |}.

(** database-parsers.cc:191-203 *)
Definition un_block (j : json) : outcome bits_block :=
  alias <- opt_get_member un_alias j (tx "alias") ;;
  base <- obind (get_member un_string j (tx "baseaddr")) base_address_of ;;
  frames <- get_member un_u32 j (tx "frames") ;;
  offset <- get_member un_i32 j (tx "offset") ;;
  words <- get_member un_u32 j (tx "words") ;;
  Ok {| bb_alias := alias; bb_base := base; bb_frames := frames;
        bb_offset := offset; bb_words := words |}.

(** database-parsers.cc:87-90 StringToConfigBusType *)
Definition bus_of_string (s : text) : outcome bus_type :=
  if text_eqb s (tx "BLOCK_RAM") then Ok BusBlockRam
  else if text_eqb s (tx "CLB_IO_CLK") then Ok BusCLBIOCLK
  else if text_eqb s (tx "CFG_CLB") then Ok BusCFGCLB
  else Err.

(** database-parsers.cc:205-220 Bits: not checked to be an object. *)
Definition un_bits (j : json) : outcome (list (bus_type * bits_block)) :=
  l <- members_unchecked j ;;
  ofold (fun m (kv : text * json) =>
           bus <- bus_of_string (c_str (fst kv)) ;;
           b <- un_block (snd kv) ;;
           Ok (hm_insert bus_eqb bus b m)) l [].

(** database-parsers.cc:222-242 *)
Definition un_tile (j : json) : outcome tile :=
  type <- get_member un_string j (tx "type") ;;
  x <- get_member un_u32 j (tx "grid_x") ;;
  y <- get_member un_u32 j (tx "grid_y") ;;
  clock <- opt_get_member un_string j (tx "clock_region") ;;
  bits <- get_member un_bits j (tx "bits") ;;
  fns <- get_member un_string_map j (tx "pin_functions") ;;
  sites <- get_member un_string_map j (tx "sites") ;;
  prohibited <- get_member un_string_list j (tx "prohibited_sites") ;;
  Ok {| t_type := type; t_x := x; t_y := y; t_clock_region := clock; t_bits := bits;
        t_pin_functions := fns; t_sites := sites; t_prohibited := prohibited |}.

(** database-parsers.cc:376-399 ParseTileGridJSON, from the parsed document
    ([None]: rapidjson reported an error). *)
Definition parse_tilegrid (doc : option json) : outcome tilegrid :=
  match doc with
  | None => Err
  | Some (JObj l) =>
      ofold (fun g (kv : text * json) =>
               t <- un_tile (snd kv) ;;
               Ok (hm_insert text_eqb (c_str (fst kv)) t g)) l []
  | Some _ => Err
  end.

(** database-parsers.cc:244-258 flat_hash_map<uint32_t, string>: not checked to be
    an object, values not checked to be strings. *)
Definition un_iobanks (j : json) : outcome (list (N * text)) :=
  l <- members_unchecked j ;;
  ofold (fun m (kv : text * json) =>
           match atoi_u32 (c_str (fst kv)) with
           | (_, false) => Err
           | (k, true) => match snd kv with
                          | JStr s => Ok (hm_insert N.eqb k (c_str s) m)
                          | _ => Crash
                          end
           end) l [].

(** CHECK(prev == (key - 1)) (database-parsers.cc:280,321) with int32_t operands: the subtraction overflows on
    the smallest number. *)
Definition check_next (prev key : Z) : outcome unit :=
  if (key =? - 2 ^ 31)%Z then UB
  else if (prev =? key - 1)%Z then Ok tt else Crash.

(** database-parsers.cc:261-286 ConfigColumnsFramesCount; [st] is the previous key
    and the vector. *)
Definition un_columns (j : json) : outcome (list N) :=
  l <- members j ;;
  '(_, v) <- ofold (fun (st : Z * list N) (kv : text * json) =>
      let '(prev, v) := st in
      match atoi_i32 (c_str (fst kv)) with
      | (_, false) => Err
      | (key, true) =>
          _ <- check_next prev key ;;
          fc <- get_member un_u32 (snd kv) (tx "frame_count") ;;
          Ok (key, v ++ [fc])
      end) l ((-1)%Z, []) ;;
  Ok v.

(** database-parsers.cc:288-305 ClockRegionRow *)
Definition un_row (j : json) : outcome clock_region_row :=
  l <- members j ;;
  ofold (fun r (kv : text * json) =>
           bus <- bus_of_string (c_str (fst kv)) ;;
           cols <- get_member un_columns (snd kv) (tx "configuration_columns") ;;
           Ok (hm_insert bus_eqb bus cols r)) l [].

(** database-parsers.cc:307-327 GlobalClockRegionHalf *)
Definition un_half (j : json) : outcome clock_region_half :=
  l <- members j ;;
  '(_, v) <- ofold (fun (st : Z * clock_region_half) (kv : text * json) =>
      let '(prev, v) := st in
      match atoi_i32 (c_str (fst kv)) with
      | (_, false) => Err
      | (key, true) =>
          _ <- check_next prev key ;;
          row <- get_member un_row (snd kv) (tx "configuration_buses") ;;
          Ok (key, v ++ [row])
      end) l ((-1)%Z, []) ;;
  Ok v.

(** rapidjson::Pointer("/a/b").Get (database-parsers.cc:334,343) for two names that are not array indices. *)
Definition pointer2 (a b : text) (j : json) : option json :=
  match j with
  | JObj l => match find_member a l with
              | Some (JObj l') => find_member b l'
              | _ => None
              end
  | _ => None
  end.

(** database-parsers.cc:329-351 GlobalClockRegions: bottom rows, top rows. *)
Definition un_regions (j : json) : outcome (clock_region_half * clock_region_half) :=
  match pointer2 (tx "bottom") (tx "rows") j with
  | None => Err
  | Some jb =>
      bottom <- un_half jb ;;
      match pointer2 (tx "top") (tx "rows") j with
      | None => Err
      | Some jt => top <- un_half jt ;; Ok (bottom, top)
      end
  end.

(** database-parsers.cc:353-368 Part, and 647-656 ParsePartJSON. *)
Definition un_part (j : json) : outcome db_part :=
  _ <- members j ;;
  idcode <- get_member un_u32 j (tx "idcode") ;;
  iobanks <- opt_get_member un_iobanks j (tx "iobanks") ;;
  '(bottom, top) <- get_member un_regions j (tx "global_clock_regions") ;;
  Ok {| dp_idcode := idcode; dp_bottom_rows := bottom; dp_top_rows := top;
        dp_iobanks := match iobanks with Some b => b | None => [] end |}.

(** database-parsers.cc:647-656 ParsePartJSON *)
Definition parse_part_json (doc : option json) : outcome db_part :=
  match doc with
  | None => Err
  | Some j => un_part j
  end.
