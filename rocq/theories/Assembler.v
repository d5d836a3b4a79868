(** Model of fpga/assembler.cc.

    Iteration orders of hash containers are given by the oracles of [orders]; the
    theorems quantify over all of them.  The lists of a loaded database are
    already in iteration order (Database.load_orders). *)
From Verif Require Import Base Absl Part Frame Frames Fasm DbText DbJson Database Packet Writer Encode.

Local Notation "x <- e ;; f" := (obind e (fun x => f))
  (at level 61, e at next level, right associativity).
Local Notation "' p <- e ;; f" := (obind e (fun p => f))
  (at level 61, p pattern, e at next level, right associativity).

(** ** PUDC_B *)

(** A char as an int: plain char is signed (x86-64). *)
Definition char_int (c : ascii) : Z :=
  if ccode c <? 128 then Z.of_N (ccode c) else (Z.of_N (ccode c) - 256)%Z.

(** [site[site.size() - 1]] (assembler.cc:49,72): the NUL terminator is not there for index -1. *)
Definition last_char (s : text) : outcome ascii :=
  match rev s with [] => UB | c :: _ => Ok c end.

(** assembler.cc:49-56: the site for a pin; C's % truncates towards zero. *)
Definition pudcb_site (site : text) : outcome (option text) :=
  c <- last_char site ;;
  match atoi_i32 (dec_text_z (char_int c)) with
  | (_, false) => Ok None
  | (y, true) => Ok (Some (tx "IOB_Y" ++ dec_text_z (Z.rem y 2)))
  end.

(** assembler.cc:43-59: the pins of one tile.  [Ok None]: go on with the next tile;
    [Ok (Some r)]: return. *)
Fixpoint pudcb_pins (pins : list (text * text)) : outcome (option (option text)) :=
  match pins with
  | [] => Ok None
  | (site, fn) :: r =>
      if str_contains (tx "PUDC_B") fn
      then s <- pudcb_site site ;; Ok (Some s)
      else pudcb_pins r
  end.

(** assembler.cc:38-62 FindPUDCBTileSite *)
Fixpoint find_pudcb (grid : tilegrid) : outcome (option (text * text)) :=
  match grid with
  | [] => Ok None
  | (name, t) :: r =>
      o <- pudcb_pins (t_pin_functions t) ;;
      match o with
      | None => find_pudcb r
      | Some None => Ok None
      | Some (Some site) => Ok (Some (name, site))
      end
  end.

(** assembler.cc:79-85 FasmFeature.  [line] is only kept for messages and is dropped;
    [ff_start] and [ff_width] are the 32-bit patterns of the ints. *)
Record fasm_feature := { ff_name : text; ff_start : N; ff_width : N; ff_bits : N }.

(** assembler.cc:174-184,234-251: a feature with start_bit 0, width 1, bits 1. *)
Definition implied (name : text) : fasm_feature :=
  {| ff_name := name; ff_start := 0; ff_width := 1; ff_bits := 1 |}.

(** assembler.cc:153-158 kPUDCBPullUpFASMLinesTemplate *)
Definition pudcb_suffixes : list text :=
  [tx "LVCMOS12_LVCMOS15_LVCMOS18_LVCMOS25_LVCMOS33_LVDS_25_LVTTL_SSTL135_SSTL15_TMDS_33.IN_ONLY";
   tx "LVCMOS25_LVCMOS33_LVTTL.IN";
   tx "PULLTYPE.PULLUP"].

(** assembler.cc:160-184 AddPUDCBFeatures, called on an empty vector *)
Definition pudcb_features (grid : tilegrid) : outcome (list fasm_feature) :=
  o <- find_pudcb grid ;;
  match o with
  | None => Ok []
  | Some (t, site) =>
      Ok (map (fun sfx => implied (t ++ tx "." ++ site ++ tx "." ++ sfx)) pudcb_suffixes)
  end.

(** ** STEPDOWN *)

(** assembler.cc:71-74: the site of one element of tile.sites; site_y is unsigned, so
    a negative char value fails the CHECK. *)
Definition iob_site (site : text) : outcome text :=
  c <- last_char site ;;
  match atoi_u32 (dec_text_z (char_int c)) with
  | (_, false) => Crash
  | (y, true) => Ok (tx "IOB_Y" ++ dec_text (y mod 2))
  end.

(** assembler.cc:64-77 GetIOBSites *)
Definition iob_sites (grid : tilegrid) (tile_name : text) : outcome (list text) :=
  match hm_find text_eqb tile_name grid with
  | None => Crash
  | Some t => ofold (fun out (kv : text * text) => s <- iob_site (fst kv) ;; Ok (out ++ [s]))
                (t_sites t) []
  end.

(** assembler.cc:193-219: the first loop; the state is used_iob_sites and
    stepdown_banks_tags. *)
Definition stepdown_scan (banks : banks_registry) (st : list text * list (N * list text))
    (f : fasm_feature) : outcome (list text * list (N * list text)) :=
  let '(used, bt) := st in
  if ff_bits f =? 0 then Ok st
  else
    match split_max 3 "." (ff_name f) with
    | t :: site :: tag :: _ =>
        let used := if str_contains (tx "IOB33") t
                    then hs_insert text_eqb (t ++ tx "." ++ site) used else used in
        if str_contains (tx "STEPDOWN") tag
        then match reg_tile_banks banks t with
             | [] => Crash
             | bank :: _ =>
                 let bt := hm_insert N.eqb bank [] bt in
                 let tags := match hm_find N.eqb bank bt with Some l => l | None => [] end in
                 Ok (used, hm_set N.eqb bank (hs_insert text_eqb tag tags) bt)
             end
        else Ok (used, bt)
    | _ => Ok st
    end.

(** assembler.cc:226-256: what one tile of a bank gets. *)
Definition stepdown_tile (grid : tilegrid) (used tags : list text) (t : text)
  : outcome (list fasm_feature) :=
  l <- (if str_contains (tx "IOB33") t
        then sites <- iob_sites grid t ;;
             Ok (flat_map (fun site =>
                   let tile_site := t ++ tx "." ++ site in
                   if existsb (text_eqb tile_site) used then []
                   else map (fun tag => implied (tile_site ++ tx "." ++ tag)) tags) sites)
        else Ok []) ;;
  Ok (l ++ (if str_contains (tx "HCLK_IOI3") t then [implied (t ++ tx ".STEPDOWN")] else [])).

(** assembler.cc:221-257: one bank; [ordt] is the iteration order of its tags. *)
Definition stepdown_bank (ordt : N -> list text -> list text) (banks : banks_registry)
    (grid : tilegrid) (used : list text) (out : list fasm_feature) (bt : N * list text)
  : outcome (list fasm_feature) :=
  match reg_tiles banks (fst bt) with
  | None => Crash
  | Some ts =>
      ofold (fun out t =>
               l <- stepdown_tile grid used (ordt (fst bt) (snd bt)) t ;; Ok (out ++ l)) ts out
  end.

(** assembler.cc:186-258 AddStepDownFeatures; [ordb] is the iteration order of
    stepdown_banks_tags.  The tags of a bank are iterated in the same order for all
    its sites: the set does not change in the loop. *)
Definition add_stepdown (ordb : list (N * list text) -> list (N * list text))
    (ordt : N -> list text -> list text) (banks : banks_registry) (grid : tilegrid)
    (features : list fasm_feature) : outcome (list fasm_feature) :=
  '(used, bt) <- ofold (stepdown_scan banks) features ([], []) ;;
  ofold (stepdown_bank ordt banks grid used) (ordb bt) features.

(** ** Frames *)

(** fpga::Frames, database.h:59-60 *)
Definition asm_frames := btmap frame.

(** assembler.cc:123-133: the bit setter; its state is frames and used_config_buses.
    [1 << bit.index] has index < 32 (database.cc:448). *)
Definition set_frame_bit (st : asm_frames * list bus_type) (bus : bus_type)
    (address word index : N) (value : bool) : outcome (asm_frames * list bus_type) :=
  let '(frames, used) := st in
  let used := hs_insert bus_eqb bus used in
  let frames := bt_insert address zero_frame frames in
  if value then
    match bt_find address frames with
    | None => Crash
    | Some f =>
        if word <? 101
        then Ok (bt_set address
                   (list_update (N.to_nat word) (fun w => N.lor w (N.shiftl 1 index)) f) frames,
                 used)
        else UB
    end
  else Ok (frames, used).

(** assembler.cc:112 [addr + start_bit] on ints, converted to unsigned: signed
    overflow. *)
Definition feature_address (sm : shift_model) (start addr : N) : outcome N :=
  match sm with
  | Iso => if (start <? 2 ^ 31) && (2 ^ 31 <=? start + addr) then UB
           else Ok (u32 (start + addr))
  | Hw => Ok (u32 (start + addr))
  end.
(** assembler.cc:113 [bits & (uint64_t(1) << addr)] *)
Definition feature_bit (sm : shift_model) (bits addr : N) : outcome bool :=
  match sm with
  | Iso => if addr <? 64 then Ok (N.testbit bits addr) else UB
  | Hw => Ok (N.testbit bits (addr mod 64))
  end.

(** The iteration orders of the containers made for one call of ConfigBits (call
    number, counted over the whole run) and of one used_config_buses set. *)
(** assembler.cc:109,191,221,233, database.cc:371,427. *)
Record orders := {
  o_alias : N -> N -> list (bus_type * bits_block) -> list (bus_type * bits_block);
  o_buses : N -> list bus_type -> list bus_type;
  o_banks : list (N * list text) -> list (N * list text);
  o_tags : N -> list text -> list text;
  o_load : load_orders
}.

(** assembler.cc:111-136: the loop over the bits of the value; [n] iterations from
    [addr], [i] the number of the feature. *)
Fixpoint process_bits (sm : shift_model) (ord : orders) (tls : tiles) (i : N)
    (tile_name feature : text) (start bits : N) (n : nat) (addr : N)
    (st : db_cache * (asm_frames * list bus_type))
  : outcome (db_cache * (asm_frames * list bus_type)) :=
  match n with
  | O => Ok st
  | S n' =>
      fa <- feature_address sm start addr ;;
      v <- feature_bit sm bits addr ;;
      st <- (if (v : bool)
             then config_bits set_frame_bit (o_alias ord i addr) tls (fst st)
                    tile_name feature fa (snd st)
             else Ok st) ;;
      process_bits sm ord tls i tile_name feature start bits n' (addr + 1) st
  end.

(** assembler.cc:144-146: all the frames of one bus; the address is 64 bits wide. *)
Fixpoint insert_block (n : nat) (base i : N) (frames : asm_frames) : asm_frames :=
  match n with
  | O => frames
  | S n' => insert_block n' base (i + 1) (bt_insert (u64 (base + i)) zero_frame frames)
  end.

(** assembler.cc:142-147 *)
Definition materialise (t : tile) (frames : asm_frames) (bus : bus_type) : outcome asm_frames :=
  match hm_find bus_eqb bus (t_bits t) with
  | None => Crash
  | Some b => Ok (insert_block (N.to_nat (bb_frames b)) (bb_base b) 0 frames)
  end.

(** assembler.cc:95-148: one feature.  A width that is negative as an int gives no
    iteration. *)
Definition process_feature (sm : shift_model) (ord : orders) (tls : tiles) (i : N)
    (st : db_cache * asm_frames) (f : fasm_feature) : outcome (db_cache * asm_frames) :=
  match split_max 1 "." (ff_name f) with
  | [tile_name; feature] =>
      let n := if ff_width f <? 2 ^ 31 then N.to_nat (ff_width f) else O in
      '(cache, (frames, used)) <-
        process_bits sm ord tls i tile_name feature (ff_start f) (ff_bits f) n 0
          (fst st, (snd st, [])) ;;
      match used with
      | [] => Ok (cache, frames)
      | _ =>
          match hm_find text_eqb tile_name (tl_grid tls) with
          | None => Crash
          | Some t => frames <- ofold (materialise t) (o_buses ord i used) frames ;;
                      Ok (cache, frames)
          end
      end
  | _ => Err
  end.

(** assembler.cc:92-150 ProcessFasmFeatures; [i] numbers the features. *)
Fixpoint process_features (sm : shift_model) (ord : orders) (tls : tiles) (i : N)
    (features : list fasm_feature) (st : db_cache * asm_frames)
  : outcome (db_cache * asm_frames) :=
  match features with
  | [] => Ok st
  | f :: r => st <- process_feature sm ord tls i st f ;;
              process_features sm ord tls (i + 1) r st
  end.

(** ** The whole run *)

(** getline: the lines of the input with their newline; the last one may lack it. *)
Fixpoint getlines (s : text) : list text :=
  match s with
  | [] => []
  | c :: r =>
      if Ascii.eqb c nl then [nl] :: getlines r
      else match getlines r with
           | [] => [[c]]
           | l :: ls => (c :: l) :: ls
           end
  end.

(** assembler.cc:278-283: the feature callback always asks for more. *)
Definition always (h : list event) : bool := true.
(** assembler.cc:278-283: the parse callback. *)
Definition feature_of_event (e : event) : list fasm_feature :=
  match e with
  | EFeature _ name start width bits =>
      [{| ff_name := name; ff_start := start; ff_width := width; ff_bits := bits |}]
  | EAnnotation _ _ _ _ => []
  end.

(** assembler.cc:274-291: one line *)
Definition assemble_line (sm : shift_model) (features : list fasm_feature) (line : text)
  : outcome (list fasm_feature) :=
  st <- fasm_parse sm always true line ;;
  if (p_result st =? kUserAbort) || (p_result st =? kError) then Err
  else Ok (features ++ flat_map feature_of_event (p_events st)).

(** assembler.cc:260-295 AssembleFrames *)
Definition assemble_frames (sm : shift_model) (ord : orders) (tls : tiles) (input : text)
  : outcome asm_frames :=
  features <- pudcb_features (tl_grid tls) ;;
  features <- ofold (assemble_line sm) (getlines input) features ;;
  features <- add_stepdown (o_banks ord) (o_tags ord) (tl_banks tls) (tl_grid tls) features ;;
  '(_, frames) <- process_features sm ord tls 0 features ([], []) ;;
  Ok frames.

(** The command line, after absl::ParseCommandLine, and the environment. *)
Record command := {
  c_args : list text;               (** positional arguments, args[0] included *)
  c_db_flag : option text;          (** --prjxray_db_path *)
  c_db_env : option text;           (** PRJXRAY_DB_PATH *)
  c_part : text;                    (** --part *)
  c_stdin : text;
  c_open : text -> option text;     (** fopen of the input file *)
  c_env : environment;
  c_date : text; c_time : text;     (** the clock, used by Encode for the header *)
  c_stdout : stream
}.

(** assembler.cc:317-332 GetOptFlagOrFromEnv *)
Definition db_path (c : command) : option text :=
  match c_db_flag c with Some p => Some p | None => c_db_env c end.

(** assembler.cc:421-431: where the FASM text comes from *)
Definition input_text (c : command) : option text :=
  match c_args c with
  | [_; arg] => if text_eqb arg (tx "-") then Some (c_stdin c) else c_open c arg
  | _ => Some (c_stdin c)
  end.

(** assembler.cc:375-453 main: exit status and standard output.  [fuel] is that of
    [encode]. *)
Definition main_program (fuel : nat) (sm : shift_model) (ord : orders) (c : command)
  : outcome (N * stream) :=
  let fail := Ok (1, c_stdout c) in
  if (2 <? List.length (c_args c))%nat then fail
  else
    match db_path c with
    | None => fail
    | Some root =>
        if match root with [] => true | _ => negb (e_exists (c_env c) root) end then fail
        else
          match c_part c with
          | [] => fail
          | part =>
              match parse_database (c_env c) (o_load ord) root part with
              | Err => fail
              | Crash => Crash
              | UB => UB
              | NoFuel => NoFuel
              | Ok tls =>
                  match input_text c with
                  | None => fail
                  | Some input =>
                      match assemble_frames sm ord tls input with
                      | Err => fail
                      | Crash => Crash
                      | UB => UB
                      | NoFuel => NoFuel
                      | Ok frames =>
                          match encode fuel (tl_part tls) (tx "fasm") (tx "fpga-source")
                                  (c_date c) (c_time c) frames (c_stdout c) with
                          | Err => fail
                          | Crash => Crash
                          | UB => UB
                          | NoFuel => NoFuel
                          | Ok s => Ok (0, s)
                          end
                      end
                  end
              end
          end
    end.
