(** Model of the database files a run opens, in order: one entry per call of open, memory-mapped-file.cc:36, whether it succeeds or not.
    (The FASM text is not among them; exists() and the directory iterator open nothing.) *)
From Verif Require Import Base Absl Part Frame Frames Fasm DbText DbJson Database Assembler.

(** database.cc:92-107 ParsePartInfo *)
Definition part_info_opens (e : environment) (root : text) : list text :=
  let parts := path_join (path_join root (tx "mapping")) (tx "parts.yaml") in
  let devices := path_join (path_join root (tx "mapping")) (tx "devices.yaml") in
  parts :: match map_file e parts with Ok _ => [devices] | _ => [] end.

(** database.cc:297-357 PartDatabase::Parse, with ParseTileGrid 120-130 and CreateBanksRegistry 282-295 *)
Definition database_opens (e : environment) (root part : text) : list text :=
  part_info_opens e root ++
  match parse_part_info e root part with
  | Ok info =>
      let grid := path_join (path_join root (pi_fabric info)) (tx "tilegrid.json") in
      grid ::
      match map_file e grid with
      | Ok gtext =>
          match parse_tilegrid (e_json e gtext), index_tile_types e root with
          | Ok _, Ok _ =>
              let part_json := path_join (path_join root part) (tx "part.json") in
              part_json ::
              match map_file e part_json with
              | Ok ptext =>
                  match parse_part_json (e_json e ptext) with
                  | Ok _ => [path_join (path_join root part) (tx "package_pins.csv")]
                  | _ => []
                  end
              | _ => []
              end
          | _, _ => []
          end
      | _ => []
      end
  | _ => []
  end.

(** database.cc:252-278: an optional file is opened if it exists. *)
Definition opt_opens (path : option text) : list text := match path with Some p => [p] | None => [] end.
(** database.cc:248-280 ParseTileTypeDatabase *)
Definition tile_type_opens (e : environment) (p : tile_paths) : list text :=
  opt_opens (tp_ppips p) ++
  match parse_opt e parse_ppips (tp_ppips p) with
  | Ok _ =>
      opt_opens (tp_segbits p) ++
      match parse_opt e parse_segbits (tp_segbits p) with
      | Ok _ => opt_opens (tp_block_ram p)
      | _ => []
      end
  | _ => []
  end.
(** database.cc:321-334: the getter *)
Definition getter_opens (e : environment) (paths : list (text * tile_paths)) (tile_type : text) : list text :=
  match hm_find text_eqb tile_type paths with
  | Some p => tile_type_opens e p
  | None => []
  end.

Section Run.
  (** The files the getter opens for a tile type (or what it does to them: Maps.v). *)
  Context {Ev : Type} (get : text -> list Ev).

  (** database.cc:78-90 AddSegbitsToCache *)
  Definition cache_opens (tile_type : text) (cache : db_cache) : list Ev :=
    if hm_contains text_eqb tile_type cache then [] else get tile_type.
  (** database.cc:360-402 ConfigBits *)
  Definition config_opens (tls : tiles) (cache : db_cache) (tile_name feature : text) : list Ev :=
    match hm_find text_eqb tile_name (tl_grid tls) with
    | Some t => let '(tile_type, _, _) := resolve_alias t feature in cache_opens tile_type cache
    | None => []
    end.

  (** assembler.cc:111-136 *)
  Fixpoint process_bits_opens (sm : shift_model) (ord : orders) (tls : tiles) (i : N)
      (tile_name feature : text) (start bits : N) (n : nat) (addr : N)
      (st : db_cache * (asm_frames * list bus_type)) : list Ev :=
    match n with
    | O => []
    | S n' =>
        match feature_address sm start addr, feature_bit sm bits addr with
        | Ok fa, Ok true =>
            config_opens tls (fst st) tile_name feature ++
            match config_bits set_frame_bit (o_alias ord i addr) tls (fst st) tile_name feature fa (snd st) with
            | Ok st' => process_bits_opens sm ord tls i tile_name feature start bits n' (addr + 1) st'
            | _ => []
            end
        | Ok _, Ok false => process_bits_opens sm ord tls i tile_name feature start bits n' (addr + 1) st
        | _, _ => []
        end
    end.

  (** assembler.cc:95-148: one feature *)
  Definition process_feature_opens (sm : shift_model) (ord : orders) (tls : tiles) (i : N)
      (st : db_cache * asm_frames) (f : fasm_feature) : list Ev :=
    match split_max 1 "." (ff_name f) with
    | [tile_name; feature] =>
        let n := if ff_width f <? 2 ^ 31 then N.to_nat (ff_width f) else O in
        process_bits_opens sm ord tls i tile_name feature (ff_start f) (ff_bits f) n 0 (fst st, (snd st, []))
    | _ => []
    end.
  (** assembler.cc:92-150 ProcessFasmFeatures *)
  Fixpoint process_features_opens (sm : shift_model) (ord : orders) (tls : tiles) (i : N)
      (features : list fasm_feature) (st : db_cache * asm_frames) : list Ev :=
    match features with
    | [] => []
    | f :: r =>
        process_feature_opens sm ord tls i st f ++
        match process_feature sm ord tls i st f with
        | Ok st' => process_features_opens sm ord tls (i + 1) r st'
        | _ => []
        end
    end.
  (** assembler.cc:260-295 AssembleFrames *)
  Definition frames_opens (sm : shift_model) (ord : orders) (tls : tiles) (input : text) : list Ev :=
    match obind (pudcb_features (tl_grid tls)) (fun fs =>
          obind (ofold (assemble_line sm) (getlines input) fs) (fun fs =>
          add_stepdown (o_banks ord) (o_tags ord) (tl_banks tls) (tl_grid tls) fs)) with
    | Ok fs => process_features_opens sm ord tls 0 fs ([], [])
    | _ => []
    end.
End Run.

(** assembler.cc:375-453 main *)
Definition main_opens (sm : shift_model) (ord : orders) (c : command) : list text :=
  if (2 <? List.length (c_args c))%nat then []
  else
    match db_path c with
    | None => []
    | Some root =>
        if match root with [] => true | _ => negb (e_exists (c_env c) root) end then []
        else
          match c_part c with
          | [] => []
          | part =>
              database_opens (c_env c) root part ++
              match parse_database (c_env c) (o_load ord) root part, index_tile_types (c_env c) root, input_text c with
              | Ok tls, Ok paths, Some input => frames_opens (getter_opens (c_env c) paths) sm ord tls input
              | _, _, _ => []
              end
          end
    end.
