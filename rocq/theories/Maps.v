(** Model of the descriptors and mappings a run holds: the calls of open, mmap, close and munmap in order (fstat is left out).
    A scope with a mapped file that is left by return or by an error status unmaps the file; one that aborts the process does not. *)
From Verif Require Import Base Absl Part Frame Frames Fasm DbText DbJson Database Assembler Opens MapsSpec.

(** Does the function return to its caller (with a value or a status)? *)
Definition returns {A} (o : outcome A) : bool := match o with Ok _ | Err => true | _ => false end.

(** memory-mapped-file.cc:34-49 MemoryMapFile and the destructor, 26: the calls around those of the scope that holds the block;
    [body]: the calls of the scope, and whether it is left. *)
Definition mapping (e : environment) (path : text) (body : text -> list sys_call * bool) : list sys_call * bool :=
  match e_read e path with
  | None => ([Open path false], true)
  | Some c =>
      let n := N.of_nat (List.length c) in
      let '(l, b) := body c in
      (Open path true :: Map path n :: Close path :: l ++ (if b then [Unmap path n] else []), b)
  end.

(** database.cc:92-118 ParsePartInfo: both files stay mapped to the end of the function. *)
Definition part_info_calls (e : environment) (root : text) : list sys_call * bool :=
  mapping e (path_join (path_join root (tx "mapping")) (tx "parts.yaml")) (fun parts =>
  mapping e (path_join (path_join root (tx "mapping")) (tx "devices.yaml")) (fun devices =>
    ([], returns (parse_parts_infos parts devices)))).

(** database.cc:297-357 PartDatabase::Parse: tilegrid.json is unmapped when ParseTileGrid (120-130) returns, part.json stays mapped to the
    end, package_pins.csv to the end of CreateBanksRegistry (282-295). *)
Definition database_calls (e : environment) (root part : text) : list sys_call :=
  fst (part_info_calls e root) ++
  match parse_part_info e root part with
  | Ok info =>
      let grid := path_join (path_join root (pi_fabric info)) (tx "tilegrid.json") in
      fst (mapping e grid (fun gtext => ([], returns (parse_tilegrid (e_json e gtext))))) ++
      match obind (map_file e grid) (fun gtext => parse_tilegrid (e_json e gtext)), index_tile_types e root with
      | Ok _, Ok _ =>
          fst (mapping e (path_join (path_join root part) (tx "part.json")) (fun ptext =>
            match parse_part_json (e_json e ptext) with
            | Ok p => mapping e (path_join (path_join root part) (tx "package_pins.csv")) (fun csv =>
                        ([], returns (parse_pins (after_mapping csv) csv)))
            | o => ([], returns o)
            end))
      | _, _ => []
      end
  | _ => []
  end.

(** One optional file of database.cc:252-278, mapped in a block of its own. *)
Definition opt_calls {A} (e : environment) (parse : option ascii -> text -> outcome A) (path : option text) : list sys_call :=
  match path with
  | None => []
  | Some p => fst (mapping e p (fun c => ([], returns (parse (after_mapping c) c))))
  end.
(** database.cc:248-280 ParseTileTypeDatabase *)
Definition tile_type_calls (e : environment) (p : tile_paths) : list sys_call :=
  opt_calls e parse_ppips (tp_ppips p) ++
  match parse_opt e parse_ppips (tp_ppips p) with
  | Ok _ =>
      opt_calls e parse_segbits (tp_segbits p) ++
      match parse_opt e parse_segbits (tp_segbits p) with
      | Ok _ => opt_calls e parse_segbits (tp_block_ram p)
      | _ => []
      end
  | _ => []
  end.
(** database.cc:321-334: the getter *)
Definition getter_calls (e : environment) (paths : list (text * tile_paths)) (tile_type : text) : list sys_call :=
  match hm_find text_eqb tile_type paths with
  | Some p => tile_type_calls e p
  | None => []
  end.

(** assembler.cc:375-453 main *)
Definition main_calls (sm : shift_model) (ord : orders) (c : command) : list sys_call :=
  if (2 <? List.length (c_args c))%nat then []
  else
    match db_path c with
    | None => []
    | Some root =>
        if match root with [] => true | _ => negb (e_exists (c_env c) root) end then []
        else
          match c_part c with
          | [] => []
          | part =>
              database_calls (c_env c) root part ++
              match parse_database (c_env c) (o_load ord) root part, index_tile_types (c_env c) root, input_text c with
              | Ok tls, Ok paths, Some input => frames_opens (getter_calls (c_env c) paths) sm ord tls input
              | _, _, _ => []
              end
          end
    end.
