(** Model of what fpga-as prints to stderr (fpga/assembler.cc): the control flow of Assembler.v with the messages in the order they are
    printed.  [P_MainLog] shows that leaving them out gives back Assembler.v.  The texts of the statuses of the database loader (LoadLog.v), of
    fopen's errno and of Encode are parameters; the warnings of the directory iterator (database.cc:220-233) are not modelled. *)
From Verif Require Import Base Absl Fasm FasmLog AsmLog Database Writer Encode Assembler.

Local Notation "x <- e ;; f" := (obind e (fun x => f))
  (at level 61, e at next level, right associativity).
Local Notation "' p <- e ;; f" := (obind e (fun p => f))
  (at level 61, p pattern, e at next level, right associativity).

(** One message on stderr. *)
Inductive note : Type :=
| NUsage                       (* assembler.cc:381,390,404 *)
| NNoPath                      (* assembler.cc:387-389 *)
| NBadPath (path : text)       (* assembler.cc:395-397 *)
| NNoPart                      (* assembler.cc:403 *)
| NDatabase (status : text)    (* assembler.cc:410-412 *)
| NOpen (status : text)        (* assembler.cc:426-427 *)
| NFasm (m : message)          (* assembler.cc:276-277 *)
| NAssemble (status : text)    (* assembler.cc:436-438 *)
| NEncode (status : text).     (* assembler.cc:446-448 *)

(** assembler.cc:303-310 Usage *)
Definition usage (program : text) : text :=
  tx "usage: " ++ program ++ tx " [options] < input.fasm > output.bit" ++ msg_nl ++ msg_nl
  ++ tx "This tool parses a sequence of fasm lines and assembles them" ++ msg_nl
  ++ tx "into a set of frames then mapped into bitstream." ++ msg_nl ++ tx "Output is written to stdout.".
(** assembler.cc:312-315 StatusToErrorMessage *)
Definition status_message (what status : text) : text := what ++ tx ": " ++ status.
(** The text printed (assembler.cc:381-448); [program] is argv[0]. *)
Definition render_note (program : text) (n : note) : text :=
  match n with
  | NUsage => usage program ++ msg_nl
  | NNoPath => status_message (tx "get prjxray db path")
      (tx "flag ""prjxray_db_path"" not provided either via commandline or environment variable (PRJXRAY_DB_PATH)") ++ msg_nl
  | NBadPath p => tx "invalid prjxray-db path: """ ++ p ++ tx """" ++ msg_nl
  | NNoPart => tx "no part provided" ++ msg_nl
  | NDatabase s => status_message (tx "part mapping parsing") s ++ msg_nl
  | NOpen s => s ++ msg_nl
  | NFasm m => render m
  | NAssemble s => status_message (tx "could not assemble frames") s ++ msg_nl
  | NEncode s => status_message (tx "could not generate bistream") s ++ msg_nl
  end.

(** assembler.cc:273-292: the loop over the lines: what is printed, and the features unless a line was rejected. *)
Fixpoint read_log (sm : shift_model) (lines : list text) (features : list fasm_feature)
  : outcome (list message * option (list fasm_feature)) :=
  match lines with
  | [] => Ok ([], Some features)
  | line :: rest =>
      st <- fasm_log sm always true line ;;
      if (l_result st =? kUserAbort) || (l_result st =? kError) then Ok (l_messages st, None)
      else '(ms, r) <- read_log sm rest (features ++ flat_map feature_of_event (l_events st)) ;;
           Ok (l_messages st ++ ms, r)
  end.

(** assembler.cc:92-150 ProcessFasmFeatures: the frames, or the message of the status. *)
Fixpoint process_log (sm : shift_model) (ord : orders) (tls : tiles) (i : N) (features : list fasm_feature) (st : db_cache * asm_frames)
  : outcome (db_cache * asm_frames + text) :=
  match features with
  | [] => Ok (inl st)
  | f :: r =>
      match split_max 1 "." (ff_name f) with
      | [_; _] => st <- process_feature sm ord tls i st f ;; process_log sm ord tls (i + 1) r st
      | _ => Ok (inr (tx "cannot split feature name " ++ ff_name f))
      end
  end.

(** assembler.cc:260-295 AssembleFrames *)
Definition assemble_log (sm : shift_model) (ord : orders) (tls : tiles) (input : text)
  : outcome (list message * (asm_frames + text)) :=
  features <- pudcb_features (tl_grid tls) ;;
  '(ms, r) <- read_log sm (getlines input) features ;;
  match r with
  | None => Ok (ms, inr (tx "internal error"))
  | Some features =>
      features <- add_stepdown (o_banks ord) (o_tags ord) (tl_banks tls) (tl_grid tls) features ;;
      r <- process_log sm ord tls 0 features ([], []) ;;
      Ok (ms, match r with inl (_, frames) => inl frames | inr s => inr s end)
  end.

(** The status texts that are not modelled: PartDatabase::Parse (assembler.cc:407), ErrnoToStatus (assembler.cc:426), Encode (assembler.cc:442). *)
Record statuses := { s_database : text; s_open : text; s_encode : text }.

(** assembler.cc:375-453 main: exit status, standard output and standard error. *)
Definition main_log (fuel : nat) (sm : shift_model) (ord : orders) (ss : statuses) (c : command)
  : outcome (N * stream * list note) :=
  let fail notes := Ok (1, c_stdout c, notes) in
  if (2 <? List.length (c_args c))%nat then fail [NUsage]
  else
    match db_path c with
    | None => fail [NNoPath; NUsage]
    | Some root =>
        if match root with [] => true | _ => negb (e_exists (c_env c) root) end then fail [NBadPath root]
        else
          match c_part c with
          | [] => fail [NNoPart; NUsage]
          | part =>
              match parse_database (c_env c) (o_load ord) root part with
              | Err => fail [NDatabase (s_database ss)]
              | Crash => Crash
              | UB => UB
              | NoFuel => NoFuel
              | Ok tls =>
                  match input_text c with
                  | None => fail [NOpen (s_open ss)]
                  | Some input =>
                      '(ms, r) <- assemble_log sm ord tls input ;;
                      match r with
                      | inr status => fail (map NFasm ms ++ [NAssemble status])
                      | inl frames =>
                          match encode fuel (tl_part tls) (tx "fasm") (tx "fpga-source")
                                  (c_date c) (c_time c) frames (c_stdout c) with
                          | Err => fail (map NFasm ms ++ [NEncode (s_encode ss)])
                          | Crash => Crash
                          | UB => UB
                          | NoFuel => NoFuel
                          | Ok s => Ok (0, s, map NFasm ms)
                          end
                      end
                  end
              end
          end
    end.
