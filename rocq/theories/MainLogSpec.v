(** Why fpga-as refuses to write a file, and what it then prints. *)
From Verif Require Import Base Fasm FasmLog Database Assembler AsmSpec MessageSpec RefuseSpec MainLog.

(** [f] is the first of the features whose name has no dot. *)
Definition first_without_dot (fs : list fasm_feature) (f : fasm_feature) : Prop :=
  exists l1 l2, fs = l1 ++ f :: l2 /\ Forall (fun g => In dot (ff_name g)) l1 /\ ~ In dot (ff_name f).

(** The messages [ms] for the lines, and how the reading of them ends. *)
Definition read_to_the_end (sm : shift_model) (lines : list text) (ms : list message) : Prop :=
  exists logs, Forall2 (fun l st => fasm_log sm (fun _ => true) true l = Ok st) lines logs /\
    ms = concat (map l_messages logs) /\ forall m, In m ms -> severity m <> kError.
Definition read_to_an_error (sm : shift_model) (lines : list text) (ms : list message) : Prop :=
  exists before bad after ms0 st, lines = before ++ bad :: after /\ read_to_the_end sm before ms0 /\
    fasm_log sm (fun _ => true) true bad = Ok st /\ ms = ms0 ++ l_messages st /\ exists m, In m (l_messages st) /\ severity m = kError.

(** The reasons to refuse, in the order in which they are looked at, with the messages for each. *)
Section Complaint.
  Context (sm : shift_model) (ss : statuses) (c : command).
  Definition one_file : Prop := (List.length (c_args c) <= 2)%nat.
  Definition path_is (root : text) : Prop := one_file /\ db_path c = Some root.
  Definition path_usable (root : text) : Prop := path_is root /\ root <> [] /\ e_exists (c_env c) root = true.
  Definition part_given (root : text) : Prop := path_usable root /\ c_part c <> [].
  Definition database_read (root : text) : Prop := part_given root /\ loadable (c_env c) root (c_part c).
  Definition text_read (root input : text) : Prop := database_read root /\ input_text c = Some input.
  Inductive complaint : list note -> Prop :=
  | says_usage : (2 < List.length (c_args c))%nat -> complaint [NUsage]
  | says_no_path : one_file -> db_path c = None -> complaint [NNoPath; NUsage]
  | says_bad_path : forall root, path_is root -> root = [] \/ e_exists (c_env c) root = false -> complaint [NBadPath root]
  | says_no_part : forall root, path_usable root -> c_part c = [] -> complaint [NNoPart; NUsage]
  | says_database : forall root, part_given root -> ~ loadable (c_env c) root (c_part c) -> complaint [NDatabase (s_database ss)]
  | says_open : forall root, database_read root -> input_text c = None -> complaint [NOpen (s_open ss)]
  | says_bad_line : forall root input ms, text_read root input -> read_to_an_error sm (getlines input) ms ->
      complaint (map NFasm ms ++ [NAssemble (tx "internal error")])
  | says_no_dot : forall root input ms feats f, text_read root input -> read_to_the_end sm (getlines input) ms ->
      text_features sm input feats -> first_without_dot feats f ->
      complaint (map NFasm ms ++ [NAssemble (tx "cannot split feature name " ++ ff_name f)]).
End Complaint.
