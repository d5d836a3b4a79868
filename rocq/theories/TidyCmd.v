(** Model of the start of scripts/run-clang-tidy-cached.cc and of the texts it makes for others: the checks of main(), the
    directory of the cache, the shell command of a work item, the clean-up of paths in the output, the number of workers.
    All line numbers are of that file. *)
From Verif Require Import Base Absl Print Tidy TidyPool.

(** What the program finds around it: environment variables, which paths exist and which have a time stamp
    (fs::exists, fs::last_write_time), the contents of files (GetContent :172-180, empty if unreadable), the output of
    commands (GetCommandOutput :191-193), the working directory, its arguments, the number of processors. *)
Record around := {
  a_env : text -> option text;
  a_exists : text -> bool;
  a_stamp : text -> bool;
  a_file : text -> text;
  a_output : text -> text;
  a_cwd : text;
  a_args : list text;
  a_cores : N
}.

(** :182-185 EnvWithFallback *)
Definition env_or (a : around) (var fallback : text) : text :=
  match a_env a var with Some v => v | None => fallback end.
(** :187-189 GetClangTidyConfig, with :118 *)
Definition tidy_config (a : around) : text := env_or a (tx "CLANG_TIDY_CONFIG") (tx ".clang-tidy").
(** :247 *)
Definition tidy_program (a : around) : text := env_or a (tx "CLANG_TIDY") (tx "clang-tidy").

(** ** The command *)
(** :130-131 kExtraArgs *)
Definition extra_args : list text := [tx "-Wno-unknown-pragmas"; tx "-Wno-unknown-warning-option"].
(** :338-348 AssembleArgs *)
Definition assemble_args (a : around) : text :=
  tx " --quiet" ++ (tx " '--config-file=" ++ tidy_config a ++ tx "'") ++
  List.concat (map (fun x => tx " --extra-arg='" ++ x ++ tx "'") extra_args) ++
  List.concat (map (fun x => tx " '" ++ x ++ tx "'") (a_args a)).
(** :293-295 the text given to system() for the item [w], with the results in [dir] (:289-290, tmp_for of TidyPool.v).  None of
    the parts can contain a zero character, so c_str() (:296) cuts nothing. *)
Definition command (a : around) (dir pid : text) (w : work) : text :=
  tidy_program a ++ tx " '" ++ fst w ++ tx "'" ++ assemble_args a ++ tx "> '" ++ tmp_for dir pid w ++ tx "' 2>/dev/null".

(** ** The directory of the cache *)
(** [operator/] of std::filesystem::path on POSIX, used at :206, :331, :351, :368, :511-512 *)
Definition path_join (x y : text) : text :=
  match y with
  | "/"%char :: _ => y
  | _ => match rev x with
         | [] => y
         | c :: _ => if Ascii.eqb c "/" then x ++ y else x ++ tx "/" ++ y
         end
  end.
(** :326-336 GetCacheBaseDir *)
Definition cache_base (a : around) : text :=
  match a_env a (tx "CACHE_DIR") with
  | Some d => d
  | None =>
      let fallback := env_or a (tx "TMPDIR") (tx "/tmp") in
      match a_env a (tx "HOME") with
      | Some h => let c := path_join h (tx ".cache/") in if a_exists a c then c else fallback
      | None => fallback
      end
  end.
(** :361 the regular expression [version ([0-9]+)] at the start of [s]: its group. *)
Definition match_version (s : text) : option text :=
  if starts_with (tx "version ") s then
    let d := fst (span is_digit (skipn 8 s)) in if nonempty d then Some d else None
  else None.
(** :361 regex_search: the first place that matches. *)
Fixpoint search_version (s : text) : option text :=
  match match_version s with
  | Some d => Some d
  | None => match s with [] => None | _ :: r => search_version r end
  end.
(** :359-363 *)
Definition major_version (version : text) : text :=
  match search_version version with Some d => d | None => tx "UNKNOWN" end.
(** :366-367 the 64 bits that stand for version, arguments and configuration *)
Definition cache_id (hash : text -> N) (a : around) (version : text) : N :=
  N.lxor (hash (version ++ assemble_args a)) (hash (a_file a (tidy_config a))).
(** :601-605 the prefix; kConfig.cache_prefix is empty (:122-126). *)
Definition cache_prefix (a : around) : text := path_filename (a_cwd a) ++ tx "_".
(** :368-369 *)
Definition dir_name (prefix version : text) (id : N) : text :=
  prefix ++ tx "v" ++ major_version version ++ tx "_" ++ to_hex 8 id.
(** :350-370 AssembleProjectCacheDir; None: the program ends with status 1 (:355-358). *)
Definition project_dir (hash : text -> N) (a : around) : option text :=
  let cache_dir := path_join (cache_base a) (tx "clang-tidy") in
  let version := a_output a (tidy_program a ++ tx " --version") in
  if nonempty version then Some (path_join cache_dir (dir_name (cache_prefix a) version (cache_id hash a version)))
  else None.

(** ** The start of main() *)
Inductive start := Refuse (message : text) | Begin (dir : text).
(** :573-608, up to the construction of the store, whose directory is [dir] (:205-208).  kConfig.toplevel_build_file is the
    default of :92. *)
Definition tidy_start (hash : text -> N) (a : around) : start :=
  if negb (a_exists a (tidy_config a)) then Refuse (tx "Need a " ++ tidy_config a ++ tx " config file." ++ [ch_newline])
  else if negb (a_stamp a (tx ".clang-tidy")) then
    Refuse (tx "Script needs to be executed in toplevel project dir." ++ [ch_newline])
  else if negb (a_stamp a (tx "compile_commands.json")) && negb (a_stamp a (tx "compile_flags.txt")) then
    Refuse (tx "No compilation db compile_commands.json or compile_flags.txt found; create that first. For cmake projects, often simply" ++
            [ch_newline; ascii_of_N 9] ++ tx "ln -s build/compile_commands.json ." ++ [ch_newline])
  else match project_dir hash a with
       | None => Refuse (tx "Could not invoke " ++ tidy_program a ++ tx "; is it in PATH ?" ++ [ch_newline])
       | Some d => Begin (path_join d (tx "contents"))
       end.

(** ** The number of workers *)
(** atoi (:262) is strtol cut to 32 bits: white space, a sign, digits; values outside 64 bits saturate. *)
Fixpoint digits_value (acc : Z) (s : text) : Z :=
  match s with
  | c :: r => if is_digit c then digits_value (10 * acc + Z.of_N (ccode c - 48)) r else acc
  | [] => acc
  end.
Definition c_atoi (s : text) : Z :=
  let s := strip_leading s in
  let v := match s with
           | "-"%char :: r => (- digits_value 0 r)%Z
           | "+"%char :: r => digits_value 0 r
           | _ => digits_value 0 s
           end in
  let l := Z.max (- 2 ^ 63) (Z.min (2 ^ 63 - 1) v) in
  let u := (l mod 2 ^ 32)%Z in
  if (u <? 2 ^ 31)%Z then u else (u - 2 ^ 32)%Z.
(** :261-264, :314: how many threads are started; hardware_concurrency() is at most 2^31 - 1. *)
Definition workers (a : around) : nat :=
  let n := match a_env a (tx "CLANG_TIDY_JOBS") with Some s => c_atoi s | None => (-1)%Z end in
  Z.to_nat (if (0 <? n)%Z then n else Z.of_N (a_cores a)).

(** ** The clean-up of paths in the output *)
(** :407-414 the directories in the regular expression, in order: the execution root of bazel without the last character of
    the command's output, the working directory. *)
Definition repair_roots (a : around) : list text :=
  match a_output a (tx "bazel info execution_root 2>/dev/null") with
  | [] => []
  | o => [removelast o]
  end ++ [a_cwd a].
(** The characters of regular expressions; a root with one of them other than the dot is not modelled. *)
Definition regex_char (c : ascii) : bool := existsb (Ascii.eqb c) (list_ascii_of_string "^$\*+?()[]{}|").
(** A root and its slash at the start of [s], as an ECMAScript pattern: a dot stands for any character but a line
    terminator.  The rest of [s]. *)
Fixpoint match_root (root s : text) : option text :=
  match root, s with
  | [], _ => expect "/" s
  | c :: p, x :: r => if (if Ascii.eqb c "." then any_char x else Ascii.eqb c x) then match_root p r else None
  | _ :: _, [] => None
  end.
(** :406-416 the second group, (root1/|root2/)?: the first alternative that fits *)
Fixpoint drop_root (roots : list text) (s : text) : text :=
  match roots with
  | [] => s
  | r :: rs => match match_root r s with Some s' => s' | None => drop_root rs s end
  end.
(** :416 the third group, [(\./)?] *)
Definition drop_dot (s : text) : text :=
  match s with
  | "."%char :: "/"%char :: r => r
  | _ => s
  end.
(** :421 regex_replace with $1.  The expression can only match at the start of the text and at line ends, where it always
    does (all but its first group is optional), and $1 is what it found there: nothing or the line end. *)
Fixpoint repair_fuel (fuel : nat) (roots : list text) (s : text) : text :=
  match fuel with
  | O => []
  | S f =>
      let '(line, rest) := span (fun c => negb (Ascii.eqb c ch_newline)) (drop_dot (drop_root roots s)) in
      line ++ match rest with [] => [] | n :: r => n :: repair_fuel f roots r end
  end.
Definition repair_text (roots : list text) (s : text) : text := repair_fuel (S (List.length s)) roots s.
(** :405-421; None: outside the model. *)
Definition repair (roots : list text) (s : text) : option text :=
  if existsb (existsb regex_char) roots then None else Some (repair_text roots s).
