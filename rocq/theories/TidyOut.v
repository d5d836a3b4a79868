(** Model of the end of scripts/run-clang-tidy-cached.cc: the report files, the links to them and what is said.  All line numbers are of
    that file. *)
From Verif Require Import Base Absl Tidy TidyPool TidyCmd.

(** Regular files (TidyPool.v), symbolic links, and the names at which nothing can be removed, created or opened for writing (a directory
    with something in it, no permission).  Simplification: names are texts, and a name in the cache directory is never a symbolic link. *)
Record disk := { k_fs : fsys; k_link : text -> option text; k_stuck : text -> bool }.
Definition set_fs (fs : fsys) (k : disk) : disk := {| k_fs := fs; k_link := k_link k; k_stuck := k_stuck k |}.
Definition set_link (p : text) (o : option text) (k : disk) : disk :=
  {| k_fs := k_fs k; k_link := fun q => if text_eqb q p then o else k_link k q; k_stuck := k_stuck k |}.

(** fs::remove with an error code (:533, :560): the name itself, not what a link points to. *)
Definition remove_name (p : text) (k : disk) : disk :=
  if k_stuck k p then k else set_link p None (set_fs (remove_file p (k_fs k)) k).
(** fs::create_symlink with an error code (:534, :561): nothing happens if the name is taken. *)
Definition symlink (target p : text) (k : disk) : disk :=
  if k_stuck k p then k
  else match fs_dir (k_fs k) p, k_link k p with
       | None, None => set_link p (Some target) k
       | _, _ => k
       end.
(** Opening for writing: ofstream (:519), fopen "wb" (:553); the file, if it could be opened. *)
Definition open_out (p : text) (k : disk) : disk * option nat :=
  if k_stuck k p then (k, None) else let '(fs, i) := open_trunc p (k_fs k) in (set_fs fs k, Some i).
(** Everything written to an open file. *)
Definition put_all (i : nat) (s : text) (k : disk) : disk := set_fs (write_file i 0 s (k_fs k)) k.

(** :509-512 the names of the report files *)
Definition report_name (hash : text -> N) (cwd cache_dir start : text) : text :=
  path_join cache_dir (start ++ to_hex 16 (hash cwd)).
Definition detail_file hash cwd cache_dir := report_name hash cwd cache_dir (tx "tidy.out-").
Definition summary_file hash cwd cache_dir := report_name hash cwd cache_dir (tx "tidy-summary.out-").

(** :172-177 what GetContent says about a file that is not there; [why] is strerror. *)
Definition cannot_open (why : text) (fs : fsys) (p : text) : text :=
  match content fs p with Some _ => [] | None => p ++ tx ": can't open: " ++ why ++ [ch_newline] end.

(** The file system afterwards, standard output, standard error, what is returned. *)
Record reported := { r_disk : disk; r_out : text; r_err : text; r_count : N }.

(** :505-564 CreateReport; [contents] is the directory of the entries (:206).  The int of a count (:517) does not overflow.  With a null
    file pointer (:553) fprintf and fclose are undefined. *)
Definition create_report (hash : text -> N) (why cwd cache_dir contents link_detail link_summary : text) (files : list work) (k : disk) : outcome reported :=
  let detail := detail_file hash cwd cache_dir in
  let summ := summary_file hash cwd cache_dir in
  let '(k, out) := open_out detail k in
  let entry := fun w => path_for contents w in
  let '(collected, seen) := collect (fun w => get_content (k_fs k) (entry w)) files in
  let missing := flat_map (fun w => cannot_open why (k_fs k) (entry w)) files in
  let k := match out with Some i => put_all i collected k | None => k end in
  let k := symlink detail link_detail (remove_name link_detail k) in
  let headline := match seen with
    | [] => tx "No clang-tidy complaints. 😎" ++ [ch_newline]
    | _ => tx "Details: " ++ link_detail ++ [ch_newline] ++ tx "Summary: " ++ link_summary ++ [ch_newline] ++ tx "---- Summary ----" ++ [ch_newline]
    end in
  let '(k, out) := open_out summ k in
  match out with
  | None => UB
  | Some i =>
      let k := put_all i (summary seen) k in
      let k := symlink summ link_summary (remove_name link_summary k) in
      Ok {| r_disk := k; r_out := summary seen; r_err := missing ++ headline; r_count := N.of_nat (List.length seen) |}
  end.

(** :614-621 the end of main(): the disk, what is written to the two streams and the exit status; [dir] is the project's cache directory (:606). *)
Definition tidy_end (hash : text -> N) (why : text) (a : around) (dir : text) (files : list work) (k : disk) : outcome (reported * N) :=
  omap (fun r => (r, if r_count r =? 0 then 0 else 1))
    (create_report hash why (a_cwd a) dir (path_join dir (tx "contents")) (cache_prefix a ++ tx "clang-tidy.out")
       (cache_prefix a ++ tx "clang-tidy.summary") files k).
