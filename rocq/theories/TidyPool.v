(** Model of the worker threads of scripts/run-clang-tidy-cached.cc (:256-323 RunClangTidyOn): any number of processes, each
    with any number of threads, over one file system, in any interleaving.  Line numbers are of that file. *)
From Verif Require Import Base Absl Tidy.

(** ** Files.  A directory maps names to files (inodes); an open file stays the same file when its name changes. *)
Record fsys := { fs_dir : text -> option nat; fs_data : nat -> text; fs_next : nat }.

Definition set_dir (p : text) (o : option nat) (d : text -> option nat) : text -> option nat :=
  fun q => if text_eqb q p then o else d q.
Definition set_data (i : nat) (s : text) (d : nat -> text) : nat -> text :=
  fun j => if Nat.eqb j i then s else d j.

(** open(2) with O_CREAT|O_TRUNC: the [>] of the shell (:293-295) and std::fstream(.., ios::out) (:422). *)
Definition open_trunc (p : text) (fs : fsys) : fsys * nat :=
  match fs_dir fs p with
  | Some i => ({| fs_dir := fs_dir fs; fs_data := set_data i [] (fs_data fs); fs_next := fs_next fs |}, i)
  | None =>
      let i := fs_next fs in
      ({| fs_dir := set_dir p (Some i) (fs_dir fs); fs_data := set_data i [] (fs_data fs); fs_next := S i |}, i)
  end.
(** write(2) of [s] at offset [off]; a gap reads as zero bytes. *)
Definition overwrite (off : nat) (s c : text) : text :=
  firstn off (c ++ repeat (ascii_of_N 0) (off - List.length c)) ++ s ++ skipn (off + List.length s) c.
Definition write_file (i off : nat) (s : text) (fs : fsys) : fsys :=
  {| fs_dir := fs_dir fs; fs_data := set_data i (overwrite off s (fs_data fs i)) (fs_data fs); fs_next := fs_next fs |}.
(** The content of a named file. *)
Definition content (fs : fsys) (p : text) : option text := option_map (fs_data fs) (fs_dir fs p).
(** :172-180 GetContent: a file that cannot be opened reads as empty.  Modelled as one step. *)
Definition get_content (fs : fsys) (p : text) : text := match content fs p with Some c => c | None => [] end.
(** :303 fs::remove, errors ignored *)
Definition remove_file (p : text) (fs : fsys) : fsys :=
  {| fs_dir := set_dir p None (fs_dir fs); fs_data := fs_data fs; fs_next := fs_next fs |}.
(** :309 fs::rename: atomic; throws if there is no such file. *)
Definition rename_file (a b : text) (fs : fsys) : option fsys :=
  match fs_dir fs a with
  | None => None
  | Some i => Some {| fs_dir := set_dir b (Some i) (set_dir a None (fs_dir fs)); fs_data := fs_data fs; fs_next := fs_next fs |}
  end.

(** :289-290 the temporary file of a work item in the process with id [pid] *)
Definition tmp_for (dir pid : text) (w : work) : text := path_for dir w ++ tx "." ++ pid ++ tx ".tmp".

(** ** A thread: where it is in the loop of :275-311 *)
Inductive stage :=
| Fetch                                                          (** :276-288, about to lock the queue *)
| Have (w : work)                                                (** :289-296, about to start clang-tidy *)
| Running (w : work) (i off : nat) (rest : text)                 (** :296, clang-tidy has [rest] still to write to file [i] *)
| Ended (w : work) (interrupted : bool)                          (** :297-306, it is over; ended by SIGINT or SIGQUIT? *)
| Loaded (w : work) (c : text)                                   (** :420-421, the output has been read *)
| Writing (w : work) (i off : nat) (rest : text)                 (** :422-423, [rest] of the filtered output still to be written *)
| Written (w : work)                                             (** :309, about to rename *)
| Done.                                                          (** :280, :304 *)

(** What the processes do is recorded: [s_given] the work list each was started with, [s_lost] the items that were
    interrupted, [s_aborted] the processes ended by an exception. *)
Record sys := {
  s_fs : fsys;
  s_queue : text -> list work;
  s_threads : list (text * stage);
  s_given : list (text * list work);
  s_lost : list (text * work);
  s_dead : list text;
  s_aborted : list text
}.
Definition set_queue (p : text) (q : list work) (f : text -> list work) : text -> list work :=
  fun x => if text_eqb x p then q else f x.

(** The fixed surroundings: the cache directory, what clang-tidy writes for an item in a process before it ends by itself
    (whatever its exit status, which :296-306 ignores), the path clean-up of :405-421. *)
Record setting := { g_dir : text; g_out : text -> work -> text; g_repair : text -> text }.

(** clang-tidy writes; it goes on when the process that started it is gone. *)
Inductive child_step (fs : fsys) : stage -> fsys -> stage -> Prop :=
| child_write : forall w i off a b, a <> [] ->
    child_step fs (Running w i off (a ++ b)) (write_file i off a fs) (Running w i (off + List.length a) b).

(** The steps of a thread of process [p]; the queue of the process before and after. *)
Inductive own_step (g : setting) (p : text) (fs : fsys) : list work -> stage -> fsys -> list work -> stage -> Prop :=
| own_stop : own_step g p fs [] Fetch fs [] Done
| own_take : forall w q, own_step g p fs (w :: q) Fetch fs q (Have w)
| own_open : forall q w fs' i, open_trunc (tmp_for (g_dir g) p w) fs = (fs', i) ->
    own_step g p fs q (Have w) fs' q (Running w i 0 (g_out g p w))
| own_exit : forall q w i off, own_step g p fs q (Running w i off []) fs q (Ended w false)
| own_interrupt : forall q w i off rest, own_step g p fs q (Running w i off rest) fs q (Ended w true)
| own_load : forall q w,
    own_step g p fs q (Ended w false) fs q (Loaded w (get_content fs (tmp_for (g_dir g) p w)))
| own_create : forall q w c fs' i, open_trunc (tmp_for (g_dir g) p w) fs = (fs', i) ->
    own_step g p fs q (Loaded w c) fs' q (Writing w i 0 (cleaned (g_repair g) (fst w) c))
| own_flush : forall q w i off a b, a <> [] ->
    own_step g p fs q (Writing w i off (a ++ b)) (write_file i off a fs) q (Writing w i (off + List.length a) b)
| own_close : forall q w i off, own_step g p fs q (Writing w i off []) fs q (Written w)
| own_rename : forall q w fs', rename_file (tmp_for (g_dir g) p w) (path_for (g_dir g) w) fs = Some fs' ->
    own_step g p fs q (Written w) fs' q Fetch.

(** A step of a thread. *)
Inductive thread_step (g : setting) (s : sys) : sys -> Prop :=
| ts_own : forall l r p st fs' q' st',
    s_threads s = l ++ (p, st) :: r -> ~ In p (s_dead s) ->
    own_step g p (s_fs s) (s_queue s p) st fs' q' st' ->
    thread_step g s {| s_fs := fs'; s_queue := set_queue p q' (s_queue s); s_threads := l ++ (p, st') :: r;
                       s_given := s_given s; s_lost := s_lost s; s_dead := s_dead s; s_aborted := s_aborted s |}
| ts_child : forall l r p st fs' st',
    s_threads s = l ++ (p, st) :: r -> child_step (s_fs s) st fs' st' ->
    thread_step g s {| s_fs := fs'; s_queue := s_queue s; s_threads := l ++ (p, st') :: r;
                       s_given := s_given s; s_lost := s_lost s; s_dead := s_dead s; s_aborted := s_aborted s |}
(** :300-304 after an interrupt the thread removes its file and ends *)
| ts_quit : forall l r p w,
    s_threads s = l ++ (p, Ended w true) :: r -> ~ In p (s_dead s) ->
    thread_step g s {| s_fs := remove_file (tmp_for (g_dir g) p w) (s_fs s); s_queue := s_queue s;
                       s_threads := l ++ (p, Done) :: r; s_given := s_given s; s_lost := (p, w) :: s_lost s;
                       s_dead := s_dead s; s_aborted := s_aborted s |}
(** :309 a failing rename throws; no thread catches it, so the process is ended *)
| ts_abort : forall l r p w,
    s_threads s = l ++ (p, Written w) :: r -> ~ In p (s_dead s) ->
    rename_file (tmp_for (g_dir g) p w) (path_for (g_dir g) w) (s_fs s) = None ->
    thread_step g s {| s_fs := s_fs s; s_queue := s_queue s; s_threads := s_threads s; s_given := s_given s;
                       s_lost := s_lost s; s_dead := p :: s_dead s; s_aborted := p :: s_aborted s |}.

(** What happens around them: a process is killed at any moment; a new process, with an id not used before, builds its work
    list and starts its [jobs] threads (:313-316). *)
Inductive sys_step (ok : list work -> Prop) (g : setting) (s : sys) : sys -> Prop :=
| ss_thread : forall s', thread_step g s s' -> sys_step ok g s s'
| ss_kill : forall p,
    sys_step ok g s {| s_fs := s_fs s; s_queue := s_queue s; s_threads := s_threads s; s_given := s_given s;
                       s_lost := s_lost s; s_dead := p :: s_dead s; s_aborted := s_aborted s |}
| ss_start : forall p jobs q, ~ In p (map fst (s_given s)) -> forallb is_digit p = true -> ok q ->
    sys_step ok g s {| s_fs := s_fs s; s_queue := set_queue p q (s_queue s);
                       s_threads := s_threads s ++ repeat (p, Fetch) jobs; s_given := (p, q) :: s_given s;
                       s_lost := s_lost s; s_dead := s_dead s; s_aborted := s_aborted s |}.

Inductive reach (ok : list work -> Prop) (g : setting) (s : sys) : sys -> Prop :=
| reach_here : reach ok g s s
| reach_step : forall t u, reach ok g s t -> sys_step ok g t u -> reach ok g s u.

(** No process has been started; the cache may hold anything. *)
Definition idle (fs : fsys) : sys :=
  {| s_fs := fs; s_queue := fun _ => []; s_threads := []; s_given := []; s_lost := []; s_dead := []; s_aborted := [] |}.
(** A file system where every name has its own file. *)
Definition fs_ok (fs : fsys) : Prop :=
  (forall p q i, fs_dir fs p = Some i -> fs_dir fs q = Some i -> p = q) /\
  (forall p i, fs_dir fs p = Some i -> (i < fs_next fs)%nat).

(** :520-566, :617-621 the end of main, on the files as they are then: the exit status and the summary.  A thread ended by
    an interrupt does not change it. *)
Definition report (g : setting) (fs : fsys) (files : list work) : text * list (text * N) :=
  collect (fun w => get_content fs (path_for (g_dir g) w)) files.
Definition tidy_status (g : setting) (fs : fsys) (files : list work) : N := exit_status (snd (report g fs files)).
Definition tidy_summary (g : setting) (fs : fsys) (files : list work) : list (text * N) := by_count (snd (report g fs files)).
