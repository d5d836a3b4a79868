(** What is claimed of the cached clang-tidy, without its code: the specification used by P_TidyPool.v, P_TidyKey.v and
    P_TidyReport.v. *)
From Verif Require Import Base Absl Tidy TidyPool.

(** ** The cache *)
(** What process [p] gets for an item: the output of clang-tidy for it, cleaned up. *)
Definition result (g : setting) (p : text) (w : work) : text := cleaned (g_repair g) (fst w) (g_out g p w).
(** No two items of a work list share a cache entry. *)
Definition distinct_entries (g : setting) (q : list work) : Prop := NoDup (map (path_for (g_dir g)) q).
(** The whole result of one of the processes started, for an item of its work list with this entry. *)
Definition whole_result (g : setting) (s : sys) (f c : text) : Prop :=
  exists p q w, In (p, q) (s_given s) /\ In w q /\ path_for (g_dir g) w = f /\ c = result g p w.
(** The process has started at least one thread, all of them have ended, and no clang-tidy of it was interrupted. *)
Definition finished (p : text) (s : sys) : Prop :=
  In p (map fst (s_threads s)) /\ (forall st, In (p, st) (s_threads s) -> st = Done) /\ (forall w, ~ In (p, w) (s_lost s)).
(** Process [p] has just been started with work list [q]. *)
Definition started (p : text) (q : list work) (jobs : nat) (s : sys) : sys :=
  {| s_fs := s_fs s; s_queue := set_queue p q (s_queue s); s_threads := s_threads s ++ repeat (p, Fetch) jobs;
     s_given := (p, q) :: s_given s; s_lost := s_lost s; s_dead := s_dead s; s_aborted := s_aborted s |}.
(** fs::exists of an entry *)
Definition exists_in (fs : fsys) (f : text) : bool := match content fs f with Some _ => true | None => false end.

(** ** The cache key *)
(** The last component of a path. *)
Definition base_name (p b : text) : Prop := ~ In "/"%char b /\ (p = b \/ exists d, p = d ++ "/"%char :: b).
(** A path ending in one of these extensions, with something before it. *)
Definition has_extension (p : text) (exts : list text) : Prop :=
  exists b stem e, base_name p b /\ stem <> [] /\ In e exts /\ b = stem ++ e.
Definition header_extensions : list text := [tx ".h"; tx ".hpp"; tx ".hxx"; tx ".inl"].
Definition source_extensions : list text := [tx ".cc"; tx ".cpp"; tx ".cxx"; tx ".h"; tx ".hpp"; tx ".hxx"; tx ".inl"].
(** Not one of ours: below .git, .github or build. *)
Definition outside (p : text) : Prop := exists d r, In d [tx ".git"; tx ".github"; tx "build"] /\ p = d ++ tx "/" ++ r.

(** The contents of the project's headers with base name [b] are [l], in the order of the directory. *)
Inductive headers_named (b : text) : tree -> list text -> Prop :=
| hn_nil : headers_named b [] []
| hn_yes : forall p c t l, ~ outside p -> has_extension p header_extensions -> base_name p b ->
    headers_named b t l -> headers_named b ((p, c) :: t) (c :: l)
| hn_no : forall p c t l, outside p \/ ~ has_extension p header_extensions \/ ~ base_name p b ->
    headers_named b t l -> headers_named b ((p, c) :: t) l.

(** A quoted include directive for [h]. *)
Definition name_part (c : ascii) : Prop := is_digit c = true \/ is_letter c = true \/ In c ["_"; "/"; "-"]%char.
Definition directive (d h : text) : Prop :=
  exists s1 s2 n e,
    d = tx "#" ++ s1 ++ tx "include" ++ s2 ++ [ch_quote] ++ n ++ tx "." ++ e ++ [ch_quote] /\ h = n ++ tx "." ++ e /\
    Forall (fun c => is_space c = true) s1 /\ Forall (fun c => is_space c = true) s2 /\ s2 <> [] /\
    Forall name_part n /\ n <> [] /\ Forall (fun c => is_letter c = true) e /\ e <> [].
(** The directives of a file: one for every place where one starts, in order. *)
Inductive directives : text -> list text -> Prop :=
| dr_nil : directives [] []
| dr_here : forall c s d h r l, c :: s = d ++ r -> directive d h -> directives s l -> directives (c :: s) (h :: l)
| dr_not : forall c s l, (forall d h r, c :: s = d ++ r -> ~ directive d h) -> directives s l -> directives (c :: s) l.

(** All bits of all numbers together, the parity of each. *)
Fixpoint xor_all (l : list N) : N := match l with [] => 0 | x :: r => N.lxor x (xor_all r) end.
(** The key of a file with content [c] is [k]: the hash of its content, combined with the hashes of all headers that have the
    base name of something it includes. *)
Definition key_is (hash : text -> N) (t : tree) (c : text) (k : N) : Prop :=
  exists incs parts, directives c incs /\
    Forall2 (fun inc part => exists b hs, base_name inc b /\ headers_named b t hs /\ part = map hash hs) incs parts /\
    k = xor_all (hash c :: concat parts).

(** ** Lines with complaints *)
Definition letter_or (l : list ascii) (c : ascii) : Prop := is_letter c = true \/ In c l.
Definition one_line (s : text) : Prop := ~ In ch_newline s /\ ~ In ch_return s.
(** The name of a check in brackets, with a dash in it. *)
Definition check_name (tag : text) : Prop :=
  exists a b, tag = tx "[" ++ a ++ tx "-" ++ b ++ tx "]" /\
    a <> [] /\ Forall (letter_or ["."%char]) a /\ b <> [] /\ Forall (letter_or ["."; "-"]%char) b.
(** A line that ends with the name of a check. *)
Definition complains (line tag : text) : Prop := exists pre, line = pre ++ tag /\ one_line pre /\ check_name tag.
Definition number (s : text) : Prop := s <> [] /\ Forall (fun c => is_digit c = true) s.
(** A complaint about a place in file [f]: [dir/f:line:column: ... [check-name]]. *)
Definition about (line f : text) : Prop :=
  exists pre l1 l2 rest tag, line = pre ++ f ++ tx ":" ++ l1 ++ tx ":" ++ l2 ++ tx ":" ++ rest /\
    (pre = [] \/ exists d, pre = d ++ tx "/" /\ one_line d) /\ f <> [] /\ ~ In "/"%char f /\
    number l1 /\ number l2 /\ complains rest tag.

(** A text as its lines, each with its newline, and what follows the last newline. *)
Definition lines_of (s : text) (ls : list text) (part : text) : Prop :=
  s = flat_map (fun l => l ++ [ch_newline]) ls ++ part /\ Forall (fun l => ~ In ch_newline l) ls /\ ~ In ch_newline part.

(** Line [i] belongs to the complaint about [f] that was the last one to start at or before it. *)
Definition belongs (file_of : text -> option text) (ls : list text) (i : nat) (f : text) : Prop :=
  exists j l, (j <= i)%nat /\ nth_error ls j = Some l /\ file_of l = Some f /\
    forall k m, (j < k <= i)%nat -> nth_error ls k = Some m -> file_of m = None.
(** ... or comes before all complaints. *)
Definition belongs_to_none (file_of : text -> option text) (ls : list text) (i : nat) : Prop :=
  forall j l, (j <= i)%nat -> nth_error ls j = Some l -> file_of l = None.

(** The lines of a list that are marked. *)
Fixpoint chosen (ls : list text) (bs : list bool) : list text :=
  match ls, bs with l :: ls', b :: bs' => (if b then [l] else []) ++ chosen ls' bs' | _, _ => [] end.
(** The lines that are counted: a complaint, unless the line before it is counted. *)
Definition counted (ls : list text) (bs : list bool) : Prop :=
  List.length bs = List.length ls /\
  forall i l b, nth_error ls i = Some l -> nth_error bs i = Some b ->
    (b = true <-> (exists tag, complains l tag) /\ (i = 0%nat \/ nth_error bs (i - 1) = Some false)).

(** The order of the summary: the more frequent first, otherwise by name. *)
Definition text_before (a b : text) : Prop :=
  exists p, (a = p /\ exists c r, b = p ++ c :: r) \/
    (exists x y r r', a = p ++ x :: r /\ b = p ++ y :: r' /\ N_of_ascii x < N_of_ascii y).
Definition row_before (a b : text * N) : Prop := snd b < snd a \/ (snd a = snd b /\ text_before (fst a) (fst b)).
