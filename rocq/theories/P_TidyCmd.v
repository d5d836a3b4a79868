(** C100-C103: the command, the cache directory, the clean-up of paths and the start of scripts/run-clang-tidy-cached.cc. *)
From Verif Require Import Base BaseFacts Absl Print Tidy TidyPool TidyFacts TidyKeyFacts TidySpec TidyCmd TidyCmdSpec TidyCmdFacts P_TidyPool.

(** ** C100: the command *)
(** Whatever characters but apostrophes are in the name of the file, the directories and the arguments (blanks, newlines, dollar
    signs, semicolons), the shell runs the program named by CLANG_TIDY with exactly these words, sends what it prints to the temporary
    file of the item and throws its error messages away. *)
Theorem C100_command a dir pid w prog : shell (tidy_program a) = Some (prog, []) ->
  forallb is_digit pid = true -> unquoted dir -> unquoted (fst w) -> unquoted (tidy_config a) -> (forall x, In x (a_args a) -> unquoted x) ->
  shell (command a dir pid w) =
  Some (prog ++ [fst w; tx "--quiet"; tx "--config-file=" ++ tidy_config a;
                 tx "--extra-arg=-Wno-unknown-pragmas"; tx "--extra-arg=-Wno-unknown-warning-option"] ++ a_args a,
        [(tx "1", tmp_for dir pid w); (tx "2", tx "/dev/null")]).
Proof.
  intros S P D F C X. unfold shell in S. destruct (tokens None true false (tidy_program a)) as [[|[v|fd] ts]|] eqn:T; try discriminate.
  destruct (command_name v) eqn:CN; [|discriminate].
  unfold shell. rewrite (tokens_command a dir pid w _ T F C X (tmp_unquoted dir pid w D P F)).
  cbn [app]. rewrite CN.
  assert (E : Word v :: ts = map Word prog).
  { clear - S. revert S. generalize (Word v :: ts). intros l. revert prog. induction l as [|[x|x] l IH]; intros prog S; cbn [simple] in S.
    - injection S as <-. reflexivity.
    - destruct (simple l) as [[ws rs]|]; [|discriminate]. cbn [option_map fst snd] in S. injection S as <- ->. cbn [map]. f_equal. now apply IH.
    - destruct l as [|[y|y] l]; try discriminate. destruct (simple l) as [[ws rs]|]; discriminate. }
  change (Word v :: ts ++ ?r) with ((Word v :: ts) ++ r). rewrite E. rewrite app_assoc, <- map_app, simple_words.
  cbn [simple option_map fst snd]. now rewrite app_nil_r.
Qed.

(** The file to look at is always the argument right behind the program and the results of two items never go to the same file unless
    the items share their cache entry. *)
Theorem C100_own_file a dir pid w w' prog x x' : shell (tidy_program a) = Some (prog, []) ->
  forallb is_digit pid = true -> unquoted dir -> unquoted (fst w) -> unquoted (fst w') -> unquoted (tidy_config a) ->
  (forall x, In x (a_args a) -> unquoted x) ->
  shell (command a dir pid w) = Some x -> shell (command a dir pid w') = Some x' ->
  (fst x = fst x' <-> fst w = fst w') /\ (snd x = snd x' <-> path_for dir w = path_for dir w').
Proof.
  intros S P D F F' C X E E'. rewrite (C100_command _ _ _ _ _ S P D F C X) in E. rewrite (C100_command _ _ _ _ _ S P D F' C X) in E'.
  apply (f_equal (fun o => match o with Some v => v | None => x end)) in E, E'. cbn iota in E, E'. rewrite <- E, <- E'. cbn [fst snd]. split.
  - split.
    + intros H. apply app_inv_head in H. cbn [app] in H. now injection H.
    + intros H. now rewrite H.
  - split.
    + intros H. assert (T : tmp_for dir pid w = tmp_for dir pid w') by congruence. unfold tmp_for in T. now apply app_inv_tail in T.
    + intros H. unfold tmp_for. now rewrite H.
Qed.

(** The program and the configuration file are what CLANG_TIDY and CLANG_TIDY_CONFIG say, else clang-tidy and .clang-tidy. *)
Theorem C100_settings a :
  (forall p, a_env a (tx "CLANG_TIDY") = Some p -> tidy_program a = p) /\
  (a_env a (tx "CLANG_TIDY") = None -> tidy_program a = tx "clang-tidy") /\
  (forall c, a_env a (tx "CLANG_TIDY_CONFIG") = Some c -> tidy_config a = c) /\
  (a_env a (tx "CLANG_TIDY_CONFIG") = None -> tidy_config a = tx ".clang-tidy").
Proof.
  unfold tidy_program, tidy_config, env_or. repeat split; [intros p ->|intros ->|intros c ->|intros ->]; reflexivity.
Qed.

Definition ex_around : around := {|
  a_env := fun v => if text_eqb v (tx "CLANG_TIDY") then Some (tx "nice clang-tidy-18") else
                    if text_eqb v (tx "HOME") then Some (tx "/home/me") else None;
  a_exists := fun p => text_eqb p (tx ".clang-tidy") || text_eqb p (tx "/home/me/.cache/");
  a_stamp := fun p => text_eqb p (tx ".clang-tidy") || text_eqb p (tx "compile_flags.txt");
  a_file := fun p => if text_eqb p (tx ".clang-tidy") then tx "Checks: *" else [];
  a_output := fun c => if text_eqb c (tx "nice clang-tidy-18 --version") then tx "LLVM version 18.1.3" else [];
  a_cwd := tx "/src/fpga.as"; a_args := [tx "--fix me; $HOME"]; a_cores := 4 |}.
Example C100_case : shell (command ex_around (tx "/c") (tx "77") (tx "fpga/a b.cc", 5)) =
  Some ([tx "nice"; tx "clang-tidy-18"; tx "fpga/a b.cc"; tx "--quiet"; tx "--config-file=.clang-tidy";
         tx "--extra-arg=-Wno-unknown-pragmas"; tx "--extra-arg=-Wno-unknown-warning-option"; tx "--fix me; $HOME"],
        [(tx "1", tx "/c/a b.cc-0000000000000005.77.tmp"); (tx "2", tx "/dev/null")]) /\
  shell (tidy_program ex_around) = Some ([tx "nice"; tx "clang-tidy-18"], []).
Proof. split; vm_compute; reflexivity. Qed.
Definition ex_plain : around := {|
  a_env := fun _ => None; a_exists := a_exists ex_around; a_stamp := a_stamp ex_around; a_file := a_file ex_around;
  a_output := a_output ex_around; a_cwd := a_cwd ex_around; a_args := []; a_cores := 0 |}.
(** An apostrophe in the name of a source file: the file is not looked at, and the temporary file is not written, but the shell runs something. *)
Theorem C100_apostrophe_refuted : exists f ws out,
  shell (command ex_plain (tx "/c") (tx "77") (f, 5)) = Some (ws, out) /\ ~ In f ws /\ ~ In (tmp_for (tx "/c") (tx "77") (f, 5)) (map snd out).
Proof.
  exists (tx "it's.h"). eexists. eexists. split; [vm_compute; reflexivity|]. vm_compute. intuition discriminate.
Qed.

(** ** C101: the cache directory *)
(** Where caches live: in CACHE_DIR if that is set, else in ~/.cache if there is one, else in TMPDIR or /tmp. *)
Theorem C101_base a :
  (forall d, a_env a (tx "CACHE_DIR") = Some d -> cache_base a = d) /\
  (a_env a (tx "CACHE_DIR") = None ->
    (forall h, a_env a (tx "HOME") = Some h -> ~ (exists x, h = x ++ tx "/") -> h <> [] ->
       a_exists a (h ++ tx "/.cache/") = true -> cache_base a = h ++ tx "/.cache/") /\
    ((forall h, a_env a (tx "HOME") = Some h -> a_exists a (path_join h (tx ".cache/")) = false) ->
       (forall t, a_env a (tx "TMPDIR") = Some t -> cache_base a = t) /\
       (a_env a (tx "TMPDIR") = None -> cache_base a = tx "/tmp"))).
Proof.
  unfold cache_base, env_or. split; [intros d ->; reflexivity|]. intros ->. split.
  - intros h -> NS NE Ex.
    assert (J : path_join h (tx ".cache/") = h ++ tx "/.cache/").
    { unfold path_join. change (tx ".cache/") with ("."%char :: tx "cache/"). cbn iota.
      destruct (rev h) as [|c r] eqn:E; [exfalso; apply NE; rewrite <- (rev_involutive h), E; reflexivity|].
      destruct (Ascii.eqb_spec c "/") as [->|]; [|reflexivity]. exfalso. apply NS. exists (rev r).
      rewrite <- (rev_involutive h), E. reflexivity. }
    rewrite J, Ex. reflexivity.
  - intros H. assert (K : forall f : text, match a_env a (tx "HOME") with
       | Some h => let c := path_join h (tx ".cache/") in if a_exists a c then c else f | None => f end = f).
    { intros f. destruct (a_env a (tx "HOME")) as [h|]; [|reflexivity]. cbn zeta. now rewrite (H h eq_refl). }
    split; [intros t ->|intros ->]; apply K.
Qed.

Lemma dir_name_start b v i : ~ In "/"%char b ->
  match dir_name (b ++ tx "_") v i with c :: _ => c <> "/"%char | [] => False end.
Proof. intros H. destruct b as [|c b]; cbn [app dir_name]; [discriminate|]. intros ->. apply H. now left. Qed.

(** Two runs that keep their caches in the same place share one exactly if the last components of their working directories, the
    major versions of their clang-tidy and the low 32 bits of their fingerprints agree: the hash of version and arguments, combined with
    that of the configuration. *)
Theorem C101_shared hash a a' d d' v v' b b' : cache_base a = cache_base a' ->
  v = a_output a (tidy_program a ++ tx " --version") -> v' = a_output a' (tidy_program a' ++ tx " --version") ->
  base_name (a_cwd a) b -> base_name (a_cwd a') b' ->
  project_dir hash a = Some d -> project_dir hash a' = Some d' ->
  (d = d' <-> b = b' /\ (no_version v /\ no_version v' \/ exists n, version_number v n /\ version_number v' n) /\
              N.lxor (hash (v ++ assemble_args a)) (hash (a_file a (tidy_config a))) mod 2 ^ 32
              = N.lxor (hash (v' ++ assemble_args a')) (hash (a_file a' (tidy_config a'))) mod 2 ^ 32).
Proof.
  change (N.lxor (hash (v ++ assemble_args a)) _) with (cache_id hash a v).
  change (N.lxor (hash (v' ++ assemble_args a')) _) with (cache_id hash a' v').
  intros B -> -> N1 N2. unfold project_dir. rewrite B. set (v := a_output a _). set (v' := a_output a' _).
  destruct (nonempty v); [|discriminate]. destruct (nonempty v'); [|discriminate]. intros E E'.
  assert (E1 : d = path_join (path_join (cache_base a') (tx "clang-tidy")) (dir_name (b ++ tx "_") v (cache_id hash a v))).
  { unfold cache_prefix in E. apply base_name_iff in N1. rewrite N1 in E. congruence. }
  assert (E2 : d' = path_join (path_join (cache_base a') (tx "clang-tidy")) (dir_name (b' ++ tx "_") v' (cache_id hash a' v'))).
  { unfold cache_prefix in E'. apply base_name_iff in N2. rewrite N2 in E'. congruence. }
  clear E E'. set (i := cache_id hash a v) in *. set (i' := cache_id hash a' v') in *. clearbody i i' v v'.
  assert (Q : d = d' <-> dir_name (b ++ tx "_") v i = dir_name (b' ++ tx "_") v' i').
  { subst d d'. split; [|now intros ->]. apply path_join_inj.
    pose proof (dir_name_start b v i (proj1 N1)) as A1. pose proof (dir_name_start b' v' i' (proj1 N2)) as A2.
    destruct (dir_name (b ++ tx "_") v i), (dir_name (b' ++ tx "_") v' i'); auto. }
  rewrite Q, dir_name_inj.
  assert (M : major_version v = major_version v' <-> no_version v /\ no_version v' \/ exists n, version_number v n /\ version_number v' n).
  { unfold major_version. destruct (search_version v) as [n|] eqn:S, (search_version v') as [n'|] eqn:S'.
    - apply search_version_some in S, S'. split.
      + intros ->. right. eauto.
      + intros [[H _]|(m & A & A')]; [apply search_version_none in H; apply search_version_some in S; congruence|].
        rewrite (version_unique _ _ _ S A), (version_unique _ _ _ S' A'). reflexivity.
    - apply search_version_some in S. apply search_version_none in S'. split.
      + intros ->. destruct S as (? & ? & _ & (_ & D) & _). apply Forall_inv in D. discriminate.
      + intros [[H _]|(m & A & A')]; [apply search_version_none in H; apply search_version_some in S; congruence|].
        apply search_version_none in S'. apply search_version_some in A'. congruence.
    - apply search_version_none in S. apply search_version_some in S'. split.
      + intros <-. destruct S' as (? & ? & _ & (_ & D) & _). apply Forall_inv in D. discriminate.
      + intros [[_ H]|(m & A & A')]; [apply search_version_none in H; apply search_version_some in S'; congruence|].
        apply search_version_none in S. apply search_version_some in A. congruence.
    - apply search_version_none in S, S'. split; auto. }
  rewrite M. split.
  - intros (A & R). split; [now apply app_inv_tail in A|exact R].
  - intros (-> & R). split; [reflexivity|exact R].
Qed.

(** The same project with the same clang-tidy and arguments and another configuration file content: a new cache, unless the hashes of the two
    contents agree in their low 32 bits. *)
Theorem C101_config_change hash a a' d d' b : 
  a_env a' = a_env a -> a_exists a' = a_exists a -> a_output a' = a_output a -> a_args a' = a_args a -> 
  base_name (a_cwd a) b -> base_name (a_cwd a') b ->
  project_dir hash a = Some d -> project_dir hash a' = Some d' ->
  (d = d' <-> hash (a_file a (tidy_config a)) mod 2 ^ 32 = hash (a_file a' (tidy_config a)) mod 2 ^ 32).
Proof.
  intros Ee Ex Eo Ea N1 N2 P P'.
  assert (B : cache_base a' = cache_base a) by (unfold cache_base, env_or; now rewrite Ee, Ex).
  assert (T : tidy_program a' = tidy_program a) by (unfold tidy_program, env_or; now rewrite Ee).
  assert (C : tidy_config a' = tidy_config a) by (unfold tidy_config, env_or; now rewrite Ee).
  assert (G : assemble_args a' = assemble_args a) by (unfold assemble_args; now rewrite C, Ea).
  rewrite (C101_shared hash a a' d d' _ _ b b (eq_sym B) eq_refl eq_refl N1 N2 P P'). rewrite T, Eo. unfold cache_id. rewrite G, C.
  set (v := a_output a _). clearbody v. rewrite lxor_mod. split; [now intros (_ & _ & H)|]. intros H. split; [reflexivity|]. split; [|exact H].
  destruct (search_version v) as [n|] eqn:S; [right; exists n; apply search_version_some in S; auto|left; apply search_version_none in S; auto].
Qed.

(** Other arguments, or another configuration file, make another text to fingerprint, as long as no apostrophe is in them. *)
Theorem C101_arguments a a' : unquoted (tidy_config a) -> unquoted (tidy_config a') ->
  (forall x, In x (a_args a) -> unquoted x) -> (forall x, In x (a_args a') -> unquoted x) ->
  (assemble_args a = assemble_args a' <-> tidy_config a = tidy_config a' /\ a_args a = a_args a').
Proof.
  intros C C' X X'. split.
  - intros E.
    assert (G : forall z, unquoted (tidy_config z) -> (forall x, In x (a_args z) -> unquoted x) ->
      shell (tx "t" ++ assemble_args z) = Some (tx "t" :: tx "--quiet" :: (tx "--config-file=" ++ tidy_config z) ::
        tx "--extra-arg=-Wno-unknown-pragmas" :: tx "--extra-arg=-Wno-unknown-warning-option" :: a_args z, [])).
    { intros z Cz Xz. unfold assemble_args. set (cfg := tidy_config z) in *. clearbody cfg. set (args := a_args z) in *. clearbody args.
      set (more := List.concat (map (fun x => tx " '" ++ x ++ tx "'") args)).
      assert (Em : forall v, tokens (Some v) false false more = Some (map Word (v :: args))).
      { intros v. unfold more. pose proof (tokens_args args v [] Xz) as H. rewrite app_nil_r in H. rewrite H. cbn [tokens option_map ended].
        f_equal. rewrite <- (removelast_last args v), map_app. rewrite removelast_last. reflexivity. }
      clearbody more.
      replace (tx "t" ++ tx " --quiet" ++ (tx " '--config-file=" ++ cfg ++ tx "'") ++ List.concat (map (fun x => tx " --extra-arg='" ++ x ++ tx "'") extra_args) ++ more)
        with (tx "t" ++ (" "%char :: tx "--quiet" ++ (" "%char :: apostrophe :: (tx "--config-file=" ++ cfg) ++ apostrophe ::
          (" "%char :: tx "--extra-arg=" ++ apostrophe :: tx "-Wno-unknown-pragmas" ++ apostrophe ::
          (" "%char :: tx "--extra-arg=" ++ apostrophe :: tx "-Wno-unknown-warning-option" ++ apostrophe :: more))))).
      2: { cbn [map extra_args List.concat tx list_ascii_of_string app]. rewrite <- ?app_assoc. cbn [app]. rewrite <- ?app_assoc.
           cbn [app]. rewrite <- ?app_assoc. reflexivity. }
      unfold shell. rewrite tokens_word by (discriminate || reflexivity).
      rewrite tokens_plain by (discriminate || reflexivity).
      rewrite tokens_arg.
      2: { intros J. apply in_app_or in J as [J|J]; [|now apply Cz]. revert J. vm_compute. intuition discriminate. }
      rewrite tokens_mixed by (discriminate || reflexivity || (vm_compute; intuition discriminate)).
      rewrite tokens_mixed by (discriminate || reflexivity || (vm_compute; intuition discriminate)).
      rewrite Em. cbn [option_map ended app]. change (command_name (tx "t")) with true. cbn iota.
      pose proof (simple_words (tx "t" :: tx "--quiet" :: (tx "--config-file=" ++ cfg) ::
        tx "--extra-arg=-Wno-unknown-pragmas" :: tx "--extra-arg=-Wno-unknown-warning-option" :: args) []) as H.
      rewrite app_nil_r in H. cbn [map] in H. cbn [simple option_map fst snd app] in H. rewrite app_nil_r in H. exact H. }
    pose proof (G a C X) as H. rewrite E, (G a' C' X') in H.
    assert (Z : (tx "--config-file=" ++ tidy_config a') :: a_args a' = (tx "--config-file=" ++ tidy_config a) :: a_args a).
    { clear - H. injection H. intros -> ->. reflexivity. }
    assert (Z1 : tx "--config-file=" ++ tidy_config a' = tx "--config-file=" ++ tidy_config a) by congruence.
    apply app_inv_head in Z1. split; [now symmetry|congruence].
  - intros [E1 E2]. unfold assemble_args. now rewrite E1, E2.
Qed.
(** What the configuration says and what is hashed with the arguments are interchangeable: the fingerprint is their exclusive or, so a configuration
    whose text is the version output followed by the arguments has fingerprint 0, whatever it is. *)
Theorem C101_fingerprint_refuted hash a v : a_file a (tidy_config a) = v ++ assemble_args a -> cache_id hash a v = 0.
Proof. intros E. unfold cache_id. rewrite E. apply N.lxor_nilpotent. Qed.
Example C101_case : project_dir (fun s => 257 * N.of_nat (List.length s)) ex_around = Some (tx "/home/me/.cache/clang-tidy/fpga.as_v18_00009f9f").
Proof. vm_compute. reflexivity. Qed.

(** ** C102: the clean-up of paths *)
(** Every line loses the first of the roots that it is below of, then a "./" that follows, and nothing else changes: [roots] are directories
    without characters special in regular expressions, except for dots. *)
Theorem C102_lines roots s : (forall r, In r roots -> plain_root r) ->
  exists ls ls', ls <> [] /\ s = joined ls /\ (forall l, In l ls -> ~ In (ascii_of_N 10) l) /\
    Forall2 (short_line roots) ls ls' /\ repair roots s = Some (joined ls').
Proof.
  intros P. destruct (text_lines s) as (ls & NE & -> & H). exists ls, (map (fun l => drop_dot (drop_root roots l)) ls).
  split; [exact NE|]. split; [reflexivity|]. split; [exact H|]. split.
  - clear. induction ls as [|l ls IH]; constructor; [|exact IH]. exists (drop_root roots l). split; [apply drop_root_spec|apply drop_dot_spec].
  - unfold repair. replace (existsb (existsb regex_char) roots) with false.
    + f_equal. apply repair_fuel_lines; [|exact NE|apply joined_length|exact H]. intros x Hx. now apply plain_root_regex, P.
    + symmetry. rewrite <- not_true_iff_false. intros E. apply existsb_exists in E as (r & J & E).
      apply P, plain_root_regex in J as [J _]. congruence.
Qed.
(** The lines of a text and their short forms are unique, so the clean-up is determined. *)
Theorem C102_determined roots l l1 l2 : short_line roots l l1 -> short_line roots l l2 -> l1 = l2.
Proof.
  intros (m & A & B) (m' & A' & B'). apply without_root_unique in A, A'. apply without_dot_unique in B, B'. congruence.
Qed.
(** A message about a file below the working directory, when no execution root of bazel is in the way, names the file relative to it. *)
Theorem C102_relative root l : (forall x, l <> tx "./" ++ x) -> one_line root ->
  short_line [root] (root ++ tx "/" ++ l) l /\ short_line [root] (root ++ tx "/./" ++ l) l.
Proof.
  intros ND [O1 O2].
  assert (R : reads_as root root).
  { unfold reads_as. clear ND. induction root as [|c root IH]; constructor.
    - destruct (Ascii.eqb c "."); [|reflexivity]. split; intros ->; [apply O1|apply O2]; now left.
    - apply IH; intros J; [apply O1|apply O2]; now right. }
  split.
  - exists l. split; [|now constructor]. apply wr_here. exists root. auto.
  - exists (tx "./" ++ l). split; [|constructor]. apply wr_here. exists root. auto.
Qed.
(** Lines that are below no root and do not start with "./" stay as they are. *)
Theorem C102_untouched roots l : (forall r x, In r roots -> ~ below r l x) -> (forall x, l <> tx "./" ++ x) -> short_line roots l l.
Proof.
  intros H ND. exists l. split; [|now constructor]. induction roots as [|r rs IH]; [constructor|]. apply wr_next.
  - intros x. apply H. now left.
  - apply IH. intros r' x J. apply H. now right.
Qed.
(** Lines given as such. *)
Theorem C102_given roots ls ls' : (forall r, In r roots -> plain_root r) -> ls <> [] -> (forall l, In l ls -> ~ In (ascii_of_N 10) l) ->
  Forall2 (short_line roots) ls ls' -> repair roots (joined ls) = Some (joined ls').
Proof.
  intros P NE H S. unfold repair. replace (existsb (existsb regex_char) roots) with false.
  - f_equal. replace ls' with (map (fun l => drop_dot (drop_root roots l)) ls).
    + apply repair_fuel_lines; [|exact NE|apply joined_length|exact H]. intros x Hx. now apply plain_root_regex, P.
    + clear - S. induction S as [|l l' ls ls' S F IH]; [reflexivity|]. cbn [map]. f_equal; [|exact IH].
      eapply C102_determined; [|exact S]. exists (drop_root roots l). split; [apply drop_root_spec|apply drop_dot_spec].
  - symmetry. rewrite <- not_true_iff_false. intros E. apply existsb_exists in E as (r & J & E).
    apply P, plain_root_regex in J as [J _]. congruence.
Qed.
(** The program's own roots: what "bazel info execution_root" prints, if anything, without its line end, and the working directory.  Messages
    about files below either come out relative to it. *)
Theorem C102_project a bazel rel : 
  (a_output a (tx "bazel info execution_root 2>/dev/null") = [] \/
   a_output a (tx "bazel info execution_root 2>/dev/null") = bazel ++ [ascii_of_N 10] /\ plain_root bazel) ->
  plain_root (a_cwd a) -> one_line (a_cwd a) -> one_line bazel -> ~ In (ascii_of_N 10) rel -> (forall x, rel <> tx "./" ++ x) ->
  (a_output a (tx "bazel info execution_root 2>/dev/null") = [] \/ (forall x, ~ below bazel (a_cwd a ++ tx "/" ++ rel) x) ->
   repair (repair_roots a) (a_cwd a ++ tx "/" ++ rel) = Some rel) /\
  (a_output a (tx "bazel info execution_root 2>/dev/null") <> [] ->
   repair (repair_roots a) (bazel ++ tx "/" ++ rel) = Some rel).
Proof.
  intros B PC OC OB NR ND. unfold repair_roots. set (o := a_output a _) in *. clearbody o.
  assert (NC : ~ In (ascii_of_N 10) (a_cwd a ++ tx "/" ++ rel)).
  { intros J. apply in_app_or in J as [J|J]; [exact (proj1 OC J)|]. destruct J as [J|J]; [discriminate|contradiction]. }
  assert (NB : ~ In (ascii_of_N 10) (bazel ++ tx "/" ++ rel)).
  { intros J. apply in_app_or in J as [J|J]; [exact (proj1 OB J)|]. destruct J as [J|J]; [discriminate|contradiction]. }
  destruct (C102_relative (a_cwd a) rel ND OC) as [Rc _]. destruct (C102_relative bazel rel ND OB) as [Rb _].
  assert (Single : forall roots l l', (forall r, In r roots -> plain_root r) -> ~ In (ascii_of_N 10) l -> short_line roots l l' -> repair roots l = Some l').
  { intros roots l l' P N S. apply (C102_given roots [l] [l'] P); [discriminate|intros x [<-|[]]; exact N|]. constructor; [exact S|constructor]. }
  destruct B as [->|[-> PB]].
  - split; [|contradiction]. intros _. apply Single; auto. intros r [<-|[]]. exact PC.
  - assert (E : match bazel ++ [ascii_of_N 10] with [] => [] | _ => [removelast (bazel ++ [ascii_of_N 10])] end = [bazel]).
    { rewrite List.removelast_last. destruct bazel; reflexivity. }
    assert (E' : match bazel ++ [ascii_of_N 10] with [] => [] | c :: l => [removelast (c :: l)] end = [bazel]).
    { rewrite <- E. destruct bazel; reflexivity. }
    rewrite E'. split.
    + intros [H|H]; [destruct bazel; discriminate|]. apply Single; [|exact NC|].
      * intros r [<-|[<-|[]]]; assumption.
      * destruct Rc as (m & W & D). exists m. split; [|exact D]. apply wr_next; assumption.
    + intros _. apply Single; [|exact NB|].
      * intros r [<-|[<-|[]]]; assumption.
      * destruct Rb as (m & W & D). exists m. split; [|exact D]. cbn [app]. inversion W as [| ? ? ? ? Bl|? ? ? ? NBl]; subst.
        -- now apply wr_here.
        -- exfalso. apply (NBl rel). exists bazel. split; [|reflexivity]. unfold reads_as. clear - OB. destruct OB as [O1 O2].
           induction bazel as [|c root IH]; constructor.
           ++ destruct (Ascii.eqb c "."); [|reflexivity]. split; intros ->; [apply O1|apply O2]; now left.
           ++ apply IH; intros J; [apply O1|apply O2]; now right.
Qed.
Example C102_case : repair (repair_roots ex_around)
    (joined [tx "/src/fpga.as/./fpga/a.cc:1:2: bad [x-y]"; tx "/usr/include/s.h:3:4: bad [x-y]"; tx "  ./z"; tx "./fpga/b.cc:1:1: bad [x-y]"; tx ""]) =
  Some (joined [tx "fpga/a.cc:1:2: bad [x-y]"; tx "/usr/include/s.h:3:4: bad [x-y]"; tx "  ./z"; tx "fpga/b.cc:1:1: bad [x-y]"; tx ""]) /\
  forall r, In r (repair_roots ex_around) -> plain_root r.
Proof.
  split; [vm_compute; reflexivity|]. intros r [<-|[]]. split; [vm_compute; intuition discriminate|].
  vm_compute. repeat constructor; intuition discriminate.
Qed.
(** A dot in the name of the working directory stands for any character: a file of a sibling project is taken for one of this project. *)
Theorem C102_dot_refuted : repair (repair_roots ex_around) (tx "/src/fpga-as/fpga/a.cc:1:2: bad [x-y]") = Some (tx "fpga/a.cc:1:2: bad [x-y]").
Proof. vm_compute. reflexivity. Qed.
(** Cleaning up twice is not the same as once. *)
Theorem C102_idempotent_refuted : repair [tx "/src"] (tx "././a.cc") = Some (tx "./a.cc") /\ repair [tx "/src"] (tx "./a.cc") = Some (tx "a.cc").
Proof. vm_compute. auto. Qed.

(** ** C103: the start *)
(** A run begins exactly if the configuration file exists, the working directory has a .clang-tidy and a compilation database, and
    clang-tidy prints its version. *)
Theorem C103_begins hash a :
  (exists d, tidy_start hash a = Begin d) <->
  a_exists a (tidy_config a) = true /\ a_stamp a (tx ".clang-tidy") = true /\
  (a_stamp a (tx "compile_commands.json") = true \/ a_stamp a (tx "compile_flags.txt") = true) /\
  a_output a (tidy_program a ++ tx " --version") <> [].
Proof.
  unfold tidy_start, project_dir. destruct (a_exists a (tidy_config a)); cbn [negb]; [|split; [intros (d & H); discriminate|intros (H & _); discriminate]].
  destruct (a_stamp a (tx ".clang-tidy")); cbn [negb]; [|split; [intros (d & H); discriminate|intros (_ & H & _); discriminate]].
  destruct (a_stamp a (tx "compile_commands.json")), (a_stamp a (tx "compile_flags.txt")); cbn [negb andb];
    try (split; [intros (d & H); discriminate|intros (_ & _ & [H|H] & _); discriminate]);
    (destruct (a_output a (tidy_program a ++ tx " --version")) as [|c r]; cbn [nonempty];
     [split; [intros (d & H); discriminate|intros (_ & _ & _ & H); contradiction]|
      split; [intros _; repeat split; auto; discriminate|intros _; eauto]]).
Qed.
(** Otherwise the message says what is missing. *)
Theorem C103_message hash a m : tidy_start hash a = Refuse m ->
  (a_exists a (tidy_config a) = false -> m = tx "Need a " ++ tidy_config a ++ tx " config file." ++ [ascii_of_N 10]) /\
  (a_exists a (tidy_config a) = true -> a_stamp a (tx ".clang-tidy") = false ->
     m = tx "Script needs to be executed in toplevel project dir." ++ [ascii_of_N 10]) /\
  (a_exists a (tidy_config a) = true -> a_stamp a (tx ".clang-tidy") = true ->
   a_stamp a (tx "compile_commands.json") = false -> a_stamp a (tx "compile_flags.txt") = false ->
     exists r, m = tx "No compilation db compile_commands.json or compile_flags.txt found; create that first." ++ r) /\
  (a_exists a (tidy_config a) = true -> a_stamp a (tx ".clang-tidy") = true ->
   a_stamp a (tx "compile_commands.json") = true \/ a_stamp a (tx "compile_flags.txt") = true ->
     m = tx "Could not invoke " ++ tidy_program a ++ tx "; is it in PATH ?" ++ [ascii_of_N 10]).
Proof.
  unfold tidy_start. intros H.
  destruct (a_exists a (tidy_config a)); cbn [negb] in H.
  2: { assert (M : m = tx "Need a " ++ tidy_config a ++ tx " config file." ++ [ch_newline]) by congruence. split; [now intros _|].
       repeat split; intros; discriminate. }
  split; [intros; discriminate|].
  destruct (a_stamp a (tx ".clang-tidy")); cbn [negb] in H.
  2: { assert (M : m = tx "Script needs to be executed in toplevel project dir." ++ [ch_newline]) by congruence. split; [now intros _ _|].
       repeat split; intros; discriminate. }
  split; [intros; discriminate|]. split.
  - intros _ _ E1 E2. rewrite E1, E2 in H. cbn [negb andb] in H.
    exists (tx " For cmake projects, often simply" ++ [ch_newline; ascii_of_N 9] ++ tx "ln -s build/compile_commands.json ." ++ [ch_newline]).
    apply (f_equal (fun s => match s with Refuse x => x | Begin _ => m end)) in H. cbn iota in H. rewrite <- H. vm_compute. reflexivity.
  - intros _ _ O. replace (negb (a_stamp a (tx "compile_commands.json")) && negb (a_stamp a (tx "compile_flags.txt"))) with false in H.
    + destruct (project_dir hash a); [discriminate|]. change (ascii_of_N 10) with ch_newline. congruence.
    + destruct O as [->| ->]; [reflexivity|]. now rewrite andb_false_r.
Qed.

Lemma cores_nat n : Z.to_nat (Z.of_N n) = N.to_nat n.
Proof. lia. Qed.
(** CLANG_TIDY_JOBS, if it starts with a positive number, is the number of workers; if it is not set or starts with none, there is one per processor. *)
Theorem C103_workers a :
  (forall d r, a_env a (tx "CLANG_TIDY_JOBS") = Some (d ++ r) -> digits d -> (forall c t, r = c :: t -> digit c = false) ->
     (0 < decimal_value d < 2 ^ 31)%Z -> workers a = Z.to_nat (decimal_value d)) /\
  (a_env a (tx "CLANG_TIDY_JOBS") = None -> workers a = N.to_nat (a_cores a)) /\
  (forall r, a_env a (tx "CLANG_TIDY_JOBS") = Some (tx "0") \/ a_env a (tx "CLANG_TIDY_JOBS") = Some [] \/
     (exists c, a_env a (tx "CLANG_TIDY_JOBS") = Some (c :: r) /\ is_letter c = true) -> workers a = N.to_nat (a_cores a)).
Proof.
  unfold workers. split; [|split].
  - intros d r -> D R B. rewrite c_atoi_digits by (auto; lia). destruct (Z.ltb_spec 0 (decimal_value d)); [reflexivity|lia].
  - intros ->. cbn [Z.ltb Z.compare]. apply cores_nat. 
  - intros r [->|[->|(c & -> & L)]].
    + replace (c_atoi (tx "0")) with 0%Z by (vm_compute; reflexivity). apply cores_nat.
    + replace (c_atoi []) with 0%Z by (vm_compute; reflexivity). apply cores_nat.
    + assert (Z0 : c_atoi (c :: r) = 0%Z).
      { unfold c_atoi. assert (X : is_space c = false) by (clear - L; destruct c as [[] [] [] [] [] [] [] []]; vm_compute in *; congruence).
        assert (Y : is_digit c = false) by (clear - L; destruct c as [[] [] [] [] [] [] [] []]; vm_compute in *; congruence).
        cbn [strip_leading]. rewrite X.
        assert (M : match c :: r with
           | "-"%char :: r' => (- digits_value 0 r')%Z
           | "+"%char :: r' => digits_value 0 r'
           | _ => digits_value 0 (c :: r)
           end = digits_value 0 (c :: r)).
        { clear - L. destruct c as [[] [] [] [] [] [] [] []]; try reflexivity; vm_compute in L; discriminate. }
        rewrite M. cbn [digits_value]. rewrite Y. vm_compute. reflexivity. }
      rewrite Z0. apply cores_nat.
Qed.
Lemma threads_kept ok g s t p : reach ok g s t -> In p (map fst (s_threads s)) -> In p (map fst (s_threads t)).
Proof.
  induction 1 as [|t u R IH S]; intros H; [exact H|]. specialize (IH H).
  inversion S as [u' T|q|q jobs l N1 N2 N3]; subst; cbn [s_threads].
  - inversion T; subst; cbn [s_threads]; try exact IH;
      match goal with E : s_threads t = _ |- _ => rewrite E, map_app in IH; rewrite map_app; cbn [map fst] in *; exact IH end.
  - exact IH.
  - rewrite map_app. apply in_or_app. now left.
Qed.
(** With at least one worker the work gets done: once the threads of the process have ended, none of its clang-tidy interrupted, the cache lacks
    nothing and a second run finds nothing to do. *)
Theorem C103_work_done hash a g fs s2 p t : fs_ok fs -> (0 < workers a)%nat -> forallb is_digit p = true ->
  distinct_entries g (work_list hash (exists_in fs) (g_dir g) t) ->
  reach (distinct_entries g) g (started p (work_list hash (exists_in fs) (g_dir g) t) (workers a) (idle fs)) s2 ->
  (forall st, In (p, st) (s_threads s2) -> st = Done) -> (forall w, ~ In (p, w) (s_lost s2)) ->
  work_list hash (exists_in (s_fs s2)) (g_dir g) t = [].
Proof.
  intros F W Dp D R Dn L. apply (C86_nothing_left hash g fs (idle fs) s2 p t (workers a) F (reach_here _ _ _)); auto.
  split; [|split; assumption]. eapply threads_kept; [exact R|]. unfold started. cbn [s_threads]. rewrite map_app. apply in_or_app. right.
  destruct (workers a); [lia|]. now left.
Qed.
(** Without one nothing is done: std::thread::hardware_concurrency() may answer 0 ("not computable"), and then there are no workers unless
    CLANG_TIDY_JOBS says otherwise.  The process ends at once, with the cache as it was. *)
Theorem C103_no_worker_refuted : workers ex_plain = 0%nat /\
  forall g fs p q, s_threads (started p q (workers ex_plain) (idle fs)) = [] /\
    ~ exists s, thread_step g (started p q (workers ex_plain) (idle fs)) s.
Proof.
  split; [reflexivity|]. intros g fs p q. split; [reflexivity|]. intros (s & T).
  assert (E0 : s_threads (started p q (workers ex_plain) (idle fs)) = []) by reflexivity.
  inversion T as [l r ? ? ? ? ? E|l r ? ? ? ? E|l r ? ? E|l r ? ? E]; rewrite E0 in E; destruct l; discriminate E.
Qed.
Example C103_case : (exists d, tidy_start (fun _ => 7) ex_around = Begin d) /\ workers ex_around = 4%nat /\
  tidy_start (fun _ => 7) {| a_env := fun v => if text_eqb v (tx "CLANG_TIDY_CONFIG") then Some (tx "my.cfg") else None;
     a_exists := a_exists ex_around; a_stamp := a_stamp ex_around; a_file := a_file ex_around; a_output := a_output ex_around; a_cwd := [];
     a_args := []; a_cores := 1 |} = Refuse (tx "Need a my.cfg config file." ++ [ascii_of_N 10]) /\
  workers {| a_env := fun v => if text_eqb v (tx "CLANG_TIDY_JOBS") then Some (tx "12 or so") else None;
     a_exists := a_exists ex_around; a_stamp := a_stamp ex_around; a_file := a_file ex_around; a_output := a_output ex_around; a_cwd := [];
     a_args := []; a_cores := 1 |} = 12%nat.
Proof. split; [|vm_compute; auto]. eexists. vm_compute. reflexivity. Qed.

Print Assumptions C100_command.
Print Assumptions C100_own_file.
(** The name of the directory: the project's, the version (UNKNOWN if clang-tidy does not tell), eight hexadecimal digits. *)
Theorem C101_directory hash a v b d : v = a_output a (tidy_program a ++ tx " --version") -> base_name (a_cwd a) b -> project_dir hash a = Some d ->
  exists ver, (version_number v ver \/ no_version v /\ ver = tx "UNKNOWN") /\
    d = path_join (path_join (cache_base a) (tx "clang-tidy"))
          (b ++ tx "_v" ++ ver ++ tx "_" ++ to_hex 8 (N.lxor (hash (v ++ assemble_args a)) (hash (a_file a (tidy_config a))))).
Proof.
  intros -> B E. set (v := a_output a _) in *. exists (major_version v). split.
  - unfold major_version. destruct (search_version v) as [n|] eqn:S; [left; now apply search_version_some|right; split; [now apply search_version_none|reflexivity]].
  - unfold project_dir in E. change (a_output a (tidy_program a ++ tx " --version")) with v in E. destruct (nonempty v); [|discriminate E].
    unfold cache_prefix in E. apply base_name_iff in B. rewrite B in E. injection E as <-. unfold dir_name, cache_id. rewrite <- !app_assoc. reflexivity.
Qed.
(** With a sign: a negative number means one worker per processor, a plus sign changes nothing. *)
Theorem C103_workers_signed a d r :
  digits d -> (forall c t, r = c :: t -> digit c = false) ->
  (a_env a (tx "CLANG_TIDY_JOBS") = Some (tx "-" ++ d ++ r) -> (decimal_value d <= 2 ^ 31)%Z -> workers a = N.to_nat (a_cores a)) /\
  (a_env a (tx "CLANG_TIDY_JOBS") = Some (tx "+" ++ d ++ r) -> (0 < decimal_value d < 2 ^ 31)%Z -> workers a = Z.to_nat (decimal_value d)).
Proof.
  intros D R. pose proof D as [NE F]. pose proof (digits_value_app d 0%Z r F R) as V. fold (decimal_value d) in V.
  assert (P : (0 <= decimal_value d)%Z).
  { clear - F. unfold decimal_value. assert (G : forall a, (0 <= a)%Z -> (0 <= fold_left (fun v c => 10 * v + (Z.of_N (N_of_ascii c) - 48)) d a)%Z); [|apply G; lia].
    induction F as [|c d C F IH]; intros a Ha; cbn [fold_left]; [exact Ha|]. apply IH.
    assert (48 <= N_of_ascii c) by (clear - C; destruct c as [[] [] [] [] [] [] [] []]; vm_compute in *; congruence). lia. }
  unfold workers. split; intros -> B.
  - assert (E : c_atoi (tx "-" ++ d ++ r) = (- decimal_value d)%Z).
    { unfold c_atoi. change (strip_leading (tx "-" ++ d ++ r)) with ("-"%char :: d ++ r). cbv iota beta. rewrite V. clear - P B. set (v := decimal_value d) in *. clearbody v.
      change (2 ^ 31)%Z with 2147483648%Z in *. change (2 ^ 32)%Z with 4294967296%Z. change (2 ^ 63)%Z with 9223372036854775808%Z.
      rewrite Z.min_r, Z.max_r by lia. destruct (Z.eq_dec v 0) as [->|NZ]; [reflexivity|].
      replace ((- v) mod 4294967296)%Z with (4294967296 - v)%Z by (apply Z.mod_unique_pos with (q := (-1)%Z); lia).
      destruct (Z.ltb_spec (4294967296 - v) 2147483648); lia. }
    rewrite E. destruct (Z.ltb_spec 0 (- decimal_value d)); [lia|]. apply cores_nat.
  - assert (E : c_atoi (tx "+" ++ d ++ r) = decimal_value d).
    { unfold c_atoi. change (strip_leading (tx "+" ++ d ++ r)) with ("+"%char :: d ++ r). cbv iota beta. rewrite V. clear - P B. set (v := decimal_value d) in *. clearbody v.
      change (2 ^ 31)%Z with 2147483648%Z in *. change (2 ^ 32)%Z with 4294967296%Z. change (2 ^ 63)%Z with 9223372036854775808%Z.
      rewrite Z.min_r, Z.max_r by lia. rewrite Z.mod_small by lia. destruct (Z.ltb_spec v 2147483648); lia. }
    rewrite E. destruct (Z.ltb_spec 0 (decimal_value d)); [reflexivity|lia].
Qed.
Print Assumptions C100_settings.
Print Assumptions C100_apostrophe_refuted.
Print Assumptions C101_base.
Print Assumptions C101_shared.
Print Assumptions C101_directory.
Print Assumptions C101_config_change.
Print Assumptions C101_arguments.
Print Assumptions C101_fingerprint_refuted.
Print Assumptions C102_lines.
Print Assumptions C102_determined.
Print Assumptions C102_relative.
Print Assumptions C102_untouched.
Print Assumptions C102_given.
Print Assumptions C102_project.
Print Assumptions C102_dot_refuted.
Print Assumptions C102_idempotent_refuted.
Print Assumptions C103_begins.
Print Assumptions C103_message.
Print Assumptions C103_workers.
Print Assumptions C103_workers_signed.
Print Assumptions C103_work_done.
Print Assumptions C103_no_worker_refuted.
