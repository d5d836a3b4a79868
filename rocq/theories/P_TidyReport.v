(** C86 (the verdict), C88 and C89: what scripts/run-clang-tidy-cached.cc keeps of the output of clang-tidy, and what it reports. *)
From Verif Require Import Base BaseFacts Absl Print Tidy TidyPool TidyFacts TidyInv TidyRun TidySpec MapFacts DbFacts
  TidyKeyFacts TidyReportFacts P_TidyPool.
From Coq Require Import Sorted.

(** ** C88: the filter *)
(** The characters the specification (TidySpec.v) speaks of, by their codes. *)
Theorem C88_characters : ch_newline = ascii_of_N 10 /\ ch_return = ascii_of_N 13 /\ ch_quote = ascii_of_N 34 /\
  forall c, (is_digit c = true <-> 48 <= N_of_ascii c <= 57) /\
            (is_letter c = true <-> 65 <= N_of_ascii c <= 90 \/ 97 <= N_of_ascii c <= 122) /\
            (is_space c = true <-> 9 <= N_of_ascii c <= 13 \/ N_of_ascii c = 32).
Proof.
  do 3 (split; [reflexivity|]). intros c. unfold is_digit, is_letter, is_space, in_range, ccode.
  change (N_of_ascii "0") with 48. change (N_of_ascii "9") with 57. change (N_of_ascii "a") with 97. change (N_of_ascii "z") with 122.
  change (N_of_ascii "A") with 65. change (N_of_ascii "Z") with 90. generalize (N_of_ascii c). intros n.
  rewrite ?orb_true_iff, ?andb_true_iff, ?N.leb_le, ?N.eqb_eq. intuition.
Qed.
(** The file named in a line is one it complains about, and a line that complains about a place in some file names one. *)
Theorem C88_named_file line f : tidy_file line = Some f -> about line f.
Proof. apply tidy_file_about. Qed.
Theorem C88_named_file_found line f : about line f -> exists f', tidy_file line = Some f' /\ about line f'.
Proof.
  intros A. destruct (tidy_file line) as [f'|] eqn:E; [|exfalso; eapply tidy_file_complete; eauto].
  exists f'. split; [reflexivity|]. now apply tidy_file_about.
Qed.
(** Where the line can be read in one way only, that is the file. *)
Theorem C88_named_file_unique line f : about line f -> (forall f', about line f' -> f' = f) -> tidy_file line = Some f.
Proof. intros A U. destruct (C88_named_file_found line f A) as (f' & E & A'). now rewrite <- (U f' A'). Qed.

(** What is kept of an output: exactly the lines that belong to a complaint about the file, and those before the first complaint;
    in order, each with a newline. *)
Theorem C88_kept f s ls part : lines_of s ls part ->
  let all := ls ++ match part with [] => [] | _ => [part] end in
  exists keep, List.length keep = List.length all /\
    (forall i b, nth_error keep i = Some b ->
       (b = true <-> belongs tidy_file all i f \/ belongs_to_none tidy_file all i)) /\
    filter_check_lines f s = flat_map (fun l => l ++ [ch_newline]) (chosen all keep).
Proof.
  intros L all. exists (keeps f true all). split; [apply keeps_length|]. split.
  - intros i b E. rewrite (keeps_spec f all true i b E). tauto.
  - unfold filter_check_lines. rewrite (stream_lines_spec s ls part L). fold all. rewrite filter_keeps. apply kept_text_lines.
Qed.
(** Every text has lines, in one way. *)
Theorem C88_lines s : exists ls part, lines_of s ls part /\ forall ls' part', lines_of s ls' part' -> ls' = ls /\ part' = part.
Proof. destruct (lines_exist s) as (ls & part & L). exists ls, part. split; [exact L|]. intros ls' part' L'. eapply lines_unique; eauto. Qed.
(** Filtering twice is filtering once; the result is whole lines. *)
Theorem C88_idempotent f s : filter_check_lines f (filter_check_lines f s) = filter_check_lines f s.
Proof. apply filter_idempotent. Qed.
Theorem C88_whole_lines f s : exists ls, lines_of (filter_check_lines f s) ls [].
Proof.
  destruct (filter_flat f s) as (ls & -> & N & _). exists ls. split; [now rewrite app_nil_r|]. split; [exact N|intros []].
Qed.

Definition ex_note : text := tx "    int x = 0;".
Definition ex_line1 : text := tx "fpga/a.cc:12:3: warning: bad [misc-bad]".
Definition ex_line2 : text := tx "fpga/a.h:1:3: warning: worse [misc-worse]".
Example ex_filter : lines_of (flat_map (fun l => l ++ [ch_newline]) [ex_note; ex_line1; ex_note; ex_line2; ex_note; ex_line1; ex_note])
    [ex_note; ex_line1; ex_note; ex_line2; ex_note; ex_line1; ex_note] [] /\
  filter_check_lines (tx "a.cc") (flat_map (fun l => l ++ [ch_newline]) [ex_note; ex_line1; ex_note; ex_line2; ex_note; ex_line1; ex_note]) =
    flat_map (fun l => l ++ [ch_newline]) [ex_note; ex_line1; ex_note; ex_line1; ex_note] /\ about ex_line1 (tx "a.cc").
Proof.
  split; [|split; [vm_compute; reflexivity|]].
  - split; [symmetry; apply app_nil_r|]. split; [|intros []]. repeat constructor; cbn; intuition discriminate.
  - apply tidy_file_about. vm_compute. reflexivity.
Qed.
(** A message that mentions a place in another file makes the line count as one about that file, or about a file with a strange
    name: the complaint is lost from the report of its own file. *)
Theorem C88_mention_refuted :
  let line := tx "fpga/a.cc:12:3: warning: hides the one at fpga/a.h:1:3: x [misc-bad]" in
  let line' := tx "fpga/a.cc:12:3: warning: hides the one at a.h:1:3: x [misc-bad]" in
  about line (tx "a.cc") /\ tidy_file line = Some (tx "a.h") /\ filter_check_lines (tx "a.cc") (line ++ [ch_newline]) = [] /\
  about line' (tx "a.cc") /\ filter_check_lines (tx "a.cc") (line' ++ [ch_newline]) = [].
Proof.
  assert (C : forall s tag, check_tag s = Some tag -> complains s tag) by (intros; now apply check_tag_iff).
  cbv zeta. split; [|split; [|split; [|split]]]; try (vm_compute; reflexivity).
  - exists (tx "fpga/"), (tx "12"), (tx "3"), (tx " warning: hides the one at fpga/a.h:1:3: x [misc-bad]"), (tx "[misc-bad]").
    split; [reflexivity|]. split; [right; exists (tx "fpga"); split; [reflexivity|split; cbn; intuition discriminate]|].
    split; [discriminate|]. split; [cbn; intuition discriminate|]. split; [split; [discriminate|repeat constructor]|].
    split; [split; [discriminate|repeat constructor]|]. apply C. vm_compute. reflexivity.
  - exists (tx "fpga/"), (tx "12"), (tx "3"), (tx " warning: hides the one at a.h:1:3: x [misc-bad]"), (tx "[misc-bad]").
    split; [reflexivity|]. split; [right; exists (tx "fpga"); split; [reflexivity|split; cbn; intuition discriminate]|].
    split; [discriminate|]. split; [cbn; intuition discriminate|]. split; [split; [discriminate|repeat constructor]|].
    split; [split; [discriminate|repeat constructor]|]. apply C. vm_compute. reflexivity.
Qed.

(** ** C89: the report *)
(** The complaints found in a cached output: the counted lines, in order, each with the name of its check. *)
Theorem C89_found s ls part bs : lines_of s ls part -> counted ls bs ->
  Forall2 (fun l m => complains l (snd m) /\ (fst m = l ++ [ch_newline] \/ fst m = ch_newline :: l ++ [ch_newline]))
    (chosen ls bs) (findings s).
Proof.
  intros L C. rewrite (findings_spec s ls part L), (counted_unique ls bs (marks true ls) C (marks_counted ls)). apply found_chosen.
Qed.
Theorem C89_counted_unique ls : exists! bs, counted ls bs.
Proof. exists (marks true ls). split; [apply marks_counted|]. intros bs C. eapply counted_unique; eauto using marks_counted. Qed.
(** If no two complaints follow each other directly, all are counted. *)
Theorem C89_all_counted ls bs : counted ls bs ->
  (forall i l l' t t', nth_error ls i = Some l -> nth_error ls (S i) = Some l' -> complains l t -> complains l' t' -> False) ->
  forall i l b, nth_error ls i = Some l -> nth_error bs i = Some b -> (b = true <-> exists tag, complains l tag).
Proof.
  intros [Len H] NA i l b E B. rewrite (H i l b E B). split; [tauto|]. intros (t & C). split; [eauto|]. destruct i as [|j]; [auto|]. right.
  replace (S j - 1)%nat with j by lia.
  assert (Lj : (j < List.length bs)%nat) by (assert (S j < List.length bs)%nat by (apply nth_error_Some; congruence); lia).
  destruct (nth_error bs j) as [b'|] eqn:B'; [|apply nth_error_None in B'; lia].
  destruct (nth_error ls j) as [l'|] eqn:E'; [|apply nth_error_None in E'; lia]. destruct b'; [|reflexivity]. exfalso.
  destruct (proj1 (H j l' true E' B') eq_refl) as ((t' & C') & _). eapply (NA j); eauto.
Qed.

Lemma no_complaint_iff s : findings s = [] <-> forall ls part, lines_of s ls part -> forall l, In l ls -> forall tag, ~ complains l tag.
Proof.
  split.
  - intros E ls part L l I. rewrite (findings_spec s ls part L) in E. apply found_nil in E; [|now left].
    rewrite Forall_forall in E. apply check_tag_none. now apply E.
  - intros H. destruct (lines_exist s) as (ls & part & L). rewrite (findings_spec s ls part L). apply found_nil; [now left|].
    apply Forall_forall. intros l I. apply check_tag_none. eapply H; eauto.
Qed.

(** The summary: a row for each check with the number of different complaints of it, the most frequent first, then by name.
    [us] are the different complaints: each text once, none made up, none left out. *)
Theorem C89_summary g fs files :
  let found := flat_map (fun w => findings (get_content fs (path_for (g_dir g) w))) files in
  exists us, NoDup (map fst us) /\ (forall x, In x (map fst us) <-> In x (map fst found)) /\ (forall u, In u us -> In u found) /\
    StronglySorted row_before (tidy_summary g fs files) /\
    (forall tag n, In (tag, n) (tidy_summary g fs files) <->
       n = N.of_nat (List.length (filter (fun u => text_eqb (snd u) tag) us)) /\ n <> 0).
Proof.
  intros found. unfold tidy_summary, report, collect. cbn [snd]. fold found.
  destruct (tally_spec found [] [] []) as (us & A & B & C & (S & D)); [reflexivity|constructor|split; [constructor|reflexivity]|].
  exists us. split; [exact A|]. split; [intros x; rewrite B; cbn; tauto|]. split; [intros u I; destruct (C u I) as [[]|]; auto|].
  split; [now apply by_count_sorted|]. intros tag n. set (m := snd (fold_left tally found ([], []))) in *.
  transitivity (In (tag, n) m).
  - split; apply Permutation.Permutation_in; [|apply Permutation.Permutation_sym]; apply by_count_perm.
  - rewrite sorted_in by exact S. rewrite D. unfold count_tag. destruct (List.length _) as [|k].
    + split; [discriminate|]. intros [-> H]. contradiction.
    + split; [intros H; injection H as <-; split; [reflexivity|discriminate]|]. intros [-> _]. reflexivity.
Qed.

(** The exit status is 0 exactly if no line of any entry ends with the name of a check. *)
Theorem C89_status g fs files :
  tidy_status g fs files = 0 <->
  forall w, In w files -> forall ls part, lines_of (get_content fs (path_for (g_dir g) w)) ls part ->
    forall l, In l ls -> forall tag, ~ complains l tag.
Proof.
  unfold tidy_status, report, collect. cbn [snd]. set (found := flat_map (fun w => findings (get_content fs (path_for (g_dir g) w))) files).
  destruct (tally_spec found [] [] []) as (us & A & B & C & (S & D)); [reflexivity|constructor|split; [constructor|reflexivity]|].
  set (m := snd (fold_left tally found ([], []))) in *.
  assert (M : exit_status m = 0 <-> found = []).
  { split.
    - intros E. destruct m as [|x m']; [|discriminate]. destruct found as [|[mt tag] r]; [reflexivity|exfalso].
      assert (I : In mt (map fst us)) by (apply B; right; now left). apply in_map_iff in I as ((mt' & tag') & E' & I). cbn in E'. subst mt'.
      specialize (D tag'). cbn in D. unfold count_tag in D.
      assert (F : In (mt, tag') (filter (fun u : text * text => text_eqb (snd u) tag') us)) by (apply filter_In; split; [exact I|apply text_eqb_refl]).
      destruct (filter _ us); [contradiction|discriminate].
    - intros E. subst m. rewrite E. reflexivity. }
  rewrite M. unfold found. split.
  - intros E w I. apply no_complaint_iff. clear - E I. induction files as [|x files IH]; [contradiction|]. cbn in E. apply app_eq_nil in E as [E1 E2].
    destruct I as [->|I]; auto.
  - intros H. clear - H. induction files as [|x files IH]; [reflexivity|]. cbn [flat_map].
    rewrite (proj2 (no_complaint_iff _) (H x (or_introl eq_refl))). apply IH. intros w I. apply H. now right.
Qed.
Theorem C89_status_values g fs files : tidy_status g fs files = 0 \/ tidy_status g fs files = 1.
Proof. unfold tidy_status, exit_status. destruct (snd _); auto. Qed.

(** Of two complaints on adjacent lines the second is not counted. *)
Theorem C89_adjacent_refuted :
  let s := flat_map (fun l => l ++ [ch_newline]) [ex_line1; ex_line2] in
  map snd (findings s) = [tx "[misc-bad]"] /\ complains ex_line2 (tx "[misc-worse]") /\ lines_of s [ex_line1; ex_line2] [].
Proof.
  cbv zeta. split; [vm_compute; reflexivity|]. split; [apply check_tag_iff; vm_compute; reflexivity|].
  split; [symmetry; apply app_nil_r|]. split; [|intros []]. repeat constructor; cbn; intuition discriminate.
Qed.

(** ** C86: the verdict of a run *)
(** A run that was not interrupted looks at a cache entry for every file; the entries are those found at the start, or whole
    results, and the exit status is 0 exactly if none has a complaint. *)
Theorem C86_verdict hash g fs s0 s2 p t jobs : fs_ok fs ->
  reach (distinct_entries g) g (idle fs) s0 -> ~ In p (map fst (s_given s0)) -> forallb is_digit p = true ->
  distinct_entries g (work_list hash (exists_in (s_fs s0)) (g_dir g) t) ->
  reach (distinct_entries g) g (started p (work_list hash (exists_in (s_fs s0)) (g_dir g) t) jobs s0) s2 -> finished p s2 ->
  (forall w, In w (files_of_interest hash t) -> exists c, content (s_fs s2) (path_for (g_dir g) w) = Some c /\
     (content fs (path_for (g_dir g) w) = Some c \/ whole_result g s2 (path_for (g_dir g) w) c)) /\
  (tidy_status g (s_fs s2) (files_of_interest hash t) = 0 <->
   forall w c ls part, In w (files_of_interest hash t) -> content (s_fs s2) (path_for (g_dir g) w) = Some c -> lines_of c ls part ->
     forall l, In l ls -> forall tag, ~ complains l tag).
Proof.
  intros F R0 NP Dp D R2 Fi. pose proof (C86_nothing_left hash g fs s0 s2 p t jobs F R0 NP Dp D R2 Fi) as Nil.
  assert (R12 : reach (distinct_entries g) g (idle fs) s2).
  { eapply reach_trans; [|exact R2]. econstructor; [exact R0|]. apply ss_start; assumption. }
  assert (Ex : forall w, In w (files_of_interest hash t) -> exists c, content (s_fs s2) (path_for (g_dir g) w) = Some c).
  { intros w I. destruct (content (s_fs s2) (path_for (g_dir g) w)) as [c|] eqn:E; [eauto|exfalso].
    assert (X : In w (work_list hash (exists_in (s_fs s2)) (g_dir g) t)); [|rewrite Nil in X; destruct X].
    apply filter_In. split; [exact I|]. unfold needs_refresh, exists_in. now rewrite E. }
  split.
  - intros w I. destruct (Ex w I) as (c & E). exists c. split; [exact E|]. eapply C85_whole_entries; eauto.
  - rewrite C89_status. split.
    + intros H w c ls part I E L. eapply (H w I ls part). unfold get_content. now rewrite E.
    + intros H w I ls part L. destruct (Ex w I) as (c & E). unfold get_content in L. rewrite E in L. eapply H; eauto.
Qed.
(** Alone, on an empty cache: the status is 0 exactly if no result has a complaint. *)
Theorem C86_verdict_fresh hash g fs s2 p t jobs : fs_ok fs -> (forall v, content fs (path_for (g_dir g) v) = None) ->
  forallb is_digit p = true -> distinct_entries g (files_of_interest hash t) ->
  reach (distinct_entries g) g (started p (files_of_interest hash t) jobs (idle fs)) s2 -> s_given s2 = [(p, files_of_interest hash t)] ->
  finished p s2 ->
  (tidy_status g (s_fs s2) (files_of_interest hash t) = 0 <->
   forall w ls part, In w (files_of_interest hash t) -> lines_of (result g p w) ls part -> forall l, In l ls -> forall tag, ~ complains l tag).
Proof.
  intros F E0 Dp D R G Fi.
  assert (R12 : reach (distinct_entries g) g (idle fs) s2).
  { eapply reach_trans; [|exact R]. econstructor; [constructor|]. apply ss_start; auto. }
  assert (K : forall w, In w (files_of_interest hash t) -> content (s_fs s2) (path_for (g_dir g) w) = Some (result g p w)).
  { intros w I. eapply (C84_alone g fs s2 p); eauto. intros v _. unfold exists_in. now rewrite E0. }
  rewrite C89_status. split.
  - intros H w ls part I L. apply (H w I ls part). unfold get_content. now rewrite (K w I).
  - intros H w I ls part L. apply (H w ls part I). unfold get_content in L. now rewrite (K w I) in L.
Qed.

(** *** Concrete runs *)
Definition one_tree : tree := [(tx "fpga/a.cc", tx "int x;"); (tx "fpga/b.h", tx "int yy;")].
Definition len_hash (s : text) : N := N.of_nat (List.length s).
Definition one_run (l : list act) : option sys :=
  run ex_ok ex_g (idle ex_fs) (Start (tx "7") 2 (files_of_interest len_hash one_tree) :: l).
Definition one_end (l : list act) : sys := match one_run l with Some s => s | None => idle ex_fs end.
Lemma one_reach l : works (one_run l) = true ->
  reach (distinct_entries ex_g) ex_g (started (tx "7") (files_of_interest len_hash one_tree) 2 (idle ex_fs)) (one_end l).
Proof.
  intros H. unfold one_end, one_run in *. cbn [run] in *.
  assert (E : go ex_ok ex_g (idle ex_fs) (Start (tx "7") 2 (files_of_interest len_hash one_tree)) =
     Some (started (tx "7") (files_of_interest len_hash one_tree) 2 (idle ex_fs))).
  { cbn [go idle s_given map existsb orb]. replace (ex_ok (files_of_interest len_hash one_tree)) with true by (vm_compute; reflexivity). reflexivity. }
  rewrite E in *. apply (run_sound ex_ok _ _ l); [exact ex_ok_spec|].
  destruct (run ex_ok ex_g (started (tx "7") (files_of_interest len_hash one_tree) 2 (idle ex_fs)) l); [reflexivity|discriminate].
Qed.
Definition whole : list act :=
  [Go 0; Go 1; Go 1; Go 0; Cut 1 3; Go 0; Go 1; Go 0; Go 1; Go 0; Go 1; Go 0; Go 1; Go 0; Go 1; Go 0; Go 1; Go 0; Go 1; Go 0; Go 1].
(** The hypotheses of C86_verdict_fresh (and of C86_verdict and C86_nothing_left, with s0 the idle system) are met, and the
    status is 1. *)
Example ex_verdict :
  reach (distinct_entries ex_g) ex_g (started (tx "7") (files_of_interest len_hash one_tree) 2 (idle ex_fs)) (one_end whole) /\
  s_given (one_end whole) = [(tx "7", files_of_interest len_hash one_tree)] /\ finished (tx "7") (one_end whole) /\
  distinct_entries ex_g (files_of_interest len_hash one_tree) /\
  work_list len_hash (exists_in ex_fs) (g_dir ex_g) one_tree = files_of_interest len_hash one_tree /\
  tidy_status ex_g (s_fs (one_end whole)) (files_of_interest len_hash one_tree) = 1 /\
  tidy_summary ex_g (s_fs (one_end whole)) (files_of_interest len_hash one_tree) = [(tx "[x-y]", 2)].
Proof.
  split; [apply one_reach; vm_compute; reflexivity|]. split; [vm_compute; reflexivity|]. split; [|split; [|split; [|split]]].
  - split; [vm_compute; left; reflexivity|]. split.
    + intros st H. assert (E : s_threads (one_end whole) = [(tx "7", Done); (tx "7", Done)]) by (vm_compute; reflexivity). rewrite E in H.
      destruct H as [H|[H|[]]]; congruence.
    + intros w H. assert (E : s_lost (one_end whole) = []) by (vm_compute; reflexivity). rewrite E in H. destruct H.
  - apply ex_ok_spec. vm_compute. reflexivity.
  - vm_compute. reflexivity.
  - vm_compute. reflexivity.
  - vm_compute. reflexivity.
Qed.

(** An interrupted run: both threads have ended, every file has a complaint, no entry has been written, and the status is 0. *)
Theorem C86_interrupted_refuted :
  exists s, reach (distinct_entries ex_g) ex_g (started (tx "7") (files_of_interest len_hash one_tree) 2 (idle ex_fs)) s /\
    s_threads s = [(tx "7", Done); (tx "7", Done)] /\ s_aborted s = [] /\ s_dead s = [] /\
    (forall w, In w (files_of_interest len_hash one_tree) -> findings (result ex_g (tx "7") w) <> []) /\
    tidy_status ex_g (s_fs s) (files_of_interest len_hash one_tree) = 0.
Proof.
  exists (one_end [Go 0; Go 1; Go 0; Go 1; Interrupt 0; Interrupt 1; Go 0; Go 1]).
  split; [apply one_reach; vm_compute; reflexivity|]. split; [vm_compute; reflexivity|]. split; [vm_compute; reflexivity|].
  split; [vm_compute; reflexivity|]. split; [|vm_compute; reflexivity]. intros w H.
  assert (E : files_of_interest len_hash one_tree = [(tx "fpga/a.cc", 6); (tx "fpga/b.h", 7)]) by (vm_compute; reflexivity). rewrite E in H.
  destruct H as [<-|[<-|[]]]; vm_compute; discriminate.
Qed.

Print Assumptions C88_named_file.
Print Assumptions C88_named_file_found.
Print Assumptions C88_named_file_unique.
Print Assumptions C88_kept.
Print Assumptions C88_lines.
Print Assumptions C88_idempotent.
Print Assumptions C88_whole_lines.
Print Assumptions C88_mention_refuted.
Print Assumptions C89_found.
Print Assumptions C89_counted_unique.
Print Assumptions C89_all_counted.
Print Assumptions C89_summary.
Print Assumptions C89_status.
Print Assumptions C89_status_values.
Print Assumptions C89_adjacent_refuted.
Print Assumptions C86_verdict.
Print Assumptions C86_verdict_fresh.
Print Assumptions C86_interrupted_refuted.
Print Assumptions C88_characters.
