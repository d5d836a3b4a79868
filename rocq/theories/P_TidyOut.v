(** C108: the report files of run-clang-tidy-cached. *)
From Verif Require Import Base BaseFacts Absl Print DbSpec LoadLogSpec LoadLogTrue Tidy TidyPool TidyFacts TidySpec TidyKeyFacts TidyReportFacts
  TidyCmd TidyCmdSpec TidyCmdFacts TidyOut TidyOutSpec P_TidyReport P_TidyCmd MapFacts.
From Coq Require Import Sorted Lia.

(** ** Names *)
Lemma to_hex_no_slash n : forall v, ~ In "/"%char (to_hex n v).
Proof.
  induction n as [|n IH]; intros v; [intros []|]. cbn [to_hex]. intros H. apply in_app_or in H as [H|[H|[]]]; [now apply IH in H|].
  assert (L : v mod 16 < 16) by (apply N.mod_lt; discriminate). set (d := v mod 16) in *. clearbody d.
  assert (X : In d (map N.of_nat (seq 0 16))) by (apply in_map_iff; exists (N.to_nat d); split; [lia|apply in_seq; lia]).
  cbn in X. repeat (destruct X as [<-|X]; [discriminate|]). destruct X.
Qed.
Lemma join_plain d x c : c <> "/"%char -> hd c x <> "/"%char -> path_join (d ++ [c]) x = d ++ [c] ++ tx "/" ++ x.
Proof.
  intros NC NX. unfold path_join. rewrite rev_app_distr. cbn [rev app].
  assert (R : forall (u v : text), match x with "/"%char :: _ => u | _ => v end = v).
  { intros u v. destruct x as [|e x]; [reflexivity|]. cbn [hd] in NX. destruct e as [[] [] [] [] [] [] [] []]; try reflexivity. contradiction. }
  rewrite R. replace (Ascii.eqb c "/") with false by (symmetry; now apply Ascii.eqb_neq). now rewrite <- app_assoc.
Qed.
(** The project's directory ends in a digit and is in another directory. *)
Lemma project_dir_shape hash a dir : project_dir hash a = Some dir -> exists u v c, dir = u ++ "/"%char :: v ++ [c] /\ c <> "/"%char.
Proof.
  unfold project_dir. set (v := a_output a _). destruct (nonempty v); [|discriminate]. intros E.
  set (i := cache_id hash a v) in *. clearbody i. set (base := cache_base a) in *. clearbody base.
  assert (S : exists x c, dir_name (cache_prefix a) v i = x ++ [c] /\ c <> "/"%char /\ hd "/"%char (x ++ [c]) <> "/"%char).
  { pose proof (path_filename_base (a_cwd a)) as [B _].
    pose proof (dir_name_start (path_filename (a_cwd a)) v i B) as St. fold (cache_prefix a) in St.
    unfold dir_name in *. exists (cache_prefix a ++ tx "v" ++ major_version v ++ tx "_" ++ to_hex 7 (i / 16)), (hex_char false (i mod 16)).
    assert (Q : (cache_prefix a ++ tx "v" ++ major_version v ++ tx "_" ++ to_hex 7 (i / 16)) ++ [hex_char false (i mod 16)] =
                cache_prefix a ++ tx "v" ++ major_version v ++ tx "_" ++ to_hex 8 i) by (rewrite <- !app_assoc; reflexivity).
    rewrite Q. split; [reflexivity|]. split.
    - intros X. apply (to_hex_no_slash 8 i). cbn [to_hex]. apply in_or_app. right. left. exact X.
    - destruct (cache_prefix a ++ _) as [|e r]; [contradiction|exact St]. }
  destruct S as (x & c & S & NC & HX). rewrite S in E. set (y := path_join base (tx "clang-tidy")) in *.
  assert (Y : exists z, y = z ++ [ascii_of_N 121]).
  { unfold y, path_join. cbn [tx list_ascii_of_string]. destruct (rev base) as [|k r]; [exists (tx "clang-tid"); reflexivity|].
    destruct (Ascii.eqb k "/"); [exists (base ++ tx "clang-tid")|exists (base ++ tx "/clang-tid")]; rewrite <- ?app_assoc; reflexivity. }
  destruct Y as (z & Ey). rewrite Ey in E. rewrite join_plain in E; [|discriminate|].
  - exists (z ++ [ascii_of_N 121]), x, c. split; [|exact NC]. assert (X : dir = z ++ [ascii_of_N 121] ++ tx "/" ++ x ++ [c]) by congruence.
    rewrite X, <- app_assoc. reflexivity.
  - destruct x as [|e x]; [exact NC|]. exact HX.
Qed.

(** ** The disk *)
Record puts (p : text) (k : disk) (k1 : disk) (i : nat) : Prop := {
  pu_ok : fs_ok (k_fs k1);
  pu_link : k_link k1 = k_link k;
  pu_stuck : k_stuck k1 = k_stuck k;
  pu_before : forall q, q <> p -> content (k_fs k1) q = content (k_fs k) q;
  pu_ok2 : forall s, fs_ok (k_fs (put_all i s k1));
  pu_there : forall s, content (k_fs (put_all i s k1)) p = Some s;
  pu_others : forall s q, q <> p -> content (k_fs (put_all i s k1)) q = content (k_fs k) q
}.
Lemma open_puts p k : fs_ok (k_fs k) -> k_stuck k p = false -> exists k1 i, open_out p k = (k1, Some i) /\ puts p k k1 i.
Proof.
  intros OK S. unfold open_out. rewrite S. destruct (open_trunc p (k_fs k)) as [fs i] eqn:E. exists (set_fs fs k), i. split; [reflexivity|].
  destruct (open_touches p p _ _ _ OK E) as (T & D & Z & O). split; cbn [set_fs k_fs k_link k_stuck put_all]; try reflexivity.
  - exact (to_ok _ _ _ _ T).
  - exact O.
  - intros s. exact (to_ok _ _ _ _ (proj1 (write_touches p p fs i 0 s (to_ok _ _ _ _ T) D))).
  - intros s. unfold content. cbn [write_file fs_dir fs_data]. rewrite D. cbn [option_map]. rewrite set_data_same, Z. unfold overwrite. cbn [firstn app].
    rewrite skipn_nil. now rewrite app_nil_r.
  - intros s q Q. rewrite (proj2 (write_touches p p fs i 0 s (to_ok _ _ _ _ T) D) q Q). now apply O.
Qed.
Record links (t p : text) (k k' : disk) : Prop := {
  li_ok : fs_ok (k_fs k');
  li_stuck : k_stuck k' = k_stuck k;
  li_here : k_link k' p = if k_stuck k p then k_link k p else Some t;
  li_other : forall q, q <> p -> k_link k' q = k_link k q;
  li_content : forall q, q <> p -> content (k_fs k') q = content (k_fs k) q
}.
Lemma relink t p k : fs_ok (k_fs k) -> links t p k (symlink t p (remove_name p k)).
Proof.
  intros OK. unfold symlink, remove_name. destruct (k_stuck k p) eqn:S.
  - rewrite S. split; auto. now rewrite S.
  - cbn [set_link set_fs k_stuck k_fs k_link]. rewrite S. cbn [remove_file fs_dir]. rewrite set_dir_same, text_eqb_refl.
    destruct (remove_touches p p (k_fs k) OK) as [T O]. split; cbn [set_link set_fs k_stuck k_fs k_link]; try reflexivity.
    + exact (to_ok _ _ _ _ T).
    + now rewrite text_eqb_refl, S.
    + intros q Q. now rewrite text_eqb_neq.
    + exact O.
Qed.

(** ** Texts *)
Lemma details_collect content files :
  details (map (fun w : work => (fst w, content w)) files) (fst (collect content files)).
Proof.
  unfold collect. cbn [fst]. exists (map (fun w => match content w with [] => [] | c => fst w ++ tx ":" ++ [ch_newline] ++ c end) files). split.
  - induction files as [|w files IH]; constructor; [|exact IH]. cbn [fst snd]. unfold block. destruct (content w) as [|x y]; [now left|]. right. split; [discriminate|reflexivity].
  - now rewrite flat_map_concat_map.
Qed.
Lemma row_row tag n : row_text tag n (pad5 (dec_text n) ++ tx " " ++ tag).
Proof.
  unfold pad5. exists (repeat " "%char (5 - List.length (dec_text n))), (dec_text n). split; [now rewrite <- app_assoc|].
  split; [intros c; apply repeat_spec|]. split; [apply dec_text_decimal|]. rewrite app_length, repeat_length. split; [lia|].
  intros L. replace (5 - _)%nat with 0%nat by lia. reflexivity.
Qed.
Lemma summary_rows m : rows_text (by_count m) (summary m).
Proof.
  unfold summary. generalize (by_count m). intros rows. exists (map (fun c => pad5 (dec_text (snd c)) ++ tx " " ++ fst c) rows). split.
  - induction rows as [|r rows IH]; constructor; [apply row_row|exact IH].
  - induction rows as [|r rows IH]; [reflexivity|]. cbn [map flat_map]. rewrite IH. f_equal. rewrite <- !app_assoc. reflexivity.
Qed.

(** ** The report.  [contents] are the entries of the cache: the report never changes them. *)
Theorem C108_report hash why a dir b files k g :
  project_dir hash a = Some dir -> base_name (a_cwd a) b -> g_dir g = dir ++ tx "/contents" -> fs_ok (k_fs k) ->
  let detail := dir ++ tx "/tidy.out-" ++ to_hex 16 (hash (a_cwd a)) in
  let summ := dir ++ tx "/tidy-summary.out-" ++ to_hex 16 (hash (a_cwd a)) in
  let link_detail := b ++ tx "_clang-tidy.out" in
  let link_summary := b ++ tx "_clang-tidy.summary" in
  let output := fun w => get_content (k_fs k) (path_for (g_dir g) w) in
  k_stuck k summ = false ->
  exists r st missing, tidy_end hash why a dir files k = Ok (r, st) /\
    (k_stuck k detail = false -> exists s, content (k_fs (r_disk r)) detail = Some s /\ details (map (fun w => (fst w, output w)) files) s) /\
    content (k_fs (r_disk r)) summ = Some (r_out r) /\ rows_text (tidy_summary g (k_fs k) files) (r_out r) /\
    (k_stuck k link_detail = false -> k_link (r_disk r) link_detail = Some detail) /\
    (k_stuck k link_summary = false -> k_link (r_disk r) link_summary = Some summ) /\
    (forall w, content (k_fs (r_disk r)) (path_for (g_dir g) w) = content (k_fs k) (path_for (g_dir g) w)) /\
    (forall q, ~ In q [detail; summ; link_detail; link_summary] ->
       content (k_fs (r_disk r)) q = content (k_fs k) q /\ k_link (r_disk r) q = k_link k q) /\
    st = tidy_status g (k_fs k) files /\
    (st = 0 -> r_out r = [] /\ r_err r = missing ++ tx "No clang-tidy complaints. 😎" ++ [ascii_of_N 10]) /\
    (st <> 0 -> r_out r <> [] /\ r_err r = missing ++ flat_map (fun l => l ++ [ascii_of_N 10])
                  [tx "Details: " ++ link_detail; tx "Summary: " ++ link_summary; tx "---- Summary ----"]) /\
    ((forall w, In w files -> content (k_fs k) (path_for (g_dir g) w) <> None) -> missing = []).
Proof.
  intros P B G OK detail summ ld ls output Free. destruct (project_dir_shape _ _ _ P) as (u & v & c & Ed & NC). clear P.
  apply base_name_iff in B as Eb. destruct B as [NB _].
  assert (J : forall x, hd c x <> "/"%char -> path_join dir x = dir ++ tx "/" ++ x).
  { intros x X. rewrite Ed. replace (u ++ "/"%char :: v ++ [c]) with ((u ++ "/"%char :: v) ++ [c]) by (rewrite <- app_assoc; reflexivity).
    rewrite join_plain by assumption. rewrite <- !app_assoc. reflexivity. }
  assert (J1 : detail_file hash (a_cwd a) dir = detail) by (unfold detail_file, report_name; rewrite J by discriminate; reflexivity).
  assert (J2 : summary_file hash (a_cwd a) dir = summ) by (unfold summary_file, report_name; rewrite J by discriminate; reflexivity).
  assert (J3 : path_join dir (tx "contents") = g_dir g) by (rewrite J, G by discriminate; reflexivity).
  assert (Sl : In "/"%char dir) by (rewrite Ed; apply in_or_app; right; now left).
  assert (D1 : detail <> summ) by (unfold detail, summ; intros E; apply app_inv_head in E; discriminate E).
  assert (D2 : forall q r s, q = dir ++ r -> (s = tx "_clang-tidy.out" \/ s = tx "_clang-tidy.summary") -> q <> b ++ s).
  { intros q r s -> Hs E. assert (I' : In "/"%char (b ++ s)) by (rewrite <- E; apply in_or_app; now left).
    apply in_app_or in I' as [I'|I']; [contradiction|]. destruct Hs as [->| ->]; cbn in I'; intuition discriminate. }
  assert (D3 : ld <> ls) by (unfold ld, ls; intros E; apply app_inv_head in E; discriminate E).
  assert (X1 : detail <> ld) by (apply (D2 _ (tx "/tidy.out-" ++ to_hex 16 (hash (a_cwd a))) _); auto).
  assert (X2 : detail <> ls) by (apply (D2 _ (tx "/tidy.out-" ++ to_hex 16 (hash (a_cwd a))) _); auto).
  assert (X3 : summ <> ld) by (apply (D2 _ (tx "/tidy-summary.out-" ++ to_hex 16 (hash (a_cwd a))) _); auto).
  assert (X4 : summ <> ls) by (apply (D2 _ (tx "/tidy-summary.out-" ++ to_hex 16 (hash (a_cwd a))) _); auto).
  assert (En : forall w, ~ In (path_for (g_dir g) w) [detail; summ; ld; ls]).
  { intros w. unfold path_for. rewrite G. set (z := path_filename (fst w) ++ tx "-" ++ to_hex 16 (snd w)). clearbody z.
    intros [E|[E|[E|[E|[]]]]]; rewrite <- app_assoc in E.
    - unfold detail in E. apply app_inv_head in E. discriminate E.
    - unfold summ in E. apply app_inv_head in E. discriminate E.
    - symmetry in E. revert E. eapply D2; eauto.
    - symmetry in E. revert E. eapply D2; eauto. }
  assert (Lk : cache_prefix a ++ tx "clang-tidy.out" = ld) by (unfold cache_prefix; rewrite Eb, <- app_assoc; reflexivity).
  assert (Lk2 : cache_prefix a ++ tx "clang-tidy.summary" = ls) by (unfold cache_prefix; rewrite Eb, <- app_assoc; reflexivity).
  unfold tidy_end, create_report. rewrite J1, J2, J3, Lk, Lk2. clear J J1 J2 J3 Lk Lk2 D2 Eb NB Sl Ed NC u v c.
  (* the first file *)
  assert (F1 : exists k1 out, open_out detail k = (k1, out) /\ (forall q, q <> detail -> content (k_fs k1) q = content (k_fs k) q) /\
     forall s, let k2 := match out with Some i => put_all i s k1 | None => k1 end in
       fs_ok (k_fs k2) /\ k_link k2 = k_link k /\ k_stuck k2 = k_stuck k /\ (forall q, q <> detail -> content (k_fs k2) q = content (k_fs k) q) /\
       (k_stuck k detail = false -> content (k_fs k2) detail = Some s)).
  { destruct (k_stuck k detail) eqn:Sd.
    - exists k, None. unfold open_out. rewrite Sd. split; [reflexivity|]. split; [auto|]. intros s. cbv zeta. repeat (split; [auto|]). discriminate.
    - destruct (open_puts detail k OK Sd) as (k1 & i & E & [P1 P2 P3 P4 P5 P6 P7]). exists k1, (Some i). split; [exact E|]. split; [exact P4|]. intros s. cbv zeta.
      split; [apply P5|]. split; [exact P2|]. split; [exact P3|]. split; [apply P7|]. intros _. apply P6. }
  destruct F1 as (k1 & out & E1 & C1 & F1). rewrite E1. clear E1.
  assert (Q : forall w, get_content (k_fs k1) (path_for (g_dir g) w) = output w).
  { intros w. unfold output, get_content. rewrite C1; [reflexivity|]. intros E. apply (En w). rewrite E. now left. }
  assert (Qc : collect (fun w => get_content (k_fs k1) (path_for (g_dir g) w)) files = collect output files).
  { unfold collect. f_equal; [|f_equal; f_equal]; apply flat_map_ext; intros w; now rewrite Q. }
  rewrite Qc. pose proof (details_collect output files) as Det. destruct (collect output files) as [collected seen] eqn:Ec. cbn [fst] in Det.
  assert (Sum : tidy_summary g (k_fs k) files = by_count seen) by (unfold tidy_summary, report; fold output; now rewrite Ec).
  assert (Sta : tidy_status g (k_fs k) files = exit_status seen) by (unfold tidy_status, report; fold output; now rewrite Ec).
  specialize (F1 collected). cbv zeta in F1. set (k2 := match out with Some i => put_all i collected k1 | None => k1 end) in *. clearbody k2.
  destruct F1 as (O2 & L2 & S2 & C2 & T2).
  set (missing := flat_map (fun w => cannot_open why (k_fs k1) (path_for (g_dir g) w)) files).
  assert (Mi : (forall w, In w files -> content (k_fs k) (path_for (g_dir g) w) <> None) -> missing = []).
  { intros H. unfold missing. assert (Z : forall w, In w files -> cannot_open why (k_fs k1) (path_for (g_dir g) w) = []).
    { intros w I'. unfold cannot_open. rewrite C1; [|intros E; apply (En w); rewrite E; now left].
      specialize (H w I'). destruct (content (k_fs k) (path_for (g_dir g) w)); [reflexivity|congruence]. }
    clear - Z. induction files as [|w files IH]; [reflexivity|]. cbn [flat_map]. rewrite Z by now left. apply IH. intros w' I'. apply Z. now right. }
  clearbody missing.
  destruct (relink detail ld k2 O2) as [O3 S3 H3 L3 C3]. set (k3 := symlink detail ld (remove_name ld k2)) in *. clearbody k3.
  destruct (open_puts summ k3 O3) as (k4 & i & E4 & [P1 P2 P3 P4 P5 P6 P7]); [rewrite S3, S2; exact Free|]. rewrite E4. clear E4.
  cbn [omap].
  destruct (relink summ ls (put_all i (summary seen) k4) (P5 _)) as [O6 S6 H6 L6 C6].
  set (k6 := symlink summ ls (remove_name ls (put_all i (summary seen) k4))) in *. clearbody k6.
  change (k_link (put_all i (summary seen) k4)) with (k_link k4) in *. change (k_stuck (put_all i (summary seen) k4)) with (k_stuck k4) in *.
  rewrite P2, P3, S3, S2 in *.
  assert (CC : forall q, ~ In q [detail; summ; ld; ls] -> content (k_fs k6) q = content (k_fs k) q /\ k_link k6 q = k_link k q).
  { intros q Nq. assert (N4 : q <> detail /\ q <> summ /\ q <> ld /\ q <> ls) by (repeat split; intros ->; apply Nq; cbn; tauto).
    destruct N4 as (N1 & N2 & N3 & N4). rewrite C6, P7, C3, C2 by assumption. rewrite L6, L3, L2 by assumption. auto. }
  eexists _, _, missing. split; [reflexivity|]. cbn [r_disk r_out r_err r_count]. fold output.
  split; [intros Sd; exists collected; split; [|exact Det]; rewrite C6, P7, C3 by auto; now apply T2|].
  split; [rewrite C6 by auto; apply P6|]. split; [rewrite Sum; apply summary_rows|].
  split; [intros Sx; rewrite L6, H3, Sx by auto; reflexivity|]. split; [intros Sx; rewrite H6, Sx; reflexivity|].
  split; [intros w; apply CC, En|]. split; [exact CC|].
  assert (Z : (N.of_nat (List.length seen) =? 0) = true <-> seen = []).
  { destruct seen; cbn [List.length]; [split; reflexivity|]. rewrite N.eqb_eq. split; [lia|discriminate]. }
  split; [rewrite Sta; destruct seen; reflexivity|].
  split; [|split; [|exact Mi]].
  - intros S0. destruct seen as [|x seen]; [split; reflexivity|]. exfalso. cbn [List.length] in S0. destruct (N.eqb_spec (N.of_nat (S (List.length seen))) 0); [lia|discriminate].
  - intros S0. destruct seen as [|x seen]; [exfalso; apply S0; reflexivity|]. split.
    + unfold summary. destruct (by_count (x :: seen)) as [|y rows] eqn:Y.
      * exfalso. pose proof (Permutation.Permutation_length (by_count_perm (x :: seen))) as PL. rewrite Y in PL. discriminate PL.
      * cbn [flat_map]. intros E. apply app_eq_nil in E as [E _]. apply app_eq_nil in E as [_ E]. discriminate E.
    + f_equal. cbn [flat_map]. rewrite <- !app_assoc. rewrite ?app_nil_r. reflexivity.
Qed.

(** Two checkouts that share a cache have their own report files, unless the hashes of their directories are equal; no detail file is a summary
    file. *)
Theorem C108_checkouts hash (dir cwd cwd' : text) :
  (dir ++ tx "/tidy.out-" ++ to_hex 16 (hash cwd) = dir ++ tx "/tidy.out-" ++ to_hex 16 (hash cwd') <-> hash cwd mod 2 ^ 64 = hash cwd' mod 2 ^ 64) /\
  (dir ++ tx "/tidy-summary.out-" ++ to_hex 16 (hash cwd) = dir ++ tx "/tidy-summary.out-" ++ to_hex 16 (hash cwd') <-> hash cwd mod 2 ^ 64 = hash cwd' mod 2 ^ 64) /\
  dir ++ tx "/tidy.out-" ++ to_hex 16 (hash cwd) <> dir ++ tx "/tidy-summary.out-" ++ to_hex 16 (hash cwd').
Proof.
  change (2 ^ 64) with (16 ^ N.of_nat 16). generalize (hash cwd), (hash cwd'). intros x y. rewrite <- to_hex_inj.
  assert (I' : forall s : text, dir ++ s ++ to_hex 16 x = dir ++ s ++ to_hex 16 y <-> to_hex 16 x = to_hex 16 y).
  { intros s. split; [|now intros ->]. intros E. apply app_inv_head in E. now apply app_inv_head in E. }
  split; [apply I'|]. split; [apply I'|]. intros E. apply app_inv_head in E. discriminate E.
Qed.

(** The summary can be read back: its text determines the rows, if the names are those of checks. *)
Lemma name_no tag : check_name tag -> ~ In " "%char tag /\ ~ In (ascii_of_N 10) tag.
Proof.
  intros (a & b & -> & _ & Fa & _ & Fb).
  assert (K : forall c, c = " "%char \/ c = ascii_of_N 10 -> ~ In c (tx "[" ++ a ++ tx "-" ++ b ++ tx "]")).
  { intros c Hc J. rewrite Forall_forall in Fa, Fb.
    apply in_app_or in J as [J|J]; [cbn in J; destruct Hc as [->| ->]; intuition discriminate|].
    apply in_app_or in J as [J|J]; [apply Fa in J; destruct J as [J|J]; destruct Hc as [->| ->]; try discriminate J; cbn in J; intuition discriminate|].
    apply in_app_or in J as [J|J]; [cbn in J; destruct Hc as [->| ->]; intuition discriminate|].
    apply in_app_or in J as [J|J]; [apply Fb in J; destruct J as [J|J]; destruct Hc as [->| ->]; try discriminate J; cbn in J; intuition discriminate|].
    cbn in J; destruct Hc as [->| ->]; intuition discriminate. }
  split; apply K; auto.
Qed.
Lemma digits_no ds n : decimal_text n ds -> ds <> [] /\ ~ In " "%char ds /\ ~ In (ascii_of_N 10) ds.
Proof.
  intros ((NE & es & F & _) & _). split; [exact NE|]. assert (K : forall c, In c ds -> 48 <= N_of_ascii c).
  { clear - F. induction F as [|x e ds es [L E] F IH]; [contradiction|]. intros c [<-|J]; [lia|auto]. }
  split; intros J; apply K in J; vm_compute in J; congruence.
Qed.
Lemma decimal_unique ds n m : decimal_text n ds -> decimal_text m ds -> n = m.
Proof.
  intros ((_ & es & F & ->) & _) ((_ & es' & F' & ->) & _). f_equal. revert es' F'. induction F as [|x e ds es [L E] F IH]; intros es' F'; inversion F' as [|? e' ? es1 [L' E'] F1]; subst; [reflexivity|].
  f_equal; [lia|auto].
Qed.
Lemma row_unique t n t' n' r : check_name t -> check_name t' -> row_text t n r -> row_text t' n' r -> t = t' /\ n = n'.
Proof.
  intros C C' (bl & ds & E & B & D & _) (bl' & ds' & E' & B' & D' & _).
  destruct (name_no t C) as [N1 _]. destruct (name_no t' C') as [N1' _]. destruct (digits_no _ _ D) as (NE & S & _). destruct (digits_no _ _ D') as (NE' & S' & _).
  rewrite E in E'. clear E. rewrite !app_assoc in E'. rewrite <- !app_assoc in E'.
  assert (X : (bl ++ ds) ++ " "%char :: t = (bl' ++ ds') ++ " "%char :: t') by (rewrite <- !app_assoc; exact E'). clear E'.
  apply last_char_split in X as [X ->]; auto.
  split; [reflexivity|].
  assert (Y : ds = ds').
  { clear - X B B' NE NE' S S'. revert bl' X B'. induction bl as [|c bl IH]; intros [|c' bl'] X B'.
    - exact X.
    - cbn [app] in X. destruct ds as [|x ds]; [contradiction|]. injection X as -> _. exfalso. apply S. left. apply B'. now left.
    - cbn [app] in X. destruct ds' as [|x ds']; [contradiction|]. injection X as <- _. exfalso. apply S'. left. apply B. now left.
    - cbn [app] in X. injection X as _ X. apply IH with bl'; auto; intros; [apply B|apply B']; now right. }
  subst ds'. eapply decimal_unique; eauto.
Qed.
Lemma line_no t n r : check_name t -> row_text t n r -> ~ In (ascii_of_N 10) r.
Proof.
  intros C (bl & ds & -> & B & D & _) J. apply in_app_or in J as [J|J]; [apply B in J; discriminate J|].
  apply in_app_or in J as [J|J]; [now apply (digits_no _ _ D) in J|]. apply in_app_or in J as [J|J]; [cbn in J; intuition discriminate|]. now apply (name_no t C) in J.
Qed.
Theorem C108_rows_readable rows rows' s : Forall (fun r => check_name (fst r)) rows -> Forall (fun r => check_name (fst r)) rows' ->
  rows_text rows s -> rows_text rows' s -> rows = rows'.
Proof.
  intros C C' (ls & F & E) (ls' & F' & E'). rewrite E in E'. clear E s. revert rows' ls' C' F' E'.
  induction F as [|r l rows ls R F IH]; intros rows' ls' C' F' E'; destruct F' as [|r' l' rows' ls' R' F']; cbn [flat_map] in E'.
  - reflexivity.
  - exfalso. apply (f_equal (@List.length ascii)) in E'. rewrite !app_length in E'. cbn in E'. lia.
  - exfalso. apply (f_equal (@List.length ascii)) in E'. rewrite !app_length in E'. cbn in E'. lia.
  - inversion C as [|? ? Cr Cs]; subst. inversion C' as [|? ? Cr' Cs']; subst.
    rewrite <- !app_assoc in E'. cbn [app] in E'. pose proof (line_no _ _ _ Cr R) as L. pose proof (line_no _ _ _ Cr' R') as L'.
    assert (X : l = l' /\ flat_map (fun l => l ++ [ascii_of_N 10]) ls = flat_map (fun l => l ++ [ascii_of_N 10]) ls').
    { clear - E' L L'. revert l' E' L'. induction l as [|c l IH]; intros [|c' l'] E' L'; cbn [app] in E'.
      - split; [reflexivity|]. now injection E'.
      - exfalso. injection E' as <- _. apply L'. now left.
      - exfalso. injection E' as -> _. apply L. now left.
      - injection E' as -> E'. destruct (IH (fun J => L (or_intror J)) l' E' (fun J => L' (or_intror J))) as [-> Q]. auto. }
    destruct X as [-> X]. f_equal; [|eapply IH; eauto]. destruct (row_unique _ _ _ _ _ Cr Cr' R R') as [A B]. destruct r, r'. cbn [fst snd] in *. congruence.
Qed.
(** The names in the summary are names of checks. *)
Theorem C108_rows_named g fs files : Forall (fun r => check_name (fst r)) (tidy_summary g fs files).
Proof.
  destruct (C89_summary g fs files) as (us & _ & _ & Sub & _ & Rows). apply Forall_forall. intros [tag n] J. cbn [fst].
  apply Rows in J as [-> NZ]. destruct (filter (fun u => text_eqb (snd u) tag) us) as [|u r] eqn:E; [contradiction|].
  assert (Ju : In u (filter (fun u => text_eqb (snd u) tag) us)) by (rewrite E; now left). apply filter_In in Ju as [Ju T]. apply text_eqb_eq in T. subst tag.
  apply Sub in Ju. apply in_flat_map in Ju as (w & _ & Jw). set (s := get_content fs (path_for (g_dir g) w)) in *. clearbody s.
  destruct (C88_lines s) as (ls & part & L & _). destruct (C89_counted_unique ls) as (bs & Cb & _). pose proof (C89_found s ls part bs L Cb) as F. clear - F Jw.
  induction F as [|l m ? ? [C _] F IH]; [contradiction|]. destruct Jw as [->|Jw]; [|auto]. destruct C as (? & _ & _ & C). exact C.
Qed.

(** The expectation that a report is made whatever the state of the disk is false: if the summary file cannot be opened the program's
    behaviour is undefined, also if there is no complaint. *)
Theorem C108_unwritable_refuted hash why a dir b files k :
  project_dir hash a = Some dir -> base_name (a_cwd a) b ->
  k_stuck k (dir ++ tx "/tidy-summary.out-" ++ to_hex 16 (hash (a_cwd a))) = true ->
  tidy_end hash why a dir files k = UB.
Proof.
  intros P B S. destruct (project_dir_shape _ _ _ P) as (u & v & c & Ed & NC). 
  assert (J : path_join dir (tx "tidy-summary.out-" ++ to_hex 16 (hash (a_cwd a))) = dir ++ tx "/" ++ (tx "tidy-summary.out-" ++ to_hex 16 (hash (a_cwd a)))).
  { rewrite Ed. replace (u ++ "/"%char :: v ++ [c]) with ((u ++ "/"%char :: v) ++ [c]) by (rewrite <- app_assoc; reflexivity).
    rewrite join_plain by (assumption || discriminate). rewrite <- !app_assoc. reflexivity. }
  unfold tidy_end, create_report. fold (summary_file hash (a_cwd a) dir).
  assert (J2 : summary_file hash (a_cwd a) dir = dir ++ tx "/tidy-summary.out-" ++ to_hex 16 (hash (a_cwd a))) by exact J.
  rewrite J2. set (summ := dir ++ tx "/tidy-summary.out-" ++ to_hex 16 (hash (a_cwd a))) in *. clearbody summ.
  assert (K1 : forall k1 out, open_out (detail_file hash (a_cwd a) dir) k = (k1, out) -> k_stuck k1 = k_stuck k).
  { intros k1 out. unfold open_out. destruct (k_stuck k (detail_file hash (a_cwd a) dir)); [intros E; assert (X : k1 = k) by congruence; now rewrite X|]. destruct (open_trunc _ _) as [fs i]. intros E.
    assert (X : k1 = set_fs fs k) by congruence. rewrite X. reflexivity. }
  destruct (open_out _ k) as [k1 out]. specialize (K1 _ _ eq_refl). destruct (collect _ files) as [col seen].
  assert (K2 : k_stuck match out with Some i => put_all i col k1 | None => k1 end = k_stuck k) by (destruct out; exact K1).
  set (k2 := match out with Some i => put_all i col k1 | None => k1 end) in *. clearbody k2.
  assert (K3 : forall t p, k_stuck (symlink t p (remove_name p k2)) = k_stuck k).
  { intros t p. unfold symlink, remove_name. rewrite <- K2. destruct (k_stuck k2 p) eqn:Q; [now rewrite Q|]. cbn [set_link set_fs k_stuck]. rewrite Q.
    repeat match goal with |- context [match ?x with Some _ => _ | None => _ end] => destruct x end; reflexivity. }
  unfold open_out at 1. rewrite K3, S. reflexivity.
Qed.

(** A cache with the outputs of two files, one of them empty; an old report is linked. *)
Definition ex_entry (w : work) : text := path_for (tx "/home/me/.cache/clang-tidy/fpga.as_v18_00009f9f/contents") w.
Definition ex_disk : disk := {|
  k_fs := {| fs_dir := fun p => if text_eqb p (ex_entry (tx "fpga/a.cc", 5)) then Some 0%nat else if text_eqb p (ex_entry (tx "fpga/b.h", 6)) then Some 1%nat else None;
             fs_data := fun i => match i with O => tx "fpga/a.cc:1:2: bad [x-y]" ++ [ascii_of_N 10] | _ => [] end; fs_next := 2 |};
  k_link := fun p => if text_eqb p (tx "fpga.as_clang-tidy.out") then Some (tx "/old") else None; k_stuck := fun _ => false |}.
Example C108_case :
  project_dir (fun s => 257 * N.of_nat (List.length s)) ex_around = Some (tx "/home/me/.cache/clang-tidy/fpga.as_v18_00009f9f") /\
  base_name (a_cwd ex_around) (tx "fpga.as") /\ fs_ok (k_fs ex_disk) /\
  match tidy_end (fun s => 257 * N.of_nat (List.length s)) (tx "none") ex_around (tx "/home/me/.cache/clang-tidy/fpga.as_v18_00009f9f")
      [(tx "fpga/a.cc", 5); (tx "fpga/b.h", 6)] ex_disk with
  | Ok (r, st) =>
    (st, r_out r, k_link (r_disk r) (tx "fpga.as_clang-tidy.out"),
     content (k_fs (r_disk r)) (tx "/home/me/.cache/clang-tidy/fpga.as_v18_00009f9f/tidy.out-0000000000000c0c")) =
    (1, tx "    1 [x-y]" ++ [ascii_of_N 10], Some (tx "/home/me/.cache/clang-tidy/fpga.as_v18_00009f9f/tidy.out-0000000000000c0c"),
      Some (tx "fpga/a.cc:" ++ [ascii_of_N 10] ++ tx "fpga/a.cc:1:2: bad [x-y]" ++ [ascii_of_N 10]))
  | _ => False
  end.
Proof.
  split; [exact C101_case|]. split; [split; [cbn; intuition discriminate|right; exists (tx "/src"); reflexivity]|]. split.
  - split; cbn [ex_disk k_fs fs_dir fs_next].
    + intros p q i. destruct (text_eqb p _) eqn:P1, (text_eqb q _) eqn:Q1; try (apply text_eqb_eq in P1); try (apply text_eqb_eq in Q1); try congruence;
        repeat match goal with |- context [if text_eqb ?x ?y then _ else _] => let E := fresh in destruct (text_eqb x y) eqn:E; [apply text_eqb_eq in E|] end; try congruence.
    + intros p i. destruct (text_eqb p _); [intros E; assert (i = 0%nat) by congruence; lia|]. destruct (text_eqb p _); [|discriminate].
      intros E; assert (i = 1%nat) by congruence; lia.
  - vm_compute. reflexivity.
Qed.

Print Assumptions C108_report.
Print Assumptions C108_checkouts.
Print Assumptions C108_rows_readable.
Print Assumptions C108_rows_named.
Print Assumptions C108_unwritable_refuted.
