(** The invariant of the worker threads of TidyPool.v, under every interleaving, kill and start. *)
From Verif Require Import Base BaseFacts Absl Print Tidy TidyPool TidyFacts.

Section Pool.
Variable g : setting.
Notation dir := (g_dir g).
Notation tmp := (tmp_for (g_dir g)).
Notation entry := (path_for (g_dir g)).

(** What an item's cache entry has to hold when process [p] makes it. *)
Definition clean_out (p : text) (w : work) : text := cleaned (g_repair g) (fst w) (g_out g p w).
Definition distinct (q : list work) : Prop := NoDup (map entry q).

Definition item_of (st : stage) : list work :=
  match st with
  | Fetch | Done => []
  | Have w | Running w _ _ _ | Ended w _ | Loaded w _ | Writing w _ _ _ | Written w => [w]
  end.
Definition held (p : text) (ts : list (text * stage)) : list work :=
  flat_map (fun t => if text_eqb (fst t) p then item_of (snd t) else []) ts.

Definition stage_ok (p : text) (fs : fsys) (st : stage) : Prop :=
  match st with
  | Fetch | Have _ | Done | Ended _ true => True
  | Running w i off rest =>
      fs_dir fs (tmp p w) = Some i /\ off = List.length (fs_data fs i) /\ fs_data fs i ++ rest = g_out g p w
  | Ended w false => content fs (tmp p w) = Some (g_out g p w)
  | Loaded w c => c = g_out g p w
  | Writing w i off rest =>
      fs_dir fs (tmp p w) = Some i /\ off = List.length (fs_data fs i) /\ fs_data fs i ++ rest = clean_out p w
  | Written w => content fs (tmp p w) = Some (clean_out p w)
  end.

Lemma held_mid p l q st r :
  held p (l ++ (q, st) :: r) = held p l ++ (if text_eqb q p then item_of st else []) ++ held p r.
Proof. unfold held. rewrite flat_map_app. reflexivity. Qed.
Lemma held_app p l r : held p (l ++ r) = held p l ++ held p r.
Proof. unfold held. apply flat_map_app. Qed.
Lemma held_fetch p q n : held p (repeat (q, Fetch) n) = [].
Proof. unfold held. induction n as [|n IH]; [reflexivity|]. cbn. destruct (text_eqb q p); exact IH. Qed.

(** A thread does not see what happens to other names. *)
Lemma stage_frame t f p fs fs' st : touches t f fs fs' ->
  (forall w, In w (item_of st) -> tmp p w <> t /\ tmp p w <> f) -> stage_ok p fs st -> stage_ok p fs' st.
Proof.
  intros T H O.
  assert (K : forall w, In w (item_of st) -> fs_dir fs' (tmp p w) = fs_dir fs (tmp p w) /\
    content fs' (tmp p w) = content fs (tmp p w) /\ (forall i, fs_dir fs (tmp p w) = Some i -> fs_data fs' i = fs_data fs i)).
  { intros w I. destruct (H w I) as [A B]. split; [|split].
    - now apply (to_dir _ _ _ _ T).
    - now apply (touches_content _ _ _ _ _ T).
    - intros i E. now apply (to_data _ _ _ _ T (tmp p w)). }
  destruct st as [|w|w i off rest|w [|]|w c|w i off rest|w|]; cbn [stage_ok item_of] in *; try exact I; try exact O;
    destruct (K w (or_introl eq_refl)) as (A & B & C).
  - destruct O as (O1 & O2 & O3). rewrite A, (C _ O1). auto.
  - now rewrite B.
  - destruct O as (O1 & O2 & O3). rewrite A, (C _ O1). auto.
  - now rewrite B.
Qed.

Definition published (fs0 : fsys) (gv : list (text * list work)) (f c : text) : Prop :=
  content fs0 f = Some c \/
  exists p q w, In (p, q) gv /\ In w q /\ entry w = f /\ c = clean_out p w.

Record inv (fs0 : fsys) (s : sys) : Prop := {
  i_fs : fs_ok (s_fs s);
  i_pid : forall p q, In (p, q) (s_given s) -> forallb is_digit p = true;
  i_thr : forall p st, In (p, st) (s_threads s) -> In p (map fst (s_given s)) /\ stage_ok p (s_fs s) st;
  i_nodup : forall p, NoDup (map entry (held p (s_threads s) ++ s_queue s p));
  i_given : forall p w, In w (held p (s_threads s) ++ s_queue s p) -> exists q, In (p, q) (s_given s) /\ In w q;
  i_entry : forall v c, content (s_fs s) (entry v) = Some c -> published fs0 (s_given s) (entry v) c;
  i_kept : forall v, content fs0 (entry v) <> None -> content (s_fs s) (entry v) <> None;
  i_track : forall p q w, In (p, q) (s_given s) -> In w q ->
    In w (held p (s_threads s) ++ s_queue s p) \/ content (s_fs s) (entry w) <> None \/ In (p, w) (s_lost s);
  i_done : forall p, In (p, Done) (s_threads s) -> s_queue s p = [] \/ exists w, In (p, w) (s_lost s);
  i_one : NoDup (map fst (s_given s));
  i_noabort : s_aborted s = []
}.

Lemma set_queue_same p q f : set_queue p q f p = q.
Proof. unfold set_queue. now rewrite text_eqb_refl. Qed.
Lemma set_queue_other p q f x : x <> p -> set_queue p q f x = f x.
Proof. intros H. unfold set_queue. now rewrite text_eqb_neq. Qed.

(** What one thread of [p], at stage [st] with item [w], may do: the facts the invariant needs of a step. *)
Record local (lost : list (text * work)) (p : text) (q : list work) (st : stage) (fs fs' : fsys) (q' : list work) (st' : stage) : Prop := {
  l_ok : stage_ok p fs' st';
  l_items : item_of st' ++ q' = item_of st ++ q \/
            (exists w, item_of st = [w] /\ item_of st' = [] /\ q' = q /\
               (content fs' (entry w) <> None \/ In (p, w) lost));
  l_touch : fs' = fs \/ exists w, item_of st = [w] /\ touches (tmp p w) (entry w) fs fs';
  l_entry : forall v c, content fs' (entry v) = Some c ->
     content fs (entry v) = Some c \/ (exists w, item_of st = [w] /\ entry w = entry v /\ c = clean_out p w);
  l_kept : forall v, content fs (entry v) <> None -> content fs' (entry v) <> None;
  l_queue : q = [] -> q' = [];
  l_done : st' = Done -> q' = [] \/ exists w, In (p, w) lost
}.

Lemma open_local lost p fs fs' q w i st st' : fs_ok fs -> open_trunc (tmp p w) fs = (fs', i) ->
  item_of st = [w] -> item_of st' = [w] -> stage_ok p fs' st' -> local lost p q st fs fs' q st'.
Proof.
  intros F E I1 I2 O. destruct (open_touches (tmp p w) (entry w) fs fs' i F E) as (T & D & Z & K).
  assert (KE : forall v, content fs' (entry v) = content fs (entry v)).
  { intros v. apply K. intros X. symmetry in X. revert X. apply tmp_not_final. }
  split; auto.
  - left. now rewrite I1, I2.
  - right. eauto.
  - intros v c H. left. now rewrite <- KE.
  - intros v H. now rewrite KE.
  - intros ->. discriminate.
Qed.
Lemma write_local lost p fs q w i off a st st' : fs_ok fs -> fs_dir fs (tmp p w) = Some i ->
  item_of st = [w] -> item_of st' = [w] -> stage_ok p (write_file i off a fs) st' ->
  local lost p q st fs (write_file i off a fs) q st'.
Proof.
  intros F E I1 I2 O. destruct (write_touches (tmp p w) (entry w) fs i off a F E) as (T & K).
  assert (KE : forall v, content (write_file i off a fs) (entry v) = content fs (entry v)).
  { intros v. apply K. intros X. symmetry in X. revert X. apply tmp_not_final. }
  split; auto.
  - left. now rewrite I1, I2.
  - right. eauto.
  - intros v c H. left. now rewrite <- KE.
  - intros v H. now rewrite KE.
  - intros ->. discriminate.
Qed.
Lemma same_local lost p fs q st st' : item_of st' = item_of st -> stage_ok p fs st' -> st' <> Done -> local lost p q st fs fs q st'.
Proof. intros I O D. split; auto. - left. now rewrite I. - intros X. contradiction. Qed.

Lemma write_data i off a fs : fs_data (write_file i off a fs) i = overwrite off a (fs_data fs i).
Proof. cbn [write_file fs_data]. apply set_data_same. Qed.

Lemma own_local lost p fs q st fs' q' st' : fs_ok fs -> stage_ok p fs st -> own_step g p fs q st fs' q' st' ->
  local lost p q st fs fs' q' st'.
Proof.
  intros F O S. inversion S; subst.
  - split; cbn; auto.
  - split; cbn; auto; discriminate.
  - eapply open_local; eauto; try reflexivity. destruct (open_touches _ (entry w) _ _ _ F H) as (_ & D & Z & _).
    cbn. rewrite Z. auto.
  - apply same_local; [reflexivity| |discriminate]. cbn in O |- *. destruct O as (A & B & C). unfold content. rewrite A. cbn.
    rewrite app_nil_r in C. now rewrite C.
  - apply same_local; [reflexivity|exact I|discriminate].
  - apply same_local; [reflexivity| |discriminate]. cbn in O |- *. unfold get_content. now rewrite O.
  - eapply open_local; eauto; try reflexivity. destruct (open_touches _ (entry w) _ _ _ F H) as (_ & D & Z & _).
    cbn in O |- *. rewrite Z. subst c. auto.
  - cbn in O. destruct O as (A & B & C). eapply write_local; eauto; try reflexivity.
    cbn [stage_ok]. split; [exact A|]. rewrite write_data, B, overwrite_end, app_length, <- app_assoc. auto.
  - apply same_local; [reflexivity| |discriminate]. cbn in O |- *. destruct O as (A & B & C). unfold content. rewrite A. cbn.
    rewrite app_nil_r in C. now rewrite C.
  - destruct (rename_touches _ _ _ _ F (tmp_not_final dir p w w) H) as (T & R). cbn in O.
    assert (KE : forall v, entry v <> entry w -> content fs' (entry v) = content fs (entry v)).
    { intros v NE. apply (touches_content _ _ _ _ _ T); [|exact NE]. intros X. symmetry in X. revert X. apply tmp_not_final. }
    split; cbn; auto.
    + right. exists w. rewrite R, O. split; [reflexivity|]. split; [reflexivity|]. split; [reflexivity|left; discriminate].
    + right. exists w. auto.
    + intros v c Hc. destruct (text_eqb (entry v) (entry w)) eqn:E.
      * apply text_eqb_eq in E. right. exists w. rewrite E, R, O in Hc. injection Hc as <-. auto.
      * left. rewrite <- KE; [exact Hc|]. intros X. apply text_eqb_eq in X. congruence.
    + intros v Hv. destruct (text_eqb (entry v) (entry w)) eqn:E.
      * apply text_eqb_eq in E. rewrite E, R, O. discriminate.
      * rewrite KE; [exact Hv|]. intros X. apply text_eqb_eq in X. congruence.
    + discriminate.
Qed.
Lemma child_local lost p fs q st fs' st' : fs_ok fs -> stage_ok p fs st -> child_step fs st fs' st' -> local lost p q st fs fs' q st'.
Proof.
  intros F O S. inversion S; subst. cbn in O. destruct O as (A & B & C). eapply write_local; eauto; try reflexivity.
  cbn [stage_ok]. split; [exact A|]. rewrite write_data, B, overwrite_end, app_length, <- app_assoc. auto.
Qed.

Lemma in_map_inv_tmp p fs0 s : inv fs0 s -> In p (map fst (s_given s)) -> forallb is_digit p = true.
Proof. intros I H. apply in_map_iff in H as ((p' & q) & <- & H). eapply i_pid; eauto. Qed.

(** The invariant is kept by a local step of one thread. *)
Lemma local_inv lost' fs0 s l r p st fs' q' st' : inv fs0 s -> incl (s_lost s) lost' -> s_threads s = l ++ (p, st) :: r ->
  local lost' p (s_queue s p) st (s_fs s) fs' q' st' ->
  inv fs0 {| s_fs := fs'; s_queue := set_queue p q' (s_queue s); s_threads := l ++ (p, st') :: r;
             s_given := s_given s; s_lost := lost'; s_dead := s_dead s; s_aborted := s_aborted s |}.
Proof.
  intros I IL E L.
  assert (HP : In p (map fst (s_given s))).
  { apply (i_thr _ _ I p st). rewrite E. apply in_or_app. right. now left. }
  assert (Hpd : forallb is_digit p = true) by (eapply in_map_inv_tmp; eauto).
  assert (Held : forall x, held x (s_threads s) = held x l ++ (if text_eqb p x then item_of st else []) ++ held x r).
  { intros x. rewrite E. apply held_mid. }
  pose proof (i_nodup _ _ I p) as ND. rewrite Held, text_eqb_refl in ND.
  assert (HOther : forall x t0, In (x, t0) (l ++ r) -> forall w, In w (item_of st) -> forall v, In v (item_of t0) ->
            tmp x v <> tmp p w).
  { intros x t0 Hx w Hw v Hv Et.
    assert (Hxg : In x (map fst (s_given s))).
    { apply (i_thr _ _ I x t0). rewrite E. apply in_app_or in Hx. apply in_or_app. destruct Hx; [now left|right; now right]. }
    apply tmp_inj in Et; [|eapply in_map_inv_tmp; eauto|exact Hpd]. destruct Et as [-> Ee].
    assert (Hh : In v (held p l ++ held p r)).
    { rewrite <- held_app. unfold held. apply in_flat_map. exists (p, t0). split; [exact Hx|]. cbn. now rewrite text_eqb_refl. }
    destruct st as [|w0|w0 i0 o0 r0|w0 b0|w0 c0|w0 i0 o0 r0|w0|]; cbn in Hw; try contradiction; destruct Hw as [<-|[]];
      cbn [item_of] in ND; rewrite <- !app_assoc in ND; cbn [app] in ND; rewrite map_app in ND; cbn [map] in ND;
      apply NoDup_remove_2 in ND; apply ND; rewrite <- Ee; rewrite <- map_app; apply in_map;
      apply in_app_or in Hh; apply in_or_app; (destruct Hh; [now left|right; apply in_or_app; now left]). }
  assert (Touched : forall x t0, In (x, t0) (l ++ r) -> stage_ok x (s_fs s) t0 -> stage_ok x fs' t0).
  { intros x t0 Hx O. destruct (l_touch _ _ _ _ _ _ _ _ L) as [->|(w & Hw & T)]; [exact O|].
    eapply stage_frame; eauto. intros v Hv. split; [|apply tmp_not_final].
    eapply HOther; eauto. rewrite Hw. now left. }
  assert (Items : forall w, In w (held p (l ++ (p, st') :: r) ++ q') -> In w (held p (s_threads s) ++ s_queue s p)).
  { intros w. rewrite held_mid, Held, text_eqb_refl. destruct (l_items _ _ _ _ _ _ _ _ L) as [EI|(u & I1 & I2 & I3 & I4)].
    - rewrite !in_app_iff. intros H.
      assert (X : In w (item_of st' ++ q') -> In w (item_of st ++ s_queue s p)) by (rewrite EI; auto).
      rewrite !in_app_iff in X. tauto.
    - rewrite I1, I2, I3. rewrite !in_app_iff. cbn. tauto. }
  split; cbn [s_fs s_queue s_threads s_given s_lost s_dead s_aborted].
  - destruct (l_touch _ _ _ _ _ _ _ _ L) as [->|(w & Hw & T)]; [apply I|apply T].
  - apply I.
  - intros x t0 Hx. apply in_app_or in Hx.
    assert (Hx' : (x, t0) = (p, st') \/ In (x, t0) (l ++ r)).
    { rewrite in_app_iff. destruct Hx as [Hx|[Hx|Hx]]; auto. }
    destruct Hx' as [Hx'|Hx'].
    + injection Hx' as -> ->. split; [exact HP|]. apply L.
    + assert (Hx'' : In (x, t0) (s_threads s)).
      { rewrite E. apply in_app_or in Hx'. apply in_or_app. destruct Hx'; [now left|right; now right]. }
      destruct (i_thr _ _ I x t0 Hx'') as [A B]. split; [exact A|]. now apply Touched.
  - intros x. destruct (text_eqb x p) eqn:X.
    + apply text_eqb_eq in X. subst x. rewrite set_queue_same, held_mid, text_eqb_refl.
      destruct (l_items _ _ _ _ _ _ _ _ L) as [EI|(u & I1 & I2 & I3 & I4)].
      * assert (P : NoDup (map entry (held p l ++ held p r ++ item_of st' ++ q'))).
        { rewrite EI. eapply Permutation.Permutation_NoDup; [|exact ND]. apply Permutation.Permutation_map.
          rewrite <- !app_assoc. apply Permutation.Permutation_app_head. apply Permutation.Permutation_app_swap_app. }
        eapply Permutation.Permutation_NoDup; [|exact P]. apply Permutation.Permutation_map.
        rewrite <- !app_assoc. apply Permutation.Permutation_app_head. apply Permutation.Permutation_app_swap_app.
      * rewrite I2, I3. rewrite I1 in ND. cbn [app] in ND |- *. rewrite <- !app_assoc in ND |- *. cbn [app] in ND.
        rewrite map_app in ND. cbn [map] in ND. apply NoDup_remove_1 in ND. now rewrite <- map_app in ND.
    + assert (NX : x <> p) by (intros ->; rewrite text_eqb_refl in X; discriminate).
      rewrite set_queue_other by exact NX. rewrite held_mid.
      rewrite (text_eqb_neq p x) by congruence. pose proof (i_nodup _ _ I x) as NDx. rewrite Held in NDx.
      rewrite (text_eqb_neq p x) in NDx by congruence. exact NDx.
  - intros x w. destruct (text_eqb x p) eqn:X.
    + apply text_eqb_eq in X. subst x. rewrite set_queue_same. intros H. apply (i_given _ _ I p). now apply Items.
    + assert (NX : x <> p) by (intros ->; rewrite text_eqb_refl in X; discriminate).
      rewrite set_queue_other by exact NX. rewrite held_mid. rewrite (text_eqb_neq p x) by congruence. intros H.
      apply (i_given _ _ I x). rewrite Held. rewrite (text_eqb_neq p x) by congruence. exact H.
  - intros v c Hc. destruct (l_entry _ _ _ _ _ _ _ _ L v c Hc) as [H|(w & Hw & Hv & ->)].
    + now apply (i_entry _ _ I).
    + right. destruct (i_given _ _ I p w) as (q & Hq & Hqw).
      { rewrite Held, text_eqb_refl, Hw, !in_app_iff. left. right. left. now left. }
      exists p, q, w. auto.
  - intros v Hv. apply (l_kept _ _ _ _ _ _ _ _ L). now apply (i_kept _ _ I).
  - intros x q w Hx Hw. destruct (i_track _ _ I x q w Hx Hw) as [H|[H|H]]; [|right; left; now apply (l_kept _ _ _ _ _ _ _ _ L)|auto].
    destruct (text_eqb x p) eqn:X.
    + apply text_eqb_eq in X. subst x. rewrite set_queue_same, held_mid, text_eqb_refl.
      rewrite Held, text_eqb_refl in H.
      destruct (l_items _ _ _ _ _ _ _ _ L) as [EI|(u & I1 & I2 & I3 & I4)].
      * left. rewrite !in_app_iff in H |- *.
        assert (X : In w (item_of st ++ s_queue s p) -> In w (item_of st' ++ q')) by (rewrite EI; auto).
        rewrite !in_app_iff in X. tauto.
      * rewrite I1 in H. rewrite I2, I3. rewrite !in_app_iff in H |- *. cbn in H |- *.
        destruct H as [[H|[[H|H]|H]]|H]; try tauto. subst u. destruct I4; auto.
    + assert (NX : x <> p) by (intros ->; rewrite text_eqb_refl in X; discriminate).
      rewrite set_queue_other by exact NX. rewrite held_mid. rewrite Held in H.
      rewrite (text_eqb_neq p x) in H |- * by congruence. auto.
  - intros x Hx. destruct (text_eqb x p) eqn:X.
    + apply text_eqb_eq in X. subst x. rewrite set_queue_same. apply in_app_or in Hx. 
      assert (Hx' : st' = Done \/ In (p, Done) (s_threads s)).
      { rewrite E, in_app_iff. destruct Hx as [Hx|[Hx|Hx]]; auto; [|right; right; now right]. injection Hx as ->. now left. }
      destruct Hx' as [->|Hx']; [now apply (l_done _ _ _ _ _ _ _ _ L)|].
      destruct (i_done _ _ I p Hx') as [Hq|(u & Hq)]; [left|right; exists u; now apply IL].
      now apply (l_queue _ _ _ _ _ _ _ _ L).
    + assert (NX : x <> p) by (intros ->; rewrite text_eqb_refl in X; discriminate).
      rewrite set_queue_other by exact NX. cut (s_queue s x = [] \/ exists w, In (x, w) (s_lost s)); [intros [Z|(u & Z)]; [now left|right; exists u; now apply IL]|].
      apply (i_done _ _ I). rewrite E. apply in_app_or in Hx. apply in_or_app.
      destruct Hx as [Hx|[Hx|Hx]]; [now left| |right; now right]. injection Hx as ->. contradiction.
  - apply I.
  - apply I.
Qed.

Lemma inv_queue fs0 s q' : inv fs0 s -> (forall p, q' p = s_queue s p) ->
  inv fs0 {| s_fs := s_fs s; s_queue := q'; s_threads := s_threads s; s_given := s_given s; s_lost := s_lost s;
             s_dead := s_dead s; s_aborted := s_aborted s |}.
Proof.
  intros I E. split; cbn; try apply I.
  - intros p. rewrite E. apply I.
  - intros p w. rewrite E. apply I.
  - intros p q w. rewrite E. apply I.
  - intros p. rewrite E. apply I.
Qed.
Lemma inv_dead fs0 s d : inv fs0 s ->
  inv fs0 {| s_fs := s_fs s; s_queue := s_queue s; s_threads := s_threads s; s_given := s_given s; s_lost := s_lost s;
             s_dead := d; s_aborted := s_aborted s |}.
Proof. intros I. split; cbn; apply I. Qed.

Lemma quit_local lost p q w fs : fs_ok fs -> In (p, w) lost ->
  local lost p q (Ended w true) fs (remove_file (tmp p w) fs) q Done.
Proof.
  intros F H. destruct (remove_touches (tmp p w) (entry w) fs F) as (T & K).
  assert (KE : forall v, content (remove_file (tmp p w) fs) (entry v) = content fs (entry v)).
  { intros v. apply K. intros X. symmetry in X. revert X. apply tmp_not_final. }
  split; cbn [stage_ok item_of]; auto.
  - right. exists w. auto.
  - right. eauto.
  - intros v c Hc. left. now rewrite <- KE.
  - intros v Hv. now rewrite KE.
  - intros _. right. eauto.
Qed.

Lemma no_abort fs0 s p w : inv fs0 s -> In (p, Written w) (s_threads s) -> rename_file (tmp p w) (entry w) (s_fs s) <> None.
Proof.
  intros I H. destruct (i_thr _ _ I p _ H) as [_ O]. cbn in O. unfold content in O. unfold rename_file.
  destruct (fs_dir (s_fs s) (tmp p w)); [discriminate|discriminate].
Qed.

Lemma thread_inv fs0 s s' : inv fs0 s -> thread_step g s s' -> inv fs0 s'.
Proof.
  intros I S. inversion S; subst; clear S.
  - apply (local_inv (s_lost s) fs0 s l r p st fs' q' st' I (incl_refl _) H). apply own_local; [apply I| |assumption].
    apply (i_thr _ _ I). rewrite H. apply in_or_app. right. now left.
  - pose proof (local_inv (s_lost s) fs0 s l r p st fs' (s_queue s p) st' I (incl_refl _) H) as J.
    eapply inv_queue in J; [exact J|..]; cbn [s_fs s_queue s_threads s_given s_lost s_dead s_aborted].
    + apply child_local; [apply I| |assumption].
      apply (i_thr _ _ I). rewrite H. apply in_or_app. right. now left.
    + intros x. unfold set_queue. destruct (text_eqb x p) eqn:X; [|reflexivity]. apply text_eqb_eq in X. now subst x.
  - pose proof (local_inv ((p, w) :: s_lost s) fs0 s l r p (Ended w true) (remove_file (tmp p w) (s_fs s)) (s_queue s p) Done I
      (incl_tl _ (incl_refl _)) H) as J.
    eapply inv_queue in J; [exact J|..]; cbn [s_fs s_queue s_threads s_given s_lost s_dead s_aborted].
    + apply quit_local; [apply I|now left].
    + intros x. unfold set_queue. destruct (text_eqb x p) eqn:X; [|reflexivity]. apply text_eqb_eq in X. now subst x.
  - exfalso. eapply (no_abort fs0 s p w I); [|eassumption]. rewrite H. apply in_or_app. right. now left.
Qed.

Lemma no_thread_held p ts : ~ In p (map fst ts) -> held p ts = [].
Proof.
  intros H. unfold held. induction ts as [|[x t] ts IH]; [reflexivity|]. cbn in *.
  rewrite text_eqb_neq by tauto. apply IH. tauto.
Qed.

Lemma start_inv fs0 s p jobs q : inv fs0 s -> ~ In p (map fst (s_given s)) -> forallb is_digit p = true -> distinct q ->
  inv fs0 {| s_fs := s_fs s; s_queue := set_queue p q (s_queue s); s_threads := s_threads s ++ repeat (p, Fetch) jobs;
             s_given := (p, q) :: s_given s; s_lost := s_lost s; s_dead := s_dead s; s_aborted := s_aborted s |}.
Proof.
  intros I NP Dp Dq.
  assert (NH : held p (s_threads s) = []).
  { apply no_thread_held. intros H. apply in_map_iff in H as ((x & t) & <- & H). apply NP. now apply (i_thr _ _ I x t). }
  assert (HH : forall x, held x (s_threads s ++ repeat (p, Fetch) jobs) = held x (s_threads s)).
  { intros x. rewrite held_app, held_fetch. apply app_nil_r. }
  split; cbn [s_fs s_queue s_threads s_given s_lost s_dead s_aborted]; try apply I.
  - intros x y [H|H]; [injection H as <- <-; exact Dp|]. eapply i_pid; eauto.
  - intros x t H. apply in_app_or in H as [H|H].
    + destruct (i_thr _ _ I x t H) as [A B]. split; [now right|exact B].
    + apply repeat_spec in H. injection H as -> ->. split; [now left|exact Logic.I].
  - intros x. rewrite HH. destruct (text_eqb x p) eqn:X.
    + apply text_eqb_eq in X. subst x. rewrite set_queue_same, NH. exact Dq.
    + rewrite set_queue_other by (intros ->; rewrite text_eqb_refl in X; discriminate). apply I.
  - intros x w. rewrite HH. destruct (text_eqb x p) eqn:X.
    + apply text_eqb_eq in X. subst x. rewrite set_queue_same, NH. intros H. exists q. split; [now left|exact H].
    + rewrite set_queue_other by (intros ->; rewrite text_eqb_refl in X; discriminate). intros H.
      destruct (i_given _ _ I x w H) as (y & A & B). exists y. split; [now right|exact B].
  - intros v c H. destruct (i_entry _ _ I v c H) as [A|(x & y & w & A & B & C)]; [now left|right].
    exists x, y, w. split; [now right|auto].
  - intros x y w [H|H] Hw.
    + injection H as <- <-. left. rewrite set_queue_same. apply in_or_app. now right.
    + assert (NX : x <> p). { intros ->. apply NP. now apply (in_map fst) in H. }
      rewrite HH, set_queue_other by exact NX. eapply i_track; eauto.
  - intros x H. apply in_app_or in H as [H|H]; [|apply repeat_spec in H; discriminate].
    assert (NX : x <> p). { intros ->. apply NP. now apply (i_thr _ _ I p Done). }
    rewrite set_queue_other by exact NX. now apply (i_done _ _ I).
  - cbn [map fst]. constructor; [exact NP|apply I].
Qed.

Lemma idle_inv fs0 : fs_ok fs0 -> inv fs0 (idle fs0).
Proof.
  intros F. split; cbn; auto; try contradiction.
  - intros _. constructor.
  - intros v c H. now left.
  - constructor.
Qed.

Lemma step_inv fs0 s s' : inv fs0 s -> sys_step distinct g s s' -> inv fs0 s'.
Proof.
  intros I S. inversion S; subst.
  - eapply thread_inv; eauto.
  - now apply inv_dead.
  - now apply start_inv.
Qed.
Lemma reach_inv fs0 s t : inv fs0 s -> reach distinct g s t -> inv fs0 t.
Proof. intros I R. induction R as [|t u R IH S]; [exact I|]. eapply step_inv; eauto. Qed.

(** *** Entries once published are never written to *)
Definition sealed (i : nat) (fs : fsys) : Prop := (i < fs_next fs)%nat /\ forall p w, fs_dir fs (tmp p w) <> Some i.

Lemma sealed_open t i fs fs' j : sealed i fs -> open_trunc t fs = (fs', j) -> (exists p w, t = tmp p w) ->
  sealed i fs' /\ fs_data fs' i = fs_data fs i.
Proof.
  intros [Lt No] E (p & w & ->). unfold open_trunc in E. destruct (fs_dir fs (tmp p w)) as [k|] eqn:D; injection E as <- <-.
  - split; [split; assumption|]. cbn [fs_data]. apply set_data_other. intros ->. now apply (No p w).
  - split; [split; cbn [fs_next fs_dir]; [lia|]|].
    + intros p' w'. unfold set_dir. destruct (text_eqb _ _); [intros X; injection X as X; lia|apply No].
    + cbn [fs_data]. apply set_data_other. lia.
Qed.
Lemma sealed_write i j off a fs p w : sealed i fs -> fs_dir fs (tmp p w) = Some j ->
  sealed i (write_file j off a fs) /\ fs_data (write_file j off a fs) i = fs_data fs i.
Proof.
  intros [Lt No] D. split; [split; assumption|]. cbn [write_file fs_data]. apply set_data_other. intros ->. now apply (No p w).
Qed.
Lemma sealed_remove i t fs : sealed i fs -> sealed i (remove_file t fs) /\ fs_data (remove_file t fs) i = fs_data fs i.
Proof.
  intros [Lt No]. split; [split; [assumption|]|reflexivity]. intros p w. cbn [remove_file fs_dir]. unfold set_dir.
  destruct (text_eqb _ _); [discriminate|apply No].
Qed.
Lemma sealed_rename i p w fs fs' : sealed i fs -> rename_file (tmp p w) (entry w) fs = Some fs' ->
  sealed i fs' /\ fs_data fs' i = fs_data fs i.
Proof.
  intros [Lt No] E. unfold rename_file in E. destruct (fs_dir fs (tmp p w)) as [k|] eqn:D; [|discriminate]. injection E as <-.
  split; [split; [assumption|]|reflexivity]. intros p' w'. cbn [fs_dir]. rewrite set_dir_other by apply tmp_not_final.
  unfold set_dir. destruct (text_eqb _ _); [discriminate|apply No].
Qed.

Lemma sealed_step fs0 s s' i : inv fs0 s -> sys_step distinct g s s' -> sealed i (s_fs s) ->
  sealed i (s_fs s') /\ fs_data (s_fs s') i = fs_data (s_fs s) i.
Proof.
  intros I S Se. inversion S; subst; cbn [s_fs]; auto.
  assert (TH : forall l p st r, s_threads s = l ++ (p, st) :: r -> stage_ok p (s_fs s) st).
  { intros l p st r E. apply (i_thr _ _ I). rewrite E. apply in_or_app. right. now left. }
  inversion H; subst; cbn [s_fs]; auto.
  - apply TH in H0. inversion H2; subst; auto.
    + eapply sealed_open; eauto.
    + eapply sealed_open; eauto.
    + cbn in H0. eapply sealed_write; eauto. apply H0.
    + eapply sealed_rename; eauto.
  - apply TH in H0. inversion H1; subst. cbn in H0. eapply sealed_write; eauto. apply H0.
  - now apply sealed_remove.
Qed.
Lemma sealed_reach fs0 s t i : inv fs0 s -> reach distinct g s t -> sealed i (s_fs s) ->
  sealed i (s_fs t) /\ fs_data (s_fs t) i = fs_data (s_fs s) i.
Proof.
  intros I R Se. induction R as [|t u R IH S]; [auto|]. destruct IH as [A B].
  destruct (sealed_step fs0 t u i (reach_inv _ _ _ I R) S A) as [C D]. split; [exact C|congruence].
Qed.
Lemma entry_sealed s v i : fs_ok (s_fs s) -> fs_dir (s_fs s) (entry v) = Some i -> sealed i (s_fs s).
Proof.
  intros [Inj Lt] D. split; [eapply Lt; eauto|]. intros p w E. assert (X : tmp p w = entry v) by (eapply Inj; eauto).
  revert X. apply tmp_not_final.
Qed.

(** *** Progress and termination *)
Definition cost_have (p : text) (w : work) : nat := List.length (g_out g p w) + List.length (clean_out p w) + 8.
Definition cost_stage (p : text) (st : stage) : nat :=
  match st with
  | Done => 0
  | Fetch => 1
  | Have w => cost_have p w
  | Running w _ _ rest => List.length rest + List.length (clean_out p w) + 7
  | Ended w true => 1
  | Ended w false => List.length (clean_out p w) + 6
  | Loaded w _ => List.length (clean_out p w) + 5
  | Writing _ _ _ rest => List.length rest + 4
  | Written _ => 3
  end.
Fixpoint total {A} (f : A -> nat) (l : list A) : nat := match l with [] => 0 | x :: r => f x + total f r end.
Definition cost_queue (p : text) (q : list work) : nat := total (cost_have p) q.
Definition cost (s : sys) : nat :=
  total (fun t => cost_stage (fst t) (snd t)) (s_threads s) + total (fun p => cost_queue p (s_queue s p)) (map fst (s_given s)).

Lemma total_app {A} (f : A -> nat) l r : total f (l ++ r) = (total f l + total f r)%nat.
Proof. induction l as [|x l IH]; [reflexivity|]. cbn. rewrite IH. lia. Qed.
Lemma total_ext {A} (f h : A -> nat) l : (forall x, In x l -> f x = h x) -> total f l = total h l.
Proof. induction l as [|x l IH]; intros H; [reflexivity|]. cbn. rewrite H, IH; auto; [|now left]. intros y Hy. apply H. now right. Qed.

Lemma queue_cost ps p q' (f : text -> list work) : NoDup ps -> In p ps ->
  (total (fun x => cost_queue x (set_queue p q' f x)) ps + cost_queue p (f p) =
   total (fun x => cost_queue x (f x)) ps + cost_queue p q')%nat.
Proof.
  intros ND H. induction ps as [|x ps IH]; [contradiction|]. inversion ND as [|? ? NX ND']; subst. cbn.
  destruct H as [->|H].
  - rewrite set_queue_same. rewrite (total_ext _ (fun x => cost_queue x (f x)) ps); [lia|].
    intros y Hy. rewrite set_queue_other; [reflexivity|]. intros ->. contradiction.
  - specialize (IH ND' H). rewrite set_queue_other; [lia|]. intros ->. contradiction.
Qed.

Lemma own_cost p fs q st fs' q' st' : stage_ok p fs st -> own_step g p fs q st fs' q' st' ->
  (cost_stage p st' + cost_queue p q' < cost_stage p st + cost_queue p q)%nat.
Proof.
  intros O S. inversion S; subst; cbn [cost_stage]; unfold cost_queue; cbn [total cost_have]; try lia.
  - unfold cost_have. lia.
  - cbn in O. subst c. fold (clean_out p w). lia.
  - rewrite app_length. destruct a; [contradiction|]. cbn. lia.
Qed.

Lemma thread_cost fs0 s s' : inv fs0 s -> thread_step g s s' -> (cost s' < cost s)%nat.
Proof.
  intros I S. inversion S; subst; clear S; unfold cost; cbn [s_threads s_given s_queue].
  - assert (In (p, st) (s_threads s)) as HT by (rewrite H; apply in_or_app; right; now left).
    destruct (i_thr _ _ I p st HT) as [G O]. pose proof (own_cost _ _ _ _ _ _ _ O H1) as C.
    pose proof (queue_cost _ p q' (s_queue s) (i_one _ _ I) G) as Q. rewrite H, !total_app. cbn [total fst snd]. lia.
  - rewrite H, !total_app. cbn [total fst snd]. inversion H0; subst. cbn [cost_stage]. rewrite app_length. destruct a; [contradiction|]. cbn. lia.
  - rewrite H, !total_app. cbn [total fst snd cost_stage]. lia.
  - exfalso. eapply (no_abort fs0 s p w I); [|eassumption]. rewrite H. apply in_or_app. right. now left.
Qed.

Lemma threads_end fs0 s : inv fs0 s -> Acc (fun b a => thread_step g a b) s.
Proof.
  remember (cost s) as n eqn:E. revert s E. induction n as [n IH] using (well_founded_induction lt_wf). intros s -> I.
  constructor. intros b Sb. eapply IH; [|reflexivity|].
  - eapply thread_cost; eauto.
  - eapply thread_inv; eauto.
Qed.

Lemma can_step fs0 s p st : inv fs0 s -> In (p, st) (s_threads s) -> st <> Done -> ~ In p (s_dead s) ->
  exists s', thread_step g s s'.
Proof.
  intros I H ND Al. destruct (i_thr _ _ I p st H) as [_ O]. destruct (in_split _ _ H) as (l & r & E).
  assert (Own : forall fs' q' st', own_step g p (s_fs s) (s_queue s p) st fs' q' st' -> exists s', thread_step g s s').
  { intros fs' q' st' St. eexists. eapply ts_own; eauto. }
  destruct st as [|w|w i off rest|w [|]|w c|w i off rest|w|].
  - destruct (s_queue s p) eqn:Q; (eapply Own; econstructor).
  - destruct (open_trunc (tmp p w) (s_fs s)) as [fs' i] eqn:Ot. eapply Own. econstructor. exact Ot.
  - destruct rest as [|c rest]; [eapply Own; econstructor|]. eexists. eapply ts_child; [exact E|].
    change (c :: rest) with ([c] ++ rest). constructor. discriminate.
  - eexists. eapply ts_quit; eauto.
  - eapply Own. econstructor.
  - destruct (open_trunc (tmp p w) (s_fs s)) as [fs' i] eqn:Ot. eapply Own. econstructor. exact Ot.
  - destruct rest as [|c rest]; [eapply Own; econstructor|]. eapply Own. change (c :: rest) with ([c] ++ rest). constructor. discriminate.
  - destruct (rename_file (tmp p w) (entry w) (s_fs s)) as [fs'|] eqn:R; [eapply Own; econstructor; exact R|].
    exfalso. eapply no_abort; eauto.
  - contradiction.
Qed.

Lemma all_done_entries fs0 s p q w : inv fs0 s -> In (p, q) (s_given s) -> In w q ->
  In p (map fst (s_threads s)) -> (forall st, In (p, st) (s_threads s) -> st = Done) ->
  (forall v, ~ In (p, v) (s_lost s)) -> content (s_fs s) (entry w) <> None.
Proof.
  intros I G W T D L. apply in_map_iff in T as ((x & st) & Ex & T). cbn in Ex. subst x.
  pose proof (D st T). subst st. destruct (i_done _ _ I p T) as [Q|(v & Q)]; [|now apply L in Q].
  destruct (i_track _ _ I p q w G W) as [H|[H|H]]; [|exact H|now apply L in H].
  exfalso. rewrite Q, app_nil_r in H. unfold held in H. apply in_flat_map in H as ((x & st) & H1 & H2). cbn in H2.
  destruct (text_eqb x p) eqn:X; [|contradiction]. apply text_eqb_eq in X. subst x. apply D in H1. now subst st.
Qed.
End Pool.
