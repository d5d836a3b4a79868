(** Facts about the cached clang-tidy (Tidy.v, TidyPool.v). *)
From Verif Require Import Base BaseFacts Absl Print Tidy TidyPool.
From Coq Require Import ZifyBool ZifyN ZifyNat.

(** ** Names *)
Lemma to_hex_length n : forall v, List.length (to_hex n v) = n.
Proof. induction n as [|n IH]; intros v; [reflexivity|]. cbn [to_hex]. rewrite app_length, IH. cbn. lia. Qed.

Lemma app_tail_inj {A} (a b c d : list A) : List.length b = List.length d -> a ++ b = c ++ d -> a = c /\ b = d.
Proof.
  revert c. induction a as [|x a IH]; intros [|y c] L E; cbn in *.
  - auto.
  - subst b. cbn in L. rewrite app_length in L. lia.
  - subst d. cbn in L. rewrite app_length in L. lia.
  - inversion E; subst. destruct (IH c L H1) as [-> ->]. auto.
Qed.

Lemma path_for_split dir w : exists a, path_for dir w = a ++ to_hex 16 (snd w).
Proof. exists (dir ++ tx "/" ++ path_filename (fst w) ++ tx "-"). unfold path_for. now rewrite <- !app_assoc. Qed.

Lemma last_snoc_neq (a b : text) x y : x <> y -> a ++ [x] <> b ++ [y].
Proof. intros H E. apply app_inj_tail in E. now destruct E. Qed.

Lemma hex_char_low_not_p d : d < 16 -> hex_char false d <> "p"%char.
Proof.
  intros L H. unfold hex_char in H. apply (f_equal N_of_ascii) in H. change (N_of_ascii "p") with 112 in H.
  destruct (N.ltb_spec d 10); rewrite N_ascii_embedding in H; lia.
Qed.

Lemma tmp_not_final dir p w v : tmp_for dir p w <> path_for dir v.
Proof.
  unfold tmp_for, path_for. change 16%nat with (S 15). cbn [to_hex].
  change (tx ".tmp") with (tx ".tm" ++ ["p"%char]). rewrite !app_assoc. intros E. apply app_inj_tail in E.
  destruct E as [_ E]. symmetry in E. revert E. apply hex_char_low_not_p. apply N.mod_lt. discriminate.
Qed.

Lemma dot_split (p q : text) : forallb is_digit p = true -> forallb is_digit q = true ->
  forall A B : text, A ++ "."%char :: p = B ++ "."%char :: q -> A = B /\ p = q.
Proof.
  revert q. induction p as [|x p IH] using rev_ind; intros q Hp Hq A B E.
  - destruct q as [|y q _] using rev_ind; [apply app_inj_tail in E; destruct E; auto|].
    exfalso. rewrite forallb_app in Hq. apply andb_true_iff in Hq as [_ Hy]. cbn in Hy.
    change (B ++ "."%char :: q ++ [y]) with (B ++ ("."%char :: q) ++ [y]) in E. rewrite app_assoc in E.
    apply app_inj_tail in E as [_ E]. subst y. discriminate.
  - rewrite forallb_app in Hp. apply andb_true_iff in Hp as [Hp Hx]. cbn in Hx.
    change (A ++ "."%char :: p ++ [x]) with (A ++ ("."%char :: p) ++ [x]) in E. rewrite app_assoc in E.
    destruct q as [|y q _] using rev_ind.
    + exfalso. apply app_inj_tail in E as [_ E]. subst x. discriminate.
    + rewrite forallb_app in Hq. apply andb_true_iff in Hq as [Hq Hy].
      change (B ++ "."%char :: q ++ [y]) with (B ++ ("."%char :: q) ++ [y]) in E. rewrite app_assoc in E.
      apply app_inj_tail in E as [E ->]. destruct (IH q Hp Hq A B E) as [-> ->]. auto.
Qed.
Lemma tmp_inj dir p q w v : forallb is_digit p = true -> forallb is_digit q = true ->
  tmp_for dir p w = tmp_for dir q v -> p = q /\ path_for dir w = path_for dir v.
Proof.
  intros Hp Hq E. unfold tmp_for in E. generalize dependent (path_for dir v). generalize dependent (path_for dir w).
  intros A B E. rewrite !app_assoc in E. apply app_inv_tail in E. rewrite <- !app_assoc in E.
  destruct (dot_split p q Hp Hq A B E). auto.
Qed.

(** ** Files *)
Lemma text_eqb_refl a : text_eqb a a = true. Proof. now apply text_eqb_eq. Qed.
Lemma text_eqb_neq a b : a <> b -> text_eqb a b = false.
Proof. intros H. destruct (text_eqb a b) eqn:E; [|reflexivity]. apply text_eqb_eq in E. contradiction. Qed.
Lemma set_dir_same p o d : set_dir p o d p = o.
Proof. unfold set_dir. now rewrite text_eqb_refl. Qed.
Lemma set_dir_other p q o d : q <> p -> set_dir p o d q = d q.
Proof. intros H. unfold set_dir. now rewrite text_eqb_neq. Qed.
Lemma set_data_same i s d : set_data i s d i = s.
Proof. unfold set_data. now rewrite Nat.eqb_refl. Qed.
Lemma set_data_other i j s d : j <> i -> set_data i s d j = d j.
Proof. intros H. unfold set_data. destruct (Nat.eqb_spec j i); [contradiction|reflexivity]. Qed.

Lemma overwrite_end c s : overwrite (List.length c) s c = c ++ s.
Proof.
  unfold overwrite. rewrite Nat.sub_diag. cbn [repeat]. rewrite app_nil_r, firstn_all.
  rewrite skipn_all2 by lia. now rewrite app_nil_r.
Qed.

(** What a thread that owns the name [t] does to the files: only [t] and the name [f] change, and only the file of [t]. *)
Record touches (t f : text) (fs fs' : fsys) : Prop := {
  to_ok : fs_ok fs';
  to_dir : forall q, q <> t -> q <> f -> fs_dir fs' q = fs_dir fs q;
  to_data : forall q i, q <> t -> q <> f -> fs_dir fs q = Some i -> fs_data fs' i = fs_data fs i
}.
Lemma touches_refl t f fs : fs_ok fs -> touches t f fs fs.
Proof. intros H. split; auto. Qed.
Lemma touches_content t f fs fs' q : touches t f fs fs' -> q <> t -> q <> f -> content fs' q = content fs q.
Proof.
  intros T H1 H2. unfold content. rewrite (to_dir _ _ _ _ T q H1 H2). destruct (fs_dir fs q) as [i|] eqn:E; [|reflexivity].
  cbn. f_equal. now apply (to_data _ _ _ _ T q).
Qed.

Lemma open_touches t f fs fs' i : fs_ok fs -> open_trunc t fs = (fs', i) ->
  touches t f fs fs' /\ fs_dir fs' t = Some i /\ fs_data fs' i = [] /\ (forall q, q <> t -> content fs' q = content fs q).
Proof.
  intros [Inj Lt] E. unfold open_trunc in E. destruct (fs_dir fs t) as [j|] eqn:D; injection E as <- <-; cbn [fs_dir fs_data fs_next].
  - assert (Other : forall q k, q <> t -> fs_dir fs q = Some k -> set_data j [] (fs_data fs) k = fs_data fs k).
    { intros q k Hq Hk. apply set_data_other. intros ->. apply Hq. eapply Inj; eauto. }
    split; [|split; [exact D|split; [apply set_data_same|]]].
    + split; [split; assumption|reflexivity|]. intros q k Hq _ Hk. now apply Other with q.
    + intros q Hq. unfold content. cbn [fs_dir fs_data]. destruct (fs_dir fs q) as [k|] eqn:K; [|reflexivity]. cbn. f_equal. now apply Other with q.
  - set (j := fs_next fs) in *.
    assert (Other : forall q k, fs_dir fs q = Some k -> set_data j [] (fs_data fs) k = fs_data fs k).
    { intros q k Hk. apply set_data_other. apply Lt in Hk. subst j. lia. }
    split; [|split; [apply set_dir_same|split; [apply set_data_same|]]].
    + split; [split|intros; now apply set_dir_other|intros; now apply Other with q]; cbn [fs_dir fs_next].
      * intros p q k. unfold set_dir. destruct (text_eqb p t) eqn:P, (text_eqb q t) eqn:Q; intros A B.
        -- apply text_eqb_eq in P, Q. congruence.
        -- injection A as <-. apply Lt in B. subst j. lia.
        -- injection B as <-. apply Lt in A. subst j. lia.
        -- eapply Inj; eauto.
      * intros p k. unfold set_dir. destruct (text_eqb p t); intros A; [injection A as <-; lia|]. apply Lt in A. subst j. lia.
    + intros q Hq. unfold content. cbn [fs_dir fs_data]. rewrite set_dir_other by assumption.
      destruct (fs_dir fs q) as [k|] eqn:K; [|reflexivity]. cbn. f_equal. now apply Other with q.
Qed.
Lemma write_touches t f fs i off s : fs_ok fs -> fs_dir fs t = Some i ->
  touches t f fs (write_file i off s fs) /\ (forall q, q <> t -> content (write_file i off s fs) q = content fs q).
Proof.
  intros [Inj Lt] D.
  assert (Other : forall q k, q <> t -> fs_dir fs q = Some k -> set_data i (overwrite off s (fs_data fs i)) (fs_data fs) k = fs_data fs k).
  { intros q k Hq Hk. apply set_data_other. intros ->. apply Hq. eapply Inj; eauto. }
  split.
  - split; [split; assumption|reflexivity|]. intros q k Hq _ Hk. cbn [write_file fs_data]. now apply Other with q.
  - intros q Hq. unfold content. cbn [write_file fs_dir fs_data]. destruct (fs_dir fs q) as [k|] eqn:K; [|reflexivity]. cbn. f_equal. now apply Other with q.
Qed.
Lemma remove_touches t f fs : fs_ok fs ->
  touches t f fs (remove_file t fs) /\ (forall q, q <> t -> content (remove_file t fs) q = content fs q).
Proof.
  intros [Inj Lt]. split.
  - split; [split|intros; now apply set_dir_other|reflexivity]; cbn [remove_file fs_dir fs_next].
    + intros p q k. unfold set_dir. destruct (text_eqb p t), (text_eqb q t); intros A B; try discriminate. eapply Inj; eauto.
    + intros p k. unfold set_dir. destruct (text_eqb p t); intros A; [discriminate|]. eapply Lt; eauto.
  - intros q Hq. unfold content. cbn [remove_file fs_dir fs_data]. now rewrite set_dir_other.
Qed.
Lemma rename_touches t f fs fs' : fs_ok fs -> t <> f -> rename_file t f fs = Some fs' ->
  touches t f fs fs' /\ content fs' f = content fs t.
Proof.
  intros [Inj Lt] Htf E. unfold rename_file in E. destruct (fs_dir fs t) as [i|] eqn:D; [|discriminate]. injection E as <-.
  split.
  - split; [split|intros; cbn [fs_dir]; rewrite !set_dir_other; auto|reflexivity]; cbn [fs_dir fs_next].
    + intros p q k. unfold set_dir. destruct (text_eqb p f) eqn:P, (text_eqb q f) eqn:Q.
      * apply text_eqb_eq in P, Q. congruence.
      * destruct (text_eqb q t) eqn:Q'; intros A B; [discriminate|]. injection A as <-. assert (q = t) by (eapply Inj; eauto).
        subst q. rewrite text_eqb_refl in Q'. discriminate.
      * destruct (text_eqb p t) eqn:P'; intros A B; [discriminate|]. injection B as <-. assert (p = t) by (eapply Inj; eauto).
        subst p. rewrite text_eqb_refl in P'. discriminate.
      * destruct (text_eqb p t), (text_eqb q t); intros A B; try discriminate. eapply Inj; eauto.
    + intros p k. unfold set_dir. destruct (text_eqb p f); intros A; [injection A as <-; eapply Lt; eauto|].
      destruct (text_eqb p t); [discriminate|]. eapply Lt; eauto.
  - unfold content. cbn [fs_dir fs_data]. rewrite set_dir_same, D. reflexivity.
Qed.
