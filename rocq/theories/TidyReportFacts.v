(** Facts about the filter and the report of Tidy.v. *)
From Verif Require Import Base BaseFacts Absl Print Tidy TidyPool TidyFacts TidySpec MapFacts DbFacts TidyKeyFacts.
From Coq Require Import ZifyBool ZifyN ZifyNat.

(** ** Complaints *)
Lemma any_char_iff c : any_char c = true <-> c <> ch_newline /\ c <> ch_return.
Proof.
  unfold any_char. rewrite negb_true_iff, orb_false_iff. split.
  - intros [A B]. split; intros ->; rewrite Ascii.eqb_refl in *; discriminate.
  - intros [A B]. split; now apply Ascii.eqb_neq.
Qed.
Lemma any_chars_iff s : forallb any_char s = true <-> one_line s.
Proof.
  unfold one_line. rewrite forallb_forall. split.
  - intros H. split; intros I; apply H, any_char_iff in I; tauto.
  - intros [A B] c I. apply any_char_iff. split; intros ->; contradiction.
Qed.
Lemma class1_iff c : (is_letter c || Ascii.eqb c ".") = true <-> letter_or ["."%char] c.
Proof. unfold letter_or. rewrite orb_true_iff, Ascii.eqb_eq. cbn. intuition congruence. Qed.
Lemma class2_iff c : (is_letter c || Ascii.eqb c "." || Ascii.eqb c "-") = true <-> letter_or ["."; "-"]%char c.
Proof. unfold letter_or. rewrite !orb_true_iff, !Ascii.eqb_eq. cbn. intuition congruence. Qed.

Lemma tag_body_iff s : tag_body s = true <->
  exists a b, s = a ++ tx "-" ++ b /\ a <> [] /\ Forall (letter_or ["."%char]) a /\ b <> [] /\ Forall (letter_or ["."; "-"]%char) b.
Proof.
  unfold tag_body. set (f := fun c => is_letter c || Ascii.eqb c "."). split.
  - pose proof (span_spec f s) as S. destruct (span f s) as [a r]. destruct S as (-> & F & _). rewrite andb_true_iff.
    intros [NA H]. destruct (expect "-" r) as [b|] eqn:E; [|discriminate]. apply expect_spec in E. subst r.
    apply andb_true_iff in H as [NB FB]. exists a, b. split; [reflexivity|]. split; [now apply nonempty_spec|].
    split; [eapply Forall_impl; [|exact F]; intros c; apply class1_iff|]. split; [now apply nonempty_spec|].
    rewrite forallb_forall in FB. apply Forall_forall. intros c I. now apply class2_iff, FB.
  - intros (a & b & -> & NA & FA & NB & FB). rewrite span_app.
    + change (tx "-" ++ b) with ("-"%char :: b). rewrite (proj2 (expect_spec _ _ _) eq_refl).
      rewrite (proj2 (nonempty_spec _) NA), (proj2 (nonempty_spec _) NB). cbn [andb]. apply forallb_forall. intros c I.
      rewrite Forall_forall in FB. now apply class2_iff, FB.
    + eapply Forall_impl; [|exact FA]. intros c. apply class1_iff.
    + reflexivity.
Qed.
Lemma letter_no_bracket l c : letter_or l c -> ~ In "["%char l -> c <> "["%char.
Proof. intros [H|H] N; intros ->; [discriminate|contradiction]. Qed.

Lemma check_tag_iff l tag : check_tag l = Some tag <-> complains l tag.
Proof.
  unfold check_tag. pose proof (rfind_char_spec "[" l) as R. split.
  - destruct (rfind_char "[" l) as [n|]; [|discriminate]. destruct R as (f & d & -> & N & ->). cbv zeta.
    assert (S : skipn (List.length f) (f ++ "["%char :: d) = "["%char :: d) by (rewrite skipn_app, skipn_all, Nat.sub_diag; reflexivity).
    assert (P : firstn (List.length f) (f ++ "["%char :: d) = f) by (rewrite firstn_app, Nat.sub_diag, firstn_all; apply app_nil_r).
    rewrite S, P. destruct (Ascii.eqb _ "]") eqn:L; [|discriminate]. destruct (tag_body _) eqn:B; [|discriminate].
    destruct (forallb any_char f) eqn:A; [|discriminate]. intros E. injection E as <-. apply any_chars_iff in A. apply Ascii.eqb_eq in L.
    exists f. split; [reflexivity|]. split; [exact A|]. cbn [tl] in B. apply tag_body_iff in B as (a & b & E & Ha).
    exists a, b. split; [|exact Ha]. destruct d as [|x d _] using rev_ind; [discriminate|].
    change ("["%char :: d ++ [x]) with (("["%char :: d) ++ [x]) in L. rewrite last_last in L. subst x. rewrite removelast_last in E. subst d.
    cbn. now rewrite <- app_assoc.
  - intros (pre & -> & A & (a & b & -> & Ha & FA & Hb & FB)). set (d := a ++ tx "-" ++ b ++ tx "]") in *.
    change (tx "[" ++ d) with ("["%char :: d) in *.
    assert (ND : ~ In "["%char d).
    { unfold d. rewrite Forall_forall in FA, FB. rewrite !in_app_iff. intros [H|[H|[H|H]]].
      - apply FA in H. revert H. intros H. apply (letter_no_bracket _ _ H); [cbn; intuition discriminate|reflexivity].
      - destruct H as [H|[]]. discriminate.
      - apply FB in H. apply (letter_no_bracket _ _ H); [cbn; intuition discriminate|reflexivity].
      - destruct H as [H|[]]. discriminate. }
    destruct (rfind_char "[" (pre ++ "["%char :: d)) as [n|].
    + destruct R as (f & d' & E & N & ->). apply split_last in E as [-> E]; auto. subst d'. cbv zeta.
      assert (S : skipn (List.length f) (f ++ "["%char :: d) = "["%char :: d) by (rewrite skipn_app, skipn_all, Nat.sub_diag; reflexivity).
      assert (P : firstn (List.length f) (f ++ "["%char :: d) = f) by (rewrite firstn_app, Nat.sub_diag, firstn_all; apply app_nil_r).
      rewrite S, P. cbn [tl]. assert (D : d = (a ++ tx "-" ++ b) ++ ["]"%char]) by (unfold d; now rewrite <- !app_assoc).
      rewrite D. change ("["%char :: (a ++ tx "-" ++ b) ++ ["]"%char]) with (("["%char :: a ++ tx "-" ++ b) ++ ["]"%char]).
      rewrite last_last, removelast_last, Ascii.eqb_refl. rewrite (proj2 (tag_body_iff _)) by eauto 8.
      rewrite (proj2 (any_chars_iff _) A). reflexivity.
    + exfalso. apply R. apply in_or_app. right. now left.
Qed.
Lemma check_tag_none l : check_tag l = None <-> forall tag, ~ complains l tag.
Proof.
  split.
  - intros E tag C. apply check_tag_iff in C. congruence.
  - intros H. destruct (check_tag l) as [t|] eqn:E; [|reflexivity]. apply check_tag_iff in E. exfalso. eapply H; eauto.
Qed.

Definition place (s : text) : Prop :=
  exists l1 l2 rest tag, s = tx ":" ++ l1 ++ tx ":" ++ l2 ++ tx ":" ++ rest /\ number l1 /\ number l2 /\ complains rest tag.
Lemma after_name_iff s : after_name s = true <-> place s.
Proof.
  unfold after_name. split.
  - destruct (expect ":" s) as [r1|] eqn:E1; [|discriminate]. apply expect_spec in E1. subst s.
    pose proof (span_spec is_digit r1) as S1. destruct (span is_digit r1) as [d1 r2]. destruct S1 as (-> & F1 & _).
    destruct (nonempty d1) eqn:N1; [|discriminate]. apply nonempty_spec in N1.
    destruct (expect ":" r2) as [r3|] eqn:E2; [|discriminate]. apply expect_spec in E2. subst r2.
    pose proof (span_spec is_digit r3) as S2. destruct (span is_digit r3) as [d2 r4]. destruct S2 as (-> & F2 & _).
    destruct (nonempty d2) eqn:N2; [|discriminate]. apply nonempty_spec in N2.
    destruct (expect ":" r4) as [r5|] eqn:E3; [|discriminate]. apply expect_spec in E3. subst r4.
    destruct (check_tag r5) as [tag|] eqn:C; [|discriminate]. intros _. apply check_tag_iff in C.
    exists d1, d2, r5, tag. split; [reflexivity|]. split; [split; auto|]. split; [split; auto|exact C].
  - intros (l1 & l2 & rest & tag & -> & (N1 & F1) & (N2 & F2) & C). cbn [tx list_ascii_of_string app].
    rewrite (proj2 (expect_spec _ _ _) eq_refl). rewrite span_app; [|exact F1|reflexivity].
    rewrite (proj2 (nonempty_spec _) N1), (proj2 (expect_spec _ _ _) eq_refl). rewrite span_app; [|exact F2|reflexivity].
    rewrite (proj2 (nonempty_spec _) N2), (proj2 (expect_spec _ _ _) eq_refl). apply check_tag_iff in C. now rewrite C.
Qed.

Lemma name_of_length_some n s f : name_of_length n s = Some f ->
  exists m, (1 <= m <= n)%nat /\ f = firstn m s /\ after_name (skipn m s) = true.
Proof.
  induction n as [|n IH]; [discriminate|]. cbn [name_of_length]. destruct (after_name (skipn (S n) s)) eqn:E.
  - intros H. injection H as <-. exists (S n). split; [lia|]. auto.
  - intros H. destruct (IH H) as (m & A & B). exists m. split; [lia|exact B].
Qed.
Lemma name_of_length_none n s : name_of_length n s = None -> forall m, (1 <= m <= n)%nat -> after_name (skipn m s) = false.
Proof.
  induction n as [|n IH]; [intros _ m; lia|]. cbn [name_of_length]. destruct (after_name (skipn (S n) s)) eqn:E; [discriminate|].
  intros H m L. destruct (Nat.eq_dec m (S n)) as [->|NE]; [exact E|]. apply IH; [exact H|lia].
Qed.
Definition not_slash (c : ascii) : bool := negb (Ascii.eqb c "/").
Lemma not_slash_forall f : Forall (fun c => not_slash c = true) f <-> ~ In "/"%char f.
Proof.
  rewrite Forall_forall. split.
  - intros H I. apply H in I. discriminate.
  - intros H c I. unfold not_slash. apply negb_true_iff, Ascii.eqb_neq. intros ->. contradiction.
Qed.
Lemma named_some s f : named s = Some f -> exists r, s = f ++ r /\ f <> [] /\ ~ In "/"%char f /\ place r.
Proof.
  unfold named. fold not_slash. change (fun c => negb (Ascii.eqb c "/")) with not_slash.
  pose proof (span_spec not_slash s) as S. destruct (span not_slash s) as [a b]. cbn [fst]. destruct S as (-> & F & _). intros H.
  apply name_of_length_some in H as (m & L & -> & A). exists (skipn m (a ++ b)). rewrite firstn_skipn. split; [reflexivity|].
  apply after_name_iff in A. split; [|split; [|exact A]].
  - destruct m as [|m]; [lia|]. destruct a as [|x a]; [cbn in L; lia|]. discriminate.
  - rewrite firstn_app. replace (m - List.length a)%nat with 0%nat by lia. rewrite firstn_O, app_nil_r.
    apply not_slash_forall in F. intros I. apply F. rewrite <- (firstn_skipn m a). apply in_or_app. now left.
Qed.
Lemma named_none s : named s = None -> forall f r, s = f ++ r -> f <> [] -> ~ In "/"%char f -> ~ place r.
Proof.
  unfold named. change (fun c => negb (Ascii.eqb c "/")) with not_slash.
  intros H f r -> NF NS P. apply name_of_length_none with (m := List.length f) in H.
  - rewrite skipn_app, skipn_all, Nat.sub_diag in H. cbn [skipn app] in H. apply after_name_iff in P. congruence.
  - split; [destruct f; [contradiction|cbn; lia]|]. clear - NS. apply not_slash_forall in NS.
    induction NS as [|c f C F IH]; [cbn; lia|]. cbn [app span]. rewrite C. destruct (span not_slash (f ++ r)) as [a b]. cbn in *. lia.
Qed.
Lemma named_after_slash_some s f : named_after_slash s = Some f -> exists d r, s = d ++ "/"%char :: r /\ one_line d /\ named r = Some f.
Proof.
  induction s as [|c s IH]; [discriminate|]. cbn [named_after_slash].
  destruct (if any_char c then named_after_slash s else None) as [n|] eqn:E.
  - intros H. injection H as ->. destruct (any_char c) eqn:A; [|discriminate]. destruct (IH E) as (d & r & -> & O & N).
    exists (c :: d), r. split; [reflexivity|]. split; [|exact N]. apply any_chars_iff. cbn. rewrite A. now apply any_chars_iff.
  - destruct (Ascii.eqb_spec c "/") as [->|]; [|discriminate]. intros H. exists [], s. split; [reflexivity|]. split; [split; intros []|exact H].
Qed.
Lemma named_after_slash_none s : named_after_slash s = None -> forall d r, s = d ++ "/"%char :: r -> one_line d -> named r = None.
Proof.
  induction s as [|c s IH]; intros H d r E O; [destruct d; discriminate|]. cbn [named_after_slash] in H.
  destruct (if any_char c then named_after_slash s else None) as [n|] eqn:X; [discriminate|]. destruct d as [|x d].
  - cbn in E. injection E as -> ->. rewrite Ascii.eqb_refl in H. exact H.
  - cbn in E. injection E as -> ->. apply any_chars_iff in O. cbn in O. apply andb_true_iff in O as [O1 O2]. rewrite O1 in X.
    eapply IH; [exact X|reflexivity|now apply any_chars_iff].
Qed.
Lemma tidy_file_about line f : tidy_file line = Some f -> about line f.
Proof.
  unfold tidy_file. destruct (named_after_slash line) as [n|] eqn:E.
  - intros H. injection H as ->. apply named_after_slash_some in E as (d & r & -> & O & N).
    apply named_some in N as (r' & -> & NF & NS & (l1 & l2 & rest & tag & -> & N1 & N2 & C)).
    exists (d ++ tx "/"), l1, l2, rest, tag. split; [cbn; now rewrite <- app_assoc|]. split; [right; eauto|]. auto 8.
  - intros N. apply named_some in N as (r' & -> & NF & NS & (l1 & l2 & rest & tag & -> & N1 & N2 & C)).
    exists [], l1, l2, rest, tag. split; [reflexivity|]. split; [now left|]. auto 8.
Qed.
Lemma tidy_file_complete line f : about line f -> tidy_file line <> None.
Proof.
  intros (pre & l1 & l2 & rest & tag & -> & P & NF & NS & N1 & N2 & C) H. unfold tidy_file in H.
  set (r := tx ":" ++ l1 ++ tx ":" ++ l2 ++ tx ":" ++ rest) in *.
  assert (Pl : place r) by (exists l1, l2, rest, tag; auto).
  destruct (named_after_slash _) eqn:E; [discriminate|]. destruct P as [->|(d & -> & O)].
  - cbn [app] in H. eapply named_none in H; eauto.
  - eapply named_after_slash_none in E; [|rewrite <- app_assoc; reflexivity|exact O]. eapply named_none in E; eauto.
Qed.

(** ** Lines *)
Notation flat := (flat_map (fun l => l ++ [ch_newline])).
Lemma lines_exist s : exists ls part, lines_of s ls part.
Proof.
  induction s as [|c s (ls & part & E & F & P)].
  - exists [], []. split; [reflexivity|]. split; [constructor|intros []].
  - destruct (Ascii.eqb_spec c ch_newline) as [->|NE].
    + exists ([] :: ls), part. split; [cbn; now rewrite E|]. split; [constructor; [intros []|exact F]|exact P].
    + destruct ls as [|l ls].
      * exists [], (c :: part). cbn in E. subst s. split; [reflexivity|]. split; [constructor|]. intros [H|H]; [congruence|contradiction].
      * exists ((c :: l) :: ls), part. split; [cbn; cbn in E; now rewrite E|]. inversion F; subst. split; [|exact P].
        constructor; [|assumption]. intros [H|H]; [congruence|contradiction].
Qed.
Lemma lines_unique s ls part ls' part' : lines_of s ls part -> lines_of s ls' part' -> ls = ls' /\ part = part'.
Proof.
  intros (E & F & P) (E' & F' & P'). subst s. revert ls' E' F'. induction ls as [|l ls IH]; intros [|l' ls'] E F'; cbn [flat_map app] in E.
  - auto.
  - exfalso. apply P. rewrite E. rewrite !in_app_iff. left. left. right. now left.
  - exfalso. apply P'. rewrite <- E. rewrite !in_app_iff. left. left. right. now left.
  - inversion F; inversion F'; subst. rewrite <- !app_assoc in E. cbn [app] in E.
    assert (X : l = l' /\ flat ls ++ part = flat ls' ++ part').
    { clear - E H1 H5. revert l' E H5. induction l as [|x l IHl]; intros [|y l'] E N'; cbn in E.
      - inversion E. auto.
      - inversion E; subst. exfalso. apply N'. now left.
      - inversion E; subst. exfalso. apply H1. now left.
      - inversion E; subst. destruct (IHl (fun h => H1 (or_intror h)) l') as [-> ->]; auto. intros I. apply N'. now right. }
    destruct X as [-> X]. destruct (IH H2 ls' X H6) as [-> ->]. auto.
Qed.
Lemma stream_lines_app l s : ~ In ch_newline l -> stream_lines (l ++ ch_newline :: s) = l :: stream_lines s.
Proof.
  intros N. induction l as [|c l IH]; cbn [app stream_lines].
  - now rewrite Ascii.eqb_refl.
  - destruct (Ascii.eqb_spec c ch_newline) as [->|NE]; [exfalso; apply N; now left|]. rewrite IH; [reflexivity|]. intros I. apply N. now right.
Qed.
Lemma stream_lines_part l : ~ In ch_newline l -> stream_lines l = match l with [] => [] | _ => [l] end.
Proof.
  intros N. induction l as [|c l IH]; cbn [stream_lines]; [reflexivity|].
  destruct (Ascii.eqb_spec c ch_newline) as [->|NE]; [exfalso; apply N; now left|]. rewrite IH by (intros I; apply N; now right).
  destruct l; reflexivity.
Qed.
Lemma stream_lines_spec s ls part : lines_of s ls part -> stream_lines s = ls ++ match part with [] => [] | _ => [part] end.
Proof.
  intros (-> & F & P). induction F as [|l ls N F IH]; cbn [flat_map app].
  - now apply stream_lines_part.
  - rewrite <- !app_assoc. cbn [app]. rewrite stream_lines_app by exact N. now rewrite IH.
Qed.

(** ** The filter *)
Fixpoint keeps (f : text) (on : bool) (ls : list text) : list bool :=
  match ls with
  | [] => []
  | l :: r => let on' := match tidy_file l with Some n => text_eqb n f | None => on end in on' :: keeps f on' r
  end.
Definition kept_text (ls : list text) (bs : list bool) : text :=
  flat_map (fun lb : text * bool => if snd lb then fst lb ++ [ch_newline] else []) (combine ls bs).
Lemma filter_keeps f ls : forall on, filter_lines f on ls = kept_text ls (keeps f on ls).
Proof.
  unfold kept_text. induction ls as [|l ls IH]; intros on; [reflexivity|]. cbn [filter_lines keeps combine flat_map fst snd]. now rewrite IH.
Qed.
Lemma keeps_length f ls : forall on, List.length (keeps f on ls) = List.length ls.
Proof. induction ls as [|l ls IH]; intros on; [reflexivity|]. cbn. now rewrite IH. Qed.
Lemma none_cons l ls i : belongs_to_none tidy_file (l :: ls) (S i) <-> tidy_file l = None /\ belongs_to_none tidy_file ls i.
Proof.
  unfold belongs_to_none. split.
  - intros H. split; [apply (H 0%nat); [lia|reflexivity]|]. intros j m L E. apply (H (S j)); [lia|exact E].
  - intros [A B] [|j] m L E; [injection E as <-; exact A|]. apply (B j); [lia|exact E].
Qed.
Lemma belongs_cons l ls i f : belongs tidy_file (l :: ls) (S i) f <->
  belongs tidy_file ls i f \/ (tidy_file l = Some f /\ belongs_to_none tidy_file ls i).
Proof.
  unfold belongs, belongs_to_none. split.
  - intros ([|j] & m & L & E & T & R).
    + right. cbn in E. injection E as <-. split; [exact T|]. intros j m L' E'. apply (R (S j)); [lia|exact E'].
    + left. exists j, m. split; [lia|]. split; [exact E|]. split; [exact T|]. intros k x L' E'. apply (R (S k)); [lia|exact E'].
  - intros [(j & m & L & E & T & R)|[T R]].
    + exists (S j), m. split; [lia|]. split; [exact E|]. split; [exact T|]. intros [|k] x L' E'; [lia|]. apply (R k); [lia|exact E'].
    + exists 0%nat, l. split; [lia|]. split; [reflexivity|]. split; [exact T|]. intros [|k] x L' E'; [lia|]. apply (R k); [lia|exact E'].
Qed.
Lemma keeps_spec f ls : forall on i b, nth_error (keeps f on ls) i = Some b ->
  (b = true <-> belongs tidy_file ls i f \/ (on = true /\ belongs_to_none tidy_file ls i)).
Proof.
  induction ls as [|l ls IH]; intros on i b H; [destruct i; discriminate|]. cbn [keeps] in H.
  set (on' := match tidy_file l with Some n => text_eqb n f | None => on end) in *. destruct i as [|i].
  - cbn in H. injection H as <-. subst on'.
    assert (B0 : belongs tidy_file (l :: ls) 0 f <-> tidy_file l = Some f).
    { split.
      - intros ([|j] & m & L & E & T & _); [|lia]. cbn in E. now injection E as <-.
      - intros T. exists 0%nat, l. split; [lia|]. split; [reflexivity|]. split; [exact T|]. intros k; lia. }
    assert (N0 : belongs_to_none tidy_file (l :: ls) 0 <-> tidy_file l = None).
    { split.
      - intros H. apply (H 0%nat); [lia|reflexivity].
      - intros T [|j] m L E; [|lia]. cbn in E. now injection E as <-. }
    rewrite B0, N0. destruct (tidy_file l) as [n|].
    + rewrite text_eqb_eq. split; [intros ->; now left|]. intros [X|[_ X]]; [now injection X|discriminate].
    + split; [auto|]. intros [X|[X _]]; [discriminate|exact X].
  - cbn [nth_error] in H. rewrite (IH on' i b H), belongs_cons, none_cons. subst on'. destruct (tidy_file l) as [n|].
    + rewrite text_eqb_eq. intuition congruence.
    + intuition congruence.
Qed.

(** Filtering what has been filtered changes nothing. *)
Lemma keep_true f ls : Forall (fun l => forall n, tidy_file l = Some n -> n = f) ls -> keeps f true ls = repeat true (List.length ls).
Proof.
  intros H. induction H as [|l ls Hl H IH]; [reflexivity|]. cbn [keeps repeat List.length].
  destruct (tidy_file l) as [n|] eqn:T; [rewrite (Hl n eq_refl), text_eqb_refl|]; now rewrite IH.
Qed.
Lemma kept_text_lines ls : forall bs, kept_text ls bs = flat (chosen ls bs).
Proof.
  unfold kept_text. induction ls as [|l ls IH]; intros [|b bs]; [reflexivity..|]. cbn [combine flat_map fst snd chosen].
  rewrite IH. destruct b; [|reflexivity]. cbn [app flat_map]. reflexivity.
Qed.
Lemma kept_all ls : chosen ls (repeat true (List.length ls)) = ls.
Proof. induction ls as [|l ls IH]; [reflexivity|]. cbn. now rewrite IH. Qed.
Lemma kept_named f ls : forall on, Forall (fun l => forall n, tidy_file l = Some n -> n = f) (chosen ls (keeps f on ls)).
Proof.
  induction ls as [|l ls IH]; intros on; [constructor|]. cbn [keeps chosen]. apply Forall_app. split; [|apply IH].
  destruct (tidy_file l) as [n|] eqn:T.
  - destruct (text_eqb n f) eqn:E; [|constructor]. constructor; [|constructor]. intros m Hm. rewrite T in Hm. injection Hm as <-. now apply text_eqb_eq.
  - destruct on; [|constructor]. constructor; [|constructor]. intros m Hm. congruence.
Qed.
Lemma kept_nonl (P : text -> Prop) ls : Forall P ls -> forall bs, Forall P (chosen ls bs).
Proof.
  induction 1 as [|l ls H F IH]; intros [|b bs]; cbn; try constructor. apply Forall_app. split; [|apply IH]. destruct b; auto.
Qed.
Lemma stream_nonl s : Forall (fun l => ~ In ch_newline l) (stream_lines s).
Proof.
  destruct (lines_exist s) as (ls & part & E & F & P). rewrite (stream_lines_spec s ls part) by (split; auto).
  apply Forall_app. split; [exact F|]. destruct part; auto.
Qed.
Lemma stream_flat ls : Forall (fun l => ~ In ch_newline l) ls -> stream_lines (flat ls) = ls.
Proof.
  intros F. rewrite (stream_lines_spec (flat ls) ls []); [apply app_nil_r|]. split; [symmetry; apply app_nil_r|]. split; [exact F|intros []].
Qed.
Lemma filter_flat f s : exists ls, filter_check_lines f s = flat ls /\ Forall (fun l => ~ In ch_newline l) ls /\
  Forall (fun l => forall n, tidy_file l = Some n -> n = f) ls.
Proof.
  exists (chosen (stream_lines s) (keeps f true (stream_lines s))). split; [|split].
  - unfold filter_check_lines. rewrite filter_keeps. apply kept_text_lines.
  - apply kept_nonl, stream_nonl.
  - apply kept_named.
Qed.
Lemma filter_idempotent f s : filter_check_lines f (filter_check_lines f s) = filter_check_lines f s.
Proof.
  destruct (filter_flat f s) as (ls & -> & N & T). unfold filter_check_lines. rewrite stream_flat by exact N.
  rewrite filter_keeps, kept_text_lines. rewrite (keep_true f ls T). now rewrite kept_all.
Qed.

(** ** The findings *)
(** Line by line; [can] says whether the newline before the line is still there to match. *)
Fixpoint found (first can : bool) (ls : list text) : list (text * text) :=
  match ls with
  | [] => []
  | l :: r =>
      match (if can then check_tag l else None) with
      | Some tag => ((if first then [] else [ch_newline]) ++ l ++ [ch_newline], tag) :: found false false r
      | None => found false true r
      end
  end.
Definition not_nl (c : ascii) : bool := negb (Ascii.eqb c ch_newline).
Lemma not_nl_forall l : ~ In ch_newline l -> Forall (fun c => not_nl c = true) l.
Proof. intros N. apply Forall_forall. intros c I. apply negb_true_iff, Ascii.eqb_neq. intros ->. contradiction. Qed.
Lemma match_finding_line l s : ~ In ch_newline l ->
  match_finding (l ++ ch_newline :: s) = match check_tag l with Some tag => Some (l, tag, s) | None => None end.
Proof.
  intros N. unfold match_finding. change (fun c => negb (Ascii.eqb c ch_newline)) with not_nl.
  rewrite span_app; [reflexivity|now apply not_nl_forall|reflexivity].
Qed.
Lemma match_finding_part part : ~ In ch_newline part -> match_finding part = None.
Proof.
  intros N. unfold match_finding. change (fun c => negb (Ascii.eqb c ch_newline)) with not_nl.
  rewrite <- (app_nil_r part), span_app; [reflexivity|now apply not_nl_forall|reflexivity].
Qed.
Lemma findings_part part : ~ In ch_newline part -> forall fuel start, findings_fuel fuel start part = [].
Proof.
  intros N. induction part as [|c part IH]; intros [|f] start; cbn [findings_fuel]; try reflexivity.
  - destruct start; reflexivity.
  - rewrite (match_finding_part (c :: part) N).
    assert (X : Ascii.eqb c ch_newline = false) by (apply Ascii.eqb_neq; intros ->; apply N; now left).
    destruct start; rewrite X; apply IH; intros I; apply N; now right.
Qed.
Lemma findings_in_line ls part : Forall (fun l => ~ In ch_newline l) ls -> ~ In ch_newline part ->
  forall fuel rest, ~ In ch_newline rest -> (List.length (rest ++ ch_newline :: flat ls ++ part) < fuel)%nat ->
  findings_fuel fuel false (rest ++ ch_newline :: flat ls ++ part) = found false true ls.
Proof.
  intros F P fuel. revert ls F. induction fuel as [|f IH]; intros ls F rest N L; [lia|]. cbn [findings_fuel].
  destruct rest as [|c rest].
  - cbn [app] in *. rewrite Ascii.eqb_refl. destruct F as [|l ls NL F].
    + cbn [flat_map app found]. rewrite match_finding_part by exact P. now apply findings_part.
    + cbn [flat_map found]. rewrite <- !app_assoc. cbn [app]. rewrite match_finding_line by exact NL.
      cbn [flat_map app List.length] in L. rewrite <- !app_assoc in L. cbn [app] in L.
      destruct (check_tag l) as [tag|].
      * cbn [app]. f_equal. destruct F as [|l2 ls NL2 F].
        -- cbn [flat_map app found]. now apply findings_part.
        -- cbn [flat_map found]. rewrite <- !app_assoc. cbn [app]. apply IH; auto.
           cbn [flat_map] in L. rewrite <- !app_assoc in L. cbn [app] in L. rewrite app_length in L. cbn [List.length] in L. lia.
      * apply IH; auto. lia.
  - cbn [app] in *. assert (X : Ascii.eqb c ch_newline = false) by (apply Ascii.eqb_neq; intros ->; apply N; now left).
    rewrite X. apply IH; auto; [intros I; apply N; now right|]. cbn [List.length] in L. lia.
Qed.
Lemma findings_spec s ls part : lines_of s ls part -> findings s = found true true ls.
Proof.
  intros (-> & F & P). unfold findings. destruct F as [|l ls NL F].
  - cbn [flat_map app found]. now apply findings_part.
  - cbn [flat_map]. rewrite <- !app_assoc. cbn [app]. set (s := flat ls ++ part).
    cbn [findings_fuel found app]. rewrite match_finding_line by exact NL.
    destruct (check_tag l) as [tag|] eqn:T.
    + f_equal. unfold s. destruct F as [|l2 ls NL2 F].
      * cbn [flat_map app found]. now apply findings_part.
      * cbn [flat_map found]. rewrite <- !app_assoc. cbn [app]. apply findings_in_line; auto.
        rewrite !app_length. cbn [List.length]. rewrite !app_length. cbn [List.length]. rewrite app_length. lia.
    + pose proof (findings_in_line ls part F P (S (List.length (l ++ ch_newline :: s))) l NL (Nat.lt_succ_diag_r _)) as Q.
      cbn [findings_fuel] in Q. exact Q.
Qed.

Lemma found_nil ls : forall first can, (can = true \/ match ls with [] => True | l :: _ => check_tag l = None end) ->
  (found first can ls = [] <-> Forall (fun l => check_tag l = None) ls).
Proof.
  induction ls as [|l ls IH]; intros first can H; [split; [constructor|reflexivity]|]. cbn [found].
  destruct (check_tag l) as [tag|] eqn:T.
  - destruct H as [->|H]; [|discriminate]. split; [discriminate|]. intros F. inversion F. congruence.
  - replace (if can then None else None) with (@None text) by (destruct can; reflexivity).
    rewrite IH by now left. split; [intros F; constructor; auto|]. intros F. now inversion F.
Qed.

(** ** Which lines are found *)
Definition tagged (l : text) : bool := match check_tag l with Some _ => true | None => false end.
Lemma tagged_iff l : tagged l = true <-> exists tag, complains l tag.
Proof.
  unfold tagged. split.
  - destruct (check_tag l) as [t|] eqn:E; [|discriminate]. intros _. exists t. now apply check_tag_iff.
  - intros (t & C). apply check_tag_iff in C. now rewrite C.
Qed.
Fixpoint marks (can : bool) (ls : list text) : list bool :=
  match ls with [] => [] | l :: r => let m := can && tagged l in m :: marks (negb m) r end.
Lemma marks_length ls : forall can, List.length (marks can ls) = List.length ls.
Proof. induction ls as [|l ls IH]; intros can; [reflexivity|]. cbn. now rewrite IH. Qed.
Lemma marks_spec ls : forall can i l b, nth_error ls i = Some l -> nth_error (marks can ls) i = Some b ->
  (b = true <-> tagged l = true /\ match i with O => can = true | S j => nth_error (marks can ls) j = Some false end).
Proof.
  induction ls as [|x ls IH]; intros can i l b; [destruct i; discriminate|]. cbn [marks]. destruct i as [|i].
  - cbn. intros E1 E2. injection E1 as <-. injection E2 as <-. rewrite andb_true_iff. tauto.
  - cbn [nth_error]. intros E1 E2. rewrite (IH _ _ _ _ E1 E2). destruct i as [|j].
    + cbn [nth_error]. destruct (can && tagged x); cbn; intuition congruence.
    + cbn [nth_error]. reflexivity.
Qed.
Lemma marks_counted ls : counted ls (marks true ls).
Proof.
  split; [apply marks_length|]. intros i l b E1 E2. rewrite (marks_spec ls true i l b E1 E2), tagged_iff. destruct i as [|j].
  - split; [intros [A _]; auto|]. intros [A _]. auto.
  - replace (S j - 1)%nat with j by lia. split; intros [A B]; (split; [exact A|]); auto. destruct B as [B|B]; [discriminate|exact B].
Qed.
Lemma counted_unique ls bs bs' : counted ls bs -> counted ls bs' -> bs = bs'.
Proof.
  intros [L1 H1] [L2 H2].
  assert (G : forall i, nth_error bs i = nth_error bs' i).
  { induction i as [i IH] using (well_founded_induction lt_wf).
    destruct (nth_error ls i) as [l|] eqn:E.
    - destruct (nth_error bs i) as [b|] eqn:B; [|apply nth_error_None in B; assert (nth_error ls i = None) by (apply nth_error_None; lia); congruence].
      destruct (nth_error bs' i) as [b'|] eqn:B'; [|apply nth_error_None in B'; assert (nth_error ls i = None) by (apply nth_error_None; lia); congruence].
      pose proof (H1 i l b E B) as X. pose proof (H2 i l b' E B') as Y. f_equal.
      assert (Z : b = true <-> b' = true).
      { rewrite X, Y. destruct i as [|j]; [tauto|]. replace (S j - 1)%nat with j by lia. rewrite (IH j) by lia. tauto. }
      destruct b, b'; auto; [symmetry; now apply Z|now apply Z].
    - apply nth_error_None in E. transitivity (@None bool); [|symmetry]; apply nth_error_None; lia. }
  clear - G L1 L2. assert (L : List.length bs = List.length bs') by congruence. clear L1 L2 ls. revert bs' L G.
  induction bs as [|b bs IH]; intros [|b' bs'] L G; try discriminate; [reflexivity|]. f_equal.
  - specialize (G 0%nat). cbn in G. congruence.
  - apply IH; [cbn in L; lia|]. intros i. apply (G (S i)).
Qed.
Lemma found_chosen ls : forall first can,
  Forall2 (fun l m => complains l (snd m) /\ (fst m = l ++ [ch_newline] \/ fst m = ch_newline :: l ++ [ch_newline]))
    (chosen ls (marks can ls)) (found first can ls).
Proof.
  induction ls as [|l ls IH]; intros first can; [constructor|]. cbn [marks chosen found]. unfold tagged at 1 2.
  destruct can; cbn [andb negb].
  - destruct (check_tag l) as [t|] eqn:T; cbn [negb app].
    + constructor; [|apply IH]. cbn [fst snd]. split; [now apply check_tag_iff|]. destruct first; auto.
    + apply IH.
  - apply IH.
Qed.

(** ** The order of texts *)
Lemma text_ltb_iff a : forall b, text_ltb a b = true <-> text_before a b.
Proof.
  induction a as [|x a IH]; intros [|y b]; cbn [text_ltb].
  - split; [discriminate|]. intros (p & [(<- & c & r & E)|(u & v & r & r' & E & _)]); [discriminate|]. destruct p; discriminate.
  - split; [|reflexivity]. intros _. exists []. left. split; [reflexivity|]. exists y, b. reflexivity.
  - split; [discriminate|]. intros (p & [(<- & c & r & E)|(u & v & r & r' & _ & E & _)]); [discriminate|]. destruct p; discriminate.
  - rewrite orb_true_iff, andb_true_iff, N.ltb_lt, Ascii.eqb_eq, IH. split.
    + intros [L|[-> (p & H)]].
      * exists []. right. exists x, y, a, b. auto.
      * exists (y :: p). destruct H as [(-> & c & r & ->)|(u & v & r & r' & -> & -> & L)]; [left|right].
        -- split; [reflexivity|]. exists c, r. reflexivity.
        -- exists u, v, r, r'. auto.
    + intros (p & H). destruct H as [(<- & c & r & E)|(u & v & r & r' & E1 & E2 & L)].
      * right. cbn in E. injection E as -> ->. split; [reflexivity|]. exists a. left. split; [reflexivity|]. eauto.
      * destruct p as [|z p]; cbn in E1, E2.
        -- injection E1 as -> ->. injection E2 as -> ->. now left.
        -- injection E1 as -> ->. injection E2 as -> ->. right. split; [reflexivity|]. exists p. right. exists u, v, r, r'. auto.
Qed.
Lemma ccode_inj x y : ccode x = ccode y -> x = y.
Proof. unfold ccode. intros H. rewrite <- (ascii_N_embedding x), <- (ascii_N_embedding y). now rewrite H. Qed.
Lemma text_ltb_irrefl a : text_ltb a a = false.
Proof. induction a as [|x a IH]; [reflexivity|]. cbn. rewrite IH, N.ltb_irrefl, andb_false_r. reflexivity. Qed.
Lemma text_ltb_trans a : forall b c, text_ltb a b = true -> text_ltb b c = true -> text_ltb a c = true.
Proof.
  induction a as [|x a IH]; intros [|y b] [|z c]; cbn [text_ltb]; try discriminate; auto.
  rewrite !orb_true_iff, !andb_true_iff, !N.ltb_lt, !Ascii.eqb_eq. intros [A|[-> A]] [B|[-> B]]; [left; lia|left; lia|left; lia|].
  right. split; [reflexivity|]. eapply IH; eauto.
Qed.
Lemma text_ltb_total a : forall b, text_ltb a b = false -> a <> b -> text_ltb b a = true.
Proof.
  induction a as [|x a IH]; intros [|y b]; cbn [text_ltb]; try discriminate; auto.
  rewrite orb_false_iff, andb_false_iff, N.ltb_ge, orb_true_iff, andb_true_iff, N.ltb_lt, !Ascii.eqb_eq. intros [L H] NE.
  destruct (N.eq_dec (ccode x) (ccode y)) as [E|E]; [|left; lia]. apply ccode_inj in E. subst y. right. split; [reflexivity|].
  apply IH; [|congruence]. destruct H as [H|H]; [rewrite Ascii.eqb_refl in H; discriminate|exact H].
Qed.

(** ** The counts *)
Definition key_lt (a b : text * N) : Prop := text_ltb (fst a) (fst b) = true.
Notation sorted := (Sorted.StronglySorted key_lt).
Lemma find_small k (m : list (text * N)) : Forall (fun x => text_ltb k (fst x) = true) m -> hm_find text_eqb k m = None.
Proof.
  induction 1 as [|[k' n] m H F IH]; [reflexivity|]. cbn [hm_find fst] in *. destruct (text_eqb k k') eqn:E; [|exact IH].
  apply text_eqb_eq in E. subst k'. rewrite text_ltb_irrefl in H. discriminate.
Qed.
Lemma count_check_spec t m : sorted m ->
  sorted (count_check t m) /\
  (forall k, hm_find text_eqb k (count_check t m) =
     if text_eqb k t then Some (match hm_find text_eqb t m with Some n => n + 1 | None => 1 end) else hm_find text_eqb k m) /\
  (forall (P : text -> Prop), P t -> Forall (fun x => P (fst x)) m -> Forall (fun x => P (fst x)) (count_check t m)).
Proof.
  intros S. induction S as [|[k0 n0] m S (IH1 & IH2 & IH3) F]; cbn [count_check].
  - split; [repeat constructor|]. split; [reflexivity|]. intros P H _. repeat constructor. exact H.
  - destruct (text_ltb t k0) eqn:L; [|destruct (text_eqb t k0) eqn:E].
    + assert (F' : Forall (fun x => text_ltb t (fst x) = true) ((k0, n0) :: m)).
      { constructor; [exact L|]. eapply Forall_impl; [|exact F]. intros x H. eapply text_ltb_trans; eauto. }
      split; [constructor; [constructor; assumption|exact F']|]. split.
      * intros k. rewrite (find_small t _ F'). cbn [hm_find]. reflexivity.
      * intros P H G. constructor; assumption.
    + apply text_eqb_eq in E. subst k0. split; [constructor; assumption|]. split.
      * intros k. cbn [hm_find]. rewrite text_eqb_refl. destruct (text_eqb k t); reflexivity.
      * intros P H G. inversion G; subst. constructor; assumption.
    + split.
      * constructor; [exact IH1|]. apply (IH3 (fun x => text_ltb k0 x = true)); [|exact F]. apply text_ltb_total; [exact L|].
        intros ->. rewrite text_eqb_refl in E. discriminate.
      * split.
        -- intros k. cbn [hm_find]. rewrite E, IH2. destruct (text_eqb k k0) eqn:K; [|reflexivity].
           destruct (text_eqb k t) eqn:K2; [|reflexivity]. apply text_eqb_eq in K, K2. subst. rewrite text_eqb_refl in E. discriminate.
        -- intros P H G. inversion G; subst. constructor; auto.
Qed.

Definition count_tag (t : text) (us : list (text * text)) : nat := List.length (filter (fun u => text_eqb (snd u) t) us).
Definition counts_are (us : list (text * text)) (m : list (text * N)) : Prop :=
  sorted m /\ forall t, hm_find text_eqb t m = match count_tag t us with O => None | n => Some (N.of_nat n) end.
Lemma tally_spec ms : forall us0 seen m, seen = map fst us0 -> NoDup seen -> counts_are us0 m ->
  exists us, NoDup (map fst us) /\ (forall x, In x (map fst us) <-> In x (map fst us0) \/ In x (map fst ms)) /\
    (forall u, In u us -> In u us0 \/ In u ms) /\ counts_are us (snd (fold_left tally ms (seen, m))).
Proof.
  induction ms as [|u ms IH]; intros us0 seen m E ND C; cbn [fold_left].
  - exists us0. subst seen. split; [exact ND|]. split; [intros x; cbn; tauto|]. split; [auto|exact C].
  - unfold tally at 2. cbn [fst snd]. destruct (existsb (text_eqb (fst u)) seen) eqn:X.
    + destruct (IH us0 seen m E ND C) as (us & A & B & D & G). exists us. split; [exact A|]. split; [|split; [|exact G]].
      * intros x. rewrite B. cbn [map In]. apply existsb_exists in X as (y & Y & Z). apply text_eqb_eq in Z. subst y. rewrite E in Y.
        split; [tauto|]. intros [Q|[<-|Q]]; auto.
      * intros v Hv. cbn. destruct (D v Hv); auto.
    + assert (ND' : NoDup (fst u :: seen)).
      { constructor; [|exact ND]. intros I. rewrite <- not_true_iff_false in X. apply X. apply existsb_exists. exists (fst u). split; [exact I|apply text_eqb_refl]. }
      destruct C as [S C]. destruct (count_check_spec (snd u) m S) as (S' & C' & _).
      destruct (IH (u :: us0) (fst u :: seen) (count_check (snd u) m)) as (us & A & B & D & G).
      * cbn. now rewrite E.
      * exact ND'.
      * split; [exact S'|]. intros t. rewrite C'. unfold count_tag. cbn [filter]. destruct (text_eqb t (snd u)) eqn:T.
        -- apply text_eqb_eq in T. subst t. rewrite text_eqb_refl. cbn [List.length]. rewrite C. unfold count_tag.
           destruct (List.length (filter _ us0)) as [|n]; [reflexivity|]. f_equal. lia.
        -- rewrite (text_eqb_neq (snd u) t); [apply C|]. intros Q. rewrite Q, text_eqb_refl in T. discriminate.
      * exists us. split; [exact A|]. split; [|split; [|exact G]].
        -- intros x. rewrite B. cbn [map In]. tauto.
        -- intros v Hv. cbn. destruct (D v Hv) as [[->|Q]|Q]; auto.
Qed.

(** ** The order of the summary *)
Lemma insert_perm x l : Permutation.Permutation (insert_count x l) (x :: l).
Proof.
  induction l as [|y l IH]; cbn [insert_count]; [apply Permutation.Permutation_refl|].
  destruct (snd x <? snd y); [|apply Permutation.Permutation_refl].
  eapply Permutation.perm_trans; [apply Permutation.perm_skip; exact IH|apply Permutation.perm_swap].
Qed.
Lemma by_count_perm m : Permutation.Permutation (by_count m) m.
Proof.
  induction m as [|x m IH]; [constructor|]. cbn [by_count fold_right]. fold (by_count m).
  eapply Permutation.perm_trans; [apply insert_perm|]. now constructor.
Qed.
Lemma insert_sorted x l : Sorted.StronglySorted row_before l -> Forall (fun y => text_before (fst x) (fst y)) l ->
  Sorted.StronglySorted row_before (insert_count x l).
Proof.
  intros S. induction S as [|y l S IH F]; intros B; cbn [insert_count]; [repeat constructor|].
  inversion B as [|? ? B1 B2]; subst. destruct (N.ltb_spec (snd x) (snd y)) as [L|L].
  - constructor; [now apply IH|]. apply Forall_forall. intros z I. apply (Permutation.Permutation_in _ (insert_perm x l)) in I. destruct I as [<-|I].
    + now left.
    + rewrite Forall_forall in F. now apply F.
  - constructor; [constructor; assumption|]. constructor.
    + unfold row_before. destruct (N.eq_dec (snd x) (snd y)); [right; auto|left; lia].
    + apply Forall_forall. intros z I. rewrite Forall_forall in F, B2. specialize (F z I). specialize (B2 z I). unfold row_before in *.
      destruct (N.eq_dec (snd x) (snd z)) as [E|E]; [right; auto|left]. destruct F as [F|[F _]]; lia.
Qed.
Lemma by_count_sorted m : sorted m -> Sorted.StronglySorted row_before (by_count m).
Proof.
  intros S. induction S as [|x m S IH F]; [constructor|]. cbn [by_count fold_right]. fold (by_count m). apply insert_sorted; [exact IH|].
  apply Forall_forall. intros y I. apply (Permutation.Permutation_in _ (by_count_perm m)) in I. rewrite Forall_forall in F. apply text_ltb_iff. now apply F.
Qed.
Lemma sorted_in (m : list (text * N)) t n : sorted m -> (In (t, n) m <-> hm_find text_eqb t m = Some n).
Proof.
  intros S. induction S as [|[k v] m S IH F]; cbn [hm_find In]; [split; [contradiction|discriminate]|]. destruct (text_eqb t k) eqn:E.
  - apply text_eqb_eq in E. subst k. split; [|intros X; left; congruence]. intros [X|I]; [congruence|]. exfalso. rewrite Forall_forall in F.
    apply F in I. unfold key_lt in I. cbn in I. rewrite text_ltb_irrefl in I. discriminate.
  - rewrite <- IH. split; [|auto]. intros [X|I]; [|exact I]. injection X as -> ->. rewrite text_eqb_refl in E. discriminate.
Qed.
