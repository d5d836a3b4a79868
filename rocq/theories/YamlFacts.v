(** Facts about the mapping files. *)
From Verif Require Import Base BaseFacts Absl Part DbText AsmSpec MapFacts DbSpec DbFacts.
From Coq Require Import ZifyBool ZifyN ZifyNat.

(** ** Quotes *)
Lemma quoted_shape (s : text) a b r : s = a :: r -> r <> [] -> b = last r a -> s = [a] ++ removelast r ++ [b].
Proof. intros -> NE ->. cbn [app]. f_equal. rewrite <- app_removelast_last; auto. Qed.
Lemma quoted_last q (r : text) : exists x, r ++ [q] = x :: tl (r ++ [q]).
Proof. destruct r; cbn; eauto. Qed.
Lemma unquote_quoted q s : (q = "034"%char \/ q = "'"%char) -> unquote ([q] ++ s ++ [q]) = s.
Proof.
  intros Q. cbn [app unquote]. rewrite last_last, removelast_last.
  destruct (s ++ [q]) as [|x r] eqn:E; [destruct s; discriminate|].
  destruct Q as [->| ->]; reflexivity.
Qed.
Lemma unquote_spec s t : unquote s = t <-> unquoted s t.
Proof.
  split.
  - intros <-. destruct s as [|a r]; [apply unquoted_none; intros q r _; discriminate|].
    destruct r as [|b r0] eqn:ER.
    { apply unquoted_none. intros q r' _ E. cbn [app] in E. inversion E as [[E1 E2]]. destruct r'; discriminate E2. }
    rewrite <- ER. assert (NE : r <> []) by (rewrite ER; discriminate).
    assert (U : unquote (a :: r) = if (Ascii.eqb a "034" && Ascii.eqb (last r a) "034")
        || (Ascii.eqb a "'" && Ascii.eqb (last r a) "'") then removelast r else a :: r).
    { rewrite ER. reflexivity. }
    rewrite U. clear U ER. pose proof (quoted_shape (a :: r) a (last r a) r eq_refl NE eq_refl) as SH.
    set (z := last r a) in *. clearbody z.
    destruct (Ascii.eqb_spec a "034") as [Ea|N1], (Ascii.eqb_spec z "034") as [Ez|N2]; cbn [andb orb].
    1: rewrite SH at 1; subst a z; apply unquoted_double.
    all: destruct (Ascii.eqb_spec a "'") as [Ea'|N3], (Ascii.eqb_spec z "'") as [Ez'|N4]; cbn [andb orb].
    all: try (exfalso; congruence).
    all: try (rewrite SH at 1; subst a z; apply unquoted_single).
    all: apply unquoted_none; intros q r' Q E; rewrite SH in E; cbn [app] in E; inversion E as [[E1 E2]];
      apply app_inj_tail in E2 as [_ E2]; destruct Q; congruence.
  - intros [x|x|x N].
    + apply unquote_quoted. now left.
    + apply unquote_quoted. now right.
    + destruct x as [|a r]; [reflexivity|]. destruct r as [|b r0] eqn:ER; [reflexivity|]. rewrite <- ER in *.
      assert (NE : r <> []) by (rewrite ER; discriminate).
      assert (U : unquote (a :: r) = if (Ascii.eqb a "034" && Ascii.eqb (last r a) "034")
        || (Ascii.eqb a "'" && Ascii.eqb (last r a) "'") then removelast r else a :: r) by (rewrite ER; reflexivity).
      rewrite U. pose proof (quoted_shape (a :: r) a (last r a) r eq_refl NE eq_refl) as SH.
      set (z := last r a) in *. clearbody z.
      destruct (Ascii.eqb_spec a "034") as [Ea|N1], (Ascii.eqb_spec z "034") as [Ez|N2]; cbn [andb orb];
        [subst a z; exfalso; eapply N; [|exact SH]; now left|..];
        destruct (Ascii.eqb_spec a "'") as [Ea'|N3], (Ascii.eqb_spec z "'") as [Ez'|N4]; cbn [andb orb]; try reflexivity;
        exfalso; subst; (discriminate || (eapply N; [|exact SH]; now right)).
Qed.

(** ** Lines *)
Definition step {S} (sink : S -> text -> props -> outcome S) (st : text * props * S) (i : yaml_item)
  : outcome (text * props * S) :=
  let '(key, ps, s) := st in
  match i with
  | YNothing => Ok st
  | YKey k => obind (yaml_flush sink key ps s) (fun s => Ok (k, [], s))
  | YProp n v => Ok (key, hm_set text_eqb n v ps, s)
  end.

Lemma find_char_spec c s :
  match find_char c s with
  | Some n => exists a b, s = a ++ c :: b /\ ~ In c a /\ n = List.length a
  | None => ~ In c s
  end.
Proof.
  induction s as [|x s IH]; cbn [find_char]; [intros []|].
  destruct (Ascii.eqb_spec c x) as [->|NE]; [exists [], s; auto|].
  destruct (find_char c s) as [n|]; cbn [option_map].
  - destruct IH as (a & b & -> & N & ->). exists (x :: a), b. split; [reflexivity|]. split; [|reflexivity].
    intros [X|X]; [congruence|contradiction].
  - intros [X|X]; [congruence|contradiction].
Qed.

Lemma indent_spec l : (List.length l =? List.length (strip_leading l))%nat = true <-> (forall c r, l = c :: r -> ~ space c).
Proof.
  rewrite Nat.eqb_eq. split.
  - intros E c r -> S. apply is_space_spec in S. cbn [strip_leading] in E. rewrite S in E.
    destruct (strip_leading_cut r) as (a & _ & X). apply (f_equal (@List.length ascii)) in X. rewrite app_length in X. cbn in E. lia.
  - intros H. rewrite strip_leading_solid by exact H. reflexivity.
Qed.
Lemma strip_nil l : strip l = [] <-> spaces l.
Proof.
  rewrite strip_spec. split.
  - intros (a & b & -> & A & B & _). apply Forall_app. auto.
  - intros S. exists l, []. rewrite app_nil_r. split; [reflexivity|]. split; [exact S|]. split; [constructor|].
    split; [intros c r E; discriminate|]. intros r c E. destruct r; discriminate.
Qed.

Section Step.
  Context {S : Type} (sink : S -> text -> props -> outcome S) (sink_dec : forall s k p, ok_or_err (sink s k p)).

  Lemma flush_dec key ps s : ok_or_err (yaml_flush sink key ps s).
  Proof. unfold yaml_flush. destruct key; [left; eauto|apply sink_dec]. Qed.

  Lemma yaml_line_reads l i st : yaml_reads l i -> yaml_line sink st l = step sink st i.
  Proof.
    destruct st as [[key ps] s]. intros H. unfold yaml_line.
    destruct H as [l S0|l r T|l t k H T NC U|l c r name value name' value' v -> SC T N NC TN TV U].
    - apply strip_nil in S0. rewrite S0. reflexivity.
    - apply trimmed_strip in T. rewrite T. reflexivity.
    - pose proof T as T0. apply trimmed_strip in T. rewrite T. destruct (t ++ tx ":") as [|c x] eqn:E; [destruct t; discriminate|].
      destruct (Ascii.eqb_spec c "#") as [->|_].
      { exfalso. destruct t as [|c0 t]; [discriminate E|]. cbn in E. inversion E; subst. eapply NC; reflexivity. }
      apply indent_spec in H. rewrite H. cbn [step]. destruct (yaml_flush sink key ps s); cbn [obind]; try reflexivity.
      rewrite <- E. assert (EW : ends_with (tx ":") (t ++ tx ":") = true) by (apply ends_with_char; exists t; reflexivity).
      rewrite EW. change (tx ":") with [":"%char]. rewrite removelast_last. apply unquote_spec in U. now rewrite U.
    - pose proof T as T0. apply trimmed_strip in T. rewrite T.
      destruct (name ++ ":"%char :: value) as [|c0 x] eqn:E; [destruct name; discriminate|].
      destruct (Ascii.eqb_spec c0 "#") as [->|_].
      { exfalso. destruct name as [|c1 name]; [discriminate E|]. cbn in E. inversion E; subst. eapply NC; reflexivity. }
      destruct (List.length (c :: r) =? List.length (strip_leading (c :: r)))%nat eqn:EI.
      { exfalso. pose proof (proj1 (indent_spec (c :: r)) EI c r eq_refl). contradiction. }
      rewrite <- E. pose proof (find_char_spec ":" (name ++ ":"%char :: value)) as F.
      destruct (find_char ":" (name ++ ":"%char :: value)) as [n|].
      + destruct F as (a & b & E' & Na & ->). apply cut_unique in E' as [<- <-]; auto.
        rewrite firstn_app, Nat.sub_diag, firstn_all, firstn_O, app_nil_r.
        rewrite skipn_app. replace (List.length name + 1 - List.length name)%nat with 1%nat by lia.
        rewrite skipn_all2 by lia. cbn [app skipn]. apply trimmed_strip in TN. apply trimmed_strip in TV. rewrite TN, TV.
        apply unquote_spec in U. rewrite U. reflexivity.
      + exfalso. apply F. apply in_or_app. right. now left.
  Qed.

  Lemma yaml_line_dec l : (exists i, yaml_reads l i) \/ ((forall i, ~ yaml_reads l i) /\ forall st, yaml_line sink st l = Err).
  Proof.
    destruct (strip l) as [|c x] eqn:E; [left; exists YNothing; constructor; now apply strip_nil|].
    destruct (Ascii.eqb_spec c "#") as [->|NC]; [left; exists YNothing; apply (reads_comment l x); now apply strip_spec|].
    assert (T : trimmed l (c :: x)) by (now apply strip_spec).
    destruct (List.length l =? List.length (strip_leading l))%nat eqn:EI.
    - destruct (ends_with (tx ":") (c :: x)) eqn:EW.
      + left. apply ends_with_char in EW as (t & Et). exists (YKey (unquote t)). rewrite Et in T.
        apply (reads_key l t); [now apply indent_spec|exact T| |now apply unquote_spec].
        intros r ->. cbn in Et. inversion Et; subst. contradiction.
      + right. assert (Y : forall st, yaml_line sink st l = Err).
        { intros [[key ps] s]. unfold yaml_line. rewrite E. destruct (Ascii.eqb_spec c "#") as [|_]; [contradiction|].
          rewrite EI. destruct (flush_dec key ps s) as [(s' & ->)| ->]; cbn [obind]; [now rewrite EW|reflexivity]. }
        split; [|exact Y]. intros i R. destruct R as [l S0|l r T'|l t k H T' NC' U|l c0 r name value name' value' v -> SC T' N NC' TN TV U].
        * apply strip_nil in S0. congruence.
        * apply trimmed_strip in T'. congruence.
        * apply trimmed_strip in T'. assert (X : ends_with (tx ":") (c :: x) = true); [|congruence].
          rewrite <- E, T'. apply ends_with_char. exists t. reflexivity.
        * pose proof (proj1 (indent_spec (c0 :: r)) EI c0 r eq_refl). contradiction.
    - assert (IN : exists c0 r0, l = c0 :: r0 /\ space c0).
      { destruct l as [|c0 r0]; [discriminate E|]. exists c0, r0. split; [reflexivity|].
        destruct (space_dec c0) as [SS|SS]; [exact SS|]. exfalso.
        assert (X : (List.length (c0 :: r0) =? List.length (strip_leading (c0 :: r0)))%nat = true).
        { apply indent_spec. intros ? ? [= <- <-]. exact SS. }
        congruence. }
      destruct IN as (c0 & r0 & El & SC).
      pose proof (find_char_spec ":" (c :: x)) as F. destruct (find_char ":" (c :: x)) as [n|] eqn:EF.
      + destruct F as (a & b & E' & Na & ->). left. exists (YProp (strip a) (unquote (strip b))).
        rewrite E' in T. eapply (reads_prop l c0 r0 a b); eauto.
        * intros r ->. cbn in E'. inversion E'; subst. contradiction.
        * apply strip_trimmed.
        * apply strip_trimmed.
        * now apply unquote_spec.
      + right. assert (Y : forall st, yaml_line sink st l = Err).
        { intros [[key ps] s]. unfold yaml_line. rewrite E. destruct (Ascii.eqb_spec c "#") as [|_]; [contradiction|].
          rewrite EI, EF. reflexivity. }
        split; [|exact Y]. intros i R. destruct R as [l S0|l r T'|l t k H T' NC' U|l c1 r name value name' value' v -> SC' T' N NC' TN TV U].
        * apply strip_nil in S0. congruence.
        * apply trimmed_strip in T'. congruence.
        * eapply H; eauto.
        * apply trimmed_strip in T'. apply F. rewrite <- E, T'. apply in_or_app. right. now left.
  Qed.

  Lemma step_dec st i : ok_or_err (step sink st i).
  Proof.
    destruct st as [[key ps] s]. destruct i; cbn [step]; unfold ok_or_err; eauto.
    destruct (flush_dec key ps s) as [(s' & ->)| ->]; cbn [obind]; eauto.
  Qed.

  Lemma fold_reads ls : forall st,
    (forall items, Forall2 yaml_reads ls items -> ofold (yaml_line sink) ls st = ofold (step sink) items st) /\
    ((exists l, In l ls /\ forall i, ~ yaml_reads l i) -> ofold (yaml_line sink) ls st = Err).
  Proof.
    induction ls as [|l ls IH]; intros st.
    - split; [intros items F; inversion F; reflexivity|intros (l & [] & _)].
    - destruct (yaml_line_dec l) as [(i & R)|(N & E)].
      + cbn [ofold]. rewrite (yaml_line_reads l i st R). split.
        * intros items F. inversion F as [|? i' ? items' R' F']; subst. cbn [ofold].
          rewrite <- (yaml_line_reads l i st R), <- (yaml_line_reads l i' st R').
          destruct (yaml_line sink st l) as [st'| | | |]; cbn [obind]; try reflexivity. now apply IH.
        * intros (x & [<-|I] & N); [exfalso; eapply N; eauto|].
          destruct (step_dec st i) as [(st' & ->)| ->]; cbn [obind]; [|reflexivity]. apply IH. eauto.
      + cbn [ofold]. rewrite E. cbn [obind]. split.
        * intros items F. inversion F as [|? i' ? items' R' F']; subst. exfalso. eapply N; eauto.
        * reflexivity.
  Qed.

  (** ** Grouping *)
  Definition set_all (p ps : props) : props := fold_left (fun m kv => hm_set text_eqb (fst kv) (snd kv) m) p ps.
  Fixpoint group (items : list yaml_item) : list (text * text) * list (text * list (text * text)) :=
    match items with
    | [] => ([], [])
    | YNothing :: r => group r
    | YProp n v :: r => let (p, es) := group r in ((n, v) :: p, es)
    | YKey k :: r => let (p, es) := group r in ([], (k, p) :: es)
    end.
  Definition run_entries (es : list (text * list (text * text))) (s : S) : outcome S :=
    ofold (fun s e => yaml_flush sink (fst e) (set_all (snd e) []) s) es s.

  Lemma run_entries_dec es : forall s, ok_or_err (run_entries es s).
  Proof.
    unfold run_entries. induction es as [|e es IH]; intros s; [left; exists s; reflexivity|]. cbn [ofold].
    match goal with |- ok_or_err (obind ?x _) => assert (X : ok_or_err x) by apply flush_dec; destruct X as [(s' & ->)| ->] end;
      cbn [obind]; [apply IH|now right].
  Qed.

  Lemma run_group items : forall key ps s,
    obind (ofold (step sink) items (key, ps, s)) (fun st => let '(key, ps, s) := st in yaml_flush sink key ps s)
    = obind (yaml_flush sink key (set_all (fst (group items)) ps) s) (run_entries (snd (group items))).
  Proof.
    induction items as [|i items IH]; intros key ps s.
    - cbn [ofold group fst snd obind set_all fold_left]. unfold run_entries. cbn [ofold].
      destruct (yaml_flush sink key ps s); reflexivity.
    - cbn [ofold]. destruct i as [|k|n v].
      + cbn [step obind group]. apply IH.
      + cbn [step group]. destruct (group items) as [p es] eqn:EG. cbn [fst snd set_all fold_left].
        destruct (yaml_flush sink key ps s) as [s'| | | |]; cbn [obind]; try reflexivity.
        rewrite IH. cbn [fst snd]. unfold run_entries. cbn [ofold fst snd]. reflexivity.
      + cbn [step obind group]. rewrite IH. destruct (group items) as [p es]. cbn [fst snd]. reflexivity.
  Qed.
End Step.

Lemma set_all_find p : forall ps x,
  hm_find text_eqb x (set_all p ps) = match hm_find text_eqb x (rev p) with Some v => Some v | None => hm_find text_eqb x ps end.
Proof.
  induction p as [|[k v] p IH]; intros ps x; [reflexivity|].
  unfold set_all in *. cbn [fold_left fst snd rev]. rewrite IH. rewrite (hm_find_set _ text_eqb_eq).
  rewrite hm_find_app. cbn [hm_find]. destruct (hm_find text_eqb x (rev p)); [reflexivity|]. destruct (text_eqb x k); reflexivity.
Qed.

Lemma no_key_group pre r : no_key pre -> group (pre ++ r) = (prop_pairs pre ++ fst (group r), snd (group r)).
Proof.
  unfold no_key, prop_pairs. induction pre as [|i pre IH]; intros N.
  - cbn. now destruct (group r).
  - assert (N' : forall k, ~ In (YKey k) pre) by (intros k I; apply (N k); now right). specialize (IH N').
    destruct i as [|k|n v]; cbn [app group].
    + exact IH.
    + exfalso. apply (N k). now left.
    + rewrite IH. reflexivity.
Qed.
Lemma yaml_entries_group items es : yaml_entries items es ->
  es = map (fun e => (fst e, rev (snd e))) (snd (group items)).
Proof.
  induction 1 as [pre N|pre k body rest es N NB R H IH].
  - rewrite <- (app_nil_r pre), no_key_group by exact N. reflexivity.
  - rewrite no_key_group by exact N. cbn [snd group]. rewrite no_key_group by exact NB. cbn [map fst snd].
    rewrite IH. f_equal. f_equal. f_equal. destruct R as [->|(k' & r & ->)].
    + cbn. now rewrite app_nil_r.
    + cbn [group]. destruct (group r). cbn [fst]. now rewrite app_nil_r.
Qed.
Lemma yaml_entries_total items : exists es, yaml_entries items es.
Proof.
  assert (C : forall items, exists pre rest, items = pre ++ rest /\ no_key pre /\ (rest = [] \/ exists k r, rest = YKey k :: r)).
  { induction items0 as [|i items0 (pre & rest & -> & N & R)].
    - exists [], []. split; [reflexivity|]. split; [intros k []|now left].
    - destruct i as [|k|n v].
      2: { exists [], (YKey k :: pre ++ rest). split; [reflexivity|]. split; [intros k' []|right; eauto]. }
      1: exists (YNothing :: pre), rest. 2: exists (YProp n v :: pre), rest.
      all: split; [reflexivity|]; (split; [|exact R]); intros k [X|X]; [discriminate|eapply N; eauto]. }
  assert (H : forall n items, (List.length items <= n)%nat -> exists es, yaml_entries items es).
  { clear items. induction n as [|n IH]; intros items L.
    - destruct items; [|cbn in L; lia]. exists []. constructor. intros k [].
    - destruct (C items) as (pre & rest & -> & N & [->|(k & r & ->)]).
      + exists []. rewrite app_nil_r. now constructor.
      + destruct (C r) as (body & rest & -> & NB & R). destruct (IH rest) as (es & H).
        { rewrite app_length in L. cbn [List.length] in L. rewrite app_length in L. lia. }
        eexists. eapply entries_key; eauto. }
  eapply H; eauto.
Qed.

(** ** The two files *)
Section Doc.
  Context {S : Type} (sink : S -> text -> props -> outcome S) (sink_dec : forall s k p, ok_or_err (sink s k p)).

  Lemma parse_yaml_doc content es s : yaml_document content es ->
    exists es', es = map (fun e => (fst e, rev (snd e))) es' /\
      parse_yaml sink content s = run_entries sink es' s.
  Proof.
    intros (ls & items & P & F & E). apply yaml_entries_group in E. exists (snd (group items)). split; [exact E|].
    unfold parse_yaml. apply split_char_spec in P. rewrite nl_newline, P.
    rewrite (proj1 (fold_reads sink sink_dec ls _) items F).
    pose proof (run_group sink items [] [] s) as R.
    exact R.
  Qed.
  Lemma parse_yaml_bad content ls l s : pieces newline content ls -> In l ls -> (forall i, ~ yaml_reads l i) ->
    parse_yaml sink content s = Err.
  Proof.
    intros P I N. unfold parse_yaml. apply split_char_spec in P. rewrite nl_newline, P.
    rewrite (proj2 (fold_reads sink sink_dec ls _)); [reflexivity|]. eauto.
  Qed.
  Lemma yaml_document_or_not content : (exists es, yaml_document content es) \/
    (exists ls l, pieces newline content ls /\ In l ls /\ forall i, ~ yaml_reads l i).
  Proof.
    destruct (pieces_total newline content) as (ls & P).
    assert (X : (exists items, Forall2 yaml_reads ls items) \/ (exists l, In l ls /\ forall i, ~ yaml_reads l i)).
    { clear P. induction ls as [|l ls IH]; [left; exists []; constructor|].
      destruct (yaml_line_dec sink sink_dec l) as [(i & R)|(N & _)]; [|right; exists l; split; [now left|exact N]].
      destruct IH as [(items & F)|(x & I & N)]; [left; exists (i :: items); now constructor|right; exists x; split; [now right|exact N]]. }
    destruct X as [(items & F)|(l & I & N)]; [|right; eauto 6].
    destruct (yaml_entries_total items) as (es & E). left. exists es, ls, items. auto.
  Qed.
End Doc.

(** Entries are inserted unless their key is empty; [value] reads the properties. *)
Section Fold.
  Context {A : Type} (sink : list (text * A) -> text -> props -> outcome (list (text * A)))
    (value : text -> list (text * text) -> option A)
    (sink_value : forall m k p q, (forall x, hm_find text_eqb x p = hm_find text_eqb x q) ->
       sink m k p = match value k q with Some v => Ok (hm_insert text_eqb k v m) | None => Err end).
  Definition values (es : list (text * list (text * text))) : list (text * A) :=
    concat (map (fun e => match value (fst e) (snd e) with Some v => [(fst e, v)] | None => [] end) es).

  Lemma run_entries_values es' : forall m,
    let es := map (fun e => (fst e, rev (snd e))) es' in
    ((forall k ps, In (k, ps) (named es) -> value k ps <> None) ->
       run_entries sink es' m = Ok (insert_all text_eqb (values (named es)) m)) /\
    ((exists k ps, In (k, ps) (named es) /\ value k ps = None) -> run_entries sink es' m = Err).
  Proof.
    induction es' as [|[k p] es' IH]; intros m es.
    - split; [reflexivity|]. intros (k & ps & [] & _).
    - subst es. unfold run_entries in *. cbn [ofold fst snd map named filter] in *.
      assert (EQ : forall x, hm_find text_eqb x (set_all p []) = hm_find text_eqb x (rev p)).
      { intros x. rewrite set_all_find. destruct (hm_find text_eqb x (rev p)); reflexivity. }
      unfold yaml_flush at 1 3. destruct k as [|c k].
      + cbn [obind]. exact (IH m).
      + rewrite (sink_value m (c :: k) (set_all p []) (rev p) EQ). unfold values. cbn [map concat fst snd].
        destruct (value (c :: k) (rev p)) as [v|] eqn:EV.
        * cbn [obind]. destruct (IH (hm_insert text_eqb (c :: k) v m)) as [I1 I2]. split.
          -- intros H. rewrite I1; [reflexivity|]. intros k' ps' I. apply H. now right.
          -- intros (k' & ps' & [E|I] & N); [inversion E; subst; congruence|]. apply I2. eauto.
        * cbn [obind]. split.
          -- intros H. exfalso. apply (H (c :: k) (rev p)); [now left|exact EV].
          -- reflexivity.
  Qed.
  Lemma values_maps es k v : (forall k ps, In (k, ps) es -> value k ps <> None) ->
    (maps_to (values es) k v <-> exists ps, maps_to es k ps /\ value k ps = Some v).
  Proof.
    intros H. rewrite <- (hm_find_maps _ text_eqb_eq). split.
    - intros E. assert (X : exists ps, hm_find text_eqb k es = Some ps /\ value k ps = Some v).
      { revert H E. unfold values. induction es as [|[k' p] es IH]; intros H E; [discriminate E|].
        cbn [map concat fst snd] in E. cbn [hm_find]. destruct (value k' p) as [w|] eqn:EV.
        - cbn [app hm_find] in E. destruct (text_eqb k k') eqn:EK.
          + apply text_eqb_eq in EK. subst k'. inversion E; subst. eauto.
          + apply IH; [|exact E]. intros k2 p2 I. apply H. now right.
        - exfalso. apply (H k' p); [now left|exact EV]. }
      destruct X as (ps & X & Y). exists ps. split; [|exact Y]. now apply (hm_find_maps _ text_eqb_eq).
    - intros (ps & M & E). apply (hm_find_maps _ text_eqb_eq) in M. revert H M. unfold values.
      induction es as [|[k' p] es IH]; intros H M; [discriminate M|].
      cbn [map concat fst snd]. cbn [hm_find] in M. destruct (value k' p) as [w|] eqn:EV.
      + cbn [app hm_find]. destruct (text_eqb k k') eqn:EK.
        * apply text_eqb_eq in EK. subst k'. inversion M; subst. congruence.
        * apply IH; [|exact M]. intros k2 p2 I. apply H. now right.
      + exfalso. apply (H k' p); [now left|exact EV].
  Qed.
End Fold.

Definition fabric_value (k : text) (ps : list (text * text)) : option text := hm_find text_eqb (tx "fabric") ps.
Lemma fabric_sink_dec s k p : ok_or_err (fabric_sink s k p).
Proof. unfold fabric_sink, ok_or_err. destruct (hm_find _ _ p); eauto. Qed.
Lemma fabric_sink_value m k p q : (forall x, hm_find text_eqb x p = hm_find text_eqb x q) ->
  fabric_sink m k p = match fabric_value k q with Some v => Ok (hm_insert text_eqb k v m) | None => Err end.
Proof. intros H. unfold fabric_sink, fabric_value. rewrite H. destruct (hm_find _ _ q); reflexivity. Qed.

Definition part_value (fabrics : props) (k : text) (ps : list (text * text)) : option part_info :=
  match hm_find text_eqb (tx "device") ps, hm_find text_eqb (tx "package") ps, hm_find text_eqb (tx "speedgrade") ps with
  | Some d, Some p, Some sg =>
      match hm_find text_eqb d fabrics with
      | Some f => Some {| pi_device := d; pi_fabric := f; pi_package := p; pi_speedgrade := sg |}
      | None => None
      end
  | _, _, _ => None
  end.
Lemma part_sink_dec f s k p : ok_or_err (part_sink f s k p).
Proof.
  unfold part_sink, ok_or_err. destruct (hm_find _ _ p); eauto. destruct (hm_find _ _ p); eauto.
  destruct (hm_find _ _ p); eauto. destruct (hm_find _ _ f); eauto.
Qed.
Lemma part_sink_value f m k p q : (forall x, hm_find text_eqb x p = hm_find text_eqb x q) ->
  part_sink f m k p = match part_value f k q with Some v => Ok (hm_insert text_eqb k v m) | None => Err end.
Proof.
  intros H. unfold part_sink, part_value. rewrite !H. destruct (hm_find _ _ q); [|reflexivity].
  destruct (hm_find _ _ q); [|reflexivity]. destruct (hm_find _ _ q); [|reflexivity]. destruct (hm_find _ _ f); reflexivity.
Qed.
