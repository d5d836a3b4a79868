(** Facts about the text parsers of the database. *)
From Verif Require Import Base BaseFacts Absl Part DbText AsmSpec MapFacts DbSpec.
From Coq Require Import ZifyBool ZifyN ZifyNat.

Lemma nl_newline : nl = newline. Proof. reflexivity. Qed.

(** ** Lines *)
Lemma text_lines_total s : exists ls, text_lines s ls.
Proof.
  assert (H : forall n s, (List.length s <= n)%nat -> exists ls, text_lines s ls).
  { clear s. induction n as [|n IH]; intros s L.
    - destruct s; [|cbn in L; lia]. exists []. constructor.
    - destruct s as [|c s]; [exists []; constructor|].
      destruct (first_delim newline (c :: s)) as [N|(a & b & E & N)].
      + exists [c :: s]. constructor; [discriminate|exact N].
      + destruct (IH b) as (ls & Hl).
        { rewrite E in L. rewrite app_length in L. cbn in L. lia. }
        rewrite E. exists (a :: ls). now constructor. }
  eapply H; eauto.
Qed.

Lemma text_lines_fun s ls ls' : text_lines s ls -> text_lines s ls' -> ls = ls'.
Proof.
  intros H. revert ls'. induction H as [|l NE N|l r ls N H IH]; intros ls' H'.
  - inversion H' as [|l NE N E|l r ls N H E]; subst; [reflexivity|contradiction|]. destruct l; discriminate.
  - inversion H' as [E|l' NE' N' E|l' r ls0 N' H E]; subst; [contradiction|reflexivity|].
    exfalso. apply N. apply in_or_app. right. now left.
  - inversion H' as [E|l' NE' N' E|l' r' ls0 N' H0 E]; subst.
    + destruct l; discriminate.
    + exfalso. apply N'. apply in_or_app. right. now left.
    + apply cut_unique in E as [-> ->]; auto. f_equal. now apply IH.
Qed.

Lemma to_eol_cut after l r : ~ In nl l -> to_eol after (l ++ nl :: r) = Ok (l, nl :: r).
Proof.
  induction l as [|c l IH]; intros N; cbn [app to_eol].
  - rewrite Ascii.eqb_refl. reflexivity.
  - destruct (Ascii.eqb_spec c nl) as [->|NE]; [exfalso; apply N; now left|].
    rewrite IH; [reflexivity|]. intros I. apply N. now right.
Qed.
Lemma to_eol_last after l : ~ In nl l ->
  to_eol after l = match after with Some _ => Ok (l, []) | None => UB end.
Proof.
  induction l as [|c l IH]; intros N; cbn [app to_eol].
  - destruct after; reflexivity.
  - destruct (Ascii.eqb_spec c nl) as [->|NE]; [exfalso; apply N; now left|].
    rewrite IH; [destruct after; reflexivity|]. intros I. apply N. now right.
Qed.

(** The lines numbered from [n + 1] on, modulo 2^32. *)
Fixpoint number_from (n : N) (ls : list text) : list (N * text) :=
  match ls with
  | [] => []
  | l :: r => (u32 (n + 1), l) :: number_from (u32 (n + 1)) r
  end.

Lemma lines_loop_spec {S} after (sink : S -> N -> text -> outcome S) s0 ls :
  text_lines s0 ls -> splittable after s0 ->
  forall fuel n s, (List.length s0 <= fuel)%nat ->
  lines_loop fuel after sink n s s0 = ofold (fun s (l : N * text) => sink s (fst l) (snd l)) (number_from n ls) s.
Proof.
  intros H. induction H as [|l NE N|l r ls N H IH]; intros R fuel n s L.
  - destruct fuel; reflexivity.
  - destruct fuel as [|fuel]; [destruct l; [contradiction|cbn in L; lia]|].
    cbn [number_from ofold fst snd].
    replace (lines_loop (Datatypes.S fuel) after sink n s l)
      with (obind (to_eol after l) (fun p => let '(line, it) := p in
              obind (sink s (u32 (n + 1)) line) (fun s => lines_loop fuel after sink (u32 (n + 1)) s (tl it))))
      by (destruct l; [contradiction|reflexivity]).
    rewrite to_eol_last by exact N. destruct after as [c|].
    + cbn [obind]. destruct (sink s (u32 (n + 1)) l); cbn [obind]; try reflexivity. destruct fuel; reflexivity.
    + exfalso. destruct R as [->|[(s' & ->)|R]]; [contradiction| |contradiction].
      apply N. apply in_or_app. right. now left.
  - destruct fuel as [|fuel]; [destruct l; cbn in L; lia|].
    cbn [number_from ofold fst snd].
    replace (lines_loop (Datatypes.S fuel) after sink n s (l ++ newline :: r))
      with (obind (to_eol after (l ++ nl :: r)) (fun p => let '(line, it) := p in
              obind (sink s (u32 (n + 1)) line) (fun s => lines_loop fuel after sink (u32 (n + 1)) s (tl it))))
      by (destruct l; reflexivity).
    rewrite to_eol_cut by exact N. cbn [obind tl].
    destruct (sink s (u32 (n + 1)) l); cbn [obind]; try reflexivity.
    apply IH.
    + destruct R as [R|[(s' & E)|R]]; [destruct l; discriminate| |right; right; exact R].
      destruct r as [|c r]; [now left|]. right. left.
      destruct (@exists_last _ (c :: r)) as (r0 & c0 & E'); [discriminate|]. rewrite E' in *.
      change (newline :: r0 ++ [c0]) with ((newline :: r0) ++ [c0]) in E. rewrite app_assoc in E.
      apply app_inj_tail in E as [_ ->]. exists r0. reflexivity.
    + rewrite app_length in L. cbn in L. lia.
Qed.

Lemma lines_loop_unreadable {S} (sink : S -> N -> text -> outcome S) p ls l :
  text_lines p ls -> p = [] \/ ends_in_newline p -> l <> [] -> ~ In newline l ->
  forall fuel n s, (List.length (p ++ l) <= fuel)%nat ->
  lines_loop fuel None sink n s (p ++ l)
  = obind (ofold (fun s (l : N * text) => sink s (fst l) (snd l)) (number_from n ls) s) (fun _ => UB).
Proof.
  intros H. induction H as [|l0 NE0 N0|l0 r ls N0 H IH]; intros P NE N fuel n s L.
  - cbn [app number_from ofold obind]. cbn [app] in L. destruct fuel as [|fuel]; [destruct l; [contradiction|cbn in L; lia]|].
    replace (lines_loop (Datatypes.S fuel) None sink n s l)
      with (obind (to_eol None l) (fun p => let '(line, it) := p in
              obind (sink s (u32 (n + 1)) line) (fun s => lines_loop fuel None sink (u32 (n + 1)) s (tl it))))
      by (destruct l; [contradiction|reflexivity]).
    rewrite to_eol_last by exact N. reflexivity.
  - exfalso. destruct P as [->|(s' & ->)]; [contradiction|]. apply N0. apply in_or_app. right. now left.
  - destruct fuel as [|fuel]; [destruct l0; cbn in L; lia|].
    rewrite <- app_assoc in *. cbn [app] in *. cbn [number_from ofold fst snd].
    replace (lines_loop (Datatypes.S fuel) None sink n s (l0 ++ newline :: r ++ l))
      with (obind (to_eol None (l0 ++ nl :: (r ++ l))) (fun p => let '(line, it) := p in
              obind (sink s (u32 (n + 1)) line) (fun s => lines_loop fuel None sink (u32 (n + 1)) s (tl it))))
      by (destruct l0; reflexivity).
    rewrite to_eol_cut by exact N0. cbn [obind tl].
    destruct (sink s (u32 (n + 1)) l0); cbn [obind]; try reflexivity.
    apply IH; auto.
    + destruct P as [P|(s' & E)]; [destruct l0; discriminate|].
      destruct r as [|c r]; [now left|]. right.
      destruct (@exists_last _ (c :: r)) as (r0 & c0 & E'); [discriminate|]. rewrite E' in *.
      change (newline :: r0 ++ [c0]) with ((newline :: r0) ++ [c0]) in E. rewrite app_assoc in E.
      apply app_inj_tail in E as [_ ->]. exists r0. reflexivity.
    + rewrite app_length in L. cbn in L. lia.
Qed.

(** ** White space *)
Lemma is_space_spec c : is_space c = true <-> space c.
Proof.
  split.
  - unfold is_space, ccode. intros H. unfold space.
    assert (E : In (N_of_ascii c) [9; 10; 11; 12; 13; 32]) by (cbn [In]; lia).
    rewrite <- (ascii_N_embedding c). generalize dependent (N_of_ascii c). intros n _ E.
    cbn [In] in E. destruct E as [<-|[<-|[<-|[<-|[<-|[<-|[]]]]]]]; vm_compute; tauto.
  - intros [<-|[<-|[<-|[<-|[<-|[<-|[]]]]]]]; reflexivity.
Qed.
Lemma is_space_not c : is_space c = false <-> ~ space c.
Proof. rewrite <- is_space_spec. destruct (is_space c); split; congruence. Qed.
Lemma space_dec c : {space c} + {~ space c}.
Proof. destruct (is_space c) eqn:E; [left|right]; [now apply is_space_spec|now apply is_space_not]. Qed.

Lemma strip_leading_spaces a t : spaces a -> strip_leading (a ++ t) = strip_leading t.
Proof.
  induction 1 as [|c a S A IH]; [reflexivity|]. cbn [app strip_leading].
  apply is_space_spec in S. rewrite S. exact IH.
Qed.
Lemma strip_leading_solid t : (forall c r, t = c :: r -> ~ space c) -> strip_leading t = t.
Proof.
  destruct t as [|c r]; [reflexivity|]. intros H. cbn [strip_leading].
  assert (E : is_space c = false) by (apply is_space_not; eapply H; reflexivity). now rewrite E.
Qed.
Lemma strip_leading_cut s : exists a, spaces a /\ s = a ++ strip_leading s.
Proof.
  induction s as [|c s (a & A & E)]; cbn [strip_leading].
  - exists []. split; [constructor|reflexivity].
  - destruct (is_space c) eqn:Ec.
    + apply is_space_spec in Ec. exists (c :: a). split; [now constructor|]. cbn. now rewrite <- E.
    + exists []. split; [constructor|reflexivity].
Qed.
Lemma strip_leading_head s c r : strip_leading s = c :: r -> ~ space c.
Proof.
  induction s as [|x s IH]; cbn [strip_leading]; [discriminate|].
  destruct (is_space x) eqn:E; [exact IH|]. intros [= -> ->]. now apply is_space_not.
Qed.
Lemma spaces_rev a : spaces a -> spaces (rev a).
Proof. unfold spaces. rewrite !Forall_forall. intros H x I. apply H. now apply in_rev. Qed.

Lemma trimmed_strip s t : trimmed s t -> strip s = t.
Proof.
  intros (a & b & -> & A & B & H & T). unfold strip. rewrite strip_leading_spaces by exact A.
  destruct t as [|c r].
  - cbn [app]. assert (E : strip_leading b = []).
    { clear - B. induction B as [|c b S B IH]; [reflexivity|]. cbn. apply is_space_spec in S. now rewrite S. }
    rewrite E. reflexivity.
  - rewrite strip_leading_solid.
    2:{ intros c' r' [= <- _]. eapply H; reflexivity. }
    unfold strip_trailing. rewrite rev_app_distr. rewrite strip_leading_spaces by (now apply spaces_rev).
    rewrite strip_leading_solid; [apply rev_involutive|]. intros x y E.
    apply (f_equal (@rev ascii)) in E. rewrite rev_involutive in E. cbn [rev] in E. eapply T; exact E.
Qed.
Lemma strip_trimmed s : trimmed s (strip s).
Proof.
  unfold strip, strip_trailing. destruct (strip_leading_cut s) as (a & A & E).
  destruct (strip_leading_cut (rev (strip_leading s))) as (b & B & E').
  exists a, (rev b). split; [|split; [exact A|split; [now apply spaces_rev|split]]].
  - rewrite E at 1. f_equal. apply (f_equal (@rev ascii)) in E'. rewrite rev_involutive, rev_app_distr in E'. exact E'.
  - intros c r E2. apply (f_equal (@rev ascii)) in E'. rewrite rev_involutive, rev_app_distr, E2 in E'.
    cbn [app] in E'. eapply strip_leading_head; eauto.
  - intros r c E2. apply (f_equal (@rev ascii)) in E2. rewrite rev_involutive, rev_app_distr in E2. cbn in E2.
    eapply strip_leading_head; eauto.
Qed.
Lemma strip_spec s t : strip s = t <-> trimmed s t.
Proof. split; [intros <-; apply strip_trimmed|apply trimmed_strip]. Qed.

(** ** Words *)
Lemma split_ne d s : split d s <> [].
Proof. induction s as [|c s IH]; cbn [split]; [discriminate|]. destruct (d c); [discriminate|]. destruct (split d s); discriminate. Qed.

Lemma words_space c s : space c -> words (c :: s) = words s.
Proof. intros S. apply is_space_spec in S. unfold words. cbn [split]. rewrite S. reflexivity. Qed.
Lemma words_spaces a s : spaces a -> words (a ++ s) = words s.
Proof. induction 1 as [|c a S A IH]; [reflexivity|]. cbn [app]. now rewrite words_space. Qed.
Lemma split_solid w r : solid w -> (r = [] \/ exists c r', r = c :: r' /\ space c) ->
  exists ps, split is_space r = [] :: ps /\ split is_space (w ++ r) = w :: ps.
Proof.
  intros W R. assert (X : exists ps, split is_space r = [] :: ps).
  { destruct R as [->|(c & r' & -> & S)]; [exists []; reflexivity|]. apply is_space_spec in S.
    cbn [split]. rewrite S. eexists. reflexivity. }
  destruct X as (ps & E). exists ps. split; [exact E|].
  induction W as [|c w S W IH]; [exact E|]. cbn [app split]. apply is_space_not in S. rewrite S, IH. reflexivity.
Qed.
Lemma words_solid w r : w <> [] -> solid w -> (r = [] \/ exists c r', r = c :: r' /\ space c) ->
  words (w ++ r) = w :: words r.
Proof.
  intros NE W R. destruct (split_solid w r W R) as (ps & E & E'). unfold words. rewrite E, E'.
  unfold skip_empty. cbn [filter]. destruct w; [contradiction|reflexivity].
Qed.

Lemma text_words_words s ws : text_words s ws -> words s = ws.
Proof.
  induction 1 as [s S|s w r ws S NE W R H IH].
  - rewrite <- (app_nil_r s). rewrite words_spaces by exact S. reflexivity.
  - rewrite words_spaces by exact S. rewrite words_solid by assumption. now rewrite IH.
Qed.
Lemma solid_prefix s : exists w r, s = w ++ r /\ solid w /\ (r = [] \/ exists c r', r = c :: r' /\ space c).
Proof.
  induction s as [|c s (w & r & E & W & R)].
  - exists [], []. split; [reflexivity|]. split; [constructor|now left].
  - destruct (space_dec c) as [S|S].
    + exists [], (c :: s). split; [reflexivity|]. split; [constructor|]. right. eauto.
    + exists (c :: w), r. rewrite E. split; [reflexivity|]. split; [now constructor|exact R].
Qed.
Lemma text_words_total s : exists ws, text_words s ws.
Proof.
  assert (H : forall n s, (List.length s <= n)%nat -> exists ws, text_words s ws).
  { clear s. induction n as [|n IH]; intros s L.
    - destruct s; [|cbn in L; lia]. exists []. constructor. constructor.
    - destruct (strip_leading_cut s) as (a & A & E). destruct (strip_leading s) as [|c t] eqn:ET.
      + exists []. rewrite E, app_nil_r. constructor. exact A.
      + pose proof (strip_leading_head _ _ _ ET) as NC.
        destruct (solid_prefix (c :: t)) as (w & r & Ew & W & R).
        destruct w as [|cw w].
        { exfalso. destruct R as [->|(c' & r' & -> & S)]; [discriminate Ew|]. inversion Ew; subst. contradiction. }
        destruct (IH r) as (ws & H).
        { rewrite E, Ew in L. rewrite !app_length in L. cbn [List.length] in L. lia. }
        exists ((cw :: w) :: ws). rewrite E, Ew. constructor; auto. discriminate. }
  eapply H; eauto.
Qed.
Lemma words_spec s ws : words s = ws <-> text_words s ws.
Proof.
  split; [|apply text_words_words]. destruct (text_words_total s) as (ws' & H).
  pose proof (text_words_words _ _ H) as E. intros <-. rewrite E. exact H.
Qed.

(** ** Pieces *)
Lemma split_char_piece d p r : ~ In d p -> split_char d (p ++ d :: r) = p :: split_char d r.
Proof.
  unfold split_char. induction p as [|c p IH]; intros N; cbn [app split].
  - rewrite Ascii.eqb_refl. reflexivity.
  - destruct (Ascii.eqb_spec d c) as [->|NE]; [exfalso; apply N; now left|].
    rewrite IH; [reflexivity|]. intros I. apply N. now right.
Qed.
Lemma split_char_last d p : ~ In d p -> split_char d p = [p].
Proof.
  unfold split_char. induction p as [|c p IH]; intros N; cbn [split]; [reflexivity|].
  destruct (Ascii.eqb_spec d c) as [->|NE]; [exfalso; apply N; now left|].
  rewrite IH; [reflexivity|]. intros I. apply N. now right.
Qed.
Lemma pieces_split d s ps : pieces d s ps -> split_char d s = ps.
Proof.
  induction 1 as [p N|p r ps N H IH]; [now apply split_char_last|]. rewrite split_char_piece by exact N. now rewrite IH.
Qed.
Lemma pieces_total d s : exists ps, pieces d s ps.
Proof.
  assert (H : forall n s, (List.length s <= n)%nat -> exists ps, pieces d s ps).
  { clear s. induction n as [|n IH]; intros s L.
    - destruct s; [|cbn in L; lia]. exists [[]]. constructor. intros [].
    - destruct (first_delim d s) as [N|(a & b & E & N)]; [exists [s]; now constructor|].
      destruct (IH b) as (ps & H); [rewrite E in L; rewrite app_length in L; cbn in L; lia|].
      rewrite E. exists (a :: ps). now constructor. }
  eapply H; eauto.
Qed.
Lemma split_char_spec d s ps : split_char d s = ps <-> pieces d s ps.
Proof.
  split; [|apply pieces_split]. destruct (pieces_total d s) as (ps' & H).
  pose proof (pieces_split _ _ _ H) as E. intros <-. rewrite E. exact H.
Qed.

(** ** Numbers *)
Definition dec_value (a : N) (ds : list N) : N := fold_left (fun a d => 10 * a + d) ds a.

Lemma dec_digit_spec c d : dec_digit c = Some d <-> dec_code c d.
Proof.
  unfold dec_digit, dec_code, ccode. destruct ((48 <=? N_of_ascii c) && (N_of_ascii c <=? 57)) eqn:E.
  - split; [intros [= <-]; lia|]. intros [L E']. f_equal. lia.
  - split; [discriminate|]. intros [L E']. exfalso. lia.
Qed.
Lemma dec_digit_none c : dec_digit c = None <-> forall d, ~ dec_code c d.
Proof.
  split.
  - intros E d H. apply dec_digit_spec in H. congruence.
  - intros H. destruct (dec_digit c) as [d|] eqn:E; [|reflexivity]. exfalso. apply (H d). now apply dec_digit_spec.
Qed.
Lemma dec_value_ge ds : forall a, a <= dec_value a ds.
Proof.
  unfold dec_value. induction ds as [|d ds IH]; intros a; cbn [fold_left]; [apply N.le_refl|].
  eapply N.le_trans; [|apply IH]. lia.
Qed.
Lemma dec_value_app ds ds' a : dec_value a (ds ++ ds') = dec_value (dec_value a ds) ds'.
Proof. apply fold_left_app. Qed.
Lemma dec_value_mono ds : forall a b, a <= b -> dec_value a ds <= dec_value b ds.
Proof. unfold dec_value. induction ds as [|d ds IH]; intros a b L; cbn [fold_left]; [exact L|]. apply IH. lia. Qed.

Lemma atoi_step vmax a d : d < 10 -> 10 <= vmax ->
  ((vmax / 10 <? a) || (vmax - d <? a * 10)) = negb (10 * a + d <=? vmax).
Proof.
  intros D V. pose proof (N.div_mod vmax 10 ltac:(lia)) as E. pose proof (N.mod_lt vmax 10 ltac:(lia)) as L.
  set (q := vmax / 10) in *. set (m := vmax mod 10) in *. clearbody q m.
  destruct (N.ltb_spec q a), (N.ltb_spec (vmax - d) (a * 10)), (N.leb_spec (10 * a + d) vmax); try reflexivity; exfalso; lia.
Qed.

Lemma atoi_pos_ok vmax s : 10 <= vmax -> forall a v, a <= vmax ->
  (atoi_pos vmax a s = (v, true) <-> exists ds, Forall2 dec_code s ds /\ v = dec_value a ds /\ v <= vmax).
Proof.
  intros V. induction s as [|c s IH]; intros a v A; cbn [atoi_pos].
  - split.
    + intros [= <-]. exists []. split; [constructor|]. split; [reflexivity|exact A].
    + intros (ds & F & E & _). inversion F; subst. reflexivity.
  - destruct (dec_digit c) as [d|] eqn:ED.
    + apply dec_digit_spec in ED as DD. pose proof (atoi_step vmax a d (proj1 DD) V) as ST.
      destruct (vmax / 10 <? a) eqn:E1; [|destruct (vmax - d <? a * 10) eqn:E2].
      1,2: cbn [orb] in ST; (split; [discriminate|]); intros (ds & F & E & L); exfalso;
        inversion F as [|? d' ? ds' H1 H2]; subst;
        assert (d' = d) by (apply dec_digit_spec in H1; congruence); subst d';
        pose proof (dec_value_ge ds' (10 * a + d)); unfold dec_value in *; cbn [fold_left] in *; lia.
      cbn [orb] in ST. replace (a * 10 + d) with (10 * a + d) by lia. rewrite IH by lia. split.
      * intros (ds & F & E & L). exists (d :: ds). split; [now constructor|]. split; [exact E|exact L].
      * intros (ds & F & E & L). inversion F as [|? d' ? ds' H1 H2]; subst.
        assert (d' = d) by (apply dec_digit_spec in H1; congruence); subst d'. exists ds'. auto.
    + split; [discriminate|]. intros (ds & F & _). inversion F as [|? d' ? ds' H1 H2]; subst.
      apply dec_digit_spec in H1. congruence.
Qed.

Lemma atoi_pos_bad vmax s : 10 <= vmax -> forall a v, a <= vmax ->
  atoi_pos vmax a s = (v, false) ->
  exists p ds r, s = p ++ r /\ Forall2 dec_code p ds /\
    ((exists c r', r = c :: r' /\ (forall d, ~ dec_code c d) /\ v = dec_value a ds /\ v <= vmax)
     \/ (p <> [] /\ vmax < dec_value a ds /\ v = vmax)).
Proof.
  intros V. induction s as [|c s IH]; intros a v A; cbn [atoi_pos]; [discriminate|].
  destruct (dec_digit c) as [d|] eqn:ED.
  - apply dec_digit_spec in ED as DD. pose proof (atoi_step vmax a d (proj1 DD) V) as ST.
    destruct ((vmax / 10 <? a) || (vmax - d <? a * 10)) eqn:EO.
    + intros H. assert (v = vmax).
      { destruct (vmax / 10 <? a); [congruence|]. cbn [orb] in EO. rewrite EO in H. congruence. }
      exists [c], [d], s. split; [reflexivity|]. split; [constructor; [exact DD|constructor]|]. right.
      split; [discriminate|]. split; [|assumption]. unfold dec_value. cbn [fold_left].
      destruct (N.leb_spec (10 * a + d) vmax); [discriminate ST|assumption].
    + destruct (vmax / 10 <? a); [discriminate EO|]. cbn [orb] in EO. rewrite EO.
      replace (a * 10 + d) with (10 * a + d) by lia. intros H. apply IH in H; [|destruct (N.leb_spec (10 * a + d) vmax); [assumption|discriminate ST]].
      destruct H as (p & ds & r & -> & F & X). exists (c :: p), (d :: ds), r. split; [reflexivity|].
      split; [now constructor|]. destruct X as [(c' & r' & -> & N & E & L)|(_ & L & E)].
      * left. eauto 8.
      * right. split; [discriminate|]. split; [exact L|exact E].
  - intros [= <-]. exists [], [], (c :: s). split; [reflexivity|]. split; [constructor|]. left.
    exists c, s. split; [reflexivity|]. split; [now apply dec_digit_none|]. split; [reflexivity|exact A].
Qed.

Lemma decimal_ok vmax s v : 10 <= vmax -> s <> [] ->
  (atoi_pos vmax 0 s = (v, true) <-> decimal s v /\ v <= vmax).
Proof.
  intros V NE. rewrite (atoi_pos_ok vmax s V 0 v) by lia. unfold decimal. split.
  - intros (ds & F & E & L). split; [|exact L]. split; [exact NE|]. exists ds. auto.
  - intros [(_ & ds & F & E) L]. exists ds. auto.
Qed.

Lemma digit_not_space c d : dec_code c d -> ~ space c.
Proof.
  intros [L E] S. apply is_space_spec in S. unfold is_space, ccode in S. lia.
Qed.
Lemma decimal_solid s v : decimal s v -> solid s.
Proof.
  intros (_ & ds & F & _). clear - F. induction F as [|c d s ds H F IH]; constructor; [|exact IH].
  eapply digit_not_space; eauto.
Qed.
Lemma solid_trimmed a t b : spaces a -> spaces b -> solid t -> trimmed (a ++ t ++ b) t.
Proof.
  intros A B T. exists a, b. split; [reflexivity|]. split; [exact A|]. split; [exact B|].
  unfold solid in T. rewrite Forall_forall in T. split.
  - intros c r ->. apply T. now left.
  - intros r c ->. apply T. apply in_or_app. right. now left.
Qed.

Lemma digit_char_not c d x : dec_code c d -> N_of_ascii x < 48 \/ 58 <= N_of_ascii x -> c <> x.
Proof. intros [L E] X ->. lia. Qed.

(** A signed or unsigned number without the blanks. *)
Lemma unsigned_field_strip s v : unsigned_field s v <->
  exists sign ds, strip s = sign ++ ds /\ (sign = [] \/ sign = tx "+") /\ decimal ds v.
Proof.
  split.
  - intros (a & sign & ds & b & -> & A & B & S & D). exists sign, ds. split; [|auto].
    apply trimmed_strip. rewrite (app_assoc sign). apply solid_trimmed; auto.
    apply Forall_app. split; [|eapply decimal_solid; eauto].
    destruct S as [->| ->]; [constructor|]. constructor; [|constructor]. apply is_space_not. reflexivity.
  - intros (sign & ds & E & S & D). destruct (strip_trimmed s) as (a & b & E' & A & B & _). rewrite E in E'.
    exists a, sign, ds, b. rewrite E'. rewrite <- !app_assoc. auto.
Qed.
Lemma signed_field_strip s z : signed_field s z <->
  exists sign ds v, strip s = sign ++ ds /\ decimal ds v /\
    ((sign = [] \/ sign = tx "+") /\ z = Z.of_N v \/ sign = tx "-" /\ z = (- Z.of_N v)%Z).
Proof.
  split.
  - intros (a & sign & ds & b & v & -> & A & B & D & S). exists sign, ds, v. split; [|auto].
    apply trimmed_strip. rewrite (app_assoc sign). apply solid_trimmed; auto.
    apply Forall_app. split; [|eapply decimal_solid; eauto].
    destruct S as [[[->| ->] _]|[-> _]]; [constructor| |]; (constructor; [|constructor]); apply is_space_not; reflexivity.
  - intros (sign & ds & v & E & D & S). destruct (strip_trimmed s) as (a & b & E' & A & B & _). rewrite E in E'.
    exists a, sign, ds, b, v. rewrite E'. rewrite <- !app_assoc. auto.
Qed.

Lemma atoi_sign_spec s :
  (strip s = [] /\ atoi_sign s = None) \/
  (exists sign r, strip s = sign ++ r /\ (sign = tx "+" \/ sign = tx "-") /\
      atoi_sign s = match r with [] => None | _ => Some (match sign with c :: _ => Ascii.eqb c "-" | [] => false end, r) end) \/
  (exists c r, strip s = c :: r /\ c <> "+"%char /\ c <> "-"%char /\ atoi_sign s = Some (false, c :: r)).
Proof.
  unfold atoi_sign. destruct (strip s) as [|c r]; [now left|]. right.
  destruct (Ascii.eqb_spec c "-") as [->|N1].
  - left. exists (tx "-"), r. split; [reflexivity|]. split; [now right|]. destruct r; reflexivity.
  - destruct (Ascii.eqb_spec c "+") as [->|N2].
    + left. exists (tx "+"), r. split; [reflexivity|]. split; [now left|]. destruct r; reflexivity.
    + right. exists c, r. auto.
Qed.

Lemma decimal_head c r v : decimal (c :: r) v -> c <> "+"%char /\ c <> "-"%char.
Proof.
  intros (_ & ds & F & _). inversion F as [|? d ? ? H]; subst.
  split; (eapply digit_char_not; [exact H|]); left; vm_compute; reflexivity.
Qed.

Lemma atoi_u32_ok s v : atoi_u32 s = (v, true) <-> unsigned_field s v /\ v < 2 ^ 32.
Proof.
  rewrite unsigned_field_strip. unfold atoi_u32.
  assert (P : 2 ^ 32 - 1 = 4294967295) by reflexivity. rewrite P.
  assert (P' : 2 ^ 32 = 4294967296) by reflexivity. rewrite P'. clear P P'.
  destruct (atoi_sign_spec s) as [(E & ->)|[(sign & r & E & S & ->)|(c & r & E & N1 & N2 & ->)]]; rewrite E.
  - split; [discriminate|]. intros ((sign & ds & X & _ & (NE & _)) & _). destruct sign; [destruct ds|]; try discriminate. contradiction.
  - split.
    + destruct r as [|c r]; [discriminate|]. destruct S as [->| ->]; cbn [tx Ascii.eqb]; [|discriminate].
      intros H. apply decimal_ok in H as [D L]; [|lia|discriminate]. split; [|lia]. exists (tx "+"), (c :: r). auto.
    + intros ((sign' & ds & X & S' & D) & L).
      assert (sign' = sign /\ ds = r) as [-> ->].
      { destruct S as [->| ->], S' as [->| ->]; cbn in X; try (inversion X; subst; auto; fail).
        - subst ds. apply decimal_head in D. destruct D; congruence.
        - subst ds. apply decimal_head in D. destruct D; congruence. }
      destruct r as [|c r]; [destruct D as [D _]; contradiction|].
      destruct S as [->| ->]; [|destruct S'; discriminate]. cbn [tx Ascii.eqb].
      apply decimal_ok; [lia|discriminate|]. split; [exact D|lia].
  - split.
    + intros H. apply decimal_ok in H as [D L]; [|lia|discriminate]. split; [|lia]. exists [], (c :: r). auto.
    + intros ((sign' & ds & X & S' & D) & L). destruct S' as [->| ->]; [|cbn in X; congruence].
      cbn in X. subst ds. apply decimal_ok; [lia|discriminate|]. split; [exact D|lia].
Qed.

Lemma atoi_i32_ok s z : atoi_i32 s = (z, true) <-> signed_field s z /\ (- 2 ^ 31 <= z < 2 ^ 31)%Z.
Proof.
  rewrite signed_field_strip. unfold atoi_i32, atoi_neg.
  assert (P : 2 ^ 31 = 2147483648) by reflexivity. rewrite P.
  assert (P' : (2 ^ 31 = 2147483648)%Z) by reflexivity. rewrite P'. clear P P'.
  assert (A1 : forall s v, s <> [] -> (atoi_pos (2147483648 - 1) 0 s = (v, true) <-> decimal s v /\ v <= 2147483647))
    by (intros; apply decimal_ok; [lia|assumption]).
  assert (A2 : forall s v, s <> [] -> (atoi_pos 2147483648 0 s = (v, true) <-> decimal s v /\ v <= 2147483648))
    by (intros; apply decimal_ok; [lia|assumption]).
  destruct (atoi_sign_spec s) as [(E & ->)|[(sign & r & E & S & ->)|(c & r & E & N1 & N2 & ->)]]; rewrite E.
  - split; [discriminate|]. intros ((sign & ds & v & X & (NE & _) & _) & _). destruct sign; [destruct ds|]; try discriminate. contradiction.
  - split.
    + destruct r as [|c r]; [discriminate|]. destruct S as [->| ->]; cbn [tx Ascii.eqb Bool.eqb].
      * change (Ascii.eqb "+" "-") with false. cbv iota. destruct (atoi_pos (2147483648 - 1) 0 (c :: r)) as [v ok] eqn:EA. intros [= <- ->].
        apply A1 in EA as [D L]; [|discriminate]. split; [|lia]. exists (tx "+"), (c :: r), v. split; [reflexivity|]. split; [exact D|]. left. auto.
      * change (Ascii.eqb "-" "-") with true. cbv iota. destruct (atoi_pos 2147483648 0 (c :: r)) as [v ok] eqn:EA. intros [= <- ->].
        apply A2 in EA as [D L]; [|discriminate]. split; [|lia]. exists (tx "-"), (c :: r), v. split; [reflexivity|]. split; [exact D|]. right. auto.
    + intros ((sign' & ds & v & X & D & S') & L).
      assert (sign' = sign /\ ds = r) as [-> ->].
      { destruct S as [->| ->], S' as [[[->| ->] _]|[-> _]]; cbn in X; try (inversion X; subst; auto; fail).
        - subst ds. apply decimal_head in D. destruct D; congruence.
        - subst ds. apply decimal_head in D. destruct D; congruence. }
      destruct r as [|c r]; [destruct D as [D _]; contradiction|].
      destruct S as [->| ->].
      * change (Ascii.eqb "+" "-") with false. cbv iota.
        destruct S' as [[_ ->]|[X' _]]; [|discriminate X'].
        assert (EA : atoi_pos (2147483648 - 1) 0 (c :: r) = (v, true)) by (apply A1; [discriminate|]; split; [exact D|lia]).
        now rewrite EA.
      * change (Ascii.eqb "-" "-") with true. cbv iota.
        destruct S' as [[[X'|X'] _]|[_ ->]]; try discriminate X'.
        assert (EA : atoi_pos 2147483648 0 (c :: r) = (v, true)) by (apply A2; [discriminate|]; split; [exact D|lia]).
        now rewrite EA.
  - split.
    + destruct (atoi_pos (2147483648 - 1) 0 (c :: r)) as [v ok] eqn:EA. intros [= <- ->].
      apply A1 in EA as [D L]; [|discriminate]. split; [|lia]. exists [], (c :: r), v. split; [reflexivity|]. split; [exact D|]. left. auto.
    + intros ((sign' & ds & v & X & D & S') & L). destruct S' as [[[->| ->] ->]|[-> _]]; [|cbn in X; congruence|cbn in X; congruence].
      cbn in X. subst ds.
      assert (EA : atoi_pos (2147483648 - 1) 0 (c :: r) = (v, true)) by (apply A1; [discriminate|]; split; [exact D|lia]).
      now rewrite EA.
Qed.

(** What is left after a failure. *)
Lemma atoi_pos_prefix vmax p ds r : 10 <= vmax -> Forall2 dec_code p ds -> forall a, dec_value a ds <= vmax ->
  atoi_pos vmax a (p ++ r) = atoi_pos vmax (dec_value a ds) r.
Proof.
  intros V F. induction F as [|c d p ds H F IH]; intros a L; [reflexivity|]. cbn [app atoi_pos].
  pose proof H as H'. apply dec_digit_spec in H' as ->. pose proof (atoi_step vmax a d (proj1 H) V) as ST.
  pose proof (dec_value_ge ds (10 * a + d)) as G. unfold dec_value in L, G. cbn [fold_left] in L.
  destruct (N.leb_spec (10 * a + d) vmax) as [X|X]; [|exfalso; lia]. cbn [negb] in ST.
  apply orb_false_iff in ST as [-> ->]. replace (a * 10 + d) with (10 * a + d) by lia. apply IH. exact L.
Qed.
Lemma atoi_pos_over vmax p ds r : 10 <= vmax -> Forall2 dec_code p ds -> forall a, a <= vmax -> vmax < dec_value a ds ->
  atoi_pos vmax a (p ++ r) = (vmax, false).
Proof.
  intros V F. induction F as [|c d p ds H F IH]; intros a A L.
  - unfold dec_value in L. cbn [fold_left] in L. lia.
  - cbn [app atoi_pos]. pose proof H as H'. apply dec_digit_spec in H' as ->.
    pose proof (atoi_step vmax a d (proj1 H) V) as ST.
    destruct (N.leb_spec (10 * a + d) vmax) as [X|X]; cbn [negb] in ST.
    + apply orb_false_iff in ST as [-> ->]. replace (a * 10 + d) with (10 * a + d) by lia. apply IH; [exact X|exact L].
    + destruct (vmax / 10 <? a); [reflexivity|]. cbn [orb] in ST. rewrite ST. reflexivity.
Qed.

Lemma atoi_u32_strip s : atoi_u32 s = match strip s with
  | [] => (0, false)
  | c :: r => if Ascii.eqb c "-" then (0, false)
              else if Ascii.eqb c "+" then match r with [] => (0, false) | _ => atoi_pos (2 ^ 32 - 1) 0 r end
              else atoi_pos (2 ^ 32 - 1) 0 (c :: r)
  end.
Proof.
  unfold atoi_u32, atoi_sign. destruct (strip s) as [|c r]; [reflexivity|].
  destruct (Ascii.eqb c "-"); [destruct r; reflexivity|]. destruct (Ascii.eqb c "+"); [destruct r; reflexivity|]. reflexivity.
Qed.

Lemma sign_branch sign r : (sign = [] \/ sign = tx "+") -> r <> [] ->
  (sign = [] -> forall c r', r = c :: r' -> c <> "+"%char /\ c <> "-"%char) ->
  match sign ++ r with
  | [] => (0, false)
  | c :: r => if Ascii.eqb c "-" then (0, false)
              else if Ascii.eqb c "+" then match r with [] => (0, false) | _ => atoi_pos (2 ^ 32 - 1) 0 r end
              else atoi_pos (2 ^ 32 - 1) 0 (c :: r)
  end = atoi_pos (2 ^ 32 - 1) 0 r.
Proof.
  intros [->| ->] NE H.
  - cbn [app]. destruct r as [|c r]; [contradiction|]. destruct (H eq_refl c r eq_refl) as [H1 H2].
    destruct (Ascii.eqb_spec c "-"); [contradiction|]. destruct (Ascii.eqb_spec c "+"); [contradiction|]. reflexivity.
  - cbn [app tx]. change (Ascii.eqb "+" "-") with false. change (Ascii.eqb "+" "+") with true. cbv iota.
    destruct r; [contradiction|]. reflexivity.
Qed.

Lemma left_over_atoi s v : left_over s v -> atoi_u32 s = (v, false).
Proof.
  assert (P : 10 <= 2 ^ 32 - 1) by (vm_compute; discriminate).
  intros H. rewrite atoi_u32_strip. destruct H as [t T C|t sign ds c r v T E S FS D N L|t sign ds r v T E S D L].
  - apply trimmed_strip in T. rewrite T. destruct C as [->|[->|(r & ->)]]; reflexivity.
  - apply trimmed_strip in T. rewrite T, E. rewrite sign_branch; auto.
    + assert (X : exists vs, Forall2 dec_code ds vs /\ v = dec_value 0 vs).
      { destruct D as [[-> ->]|(_ & vs & F & ->)]; [exists []; split; [constructor|reflexivity]|exists vs; auto]. }
      destruct X as (vs & F & ->).
      rewrite (atoi_pos_prefix _ _ _ _ P F 0) by lia. cbn [atoi_pos].
      apply dec_digit_none in N. rewrite N. reflexivity.
    + destruct ds; discriminate.
    + intros ES c' r' E'. destruct ds as [|d0 ds]; [cbn in E'; inversion E'; subst; auto|].
      cbn in E'. inversion E'; subst. destruct D as [[D _]|D]; [discriminate D|]. eapply decimal_head; exact D.
  - apply trimmed_strip in T. rewrite T, E. pose proof D as (NE & vs & F & EV). rewrite sign_branch; auto.
    + assert (X : 2 ^ 32 - 1 < dec_value 0 vs) by (unfold dec_value; rewrite <- EV; lia).
      rewrite (atoi_pos_over _ _ _ _ P F 0 (N.le_0_l _) X). reflexivity.
    + destruct ds; [contradiction|discriminate].
    + intros ES c' r' E'. destruct ds as [|d0 ds]; [contradiction|].
      cbn in E'. inversion E'; subst. eapply decimal_head; exact D.
Qed.

Lemma atoi_left_over s v : atoi_u32 s = (v, false) -> left_over s v.
Proof.
  assert (P : 10 <= 2 ^ 32 - 1) by (vm_compute; discriminate).
  rewrite atoi_u32_strip. pose proof (strip_trimmed s) as T. intros H.
  assert (G : forall sign r, strip s = sign ++ r -> (sign = [] \/ sign = tx "+") ->
    (sign = [] -> forall c r', r = c :: r' -> c <> "+"%char /\ c <> "-"%char) ->
    atoi_pos (2 ^ 32 - 1) 0 r = (v, false) -> left_over s v).
  { intros sign r E S NS HA. apply atoi_pos_bad in HA; [|exact P|apply N.le_0_l].
    destruct HA as (p & ds & r' & -> & F & [(c & r2 & -> & N & EV & L)|(NE & L & EV)]).
    - eapply left_digits; [exact T|exact E|exact S| | |exact N|].
      + intros ES EP. subst p. eapply NS; [exact ES|reflexivity].
      + destruct p as [|c0 p]; [left; inversion F; subst; auto|]. right. split; [discriminate|]. exists ds. auto.
      + eapply N.le_lt_trans; [exact L|]. vm_compute. reflexivity.
    - subst v. eapply (left_max s _ sign p r' (dec_value 0 ds)); [exact T|exact E|exact S| |].
      + split; [exact NE|]. exists ds. auto.
      + lia. }
  destruct (strip s) as [|c r] eqn:ES.
  - inversion H; subst. eapply left_zero; [exact T|now left].
  - destruct (Ascii.eqb_spec c "-") as [->|N1].
    + inversion H; subst. eapply left_zero; [exact T|]. right. right. eauto.
    + destruct (Ascii.eqb_spec c "+") as [->|N2].
      * destruct r as [|c r].
        -- inversion H; subst. eapply left_zero; [exact T|]. right. now left.
        -- apply (G (tx "+") (c :: r)); auto. discriminate.
      * apply (G [] (c :: r)); auto. intros _ c' r' [= <- <-]. auto.
Qed.
Lemma left_over_spec s v : atoi_u32 s = (v, false) <-> left_over s v.
Proof. split; [apply atoi_left_over|apply left_over_atoi]. Qed.

(** ** Feature names *)
Lemma rfind_char_spec c s :
  match rfind_char c s with
  | Some n => exists f d, s = f ++ c :: d /\ ~ In c d /\ n = List.length f
  | None => ~ In c s
  end.
Proof.
  induction s as [|x s IH]; cbn [rfind_char]; [intros []|].
  destruct (rfind_char c s) as [n|].
  - destruct IH as (f & d & -> & N & ->). exists (x :: f), d. auto.
  - destruct (Ascii.eqb_spec c x) as [->|NE].
    + exists [], s. auto.
    + intros [X|X]; [congruence|contradiction].
Qed.
Lemma last_delim (d : ascii) (a b a' b' : text) : ~ In d b -> ~ In d b' -> a ++ d :: b = a' ++ d :: b' -> a = a' /\ b = b'.
Proof.
  intros N N' E. apply (f_equal (@rev ascii)) in E. rewrite !rev_app_distr in E. cbn [rev] in E. rewrite <- !app_assoc in E.
  cbn [app] in E. apply cut_unique in E as [E1 E2].
  - apply (f_equal (@rev ascii)) in E1. apply (f_equal (@rev ascii)) in E2. rewrite !rev_involutive in E1, E2. auto.
  - rewrite <- in_rev. exact N.
  - rewrite <- in_rev. exact N'.
Qed.
Lemma ends_with_char c s : ends_with [c] s = true <-> exists s', s = s' ++ [c].
Proof.
  unfold ends_with. rewrite starts_with_spec. cbn [rev app]. split.
  - intros (b & E). exists (rev b). apply (f_equal (@rev ascii)) in E. rewrite rev_involutive in E. rewrite E. reflexivity.
  - intros (s' & ->). exists (rev s'). rewrite rev_app_distr. reflexivity.
Qed.

Lemma bracketed_inv f d f' d' : ~ In "["%char d -> ~ In "["%char d' -> bracketed f d = bracketed f' d' -> f = f' /\ d = d'.
Proof.
  unfold bracketed. intros N N' E.
  assert (M : forall d, ~ In "["%char d -> ~ In "["%char (d ++ ["]"%char])).
  { intros x Nx I. apply in_app_or in I as [I|[I|[]]]; [contradiction|discriminate]. }
  apply last_delim in E as [-> E]; [|apply M; assumption|apply M; assumption].
  apply app_inj_tail in E as [-> _]. auto.
Qed.
Lemma feature_bracketed f d : ~ In "["%char d ->
  feature_name_address (bracketed f d)
  = match atoi_u32 d with
    | (a, true) => (f, a)
    | (a, false) => (bracketed f d, a)
    end.
Proof.
  intros N. unfold feature_name_address.
  assert (E : ends_with (tx "]") (bracketed f d) = true).
  { apply ends_with_char. exists (f ++ "["%char :: d). unfold bracketed. rewrite <- app_assoc. reflexivity. }
  rewrite E. pose proof (rfind_char_spec "[" (bracketed f d)) as R.
  destruct (rfind_char "[" (bracketed f d)) as [n|].
  - destruct R as (f' & d' & E' & N' & ->). unfold bracketed in E'.
    apply last_delim in E' as [-> <-]; [|intros I; apply in_app_or in I as [I|[I|[]]]; [contradiction|discriminate]|exact N'].
    assert (L : List.length (bracketed f' d) = (List.length f' + List.length d + 2)%nat).
    { unfold bracketed. rewrite app_length. cbn [List.length]. rewrite app_length. cbn. lia. }
    rewrite L. replace (List.length f' + List.length d + 2 - List.length f' - 2)%nat with (List.length d) by lia.
    assert (SK : skipn (List.length f' + 1) (bracketed f' d) = d ++ ["]"%char]).
    { unfold bracketed. rewrite skipn_app. replace (List.length f' + 1 - List.length f')%nat with 1%nat by lia.
      rewrite skipn_all2 by lia. reflexivity. }
    rewrite SK. rewrite firstn_app, Nat.sub_diag, firstn_all, firstn_O, app_nil_r.
    assert (FN : firstn (List.length f') (bracketed f' d) = f').
    { unfold bracketed. rewrite firstn_app, Nat.sub_diag, firstn_all, firstn_O. apply app_nil_r. }
    rewrite FN. reflexivity.
  - exfalso. apply R. unfold bracketed. apply in_or_app. right. now left.
Qed.
Lemma bracketed_or_not n : (exists f d, n = bracketed f d /\ ~ In "["%char d) \/ (forall f d, n <> bracketed f d).
Proof.
  destruct (ends_with (tx "]") n) eqn:E.
  - apply ends_with_char in E as (s & ->). pose proof (rfind_char_spec "[" s) as R. destruct (rfind_char "[" s).
    + destruct R as (f & d & -> & N & _). left. exists f, d. split; [|exact N]. unfold bracketed. rewrite <- app_assoc. reflexivity.
    + right. intros f d E. apply R. unfold bracketed in E.
      change (f ++ "["%char :: d ++ ["]"%char]) with (f ++ ("["%char :: d) ++ ["]"%char]) in E. rewrite app_assoc in E.
      apply app_inj_tail in E as [-> _]. apply in_or_app. right. now left.
  - right. intros f d ->. assert (X : ends_with (tx "]") (bracketed f d) = true); [|congruence].
    apply ends_with_char. exists (f ++ "["%char :: d). unfold bracketed. rewrite <- app_assoc. reflexivity.
Qed.
Lemma feature_plain n : (forall f d, n <> bracketed f d) -> feature_name_address n = (n, 0).
Proof.
  intros H. unfold feature_name_address. destruct (ends_with (tx "]") n) eqn:E; [|reflexivity].
  apply ends_with_char in E as (s & ->). pose proof (rfind_char_spec "[" (s ++ ["]"%char])) as R.
  destruct (rfind_char "[" (s ++ ["]"%char])) as [k|]; [|reflexivity].
  destruct R as (f & d & E & N & _). exfalso.
  destruct (@exists_last _ ("["%char :: d)) as (d0 & c & E'); [discriminate|]. rewrite E' in E. rewrite app_assoc in E.
  apply app_inj_tail in E as [E <-]. destruct d0 as [|x d0]; [discriminate E'|]. inversion E'; subst.
  apply (H f d0). unfold bracketed. rewrite <- app_assoc. reflexivity.
Qed.

Lemma seg_name_spec n nf : feature_name_address n = nf <-> seg_name n nf.
Proof.
  split.
  - intros <-. destruct (bracketed_or_not n) as [(f & d & -> & N)|H].
    + rewrite feature_bracketed by exact N. destruct (atoi_u32 d) as [a ok] eqn:E. destruct ok.
      * apply atoi_u32_ok in E as [U L]. now apply name_address.
      * apply name_odd; [exact N| |now apply left_over_spec].
        intros v' U. destruct (N.lt_ge_cases v' (2 ^ 32)) as [L|L]; [|exact L]. exfalso.
        assert (X : atoi_u32 d = (v', true)) by (now apply atoi_u32_ok). congruence.
    + rewrite feature_plain by exact H. now apply name_plain.
  - intros [f d v N U L|m H|f d v N NU LO].
    + rewrite feature_bracketed by exact N. assert (X : atoi_u32 d = (v, true)) by (now apply atoi_u32_ok). now rewrite X.
    + now apply feature_plain.
    + rewrite feature_bracketed by exact N. apply left_over_spec in LO. now rewrite LO.
Qed.

(** ** Segment bits *)
Lemma unsigned_field_chars s v c : unsigned_field s v -> In c s -> space c \/ c = "+"%char \/ exists d, dec_code c d.
Proof.
  intros (a & sign & ds & b & -> & A & B & S & (_ & vs & F & _)) I.
  unfold spaces in *. rewrite Forall_forall in *.
  apply in_app_or in I as [I|I]; [left; auto|]. apply in_app_or in I as [I|I].
  - destruct S as [->| ->]; [destruct I|]. destruct I as [<-|[]]. right. now left.
  - apply in_app_or in I as [I|I]; [|left; auto]. right. right. clear - F I.
    induction F as [|x d s ds H F IH]; [destruct I|]. destruct I as [<-|I]; eauto.
Qed.
Lemma unsigned_field_no s v c : unsigned_field s v -> is_space c = false -> c <> "+"%char -> dec_digit c = None -> ~ In c s.
Proof.
  intros U S P D I. apply (unsigned_field_chars s v c U) in I as [X|[X|(d & X)]].
  - apply is_space_not in S. contradiction.
  - contradiction.
  - apply dec_digit_spec in X. congruence.
Qed.

Lemma pieces_two d s a b : pieces d s [a; b] -> s = a ++ d :: b.
Proof. intros H. inversion H as [|p r ps N H' X Y]; subst. inversion H' as [q N'|q r' ps' N' H2 X' Y']; subst; [reflexivity|inversion H2]. Qed.
Lemma seg_bit_spec t sb : segbit_of t = Ok sb <-> seg_bit t sb.
Proof.
  unfold segbit_of. split.
  - set (neg := match t with c :: _ => Ascii.eqb c "!" | [] => false end).
    assert (T : t = if neg then "!"%char :: tl t else t).
    { unfold neg. destruct t as [|c t]; [reflexivity|]. destruct (Ascii.eqb_spec c "!"); [subst|]; reflexivity. }
    clearbody neg. destruct (split_char "_" _) as [|c0 [|c1 [|? ?]]] eqn:E; try discriminate.
    destruct (atoi_u32 c0) as [col ok0] eqn:E0. destruct ok0; [|discriminate].
    destruct (atoi_u32 c1) as [bit ok1] eqn:E1. destruct ok1; [|discriminate].
    intros [= <-]. apply split_char_spec in E. apply pieces_two in E.
    apply atoi_u32_ok in E0 as [U0 L0]. apply atoi_u32_ok in E1 as [U1 L1].
    destruct neg; cbn [negb].
    + rewrite T, E. now apply seg_clear.
    + rewrite E. now apply seg_set.
  - intros [c b col bit U0 L0 U1 L1|c b col bit U0 L0 U1 L1].
    + assert (NEG : match c ++ "_"%char :: b with x :: _ => Ascii.eqb x "!" | [] => false end = false).
      { destruct c as [|x c]; [reflexivity|]. cbn [app]. destruct (Ascii.eqb_spec x "!") as [->|]; [|reflexivity].
        exfalso. eapply (unsigned_field_no _ _ "!"%char U0); try reflexivity; [discriminate|now left]. }
      rewrite NEG. rewrite split_char_piece by (eapply unsigned_field_no; eauto; try reflexivity; discriminate).
      rewrite split_char_last by (eapply unsigned_field_no; eauto; try reflexivity; discriminate).
      assert (X0 : atoi_u32 c = (col, true)) by (now apply atoi_u32_ok).
      assert (X1 : atoi_u32 b = (bit, true)) by (now apply atoi_u32_ok). rewrite X0, X1. reflexivity.
    + change (Ascii.eqb "!" "!") with true. cbv iota. cbn [tl].
      rewrite split_char_piece by (eapply unsigned_field_no; eauto; try reflexivity; discriminate).
      rewrite split_char_last by (eapply unsigned_field_no; eauto; try reflexivity; discriminate).
      assert (X0 : atoi_u32 c = (col, true)) by (now apply atoi_u32_ok).
      assert (X1 : atoi_u32 b = (bit, true)) by (now apply atoi_u32_ok). rewrite X0, X1. reflexivity.
Qed.

(** An outcome that is a result or an error. *)
Definition ok_or_err {A} (o : outcome A) : Prop := (exists a, o = Ok a) \/ o = Err.

Lemma segbit_of_dec t : ok_or_err (segbit_of t).
Proof.
  unfold segbit_of, ok_or_err. destruct (split_char _ _) as [|c0 [|c1 [|]]]; auto.
  destruct (atoi_u32 c0) as [col []]; auto. destruct (atoi_u32 c1) as [bit []]; eauto.
Qed.
Lemma segbits_of_dec l : ok_or_err (segbits_of l).
Proof.
  unfold ok_or_err in *. induction l as [|t l IH]; cbn [segbits_of]; [eauto|].
  destruct (segbit_of_dec t) as [(sb & ->)| ->]; [|now right]. cbn [obind].
  destruct IH as [(sbs & ->)| ->]; [|now right]. cbn [obind]. eauto.
Qed.
Lemma segbits_of_spec l sbs : segbits_of l = Ok sbs <-> Forall2 seg_bit l sbs.
Proof.
  revert sbs. induction l as [|t l IH]; intros sbs; cbn [segbits_of].
  - split; [intros [= <-]; constructor|]. intros H. inversion H. reflexivity.
  - split.
    + destruct (segbit_of t) as [sb| | | |] eqn:E; try discriminate. cbn [obind].
      destruct (segbits_of l) as [r| | | |] eqn:E'; try discriminate. cbn [obind]. intros [= <-].
      constructor; [now apply seg_bit_spec|now apply IH].
    + intros H. inversion H as [|? sb ? r H1 H2]; subst. apply seg_bit_spec in H1. rewrite H1. cbn [obind].
      apply IH in H2. rewrite H2. reflexivity.
Qed.

(** ** Collecting the entries of the lines *)
Section Collect.
  Context {K A : Type} (eqb : K -> K -> bool) (Heq : forall a b, eqb a b = true <-> a = b).
  Definition insert_all (es : list (K * A)) (m : list (K * A)) : list (K * A) :=
    fold_left (fun m e => hm_insert eqb (fst e) (snd e) m) es m.

  Lemma insert_all_find es : forall m k,
    hm_find eqb k (insert_all es m) = match hm_find eqb k m with Some v => Some v | None => hm_find eqb k es end.
  Proof.
    induction es as [|[k v] es IH]; intros m x; cbn [insert_all fold_left fst snd].
    - cbn. destruct (hm_find eqb x m); reflexivity.
    - unfold insert_all in IH. rewrite IH. rewrite (hm_find_insert eqb Heq). cbn [hm_find].
      destruct (eqb x k) eqn:E; [|reflexivity]. apply Heq in E. subst x.
      destruct (hm_find eqb k m) eqn:F; reflexivity.
  Qed.
  Lemma insert_all_maps es k v : maps_to (insert_all es []) k v <-> maps_to es k v.
  Proof. rewrite <- !(hm_find_maps eqb Heq). rewrite insert_all_find. reflexivity. Qed.
  Lemma insert_all_NoDup es : forall m, NoDup (map fst m) -> NoDup (map fst (insert_all es m)).
  Proof.
    induction es as [|[k v] es IH]; intros m N; [exact N|]. apply IH. cbn [fst snd]. now apply (hm_insert_NoDup eqb Heq).
  Qed.

  (** A sink that inserts the entries of its line. *)
  Context (sink : list (K * A) -> N -> text -> outcome (list (K * A))) (line : text -> list (K * A) -> Prop)
    (sink_line : forall m n l m', sink m n l = Ok m' <-> exists es, line l es /\ m' = insert_all es m)
    (sink_dec : forall m n l, ok_or_err (sink m n l))
    (line_fun : forall l es es', line l es -> line l es' -> es = es').

  Lemma fold_lines ls : forall n m,
    (forall es, Forall2 line ls es ->
       ofold (fun s (l : N * text) => sink s (fst l) (snd l)) (number_from n ls) m = Ok (insert_all (concat es) m)) /\
    ((exists l, In l ls /\ forall es, ~ line l es) ->
       ofold (fun s (l : N * text) => sink s (fst l) (snd l)) (number_from n ls) m = Err) /\
    ((exists es, Forall2 line ls es) \/ (exists l, In l ls /\ forall es, ~ line l es)).
  Proof.
    induction ls as [|l ls IH]; intros n m; cbn [number_from ofold fst snd].
    - split; [intros es F; inversion F; reflexivity|]. split; [intros (l & [] & _)|]. left. exists []. constructor.
    - destruct (sink_dec m (u32 (n + 1)) l) as [(m' & E)|E]; rewrite E; cbn [obind].
      + apply sink_line in E as (e & L & ->). destruct (IH (u32 (n + 1)) (insert_all e m)) as (I1 & I2 & I3).
        split; [|split].
        * intros es F. inversion F as [|? e' ? es' L' F']; subst. rewrite (line_fun _ _ _ L' L).
          rewrite (I1 _ F'). cbn [concat]. unfold insert_all. rewrite fold_left_app. reflexivity.
        * intros (x & [<-|I] & N); [exfalso; eapply N; eauto|]. apply I2. eauto.
        * destruct I3 as [(es & F)|(x & I & N)]; [left; exists (e :: es); now constructor|right; exists x; split; [now right|exact N]].
      + assert (N : forall es, ~ line l es).
        { intros es L. assert (X : sink m (u32 (n + 1)) l = Ok (insert_all es m)) by (apply sink_line; eauto). congruence. }
        split; [|split].
        * intros es F. inversion F as [|? e' ? es' L' F']; subst. exfalso. eapply N; eauto.
        * reflexivity.
        * right. exists l. split; [now left|exact N].
  Qed.
End Collect.

(** ** The three kinds of lines *)
Lemma seg_line_fun l es es' : seg_line l es -> seg_line l es' -> es = es'.
Proof.
  intros H H'. destruct H as [l S|l name bits nf sbs W NE N F], H' as [l' S'|l' name' bits' nf' sbs' W' NE' N' F'].
  - reflexivity.
  - exfalso. apply words_none in S. apply words_spec in S. apply words_spec in W'. congruence.
  - exfalso. apply words_none in S'. apply words_spec in S'. apply words_spec in W. congruence.
  - apply words_spec in W. apply words_spec in W'. rewrite W in W'. inversion W'; subst.
    apply seg_name_spec in N. apply seg_name_spec in N'. apply segbits_of_spec in F. apply segbits_of_spec in F'. congruence.
Qed.
Lemma text_words_nil s : text_words s [] -> spaces s.
Proof. intros H. inversion H. assumption. Qed.

Lemma segbits_line_spec m n l m' : segbits_line m n l = Ok m' <-> exists es, seg_line l es /\ m' = insert_all tf_eqb es m.
Proof.
  unfold segbits_line. split.
  - destruct (words l) as [|name [|b bits]] eqn:W; [|discriminate|].
    + intros [= <-]. exists []. split; [|reflexivity]. constructor. apply text_words_nil. now apply words_spec.
    + destruct (segbits_of (b :: bits)) as [sbs| | | |] eqn:E; try discriminate. cbn [obind]. intros [= <-].
      exists [(feature_name_address name, sbs)]. split; [|reflexivity].
      eapply seg_entry; [apply words_spec; exact W|discriminate|now apply seg_name_spec|now apply segbits_of_spec].
  - intros (es & L & ->). destruct L as [l S|l name bits nf sbs W NE N F].
    + apply words_none in S. apply words_spec in S. rewrite S. reflexivity.
    + apply words_spec in W. rewrite W. destruct bits as [|b bits]; [contradiction|].
      apply segbits_of_spec in F. rewrite F. cbn [obind]. apply seg_name_spec in N. rewrite N. reflexivity.
Qed.
Lemma segbits_line_dec m n l : ok_or_err (segbits_line m n l).
Proof.
  unfold segbits_line, ok_or_err. destruct (words l) as [|name [|b bits]]; eauto.
  destruct (segbits_of_dec (b :: bits)) as [(sbs & ->)| ->]; cbn [obind]; eauto.
Qed.

Lemma pip_kind_spec k t : ppip_type_of k = Ok t <-> pip_kind k t.
Proof.
  unfold ppip_type_of. split.
  - destruct (text_eqb k (tx "always")) eqn:E1; [apply text_eqb_eq in E1; intros [= <-]; subst; constructor|].
    destruct (text_eqb k (tx "default")) eqn:E2; [apply text_eqb_eq in E2; intros [= <-]; subst; constructor|].
    destruct (text_eqb k (tx "hint")) eqn:E3; [apply text_eqb_eq in E3; intros [= <-]; subst; constructor|discriminate].
  - intros []; reflexivity.
Qed.
Lemma ppip_type_dec k : ok_or_err (ppip_type_of k).
Proof. unfold ppip_type_of, ok_or_err. destruct (text_eqb k _); eauto. destruct (text_eqb k _); eauto. destruct (text_eqb k _); eauto. Qed.
Lemma pip_line_fun l es es' : pip_line l es -> pip_line l es' -> es = es'.
Proof.
  assert (X : forall a b, ~ text_words [] [a; b]).
  { intros a b H. apply words_spec in H. discriminate. }
  intros H H'. destruct H as [|l name k t W T], H' as [|l' name' k' t' W' T']; try reflexivity; try (exfalso; eapply X; eauto; fail).
  apply words_spec in W. apply words_spec in W'. rewrite W in W'. inversion W'; subst.
  apply pip_kind_spec in T. apply pip_kind_spec in T'. congruence.
Qed.
Lemma ppip_line_spec m n l m' : ppip_line m n l = Ok m' <-> exists es, pip_line l es /\ m' = insert_all text_eqb es m.
Proof.
  unfold ppip_line. split.
  - destruct l as [|c l]; [intros [= <-]; exists []; split; [constructor|reflexivity]|].
    destruct (words (c :: l)) as [|name [|k [|]]] eqn:W; try discriminate.
    destruct (ppip_type_of k) as [t| | | |] eqn:E; try discriminate. cbn [obind]. intros [= <-].
    exists [(name, t)]. split; [|reflexivity]. eapply pip_entry; [apply words_spec; exact W|now apply pip_kind_spec].
  - intros (es & L & ->). destruct L as [|l name k t W T]; [reflexivity|].
    apply words_spec in W. destruct l as [|c l]; [discriminate W|]. rewrite W. apply pip_kind_spec in T. rewrite T. reflexivity.
Qed.
Lemma ppip_line_dec m n l : ok_or_err (ppip_line m n l).
Proof.
  unfold ppip_line, ok_or_err. destruct l; [eauto|]. destruct (words _) as [|name [|k [|]]]; eauto.
  destruct (ppip_type_dec k) as [(t & ->)| ->]; cbn [obind]; eauto.
Qed.

(** ** Package pins *)
Lemma Forall2_trimmed l cols : Forall2 trimmed l cols <-> map strip l = cols.
Proof.
  split.
  - induction 1 as [|s t l cols T F IH]; [reflexivity|]. cbn [map]. apply trimmed_strip in T. now rewrite T, IH.
  - intros <-. induction l as [|s l IH]; constructor; [apply strip_trimmed|exact IH].
Qed.
Lemma columns_spec l cols : map strip (skip_empty (split_char "," l)) = cols <-> columns l cols.
Proof.
  unfold columns. split.
  - intros E. exists (split_char "," l). split; [now apply split_char_spec|]. now apply Forall2_trimmed.
  - intros (ps & P & F). apply split_char_spec in P. rewrite P. now apply Forall2_trimmed.
Qed.
Lemma pieces_all_empty d l ps : pieces d l ps ->
  (filter (fun p : text => match p with [] => false | _ => true end) ps = [] <-> Forall (fun c => c = d) l).
Proof.
  induction 1 as [p N|p r ps N H IH]; cbn [filter].
  - destruct p as [|c p]; [split; constructor|]. split; [discriminate|]. intros F. inversion F; subst. exfalso. apply N. now left.
  - destruct p as [|c p].
    + rewrite IH. cbn [app]. split; [now constructor|]. intros F. now inversion F.
    + split; [discriminate|]. intros F. inversion F; subst. exfalso. apply N. now left.
Qed.
Lemma texts_eqb_eq a : forall b, texts_eqb a b = true <-> a = b.
Proof.
  induction a as [|x a IH]; intros [|y b]; cbn [texts_eqb]; try (split; congruence).
  rewrite andb_true_iff, text_eqb_eq, IH. split; [intros [-> ->]; reflexivity|intros [= -> ->]; auto].
Qed.

Lemma pin_row_fun l es es' : pin_row l es -> pin_row l es' -> es = es'.
Proof.
  assert (X : forall l a b c d e, Forall (fun c => c = ","%char) l -> ~ columns l [a; b; c; d; e]).
  { intros l0 a b c d e F (ps & P & F2). apply (pieces_all_empty _ _ _ P) in F. unfold text in *. rewrite F in F2. inversion F2. }
  intros H H'. destruct H as [l S|l p b s t f bk C U L], H' as [l' S'|l' p' b' s' t' f' bk' C' U' L'].
  - reflexivity.
  - exfalso. eapply X; eauto.
  - exfalso. eapply X; eauto.
  - apply columns_spec in C. apply columns_spec in C'. rewrite C in C'. inversion C'; subst.
    assert (E : atoi_u32 b' = (bk, true)) by (now apply atoi_u32_ok).
    assert (E' : atoi_u32 b' = (bk', true)) by (now apply atoi_u32_ok). congruence.
Qed.
Lemma pin_line_spec m n l m' : n <> 1 -> (pin_line m n l = Ok m' <-> exists es, pin_row l es /\ m' = m ++ es).
Proof.
  intros NE. unfold pin_line. apply N.eqb_neq in NE. rewrite NE. split.
  - intros H. set (segs := map strip (skip_empty (split_char "," l))) in *.
    assert (C : columns l segs) by (now apply columns_spec).
    destruct segs as [|p [|b [|s [|t [|f [|]]]]]]; try discriminate H.
    + inversion H; subst. exists []. split; [|now rewrite app_nil_r]. constructor.
      destruct C as (ps & P & F). apply (pieces_all_empty _ _ _ P). now inversion F.
    + destruct (atoi_u32 b) as [bk ok] eqn:E. destruct ok; [|discriminate H]. inversion H; subst.
      apply atoi_u32_ok in E as [U L]. eexists. split; [|reflexivity]. eapply row_pin; eauto.
  - intros (es & R & ->). destruct R as [l S|l p b s t f bk C U L].
    + assert (E : map strip (skip_empty (split_char "," l)) = []).
      { destruct (pieces_total "," l) as (ps & P). apply (pieces_all_empty _ _ _ P) in S. apply split_char_spec in P.
        rewrite P. unfold skip_empty. unfold text in *. rewrite S. reflexivity. }
      rewrite E. now rewrite app_nil_r.
    + apply columns_spec in C. rewrite C. assert (E : atoi_u32 b = (bk, true)) by (now apply atoi_u32_ok). now rewrite E.
Qed.
Lemma pin_line_dec m n l : ok_or_err (pin_line m n l).
Proof.
  unfold pin_line, ok_or_err. destruct (n =? 1); [destruct (texts_eqb _ _); eauto|].
  destruct (map strip _) as [|p [|b [|s [|t [|f [|]]]]]]; eauto. destruct (atoi_u32 b) as [bk []]; eauto.
Qed.
Lemma pin_line_header m l : pin_line m 1 l = if texts_eqb (map strip (skip_empty (split_char "," l))) pins_header then Ok m else Err.
Proof. reflexivity. Qed.
Lemma pin_header_spec l : texts_eqb (map strip (skip_empty (split_char "," l))) pins_header = true <-> pin_header l.
Proof. rewrite texts_eqb_eq. apply columns_spec. Qed.

Lemma u32_small n : n < 2 ^ 32 -> u32 n = n.
Proof. intros L. apply N.mod_small. exact L. Qed.

Lemma fold_pins ls : forall n m, 1 <= n -> n + N.of_nat (List.length ls) < 2 ^ 32 ->
    (forall es, Forall2 pin_row ls es ->
       ofold (fun s (l : N * text) => pin_line s (fst l) (snd l)) (number_from n ls) m = Ok (m ++ concat es)) /\
    ((exists l, In l ls /\ forall es, ~ pin_row l es) ->
       ofold (fun s (l : N * text) => pin_line s (fst l) (snd l)) (number_from n ls) m = Err) /\
    ((exists es, Forall2 pin_row ls es) \/ (exists l, In l ls /\ forall es, ~ pin_row l es)).
Proof.
  induction ls as [|l ls IH]; intros n m G B; cbn [number_from ofold fst snd].
  - split; [intros es F; inversion F; cbn; now rewrite app_nil_r|]. split; [intros (l & [] & _)|]. left. exists []. constructor.
  - cbn [List.length] in B. rewrite u32_small by (clear - B; lia).
    assert (NE : n + 1 <> 1) by (clear - G; lia).
    destruct (pin_line_dec m (n + 1) l) as [(m' & E)|E]; rewrite E; cbn [obind].
    + apply pin_line_spec in E as (e & L & ->); [|exact NE].
      destruct (IH (n + 1) (m ++ e)) as (I1 & I2 & I3); [clear - G; lia|clear - B; lia|].
      split; [|split].
      * intros es F. inversion F as [|? e' ? es' L' F']; subst. rewrite (pin_row_fun _ _ _ L' L).
        rewrite (I1 _ F'). cbn [concat]. now rewrite app_assoc.
      * intros (x & [<-|I] & N); [exfalso; eapply N; eauto|]. apply I2. eauto.
      * destruct I3 as [(es & F)|(x & I & N)]; [left; exists (e :: es); now constructor|right; exists x; split; [now right|exact N]].
    + assert (N : forall es, ~ pin_row l es).
      { intros es L. assert (X : pin_line m (n + 1) l = Ok (m ++ es)) by (apply pin_line_spec; eauto). congruence. }
      split; [|split].
      * intros es F. inversion F as [|? e' ? es' L' F']; subst. exfalso. eapply N; eauto.
      * reflexivity.
      * right. exists l. split; [now left|exact N].
Qed.
