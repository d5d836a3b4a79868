(** C111: what the FASM parser reports stands in the text. *)
From Verif Require Import Base BaseFacts Fasm FasmSpec FasmFacts FasmSafe FasmShape FasmFile
  FasmLines FasmWrap AsmLines FasmTextSpec P_Fasm.

Local Notation newline := FasmSpec.newline (only parsing).

Lemma sub_split : forall (r it : text), sub r it -> exists u, it = u ++ r.
Proof. auto. Qed.

Lemma annotations_read : forall fuel line name st it st' r c0, it = c0 :: tl it ->
  c0 = "{"%char \/ c0 = ","%char ->
  annotations fuel line name st it = Ok (st', r) ->
  exists l, p_events st' = p_events st ++ l
    /\ (List.length l + List.length r <= List.length it)%nat
    /\ Forall (fun e => exists an av, e = EAnnotation line name an av /\ annotation_stands an av it) l.
Proof.
  induction fuel as [|fuel IH]; intros line name st it st' r c0 HC HO H; [discriminate|].
  cbn [annotations] in H.
  assert (LI : List.length it = S (List.length (tl it))) by (rewrite HC at 1; reflexivity).
  bind H as i1 E. bind H as [an i2] E0. bind H as i3 E1. bind H as c3 E2.
  apply skip_blank_split in E. destruct E as (b0 & E & Hb0).
  apply read_ident_split in E0. destruct E0 as (E0 & Hn & _).
  apply skip_blank_split in E1. destruct E1 as (b1 & E1 & Hb1).
  assert (L3 : (List.length i3 <= List.length (tl it))%nat)
    by (rewrite E, E0, E1, !app_length; lia).
  destruct (ch_is c3 "=") eqn:C; cbn [negb] in H.
  2:{ inversion H; subst. exists []. cbn [p_raise p_events]. rewrite app_nil_r.
      split; [reflexivity|]. split; [cbn [List.length]; lia|constructor]. }
  apply ch_is_true in C. subst c3. apply peek_inv in E2.
  assert (L3' : List.length i3 = S (List.length (tl i3))) by (rewrite E2 at 1; reflexivity).
  bind H as i4 E3. bind H as c4 E4. apply skip_blank_split in E3. destruct E3 as (b2 & E3 & Hb2).
  assert (L4 : (List.length i4 <= List.length (tl i3))%nat) by (rewrite E3, app_length; lia).
  destruct (ch_is c4 ch_quote) eqn:C; cbn [negb] in H.
  2:{ inversion H; subst. exists []. cbn [p_raise p_events]. rewrite app_nil_r.
      split; [reflexivity|]. split; [cbn [List.length]; lia|constructor]. }
  apply ch_is_true in C. subst c4. apply peek_inv in E4.
  assert (L4' : List.length i4 = S (List.length (tl i4))) by (rewrite E4 at 1; reflexivity).
  bind H as [av i5] E5. bind H as c5 E6. apply scan_value_split in E5. destruct E5 as (E5 & D).
  apply peek_inv in E6.
  assert (L5 : (List.length i5 <= List.length (tl i4))%nat) by (rewrite E5, app_length; lia).
  destruct (ch_is c5 ch_nl) eqn:C.
  { inversion H; subst. exists []. cbn [p_raise p_events]. rewrite app_nil_r.
    split; [reflexivity|]. split; [cbn [List.length]; lia|constructor]. }
  destruct D as [(r' & D)|((r' & D) & Q)].
  { exfalso. rewrite E6 in D. inversion D; subst. discriminate. }
  cbv zeta in H. bind H as i6 E7. bind H as c6 E8.
  apply skip_blank_split in E7. destruct E7 as (b3 & E7 & Hb3).
  assert (L5' : List.length i5 = S (List.length (tl i5))) by (rewrite E6 at 1; reflexivity).
  assert (L6 : (List.length i6 <= List.length (tl i5))%nat) by (rewrite E7, app_length; lia).
  assert (ST : it = [] ++ [c0] ++ b0 ++ an ++ b1 ++ tx "=" ++ b2 ++ dquote ++ av ++ dquote ++ b3 ++ i6).
  { rewrite HC, E, E0, E1, E2, E3, E4, E5, D.
    rewrite D in E7. cbn [tl] in E7. rewrite E7.
    change (tx "=") with ["="%char]. unfold dquote.
    cbn [app]. repeat (rewrite <- ?app_assoc; cbn [app]). reflexivity. }
  assert (AS : annotation_stands an av it).
  { exists [], c0, b0, b1, b2, (b3 ++ i6). split; [exact ST|]. auto 10. }
  destruct (ch_is c6 ",") eqn:C6.
  - apply ch_is_true in C6. subst c6. apply peek_inv in E8.
    destruct (IH _ _ _ _ _ _ ","%char E8 (or_intror eq_refl) H) as (l & El & Ll & Fl).
    exists (EAnnotation line name an av :: l). split; [|split].
    + rewrite El. cbn [p_emit p_events]. rewrite <- app_assoc. reflexivity.
    + cbn [List.length]. lia.
    + constructor; [eauto|]. eapply Forall_impl; [|exact Fl].
      intros e (an' & av' & -> & u & o & x0 & x1 & x2 & m & Ei & P). exists an', av'. split; auto.
      exists (([c0] ++ b0 ++ an ++ b1 ++ tx "=" ++ b2 ++ dquote ++ av ++ dquote ++ b3) ++ u), o, x0, x1, x2, m.
      split; [|exact P]. rewrite ST, Ei. rewrite <- ?app_assoc. reflexivity.
  - inversion H; subst. exists [EAnnotation line name an av]. split; [reflexivity|].
    split; [cbn [List.length]; lia|]. constructor; eauto.
Qed.

Lemma parse_annotations_read : forall annot line name st it st' r,
  parse_annotations annot line name st it = Ok (st', r) ->
  exists l, p_events st' = p_events st ++ l
    /\ (List.length l + List.length r <= List.length it)%nat
    /\ Forall (fun e => exists an av, e = EAnnotation line name an av /\ annot = true
                                      /\ annotation_stands an av it) l.
Proof.
  unfold parse_annotations. intros annot line name st it st' r H. bind H as c E.
  destruct (ch_is c "{") eqn:C.
  2:{ inversion H; subst. exists []. rewrite app_nil_r. split; auto. }
  apply ch_is_true in C. subst c. apply peek_inv in E.
  bind H as [st1 i1] E0. bind H as i2 E1. inversion H; subst. clear H.
  apply skip_to_eol_split in E1. destruct E1 as (s & r' & E1 & _ & ->).
  assert (L1 : (List.length (ch_nl :: r') <= List.length i1)%nat) by (rewrite E1, app_length; lia).
  destruct annot.
  - bind E0 as [st2 i3] E2. bind E0 as c3 E3. inversion E0; subst.
    destruct (annotations_read _ _ _ _ _ _ _ _ E (or_introl eq_refl) E2) as (l & El & Ll & Fl).
    exists l. split; [destruct (ch_is c3 "}"); auto|]. split; [lia|].
    eapply Forall_impl; [|exact Fl]. intros e (an & av & -> & A). eauto.
  - inversion E0; subst. exists []. rewrite app_nil_r. split; [reflexivity|].
    split; [cbn [List.length] in *; lia|constructor].
Qed.

Lemma report_read : forall sm cb line name mn w tot bs chunk st st',
  report sm cb line name mn w tot chunk bs st = Ok st' ->
  exists l, p_events st' = p_events st ++ l /\ (List.length l <= List.length bs)%nat
    /\ Forall (fun e => exists s w' v, e = EFeature line name s w' v) l.
Proof.
  intros sm cb line name mn w tot. induction bs as [|v bs IH]; intros chunk st st' H; cbn [report] in *.
  - inversion H; subst. exists []. rewrite app_nil_r. split; auto.
  - binv H. destruct (cb _).
    + destruct (IH _ _ _ H) as (l & -> & Ll & Fl). cbn [p_emit p_events].
      eexists. rewrite <- app_assoc. split; [reflexivity|]. split; [cbn [List.length app]; lia|].
      constructor; eauto.
    + inversion H; subst. eexists. split; [reflexivity|]. split; [cbn [List.length]; lia|].
      constructor; eauto.
Qed.

(** The words of a value and the text left over: no more than the text. *)
Lemma long_loop_budget l it : forall n v x r, long_loop l n v it = Ok (x, r) ->
  (List.length x + List.length r <= List.length v + List.length it)%nat.
Proof.
  induction it as [|c it IH]; intros n v x r H; cbn [long_loop] in H; [discriminate|].
  cbv zeta in H. cbn [List.length]. destruct (_ <? _)%Z.
  - destruct (_ =? -1)%Z.
    + apply IH in H. lia.
    + apply IH in H. destruct (n mod 64 =? 0).
      * cbn [List.length] in H. lia.
      * destruct v; cbn [List.length] in H |- *; lia.
  - inversion H; subst. cbn [List.length]. lia.
Qed.

Lemma parse_long_budget l it x r : parse_long l it = Ok (x, r) ->
  (List.length x + List.length r <= S (List.length it))%nat.
Proof.
  unfold parse_long. intros H. bind H as i E. bind H as [v i1] E1. inversion H; subst.
  apply skip_blank_sub, sub_len in E. apply long_loop_budget in E1. cbn [List.length] in E1.
  destruct v; cbn [List.length] in *; lia.
Qed.

Lemma parse_number_budget b w v it x r : parse_number b w v it = Ok (x, r) ->
  (List.length r <= List.length it)%nat.
Proof.
  unfold parse_number. intros H. bind H as i E. apply skip_blank_sub, sub_len in E.
  assert (X : forall i v x r, number_loop b w v i = Ok (x, r) -> (List.length r <= List.length i)%nat).
  { clear. induction i as [|c i IH]; intros v x r H; cbn [number_loop] in H; [discriminate|].
    destruct (_ <? _)%Z.
    - destruct (_ =? _)%Z; apply IH in H; cbn [List.length]; lia.
    - inversion H; subst. lia. }
  apply X in H. lia.
Qed.

Lemma parse_based_budget f it v b r : parse_based f it = Ok (v, b, r) ->
  (List.length v + List.length r <= S (List.length it))%nat.
Proof.
  unfold parse_based. intros H.
  destruct (ch_is f "h"). { bind H as [v1 i1] E. inversion H; subst. now apply parse_long_budget in E. }
  destruct (ch_is f "b"). { bind H as [v1 i1] E. inversion H; subst. now apply parse_long_budget in E. }
  destruct (ch_is f "o"). { bind H as [v1 i1] E. inversion H; subst. apply parse_number_budget in E. cbn [List.length]. lia. }
  destruct (ch_is f "d"). { bind H as [v1 i1] E. inversion H; subst. apply parse_number_budget in E. cbn [List.length]. lia. }
  bind H as i1 E. inversion H; subst.
  apply skip_to_eol_split in E. destruct E as (s & r' & -> & _ & ->).
  rewrite app_length. cbn [List.length]. lia.
Qed.

Lemma parse_assign_budget mx mn w st it b w' st' r :
  parse_assign mx mn w st it = Ok (b, w', st', r) ->
  (List.length b + List.length r <= S (List.length it))%nat.
Proof.
  unfold parse_assign. intros H. bind H as c E. destruct (ch_is c "=").
  2:{ inversion H; subst. cbn [List.length]. lia. }
  bind H as i1 E1. bind H as c1 E2. bind H as [vw i2] E3. bind H as i3 E4. bind H as c3 E5.
  apply skip_blank_sub, sub_len in E1. apply skip_blank_sub, sub_len in E4.
  pose proof (tl_le it).
  assert (L2 : (List.length i2 <= List.length i1)%nat).
  { destruct (digit_of c1 <=? 9)%Z.
    - now apply parse_number_budget in E3.
    - inversion E3; subst. lia. }
  destruct (ch_is c3 ch_tick).
  - bind H as i4 E6. cbv zeta in H. bind H as ft E7. bind H as [[bs bad] i5] E8. bind H as i6 E9.
    inversion H; subst. apply parse_based_budget in E8.
    apply skip_blank_sub, sub_len in E6. apply skip_blank_sub, sub_len in E9.
    pose proof (tl_le i3). pose proof (tl_le i4). lia.
  - cbv zeta in H. inversion H; subst. cbn [List.length]. lia.
Qed.

Lemma parse_eol_budget st it st' r : parse_eol st it = Ok (st', r) ->
  (S (List.length r) <= List.length it)%nat.
Proof.
  intros H. apply parse_eol_split in H. destruct H as ((u & ->) & _).
  rewrite app_length. cbn [List.length]. lia.
Qed.

Lemma starts_not : forall (P : ascii -> Prop) r, starts (fun c => ~ P c) r ->
  forall c m, r = c :: m -> ~ P c.
Proof. intros P r H c m ->. exact H. Qed.

Lemma annotation_deeper an av i it : annotation_stands an av i -> sub i it ->
  annotation_stands an av it.
Proof.
  intros (u & o & b0 & b1 & b2 & m & -> & P) (w & ->).
  exists (w ++ u), o, b0, b1, b2, m. split; [now rewrite <- app_assoc|exact P].
Qed.

(** One line. *)
Lemma parse_line_read : forall sm cb annot line st it st' r,
  parse_line sm cb annot line st it = Ok (st', r) ->
  exists l, p_events st' = p_events st ++ l
    /\ (List.length l + List.length r <= List.length it)%nat
    /\ (forall e e', In e l -> In e' l -> feature_of e = feature_of e')
    /\ Forall (fun e => event_line e = line /\ line_says annot it e) l.
Proof.
  intros sm cb annot line st it st' r H. unfold parse_line in H.
  bind H as i0 E. bind H as [name i1] E0. bind H as i2 E1.
  apply skip_blank_split in E. destruct E as (b0 & E & Hb0).
  apply read_ident_split in E0. destruct E0 as (E0 & Hn & Hs).
  apply skip_blank_split in E1. destruct E1 as (b1 & E1 & Hb1).
  assert (LI : List.length it = (List.length b0 + List.length name + List.length i1)%nat)
    by (rewrite E, E0, !app_length; lia).
  assert (L1 : (List.length i2 <= List.length i1)%nat) by (rewrite E1, app_length; lia).
  assert (NF : names_first name it).
  { exists b0, i1. split; [now rewrite E, E0|]. split; auto. split; auto.
    intros c m ->. exact Hs. }
  assert (SP : it = b0 ++ name ++ i1) by now rewrite E, E0.
  assert (S21 : sub i2 i1) by now exists b1.
  assert (AN : forall i l, sub i i1 ->
     Forall (fun e => exists an av, e = EAnnotation line name an av /\ annot = true
                                    /\ annotation_stands an av i) l ->
     Forall (fun e => feature_of e = name /\ event_line e = line /\ line_says annot it e) l).
  { intros i l S F. eapply Forall_impl; [|exact F].
    intros e (an & av & -> & A & B). split; [reflexivity|]. split; [reflexivity|].
    split; [exact A|]. split; [exact NF|]. exists b0, i1. split; auto. split; auto.
    now apply (annotation_deeper _ _ i). }
  assert (FIN : forall l : list event,
     Forall (fun e => feature_of e = name /\ event_line e = line /\ line_says annot it e) l ->
     (forall e e', In e l -> In e' l -> feature_of e = feature_of e')
     /\ Forall (fun e => event_line e = line /\ line_says annot it e) l).
  { intros l F. rewrite Forall_forall in F. split.
    - intros e e' I1 I2. destruct (F _ I1) as (-> & _), (F _ I2) as (-> & _). reflexivity.
    - apply Forall_forall. intros e I1. apply (F e I1). }
  destruct name as [|n0 ns].
  - bind H as [st1 i3] E2.
    apply parse_annotations_read in E2. destruct E2 as (l & El & Ll & Fl).
    pose proof (parse_eol_budget _ _ _ _ H). apply parse_eol_events in H.
    exists l. split; [congruence|]. split; [cbn [List.length] in *; lia|]. apply FIN. now apply (AN i2).
  - cbn [List.length] in LI. bind H as rg E2. pose proof (parse_range_sub _ _ E2) as SR.
    destruct rg as [mx mn i3|i3|i3]; cbn [range_rest] in SR; pose proof (sub_len _ _ SR) as LR.
    + bind H as i3' E3. cbv zeta in H. apply skip_blank_sub in E3. pose proof (sub_len _ _ E3) as L3.
      bind H as [[[bs w] st1] i4] E4.
      pose proof (parse_assign_budget _ _ _ _ _ _ _ _ _ E4) as LB.
      apply parse_assign_split in E4. destruct E4 as (S4 & _ & EV & _).
      bind H as st2 E5. apply report_read in E5. destruct E5 as (l1 & El1 & Ll1 & Fl1).
      bind H as [st3 i5] E6.
      apply parse_annotations_read in E6. destruct E6 as (l2 & El2 & Ll2 & Fl2).
      pose proof (parse_eol_budget _ _ _ _ H) as LE. apply parse_eol_events in H.
      exists (l1 ++ l2). split; [rewrite H, El2, El1, EV; now rewrite app_assoc|].
      split; [rewrite app_length; lia|]. apply FIN. apply Forall_app. split.
      * eapply Forall_impl; [|exact Fl1]. intros e (s & w' & v & ->).
        split; [reflexivity|]. split; [reflexivity|]. split; [discriminate|exact NF].
      * apply (AN i4); auto. eapply sub_trans; [exact S4|]. eapply sub_trans; [exact E3|].
        eapply sub_trans; [exact SR|exact S21].
    + bind H as i4 E3. inversion H; subst. exists []. cbn [p_raise p_events]. rewrite app_nil_r.
      split; [reflexivity|]. apply skip_to_eol_split in E3. destruct E3 as (s & r' & -> & _ & ->).
      rewrite app_length in LR. cbn [List.length tl] in *. split; [lia|]. apply FIN. constructor.
    + bind H as i4 E3. inversion H; subst. exists []. cbn [p_raise p_events]. rewrite app_nil_r.
      split; [reflexivity|]. apply skip_to_eol_split in E3. destruct E3 as (s & r' & -> & _ & ->).
      rewrite app_length in LR. cbn [List.length tl] in *. split; [lia|]. apply FIN. constructor.
Qed.

Lemma newlines_app a b : newlines (a ++ b) = newlines a + newlines b.
Proof. unfold newlines. rewrite count_occ_app. lia. Qed.

Lemma u32_le x : u32 x <= x.
Proof. unfold u32. apply N.mod_le. discriminate. Qed.

Lemma lines_read : forall sm cb annot n line st it st' a, (List.length it <= n)%nat ->
  lines sm cb annot line st it = Ok st' -> at_line_start a -> line <= newlines a ->
  exists l, p_events st' = p_events st ++ l
    /\ (List.length l <= List.length it)%nat
    /\ Forall (stands_in annot (a ++ it)) l.
Proof.
  intros sm cb annot. induction n as [|n IH]; intros line st it st' a L H HA HL;
    (destruct it as [|c it];
     [cbn in H; inversion H; subst; exists []; rewrite app_nil_r; split; [reflexivity|];
      split; [cbn [List.length]; lia|constructor]|]);
    [cbn in L; lia|].
  rewrite lines_step in H by discriminate. bind H as [st1 r] E.
  pose proof (parse_line_shrinks _ _ _ _ _ _ _ _ E) as SH.
  pose proof (parse_line_split _ _ _ _ _ _ _ _ E) as ((u & EU) & _).
  apply parse_line_read in E. destruct E as (l1 & E1 & L1 & _ & F1).
  set (t := c :: it) in *. assert (Lr : (List.length r <= n)%nat) by lia.
  assert (HT : a ++ t = (a ++ u ++ newline) ++ r).
  { rewrite EU. rewrite <- ?app_assoc. reflexivity. }
  destruct (IH _ _ r _ (a ++ u ++ newline) Lr H) as (l2 & E2 & L2 & F2).
  - right. exists (a ++ u). now rewrite <- app_assoc.
  - rewrite !newlines_app. change (newlines newline) with 1.
    pose proof (u32_le (line + 1)). lia.
  - exists (l1 ++ l2). split; [rewrite E2, E1; now rewrite app_assoc|].
    split; [rewrite app_length; lia|]. apply Forall_app. split.
    + eapply Forall_impl; [|exact F1]. intros e (EL & SY).
      exists a, t. split; auto. split; auto. split; auto. rewrite EL.
      pose proof (u32_le (line + 1)). lia.
    + rewrite HT. exact F2.
Qed.

(** Every report stands in the text and there are no more of them than characters: for every
    text (also rejected ones), callback and reading of the shifts. *)
Theorem C111_reports_stand_in_the_text :
  forall sm cb annot t st, fasm_parse sm cb annot t = Ok st ->
  Forall (stands_in annot t) (p_events st)
  /\ (List.length (p_events st) <= List.length t)%nat.
Proof.
  intros sm cb annot t st H. unfold fasm_parse in H. destruct t as [|c t].
  { inversion H; subst. cbn [p_events]. split; [constructor|cbn [List.length]; lia]. }
  destruct (ch_is _ ch_nl).
  - set (it := c :: t) in *.
    change (parse_lines (S (List.length it)) sm cb annot 0 start_state it = Ok st) in H.
    assert (X : lines sm cb annot 0 start_state it = Ok st).
    { rewrite <- H. unfold lines. apply parse_lines_fuel; lia. }
    destruct (lines_read sm cb annot (List.length it) 0 start_state it st [] (le_n _) X)
      as (l & El & Ll & Fl).
    + now left.
    + lia.
    + cbn [p_events start_state app] in El. rewrite El. auto.
  - inversion H; subst. cbn [p_events]. split; [constructor|cbn [List.length]; lia].
Qed.
Print Assumptions C111_reports_stand_in_the_text.

Lemma lines_each : forall sm cb annot ps, Forall good_line ps ->
  forall line st st', line + N.of_nat (List.length ps) < 2 ^ 32 ->
  lines sm cb annot line st (unlines ps) = Ok st' ->
  exists ess, p_events st' = p_events st ++ concat ess /\ List.length ess = List.length ps
    /\ forall i p es, nth_error ps i = Some p -> nth_error ess i = Some es ->
       (forall e e', In e es -> In e' es -> feature_of e = feature_of e')
       /\ Forall (fun e => event_line e = line + N.of_nat i + 1 /\ line_says annot (p ++ newline) e) es.
Proof.
  intros sm cb annot ps H. induction H as [|p ps Hp Hps IH]; intros line st st' LT R.
  - cbn [unlines map concat] in R. rewrite lines_nil in R. inversion R; subst.
    exists []. cbn [concat]. rewrite app_nil_r. split; [reflexivity|]. split; [reflexivity|].
    intros [|i] p es A; discriminate A.
  - cbn [List.length] in LT. change (unlines (p :: ps)) with ((p ++ newline) ++ unlines ps) in R.
    rewrite lines_step in R by (destruct p; discriminate).
    assert (U : u32 (line + 1) = line + 1) by (apply N.mod_small; lia).
    rewrite U in R.
    destruct (parse_line_local sm cb annot (line + 1) st (p ++ newline) (good_line_rest p Hp))
      as (L & HL & _ & _).
    pose proof (HL []) as H0. rewrite app_nil_r in H0.
    rewrite (HL (unlines ps)) in R. destruct L as [st1| | | |]; cbn [omap obind] in R, H0; try discriminate.
    apply parse_line_read in H0. destruct H0 as (l & El & _ & Sl & Fl).
    destruct (IH (line + 1) st1 st' ltac:(lia) R) as (ess & E2 & L2 & F2).
    exists (l :: ess). split; [rewrite E2, El; cbn [concat]; now rewrite app_assoc|].
    split; [cbn [List.length]; lia|].
    intros [|i] p' es A B; cbn [nth_error] in A, B.
    + inversion A; inversion B; subst. split; [exact Sl|].
      eapply Forall_impl; [|exact Fl]. intros e (EL & SY). split; [|exact SY].
      rewrite EL. change (N.of_nat 0) with 0. lia.
    + destruct (F2 _ _ _ A B) as (S2 & F). split; [exact S2|].
      eapply Forall_impl; [|exact F]. intros e (EL & SY). split; [|exact SY]. rewrite EL. lia.
Qed.

(** For lines none of which is cut after a single quote: the reports of each line stand in that
    line, carry its number, name one feature, and come in the order of the lines. *)
Theorem C111_each_line_reports_itself :
  forall sm cb annot ps st, Forall good_line ps -> N.of_nat (List.length ps) < 2 ^ 32 ->
  fasm_parse sm cb annot (unlines ps) = Ok st ->
  exists ess, p_events st = concat ess /\ List.length ess = List.length ps
    /\ forall i p es, nth_error ps i = Some p -> nth_error ess i = Some es ->
       (forall e e', In e es -> In e' es -> feature_of e = feature_of e')
       /\ Forall (fun e => event_line e = N.of_nat i + 1 /\ line_says annot (p ++ newline) e) es.
Proof.
  intros sm cb annot ps st Hp HL H. rewrite fasm_parse_lines in H by apply nl_unlines.
  destruct (lines_each sm cb annot ps Hp 0 start_state st ltac:(lia) H) as (ess & E & L & F).
  exists ess. split; [exact E|]. split; [exact L|]. intros i p es A B. exact (F i p es A B).
Qed.
Print Assumptions C111_each_line_reports_itself.

Lemma lines_ascend : forall sm cb annot n line st it st', (List.length it <= n)%nat ->
  line + N.of_nat (List.length it) < 2 ^ 32 ->
  lines sm cb annot line st it = Ok st' ->
  exists l, p_events st' = p_events st ++ l
    /\ Forall (fun e => line < event_line e) l
    /\ StronglySorted (fun e e' => event_line e <= event_line e') l
    /\ (forall e e', In e l -> In e' l -> event_line e = event_line e' -> feature_of e = feature_of e').
Proof.
  intros sm cb annot. induction n as [|n IH]; intros line st it st' L LT H;
    (destruct it as [|c it];
     [cbn in H; inversion H; subst; exists []; rewrite app_nil_r; split; [reflexivity|];
      split; [constructor|split; [constructor|intros e e' []]]|]);
    [cbn in L; lia|].
  rewrite lines_step in H by discriminate. bind H as [st1 r] E.
  pose proof (parse_line_shrinks _ _ _ _ _ _ _ _ E) as SH.
  apply parse_line_read in E. destruct E as (l1 & E1 & L1 & S1 & F1).
  assert (U : u32 (line + 1) = line + 1) by (apply N.mod_small; cbn [List.length] in LT; lia).
  rewrite U in *.
  destruct (IH (line + 1) st1 r st' ltac:(lia) ltac:(lia) H) as (l2 & E2 & F2 & G2 & S2).
  rewrite Forall_forall in F1, F2.
  exists (l1 ++ l2). split; [rewrite E2, E1; now rewrite app_assoc|]. split; [|split].
  - apply Forall_app. split; apply Forall_forall; intros e He.
    + destruct (F1 _ He) as (-> & _). lia.
    + specialize (F2 _ He). cbn beta in F2. lia.
  - assert (X : forall l, incl l l1 ->
        StronglySorted (fun e e' => event_line e <= event_line e') (l ++ l2)).
    { induction l as [|e l IHl]; intros HI; cbn [app]; [exact G2|]. constructor.
      - apply IHl. intros x Hx. apply HI. now right.
      - destruct (F1 e (HI e (or_introl eq_refl))) as (Ee & _).
        apply Forall_app. split; apply Forall_forall; intros e' He'.
        + destruct (F1 e' (HI e' (or_intror He'))) as (-> & _). lia.
        + specialize (F2 _ He'). cbn beta in F2. lia. }
    apply X. intros x; auto.
  - intros e e' He He' EQ. apply in_app_or in He. apply in_app_or in He'.
    destruct He as [He|He], He' as [He'|He']; auto.
    + destruct (F1 _ He) as (A & _). specialize (F2 _ He'). cbn beta in F2. lia.
    + destruct (F1 _ He') as (A & _). specialize (F2 _ He). cbn beta in F2. lia.
Qed.

(** Line numbers never go back, and the reports with one line number name one feature. *)
Theorem C111_line_numbers_ascend :
  forall sm cb annot t st, fasm_parse sm cb annot t = Ok st ->
  N.of_nat (List.length t) < 2 ^ 32 ->
  Forall (fun e => 1 <= event_line e) (p_events st)
  /\ (forall i j e e', (i <= j)%nat ->
        nth_error (p_events st) i = Some e -> nth_error (p_events st) j = Some e' ->
        event_line e <= event_line e')
  /\ (forall e e', In e (p_events st) -> In e' (p_events st) ->
        event_line e = event_line e' -> feature_of e = feature_of e').
Proof.
  intros sm cb annot t st H LT. unfold fasm_parse in H. destruct t as [|c t].
  { inversion H; subst. cbn [p_events]. split; [constructor|]. split; [|intros e e' []].
    intros [|i] j e e' _ A; discriminate A. }
  destruct (ch_is _ ch_nl).
  - set (it := c :: t) in *.
    change (parse_lines (S (List.length it)) sm cb annot 0 start_state it = Ok st) in H.
    assert (X : lines sm cb annot 0 start_state it = Ok st).
    { rewrite <- H. unfold lines. apply parse_lines_fuel; lia. }
    destruct (lines_ascend sm cb annot (List.length it) 0 start_state it st (le_n _) ltac:(lia) X)
      as (l & El & Fl & Sl & Ol).
    cbn [p_events start_state app] in El. rewrite El. split; [|split; [|exact Ol]].
    + eapply Forall_impl; [|exact Fl]. intros e A. cbn beta in A. lia.
    + clear - Sl. induction Sl as [|x l Sl IH Fx]; intros [|i] [|j] e e' L A B; cbn [nth_error] in A, B;
        try discriminate; try lia.
      * inversion A; inversion B; subst. lia.
      * inversion A; subst. rewrite Forall_forall in Fx. apply Fx. eapply nth_error_In; eauto.
      * eapply (IH i j); eauto. lia.
  - inversion H; subst. cbn [p_events]. split; [constructor|]. split; [|intros e e' []].
    intros [|i] j e e' _ A; discriminate A.
Qed.
Print Assumptions C111_line_numbers_ascend.

(** A line cut after a single quote: its report stands in the text, under a number that is too
    small for the line it stands in. *)
Lemma tickless_good p : forallb (fun c => negb (Ascii.eqb c "010"%char)) p = true ->
  (forall u v, p = u ++ v -> v <> [] -> Forall is_blank (tl v) -> hd " "%char v <> "'"%char) ->
  good_line p.
Proof.
  intros NL NT. split.
  - unfold no_newline. apply Forall_forall. intros c Hc.
    rewrite forallb_forall in NL. specialize (NL c Hc).
    apply negb_true_iff in NL. now apply Ascii.eqb_neq.
  - intros (u & b & E & Hb). exact (NT u ("'"%char :: b) E ltac:(discriminate) Hb eq_refl).
Qed.

Lemma solid_end_good p x y : p = x ++ [y] ->
  forallb (fun c => negb (Ascii.eqb c "010"%char)) p = true ->
  ~ is_blank y -> y <> "'"%char -> good_line p.
Proof.
  intros -> NL NB NT. apply tickless_good; [exact NL|].
  intros u v E NV Hb. destruct v as [|c v]; [contradiction|]. cbn [tl hd] in *.
  destruct v as [|d v].
  - apply app_inj_tail in E. destruct E as (_ & <-). exact NT.
  - exfalso. destruct (@exists_last _ (d :: v)) as (l & z & Ez); [discriminate|].
    rewrite Ez in *. change (c :: l ++ [z]) with ((c :: l) ++ [z]) in E. rewrite app_assoc in E.
    apply app_inj_tail in E. destruct E as (_ & ->).
    rewrite Forall_forall in Hb. apply NB, Hb, in_or_app. right. now left.
Qed.

(** The hypotheses are met: three lines, one rejected. *)
Example C111_case :
  let ps := [tx "# a comment"; tx "	A.B[3:0] = 4'b1010 { x = " ++ dquote ++ tx "one" ++ dquote ++ tx "}";
             tx "C ] D"] in
  Forall good_line ps
  /\ fasm_parse Iso yes true (unlines ps)
     = Ok {| p_events := [EFeature 2 (tx "A.B") 0 4 10; EAnnotation 2 (tx "A.B") (tx "x") (tx "one");
                          EFeature 3 (tx "C") 0 1 1];
             p_result := kError |}.
Proof.
  split; [|reflexivity].
  assert (B : forall y, y = "t"%char \/ y = "}"%char \/ y = "D"%char -> ~ is_blank y /\ y <> "'"%char).
  { intros y [->|[->| ->]]; (split; [intros [X|X]; discriminate X|discriminate]). }
  repeat apply Forall_cons; [| | |apply Forall_nil].
  - apply (solid_end_good _ (tx "# a commen") "t"); [reflexivity|reflexivity| |]; apply B; auto.
  - apply (solid_end_good _ (tx "	A.B[3:0] = 4'b1010 { x = " ++ dquote ++ tx "one" ++ dquote) "}");
      [reflexivity|reflexivity| |]; apply B; auto.
  - apply (solid_end_good _ (tx "C ] ") "D"); [reflexivity|reflexivity| |]; apply B; auto.
Qed.

(** A line cut after a single quote swallows the next, and the line after it gets a number that is
    too small: "good_line" cannot be dropped from [C111_each_line_reports_itself], and only "at
    most" holds in [C111_reports_stand_in_the_text]. *)
Example C111_swallowed_line_number :
  fasm_parse Iso yes true (unlines [tx "A = 4'"; tx "B"; tx "C"])
  = Ok {| p_events := [EFeature 1 (tx "A") 0 1 1; EFeature 2 (tx "C") 0 1 1];
          p_result := kError |}.
Proof. vm_compute. reflexivity. Qed.

(** ** C39: escapes *)
(** [unended prev s]: from after [prev], no double quote in [s] but those after a backslash. *)
Fixpoint unended (prev : ascii) (s : text) : Prop :=
  match s with
  | [] => True
  | c :: r => c <> "010"%char /\ (c = "034"%char -> prev = "092"%char) /\ unended c r
  end.

Lemma scan_unended : forall s p, unended p s -> scan_value p (s ++ newline) = Ok (s, newline).
Proof.
  induction s as [|c s IH]; intros p H; [reflexivity|]. cbn [unended] in H.
  destruct H as (H1 & H2 & H3). cbn [app scan_value].
  destruct (ch_is c ch_nl) eqn:E; [apply ch_is_true in E; contradiction|].
  assert (X : ch_is c ch_quote && negb (ch_is p ch_backslash) = false).
  { destruct (ch_is c ch_quote) eqn:Q; [|reflexivity]. apply ch_is_true in Q.
    rewrite (H2 Q). reflexivity. }
  rewrite X, (IH _ H3). reflexivity.
Qed.

(** A value whose last character is an escaped backslash: the closing quote is taken for an escaped
    one.  If nothing later on the line ends the value the annotation is not reported and the line is an
    error, although [x = "v\\"] is a valid annotation of the FASM language. *)
Theorem C39_escaped_backslash_refuted :
  forall sm cb b0 an b1 b2 v rest,
  blanks b0 -> Forall is_name_char an -> blanks b1 -> blanks b2 ->
  unended "034" v -> unended "034" rest ->
  fasm_parse sm cb true
    (tx "{" ++ b0 ++ an ++ b1 ++ tx "=" ++ b2 ++ dquote ++ v ++ tx "\\" ++ dquote ++ rest ++ newline)
  = Ok {| p_events := []; p_result := kError |}.
Proof.
  intros sm cb b0 an b1 b2 v rest H0 Hn H1 H2 Hv Hr.
  set (w := v ++ tx "\\" ++ dquote ++ rest).
  assert (Hw : unended "034" w).
  { unfold w. clear - Hv Hr. revert Hv. generalize "034"%char at 1 2 as p.
    induction v as [|c v IH]; intros p Hv; cbn [app] in *.
    - cbn [unended tx list_ascii_of_string dquote app]. repeat split; auto; try discriminate.
    - cbn [unended] in *. destruct Hv as (A & B & C). auto. }
  assert (NW : no_newline w).
  { clear - Hw. revert Hw. generalize "034"%char as p. induction w as [|c w IH]; intros p H; constructor.
    - apply H.
    - apply (IH c), H. }
  replace (tx "{" ++ b0 ++ an ++ b1 ++ tx "=" ++ b2 ++ dquote ++ v ++ tx "\\" ++ dquote ++ rest ++ newline)
    with ("{"%char :: b0 ++ an ++ b1 ++ "="%char :: b2 ++ "034"%char :: w ++ newline).
  2:{ unfold w. change (tx "{") with ["{"%char]. change (tx "=") with ["="%char]. unfold dquote.
      repeat (rewrite <- ?app_assoc; cbn [app]). reflexivity. }
  set (t := "{"%char :: b0 ++ an ++ b1 ++ "="%char :: b2 ++ "034"%char :: w ++ newline).
  assert (NL : nl_text t).
  { right. unfold t.
    replace ("{"%char :: b0 ++ an ++ b1 ++ "="%char :: b2 ++ "034"%char :: w ++ newline)
      with (("{"%char :: b0 ++ an ++ b1 ++ "="%char :: b2 ++ "034"%char :: w) ++ newline)
      by (repeat (rewrite <- ?app_assoc; cbn [app]); reflexivity).
    apply last_last. }
  rewrite fasm_parse_lines by exact NL. rewrite lines_step by discriminate.
  unfold parse_line. rewrite (skip_blank_stop t) by (intros [X|X]; discriminate X). cbn [obind].
  assert (RI : read_ident t = Ok ([], t)) by reflexivity. rewrite RI. cbn [obind].
  rewrite (skip_blank_stop t) by (intros [X|X]; discriminate X). cbn [obind].
  unfold parse_annotations. unfold t at 1. cbn [peek obind].
  change (ch_is "{" "{") with true. cbn match. cbn [annotations].
  unfold t. cbn [tl].
  assert (S1 : starts (fun c => ~ is_blank c) ("="%char :: b2 ++ "034"%char :: w ++ newline))
    by (intros [X|X]; discriminate X).
  assert (S2 : starts (fun c => ~ is_name_char c) (b1 ++ "="%char :: b2 ++ "034"%char :: w ++ newline)).
  { apply starts_blanks; auto.
    - intros c [->| ->] K; apply ident_char_spec in K; discriminate K.
    - intros K. apply ident_char_spec in K. discriminate K. }
  assert (S3 : starts (fun c => ~ is_blank c) (an ++ b1 ++ "="%char :: b2 ++ "034"%char :: w ++ newline)
               \/ an = []).
  { destruct an as [|c an]; [now right|left]. inversion Hn; subst. cbn. intros [X|X]; subst c;
      match goal with K : is_name_char _ |- _ => apply ident_char_spec in K; discriminate K end. }
  assert (E1 : exists i, skip_blank (b0 ++ an ++ b1 ++ "="%char :: b2 ++ "034"%char :: w ++ newline) = Ok i
     /\ exists b1', read_ident i = Ok (an, b1' ++ "="%char :: b2 ++ "034"%char :: w ++ newline) /\ blanks b1').
  { destruct S3 as [S3|S3].
    - exists (an ++ b1 ++ "="%char :: b2 ++ "034"%char :: w ++ newline). split; [now apply skip_blank_to|].
      exists b1. split; auto. now apply read_ident_app.
    - subst an. cbn [app]. rewrite app_assoc.
      exists ("="%char :: b2 ++ "034"%char :: w ++ newline). split.
      + apply skip_blank_to; auto. now apply Forall_app.
      + exists []. split; [reflexivity|constructor]. }
  destruct E1 as (i & -> & b1' & RD & H1'). cbn [obind]. rewrite RD. cbn [obind].
  rewrite (skip_blank_to b1') by auto. cbn [obind peek].
  change (ch_is "=" "=") with true. cbn [negb]. cbn match. cbn [tl].
  assert (S4 : starts (fun c => ~ is_blank c) ("034"%char :: w ++ newline)) by (intros [X|X]; discriminate X).
  rewrite (skip_blank_to b2) by auto. cbn [obind peek].
  change (ch_is "034" ch_quote) with true. cbn [negb]. cbn match. cbn [tl].
  change ch_quote with "034"%char. rewrite (scan_unended w "034" Hw). cbn [obind].
  change (peek newline) with (@Ok ascii "010"%char). cbn [obind].
  change (ch_is "010" ch_nl) with true. cbn match. cbn [obind].
  change (peek newline) with (@Ok ascii "010"%char). cbn [obind].
  change (ch_is "010" "}") with false. cbn match.
  change (skip_to_eol newline) with (Ok newline). cbn [obind].
  unfold parse_eol. change (peek newline) with (@Ok ascii "010"%char). cbn [obind].
  change (ch_is "010" "#" || ch_is "010" ch_cr) with false. cbn match. cbn [obind].
  change (peek newline) with (@Ok ascii "010"%char). cbn [obind].
  change (ch_is "010" ch_nl) with true. cbn match. cbn [obind]. reflexivity.
Qed.
Print Assumptions C39_escaped_backslash_refuted.

(** An instance: the annotation [x = "q\\"] after a feature. *)
Example C39_escaped_backslash_case :
  fasm_parse Iso yes true (tx "A { x = " ++ dquote ++ tx "q\\" ++ dquote ++ tx "}" ++ newline)
  = Ok {| p_events := [EFeature 1 (tx "A") 0 1 1]; p_result := kError |}.
Proof. vm_compute. reflexivity. Qed.
