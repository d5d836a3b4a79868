(** Inversion of the FASM parser: what a text must look like for a piece of the
    parser to return normally; accepted lines have the shape of [FasmSpec]. *)
From Verif Require Import Base BaseFacts Fasm FasmSpec FasmFacts FasmSafe.

Local Notation "x <- e ;; f" := (obind e (fun x => f))
  (at level 61, e at next level, right associativity).
Local Notation "' p <- e ;; f" := (obind e (fun p => f))
  (at level 61, p pattern, e at next level, right associativity).

Definition sub (r it : text) : Prop := exists u, it = u ++ r.
Lemma sub_refl : forall r, sub r r.
Proof. intros; now exists []. Qed.
Lemma sub_trans : forall a b c, sub a b -> sub b c -> sub a c.
Proof. intros a b c (u & ->) (v & ->). exists (v ++ u). now rewrite app_assoc. Qed.
Lemma sub_app : forall u r, sub r (u ++ r).
Proof. intros. now exists u. Qed.
Lemma sub_cons : forall c r, sub r (c :: r).
Proof. intros. now exists [c]. Qed.
Lemma sub_tl : forall it, sub (tl it) it.
Proof. intros [|c it]; [apply sub_refl|apply sub_cons]. Qed.
Lemma sub_len : forall r it, sub r it -> (List.length r <= List.length it)%nat.
Proof. intros r it (u & ->). rewrite app_length. lia. Qed.
Lemma tl_len : forall it c, peek it = Ok c -> List.length it = S (List.length (tl it)).
Proof. intros [|d it] c H; [discriminate|reflexivity]. Qed.
#[local] Hint Resolve sub_refl sub_app sub_cons sub_tl : sub.

Lemma skip_blank_sub : forall it r, skip_blank it = Ok r -> sub r it.
Proof. intros it r H. apply skip_blank_split in H. destruct H as (b & -> & _). auto with sub. Qed.

Lemma skip_blank_nb : forall it r, skip_blank it = Ok r -> starts (fun c => ~ is_blank c) r.
Proof.
  induction it as [|c it IH]; cbn [skip_blank]; intros r H; [discriminate|].
  destruct (ch_is c " " || ch_is c ch_tab) eqn:E; auto.
  inversion H; subst. cbn. intros B. apply blankb_spec in B. unfold blankb in B. congruence.
Qed.

Lemma skip_to_eol_split : forall it r, skip_to_eol it = Ok r ->
  exists s r', it = s ++ ch_nl :: r' /\ no_newline s /\ r = ch_nl :: r'.
Proof.
  induction it as [|c it IH]; cbn [skip_to_eol]; intros r H; [discriminate|].
  unfold ch_is in H. destruct (Ascii.eqb_spec c ch_nl) as [->|N].
  - inversion H; subst. exists [], it. repeat split. constructor.
  - destruct (IH r H) as (s & r' & -> & Ns & ->). exists (c :: s), r'.
    repeat split. constructor; auto.
Qed.

Lemma read_ident_split : forall it n r, read_ident it = Ok (n, r) ->
  it = n ++ r /\ Forall is_name_char n /\ starts (fun c => ~ is_name_char c) r.
Proof.
  induction it as [|c it IH]; cbn [read_ident]; intros n r H; [discriminate|].
  destruct (ident_char c) eqn:E.
  - apply obind_inv in H. destruct H as ([n' r'] & E' & H). inversion H; subst.
    destruct (IH _ _ E') as (-> & F & S0). repeat split; auto.
    constructor; auto. now apply ident_char_spec.
  - inversion H; subst. repeat split; auto. cbn. rewrite <- ident_char_spec. congruence.
Qed.

Lemma digit_lt : forall b c, b <= 16 -> (digit_of c <? Z.of_N b)%Z = true ->
  c = "_"%char \/ exists d, digit_value c = Some d /\ d < b.
Proof.
  intros b c Hb H. apply Z.ltb_lt in H. rewrite digit_of_spec in H.
  destruct (digit_value c) as [d|].
  - right. exists d. split; auto. lia.
  - destruct (Ascii.eqb_spec c "_"); auto. lia.
Qed.

Lemma number_loop_split : forall b w, b <= 16 -> forall it v x r,
  number_loop (Z.of_N b) w v it = Ok (x, r) ->
  exists s, it = s ++ r /\ numeral b s.
Proof.
  intros b w Hb. induction it as [|c it IH]; cbn [number_loop]; intros v x r H; [discriminate|].
  destruct (digit_of c <? Z.of_N b)%Z eqn:E.
  - assert (X : exists v', number_loop (Z.of_N b) w v' it = Ok (x, r))
      by (destruct (digit_of c =? -1)%Z; eauto).
    destruct X as (v' & X). destruct (IH _ _ _ X) as (s & -> & Hs).
    exists (c :: s). split; auto. constructor; auto. now apply digit_lt.
  - inversion H; subst. exists []. split; auto. constructor.
Qed.

Lemma parse_number_split : forall b w, b <= 16 -> forall it v x r,
  parse_number (Z.of_N b) w v it = Ok (x, r) ->
  exists bl s, it = bl ++ s ++ r /\ blanks bl /\ numeral b s.
Proof.
  intros b w Hb it v x r H. unfold parse_number in H. binv H.
  apply skip_blank_split in E. destruct E as (bl & -> & Hbl).
  apply number_loop_split in H; auto. destruct H as (s & -> & Hs). eauto.
Qed.

Lemma long_loop_split : forall l, 2 ^ l <= 16 -> forall it n v x r,
  long_loop l n v it = Ok (x, r) -> exists s, it = s ++ r /\ numeral (2 ^ l) s.
Proof.
  intros l Hb. induction it as [|c it IH]; cbn [long_loop]; intros n v x r H; [discriminate|].
  destruct (digit_of c <? Z.of_N (2 ^ l))%Z eqn:E.
  - assert (X : exists n' v', long_loop l n' v' it = Ok (x, r))
      by (destruct (digit_of c =? -1)%Z; eauto).
    destruct X as (n' & v' & X). destruct (IH _ _ _ _ X) as (s & -> & Hs).
    exists (c :: s). split; auto. constructor; auto. now apply digit_lt.
  - inversion H; subst. exists []. split; auto. constructor.
Qed.

Lemma parse_long_split : forall l, 2 ^ l <= 16 -> forall it x r,
  parse_long l it = Ok (x, r) ->
  exists bl s, it = bl ++ s ++ r /\ blanks bl /\ numeral (2 ^ l) s.
Proof.
  intros l Hb it x r H. unfold parse_long in H. binv H. binv H. destruct v0 as [v0 r0].
  inversion H; subst.
  apply skip_blank_split in E. destruct E as (bl & -> & Hbl).
  apply long_loop_split in E0; auto. destruct E0 as (s & -> & Hs). eauto.
Qed.

Lemma scan_value_split : forall it p v r, scan_value p it = Ok (v, r) ->
  it = v ++ r /\ ((exists r', r = ch_nl :: r')
                  \/ (exists r', r = ch_quote :: r') /\ quotable p v).
Proof.
  induction it as [|c it IH]; cbn [scan_value]; intros p v r H; [discriminate|].
  destruct (ch_is c ch_nl) eqn:E1.
  - inversion H; subst. apply ch_is_true in E1. subst c. split; auto. left. eauto.
  - destruct (ch_is c ch_quote && negb (ch_is p ch_backslash)) eqn:E2.
    + inversion H; subst. apply andb_true_iff in E2. destruct E2 as [E2 E3].
      apply ch_is_true in E2. subst c. split; auto. right. split; [eauto|]. cbn.
      intros ->. discriminate.
    + binv H. destruct v0 as [v0 r0]. inversion H; subst.
      destruct (IH _ _ _ E) as (-> & D). split; auto.
      destruct D as [D|(D & Q)]; [left; auto|right]. split; auto. cbn. repeat split; auto.
      * intros ->. discriminate.
      * intros ->. change (ch_is "034" ch_quote) with true in E2. cbn in E2.
        apply negb_false_iff in E2. now apply ch_is_true in E2.
Qed.

Lemma parse_range_sub : forall it r, parse_range it = Ok r -> sub (range_rest r) it.
Proof.
  unfold parse_range. intros it r H. binv H.
  destruct (ch_is v "["); [|inversion H; auto with sub].
  binv H. destruct v0 as [mx i1]. binv H. binv H. binv H. destruct v2 as [mn i3]. binv H.
  apply (parse_number_split 10) in E0; [|lia]. destruct E0 as (bl & s & E0 & _).
  apply skip_blank_sub in E1.
  assert (S3 : sub i3 v0).
  { destruct (ch_is v1 ":").
    - binv E3. destruct v3 as [a b]. binv E3. inversion E3; subst.
      apply (parse_number_split 10) in E5; [|lia]. destruct E5 as (bl' & s' & E5 & _).
      apply skip_blank_sub in E6.
      eapply sub_trans; [exact E6|]. eapply sub_trans; [|apply sub_tl].
      rewrite E5, app_assoc. auto with sub.
    - inversion E3; subst. auto with sub. }
  assert (S4 : sub i3 it).
  { eapply sub_trans; [exact S3|]. eapply sub_trans; [exact E1|].
    eapply sub_trans; [|apply sub_tl]. rewrite E0, app_assoc. auto with sub. }
  destruct (negb _); [inversion H; subst; exact S4|].
  destruct (mx <? mn); inversion H; subst; cbn [range_rest];
    (eapply sub_trans; [apply sub_tl|exact S4]).
Qed.

Lemma parse_range_split : forall it mx mn r, parse_range it = Ok (RangeOk mx mn r) ->
  it = r \/ exists rg, range_shape rg /\ it = range_text rg ++ r.
Proof.
  unfold parse_range. intros it mx mn r H. binv H. apply peek_inv in E.
  destruct (ch_is v "[") eqn:C; [|inversion H; auto]. right.
  apply ch_is_true in C. subst v.
  binv H. destruct v as [a i1]. binv H. binv H. apply peek_inv in E2.
  binv H. destruct v1 as [b i3]. binv H. apply peek_inv in E4.
  destruct (ch_is v1 "]") eqn:C1; cbn [negb] in H; [|discriminate].
  apply ch_is_true in C1. subst v1.
  assert (R : tl i3 = r) by (destruct (a <? b); inversion H; auto). clear H.
  apply (parse_number_split 10) in E0; [|lia]. destruct E0 as (bl & s & E0 & Hbl & Hs).
  apply skip_blank_split in E1. destruct E1 as (bl1 & -> & Hbl1).
  destruct (ch_is v0 ":") eqn:C2.
  - apply ch_is_true in C2. subst v0. binv E3. destruct v0 as [b' i4]. binv E3. inversion E3; subst.
    apply (parse_number_split 10) in E1; [|lia]. destruct E1 as (bl' & s' & E1 & Hbl' & Hs').
    apply skip_blank_split in E5. destruct E5 as (bl2 & -> & Hbl2).
    exists {| r_b0 := bl; r_hi := s; r_b1 := bl1; r_lo := Some (bl', s', bl2) |}.
    split; [repeat split; auto|].
    rewrite E, E0. unfold range_text. cbn [r_b0 r_hi r_b1 r_lo].
    change (tx "[") with ["["%char]. change (tx "]") with ["]"%char]. change (tx ":") with [":"%char].
    rewrite <- ?app_assoc. cbn [app]. f_equal. f_equal. f_equal. f_equal.
    rewrite E2. cbn [app]. f_equal. rewrite E1. rewrite <- ?app_assoc. f_equal. f_equal. f_equal. exact E4.
  - inversion E3; subst.
    exists {| r_b0 := bl; r_hi := s; r_b1 := bl1; r_lo := None |}.
    split; [repeat split; auto|].
    rewrite E, E0. unfold range_text. cbn [r_b0 r_hi r_b1 r_lo].
    change (tx "[") with ["["%char]. change (tx "]") with ["]"%char].
    rewrite <- ?app_assoc. cbn [app]. f_equal. f_equal. f_equal. f_equal. exact E4.
Qed.

Definition severity_le (st st' : pstate) : Prop := p_result st <= p_result st'.

Lemma p_raise_le : forall r st, p_result st <= p_result (p_raise r st).
Proof. intros. cbn. lia. Qed.
Lemma p_raise_if_le : forall (c : bool) r st,
  p_result st <= p_result (if c then p_raise r st else st).
Proof. intros [] r st; cbn; lia. Qed.

Lemma parse_based_split : forall f it v bad r,
  parse_based f it = Ok (v, bad, r) ->
  sub r it /\ (bad = false ->
    exists rx bl s, f = radix_char rx /\ it = bl ++ s ++ r /\ blanks bl /\ numeral (radix_value rx) s).
Proof.
  unfold parse_based. intros f it v bad r H.
  assert (G : forall rx bl s, f = radix_char rx -> it = bl ++ s ++ r -> blanks bl -> numeral (radix_value rx) s ->
    sub r it /\ (bad = false -> exists rx bl s, f = radix_char rx /\ it = bl ++ s ++ r /\ blanks bl /\ numeral (radix_value rx) s)).
  { intros rx bl s Hf Hi Hb Hn. split; [|eauto 10]. rewrite Hi, app_assoc. auto with sub. }
  destruct (ch_is f "h") eqn:C1; [|destruct (ch_is f "b") eqn:C2; [|destruct (ch_is f "o") eqn:C3; [|destruct (ch_is f "d") eqn:C4]]].
  - apply ch_is_true in C1. binv H. destruct v0 as [x y]. inversion H; subst.
    apply parse_long_split in E; [|cbn; lia]. destruct E as (bl & s & E & Hb & Hn).
    apply (G Hex bl s); auto.
  - apply ch_is_true in C2. binv H. destruct v0 as [x y]. inversion H; subst.
    apply parse_long_split in E; [|cbn; lia]. destruct E as (bl & s & E & Hb & Hn).
    apply (G Bin bl s); auto.
  - apply ch_is_true in C3. binv H. destruct v0 as [x y]. inversion H; subst.
    apply (parse_number_split 8) in E; [|lia]. destruct E as (bl & s & E & Hb & Hn).
    apply (G Oct bl s); auto.
  - apply ch_is_true in C4. binv H. destruct v0 as [x y]. inversion H; subst.
    apply (parse_number_split 10) in E; [|lia]. destruct E as (bl & s & E & Hb & Hn).
    apply (G Dec bl s); auto.
  - binv H. inversion H; subst. split; [|discriminate].
    apply skip_to_eol_split in E. destruct E as (s & r' & -> & _ & ->). auto with sub.
Qed.

(** [parse_assign]: a suffix is left; unless an error is raised the consumed
    text is an assignment. *)
Lemma parse_assign_split : forall mx mn w st it b w' st' r,
  parse_assign mx mn w st it = Ok (b, w', st', r) ->
  sub r it /\ p_result st <= p_result st'
  /\ p_events st' = p_events st
  /\ (p_result st' < kError ->
      exists a, assign_shape a /\ it = assign_text a ++ r).
Proof.
  unfold parse_assign. intros mx mn w st it b w' st' r H. binv H. apply peek_inv in E.
  destruct (ch_is v "=") eqn:C.
  2:{ inversion H; subst. split; [auto with sub|]. split; [destruct (mn =? mx); cbn; lia|].
      split; [destruct (mn =? mx); reflexivity|]. intros _. exists None. split; [exact I|reflexivity]. }
  apply ch_is_true in C. subst v.
  binv H. binv H. binv H. destruct v1 as [vw i2]. binv H. binv H.
  apply skip_blank_split in E0. destruct E0 as (b0 & E0 & Hb0).
  assert (X : exists s, v = s ++ i2 /\ numeral 10 s).
  { destruct (digit_of v0 <=? 9)%Z eqn:D.
    - unfold parse_number in E2. pose proof (skip_blank_nb) as _.
      binv E2. apply skip_blank_split in E5. destruct E5 as (bb & E5 & Hbb).
      apply (number_loop_split 10) in E2; [|lia]. destruct E2 as (s & -> & Hs).
      destruct bb as [|cb bb]; [exists s; auto|].
      exfalso. rewrite E5 in E1. cbn in E1. inversion E1; subst.
      inversion Hbb as [|? ? B _]; subst. destruct B; subst; discriminate.
    - inversion E2; subst. exists []. split; auto. constructor. }
  destruct X as (s & -> & Hs).
  apply skip_blank_split in E3. destruct E3 as (b1 & -> & Hb1).
  apply peek_inv in E4.
  destruct (ch_is v2 ch_tick) eqn:C2.
  - apply ch_is_true in C2. subst v2. binv H. cbv zeta in H. binv H. binv H.
    destruct v3 as [[bs bad] i5]. binv H.
    apply skip_blank_split in E3. destruct E3 as (b2 & E3 & Hb2).
    apply peek_inv in E5.
    apply parse_based_split in E6. destruct E6 as (SU & SH).
    apply skip_blank_split in E7. destruct E7 as (b4 & -> & Hb4).
    inversion H; subst. clear H.
    split; [|split; [|split]].
    + eapply sub_trans; [apply (sub_app b4)|]. eapply sub_trans; [exact SU|].
      rewrite E, E0, E4, E3. eapply sub_trans; [apply sub_tl|].
      cbn [tl]. eapply sub_trans; [|apply sub_cons]. rewrite ?app_assoc.
      eapply sub_trans; [|apply sub_app]. eapply sub_trans; [|apply sub_cons]. auto with sub.
    + destruct bad, (_ && _), (w <? vw); cbn; lia.
    + destruct bad, (_ && _), (w <? vw); reflexivity.
    + intros LT. assert (B : bad = false) by (destruct bad; auto; cbn in LT; lia).
      destruct (SH B) as (rx & b3 & d & Hf & Ht & Hb3 & Hd).
      exists (Some (b0, Based s b1 b2 rx b3 d b4)). split; [repeat split; auto|].
      cbn [assign_text rhs_text]. rewrite E, E0, E4, E3, E5, Ht, Hf.
      change (tx "=") with ["="%char]. change (tx "'") with ["'"%char].
      rewrite <- ?app_assoc. cbn [app]. reflexivity.
  - inversion H; subst. split; [|split; [|split]].
    + rewrite E, E0. eapply sub_trans; [|apply sub_cons]. rewrite ?app_assoc. auto with sub.
    + destruct (64 <? w); cbn; lia.
    + destruct (64 <? w); reflexivity.
    + intros _. exists (Some (b0, Plain s b1)). split; [repeat split; auto|].
      cbn [assign_text rhs_text]. rewrite E, E0. change (tx "=") with ["="%char].
      rewrite <- ?app_assoc. reflexivity.
Qed.

Lemma report_le : forall sm cb line name mn w tot bs chunk st st',
  report sm cb line name mn w tot chunk bs st = Ok st' -> p_result st <= p_result st'.
Proof.
  intros sm cb line name mn w tot. induction bs as [|v bs IH]; cbn [report]; intros chunk st st' H.
  - inversion H. lia.
  - binv H. destruct (cb _).
    + apply IH in H. exact H.
    + inversion H. cbn. lia.
Qed.

(** The annotations of a braces block. *)
Lemma annotations_split : forall fuel line name st it st' r c0, it = c0 :: tl it ->
  annotations fuel line name st it = Ok (st', r) ->
  sub r (tl it) /\ p_result st <= p_result st'
  /\ (p_result st' < kError ->
      exists a l, Forall annotation_shape (a :: l)
                  /\ tl it = annotation_text a ++ annots_text l ++ r).
Proof.
  induction fuel as [|fuel IH]; intros line name st it st' r c0 HC H; [discriminate|].
  cbn [annotations] in H.
  binv H. binv H. destruct v0 as [an i1]. binv H. binv H.
  apply skip_blank_split in E. destruct E as (b0 & E & Hb0).
  apply read_ident_split in E0. destruct E0 as (E0 & Hn & _).
  apply skip_blank_split in E1. destruct E1 as (b1 & E1 & Hb1).
  apply peek_inv in E2.
  assert (S0 : sub v0 (tl it)) by (rewrite E, E0, E1, !app_assoc; auto with sub).
  destruct (ch_is v1 "=") eqn:C; cbn [negb] in H.
  2:{ inversion H; subst. repeat split; auto; [cbn; lia|]. cbn. intros; lia. }
  apply ch_is_true in C. subst v1.
  binv H. binv H. apply skip_blank_split in E3. destruct E3 as (b2 & E3 & Hb2).
  apply peek_inv in E4.
  assert (S1 : sub v1 (tl it)).
  { eapply sub_trans; [|exact S0]. eapply sub_trans; [|apply sub_tl]. rewrite E3. auto with sub. }
  destruct (ch_is v2 ch_quote) eqn:C; cbn [negb] in H.
  2:{ inversion H; subst. repeat split; auto; [cbn; lia|]. cbn. intros; lia. }
  apply ch_is_true in C. subst v2.
  binv H. destruct v2 as [av i2]. binv H. apply scan_value_split in E5.
  destruct E5 as (E5 & D). apply peek_inv in E6.
  assert (S2 : sub i2 (tl it)).
  { eapply sub_trans; [|exact S1]. eapply sub_trans; [|apply sub_tl]. rewrite E5. auto with sub. }
  destruct (ch_is v2 ch_nl) eqn:C.
  { inversion H; subst. repeat split; auto; [cbn; lia|]. cbn. intros; lia. }
  destruct D as [(r' & D)|((r' & D) & Q)].
  { rewrite D in E6. cbn in E6. inversion E6; subst. discriminate. }
  cbv zeta in H. binv H. binv H. apply skip_blank_split in E7. destruct E7 as (b3 & E7 & Hb3).
  set (a := {| a_b0 := b0; a_name := an; a_b1 := b1; a_b2 := b2; a_value := av; a_b3 := b3 |}).
  assert (Ha : annotation_shape a) by (repeat split; auto).
  assert (TA : tl it = annotation_text a ++ v3).
  { unfold annotation_text, a. cbn [a_b0 a_name a_b1 a_b2 a_value a_b3].
    rewrite E, E0, E1, E2, E3, E4, E5, E6.
    rewrite D in E6. cbn in E6. inversion E6; subst v2. rewrite E7.
    change (tx "=") with ["="%char]. unfold dquote.
    rewrite <- ?app_assoc. cbn [app]. rewrite <- ?app_assoc. reflexivity. }
  assert (S3 : sub v3 (tl it)) by (rewrite TA; auto with sub).
  apply peek_inv in E8.
  destruct (ch_is v4 ",") eqn:C4.
  - apply ch_is_true in C4. subst v4.
    destruct (IH _ _ _ _ _ _ ","%char E8 H) as (S4 & LE & SH).
    split; [|split].
    + eapply sub_trans; [exact S4|]. eapply sub_trans; [apply sub_tl|exact S3].
    + exact LE.
    + intros LT. destruct (SH LT) as (a' & l & F & TL).
      exists a, (a' :: l). split; [constructor; auto|].
      rewrite TA. f_equal. rewrite E8, TL.
      change (annots_text (a' :: l)) with (tx "," ++ annotation_text a' ++ annots_text l).
      change (tx ",") with [","%char]. rewrite <- ?app_assoc. reflexivity.
  - inversion H; subst. split; [exact S3|]. split; [cbn; lia|].
    intros _. exists a, []. split; [constructor; auto|].
    rewrite TA. reflexivity.
Qed.

Lemma parse_annotations_split : forall annot line name st it st' r,
  parse_annotations annot line name st it = Ok (st', r) ->
  sub r it /\ p_result st <= p_result st'
  /\ (annot = true -> p_result st' < kError ->
      (it = r /\ starts (fun c => c <> "{"%char) r)
      \/ exists a l junk r', Forall annotation_shape (a :: l) /\ no_newline junk
          /\ r = ch_nl :: r'
          /\ it = ending_text (EndAnnot a l junk) ++ r).
Proof.
  unfold parse_annotations. intros annot line name st it st' r H. binv H. apply peek_inv in E.
  destruct (ch_is v "{") eqn:C.
  2:{ inversion H; subst. repeat split; auto with sub; [lia|]. intros _ _. left. split; auto.
      rewrite E. cbn. intros ->. discriminate. }
  apply ch_is_true in C. subst v.
  binv H. destruct v as [st1 i1]. binv H. inversion H; subst. clear H.
  apply skip_to_eol_split in E1. destruct E1 as (s & r' & E1 & Hs & ->).
  destruct annot.
  - binv E0. destruct v as [st2 i2]. binv E0. apply peek_inv in E3.
    apply (annotations_split _ _ _ _ _ _ _ "{"%char E) in E2.
    destruct E2 as (S2 & LE & SH). inversion E0; subst. clear E0.
    split; [|split].
    + eapply sub_trans; [apply (sub_app s)|]. eapply sub_trans; [exact S2|apply sub_tl].
    + destruct (ch_is v "}"); [exact LE|]. cbn. lia.
    + intros _ LT. right.
      destruct (ch_is v "}") eqn:C; [|cbn in LT; lia].
      apply ch_is_true in C. subst v.
      destruct (SH LT) as (a & l & F & TL).
      destruct s as [|s0 junk].
      { cbn in E3. inversion E3. }
      cbn [app tl] in E3. inversion E3; subst s0. inversion Hs; subst.
      exists a, l, junk, r'. repeat split; auto.
      rewrite E, TL. cbn [ending_text]. fold (annots_text l).
      change (tx "{") with ["{"%char]. change (tx "}") with ["}"%char].
      rewrite <- ?app_assoc. cbn [app]. rewrite <- ?app_assoc. reflexivity.
  - inversion E0; subst. split; [|split; [lia|discriminate]].
    auto with sub.
Qed.

Lemma parse_eol_split : forall st it st' r, parse_eol st it = Ok (st', r) ->
  (exists u, it = u ++ ch_nl :: r) /\ p_result st <= p_result st'
  /\ (p_result st' < kError -> exists e, ending_shape e /\ it = ending_text e ++ newline ++ r).
Proof.
  unfold parse_eol. intros st it st' r H. binv H. apply peek_inv in E. binv H. binv H.
  apply peek_inv in E1.
  destruct (ch_is v1 ch_nl) eqn:C.
  - apply ch_is_true in C. subst v1. inversion H; subst. clear H.
    destruct (ch_is v "#" || ch_is v ch_cr) eqn:D.
    + apply skip_to_eol_split in E0. destruct E0 as (s & r' & E0 & Hs & ->). cbn [tl] in *.
      split; [eauto|]. split; [lia|]. intros _.
      apply orb_true_iff in D.
      destruct s as [|s0 s].
      { rewrite E0 in E. cbn in E. inversion E; subst. destruct D; discriminate. }
      rewrite E0 in E. cbn in E. inversion E; subst s0. inversion Hs; subst.
      destruct D as [D|D]; apply ch_is_true in D; subst v.
      * exists (EndComment s). split; auto.
      * exists (EndCr s). split; auto.
    + inversion E0; subst. split; [exists []; exact E1|]. split; [lia|]. intros _.
      exists EndNone. split; [exact I|]. exact E1.
  - binv H. inversion H; subst. clear H.
    apply skip_to_eol_split in E2. destruct E2 as (s & r' & E2 & Hs & ->). cbn [tl].
    split; [|split; [cbn; lia|cbn; lia]].
    destruct (ch_is v "#" || ch_is v ch_cr).
    + apply skip_to_eol_split in E0. destruct E0 as (s' & r'' & E0 & Hs' & ->).
      cbn in E1. inversion E1; subst. discriminate.
    + inversion E0; subst. eauto.
Qed.

(** Every line consumes at least its newline and never lowers the result; a
    line accepted without an error, an abort or a skip has the shape of the
    grammar. *)
Theorem parse_line_split : forall sm cb annot line st it st' r,
  parse_line sm cb annot line st it = Ok (st', r) ->
  (exists u, it = u ++ ch_nl :: r) /\ p_result st <= p_result st'
  /\ (annot = true -> p_result st' < kSkipped ->
      exists i, item_shape i /\ it = item_text i ++ r).
Proof.
  unfold parse_line. intros sm cb annot line st it st' r H.
  binv H. binv H. destruct v0 as [name i1]. binv H.
  apply skip_blank_split in E. destruct E as (b0 & -> & Hb0).
  apply read_ident_split in E0. destruct E0 as (-> & Hn & _).
  apply skip_blank_split in E1. destruct E1 as (b1 & -> & Hb1).
  assert (NLSUB : forall x, (exists u, x = u ++ ch_nl :: r) -> forall y, sub x y -> exists u, y = u ++ ch_nl :: r).
  { intros x (u & ->) y (u' & ->). exists (u' ++ u). now rewrite app_assoc. }
  assert (ENDING : forall st1 i2 st2 i3, parse_annotations annot line name st1 i2 = Ok (st2, i3) ->
    parse_eol st2 i3 = Ok (st', r) ->
    (exists u, i2 = u ++ ch_nl :: r) /\ p_result st1 <= p_result st'
    /\ (annot = true -> p_result st' < kError -> exists e, ending_shape e /\ i2 = ending_text e ++ newline ++ r)).
  { intros st1 i2 st2 i3 A B. apply parse_annotations_split in A. destruct A as (A1 & A2 & A3).
    apply parse_eol_split in B. destruct B as (B1 & B2 & B3).
    split; [eapply NLSUB; eauto|]. split; [lia|]. intros HA LT.
    destruct (A3 HA ltac:(lia)) as [(-> & _)|(a & l & junk & r' & F & J & -> & ->)]; [auto|].
    destruct (B3 LT) as (e & He & Ee).
    exists (EndAnnot a l junk). split; [split; auto|]. f_equal.
    destruct e as [|s|s|a' l' j']; cbn in Ee; inversion Ee; subst. reflexivity. }
  destruct name as [|n0 ns].
  - binv H. destruct v as [st1 i2].
    apply (ENDING _ _ _ _ E) in H. destruct H as (U & LE & SH).
    split; [eapply NLSUB; [exact U|]|]. { cbn [app]. rewrite ?app_assoc. apply sub_app. }
    split; [exact LE|]. intros HA LT. destruct (SH HA ltac:(unfold kSkipped, kError in *; lia)) as (e & He & Ee).
    exists {| i_b0 := b0 ++ b1; i_feature := None; i_end := e |}.
    split.
    + split; [apply Forall_app; auto|]. split; [exact I|exact He].
    + unfold item_text. cbn [i_b0 i_feature i_end app]. rewrite Ee. rewrite <- ?app_assoc. reflexivity.
  - binv H. destruct v as [mx mn i2|i2|i2].
    + pose proof (parse_range_sub _ _ E) as SR. apply parse_range_split in E.
      binv H. cbv zeta in H. binv H. destruct v1 as [[[bs w] st1] i4]. binv H. binv H.
      destruct v2 as [st3 i5].
      apply skip_blank_split in E0. destruct E0 as (b2 & -> & Hb2).
      apply parse_assign_split in E1. destruct E1 as (SA & LA & _ & SHA).
      apply report_le in E2.
      apply (ENDING _ _ _ _ E3) in H. destruct H as (U & LE & SH).
      split; [|split; [lia|]].
      * eapply NLSUB; [exact U|]. eapply sub_trans; [exact SA|].
        eapply sub_trans; [apply (sub_app b2)|]. eapply sub_trans; [exact SR|].
        rewrite ?app_assoc. auto with sub.
      * intros HA LT. destruct (SH HA ltac:(unfold kSkipped, kError in *; lia)) as (e & He & Ee).
        destruct SHA as (a & Sa & Ea); [unfold kSkipped, kError in *; lia|].
        assert (X : exists rg, match rg with None => True | Some r => range_shape r end
                     /\ v0 = range_opt_text rg ++ b2 ++ assign_text a ++ ending_text e ++ newline ++ r).
        { destruct E as [E|(rg & Srg & E)].
          - exists None. split; auto. cbn [range_opt_text app]. cbn [range_rest] in E. congruence.
          - exists (Some rg). split; auto. cbn [range_opt_text]. congruence. }
        destruct X as (rg & Srg & Ev).
        exists {| i_b0 := b0;
                  i_feature := Some {| f_name := n0 :: ns; f_b1 := b1; f_range := rg; f_b2 := b2; f_assign := a |};
                  i_end := e |}.
        split.
        { split; [exact Hb0|]. split; [|exact He].
          split; [discriminate|]. split; [exact Hn|]. split; [exact Hb1|]. split; [exact Srg|].
          split; [exact Hb2|exact Sa]. }
        unfold item_text, feature_text. cbn [i_b0 i_feature i_end f_name f_b1 f_range f_b2 f_assign].
        rewrite Ev. fold (range_opt_text rg). fold (assign_text a).
        rewrite <- ?app_assoc. reflexivity.
    + pose proof (parse_range_sub _ _ E) as SR. cbn [range_rest] in SR.
      binv H. inversion H; subst. apply skip_to_eol_split in E0. destruct E0 as (s & r' & -> & Hs & ->).
      cbn [tl] in *. split; [|split; [cbn; lia|intros _ LT; cbn in LT; unfold kSkipped, kError in *; lia]].
      eapply NLSUB; [exists s; reflexivity|]. eapply sub_trans; [exact SR|]. rewrite ?app_assoc. auto with sub.
    + pose proof (parse_range_sub _ _ E) as SR. cbn [range_rest] in SR.
      binv H. inversion H; subst. apply skip_to_eol_split in E0. destruct E0 as (s & r' & -> & Hs & ->).
      cbn [tl] in *. split; [|split; [cbn; lia|intros _ LT; cbn in LT; unfold kSkipped, kError in *; lia]].
      eapply NLSUB; [exists s; reflexivity|]. eapply sub_trans; [exact SR|]. rewrite ?app_assoc. auto with sub.
Qed.
