(** The FASM parser on whole files: termination, concatenation, the file of a
    list of items, accepted files, and the two readings of the shift. *)
From Verif Require Import Base BaseFacts Fasm FasmSpec FasmFacts FasmSafe FasmShape.

Local Notation "x <- e ;; f" := (obind e (fun x => f))
  (at level 61, e at next level, right associativity).
Local Notation "' p <- e ;; f" := (obind e (fun p => f))
  (at level 61, p pattern, e at next level, right associativity).

(** * Normal return or undefined behaviour, nothing else *)
Definition okub {A} (o : outcome A) : Prop := o = UB \/ exists a, o = Ok a.

Lemma okub_ok : forall A (a : A), okub (Ok a).
Proof. right; eauto. Qed.
Lemma okub_bind : forall A B (o : outcome A) (f : A -> outcome B),
  okub o -> (forall a, o = Ok a -> okub (f a)) -> okub (obind o f).
Proof. intros A B o f [->|(a & ->)] H; cbn; [now left|auto]. Qed.

Lemma peek_okub : forall it, okub (peek it).
Proof. intros [|c it]; [now left|apply okub_ok]. Qed.
Lemma skip_blank_okub : forall it, okub (skip_blank it).
Proof. induction it as [|c it IH]; cbn; [now left|]. destruct (_ || _); auto using okub_ok. Qed.
Lemma skip_to_eol_okub : forall it, okub (skip_to_eol it).
Proof. induction it as [|c it IH]; cbn; [now left|]. destruct (ch_is c ch_nl); auto using okub_ok. Qed.
Lemma read_ident_okub : forall it, okub (read_ident it).
Proof.
  induction it as [|c it IH]; cbn; [now left|]. destruct (ident_char c); [|apply okub_ok].
  apply okub_bind; auto. intros [a b] _. apply okub_ok.
Qed.
Lemma number_loop_okub : forall b w it v, okub (number_loop b w v it).
Proof.
  intros b w. induction it as [|c it IH]; cbn [number_loop]; intros v; [now left|].
  destruct (_ <? _)%Z; [destruct (_ =? _)%Z; auto|apply okub_ok].
Qed.
Lemma parse_number_okub : forall b w v it, okub (parse_number b w v it).
Proof. intros. apply okub_bind; [apply skip_blank_okub|]. intros. apply number_loop_okub. Qed.
Lemma long_loop_okub : forall l it n v, okub (long_loop l n v it).
Proof.
  intros l. induction it as [|c it IH]; cbn [long_loop]; intros n v; [now left|].
  destruct (_ <? _)%Z; [destruct (_ =? _)%Z; auto|apply okub_ok].
Qed.
Lemma parse_long_okub : forall l it, okub (parse_long l it).
Proof.
  intros. apply okub_bind; [apply skip_blank_okub|]. intros.
  apply okub_bind; [apply long_loop_okub|]. intros [] _. apply okub_ok.
Qed.
Lemma scan_value_okub : forall it p, okub (scan_value p it).
Proof.
  induction it as [|c it IH]; cbn; intros p; [now left|]. destruct (ch_is c ch_nl); [apply okub_ok|].
  destruct (_ && _); [apply okub_ok|]. apply okub_bind; auto. intros [a b] _. apply okub_ok.
Qed.

#[local] Hint Resolve peek_okub skip_blank_okub skip_to_eol_okub read_ident_okub
  parse_number_okub parse_long_okub scan_value_okub okub_ok : okub.

Ltac okb := apply okub_bind; [solve [auto with okub]|intros].

Lemma parse_range_okub : forall it, okub (parse_range it).
Proof.
  intros. unfold parse_range. okb. destruct (ch_is a "["); [|apply okub_ok].
  okb. destruct a0 as [mx i]. okb. okb.
  apply okub_bind.
  - destruct (ch_is a1 ":"); [|apply okub_ok]. okb. destruct a2. okb. apply okub_ok.
  - intros [] _. okb. destruct (negb _); [apply okub_ok|]. destruct (_ <? _); apply okub_ok.
Qed.
Lemma parse_based_okub : forall f it, okub (parse_based f it).
Proof.
  intros. unfold parse_based.
  destruct (ch_is f "h"); [|destruct (ch_is f "b"); [|destruct (ch_is f "o"); [|destruct (ch_is f "d")]]];
    okb; try destruct a; apply okub_ok.
Qed.
Lemma parse_assign_okub : forall mx mn w st it, okub (parse_assign mx mn w st it).
Proof.
  intros. unfold parse_assign. okb. destruct (ch_is a "="); [|apply okub_ok].
  okb. okb. apply okub_bind.
  - destruct (_ <=? _)%Z; auto with okub.
  - intros [] _. okb. okb. destruct (ch_is a3 ch_tick); [|apply okub_ok].
    okb. cbv zeta. okb. apply okub_bind; [apply parse_based_okub|]. intros [[] ] _. okb. apply okub_ok.
Qed.
Lemma report_okub : forall sm cb line name mn w tot chunk bs st,
  okub (report sm cb line name mn w tot chunk bs st).
Proof. intros. apply report_total. Qed.

Lemma annotations_okub : forall fuel line name st it c, peek it = Ok c ->
  (List.length it <= fuel)%nat -> okub (annotations fuel line name st it).
Proof.
  induction fuel as [|fuel IH]; intros line name st it c P L.
  - apply tl_len in P. lia.
  - cbn [annotations].
    apply okub_bind; [auto with okub|intros i1 E1].
    apply okub_bind; [auto with okub|intros [an i2] E2].
    apply okub_bind; [auto with okub|intros i3 E3].
    apply okub_bind; [auto with okub|intros c3 E4].
    destruct (negb (ch_is c3 "=")); [apply okub_ok|].
    apply okub_bind; [auto with okub|intros i4 E5].
    apply okub_bind; [auto with okub|intros c4 E6].
    destruct (negb (ch_is c4 ch_quote)); [apply okub_ok|].
    apply okub_bind; [auto with okub|intros [av i5] E7].
    apply okub_bind; [auto with okub|intros c5 E8].
    destruct (ch_is c5 ch_nl); [apply okub_ok|]. cbv zeta.
    apply okub_bind; [auto with okub|intros i6 E9].
    apply okub_bind; [auto with okub|intros c6 E10].
    destruct (ch_is c6 ","); [|apply okub_ok].
    apply (IH _ _ _ _ c6); auto.
    apply tl_len in P.
    apply skip_blank_sub, sub_len in E1. apply read_ident_split in E2. destruct E2 as (-> & _).
    rewrite app_length in E1.
    apply skip_blank_sub, sub_len in E3. apply skip_blank_sub, sub_len in E5.
    apply scan_value_split in E7. destruct E7 as (E7 & _).
    apply (f_equal (@List.length ascii)) in E7. rewrite app_length in E7.
    apply skip_blank_sub, sub_len in E9.
    apply tl_len in E4. apply tl_len in E6. apply tl_len in E8. lia.
Qed.

Lemma parse_annotations_okub : forall annot line name st it,
  okub (parse_annotations annot line name st it).
Proof.
  intros. unfold parse_annotations. okb. destruct (ch_is a "{"); [|apply okub_ok].
  apply okub_bind.
  - destruct annot; [|apply okub_ok]. apply okub_bind.
    + eapply annotations_okub; eauto.
    + intros [] _. okb. apply okub_ok.
  - intros [] _. okb. apply okub_ok.
Qed.
Lemma parse_eol_okub : forall st it, okub (parse_eol st it).
Proof.
  intros. unfold parse_eol. okb. apply okub_bind.
  - destruct (_ || _); auto with okub.
  - intros. okb. destruct (ch_is a1 ch_nl); [apply okub_ok|]. okb. apply okub_ok.
Qed.
Lemma parse_line_okub : forall sm cb annot line st it,
  okub (parse_line sm cb annot line st it).
Proof.
  intros. unfold parse_line. okb. okb. destruct a0 as [name i1]. okb.
  destruct name.
  - apply okub_bind; [apply parse_annotations_okub|]. intros [] _. apply parse_eol_okub.
  - apply okub_bind; [apply parse_range_okub|]. intros rg _. destruct rg.
    + okb. cbv zeta. apply okub_bind; [apply parse_assign_okub|]. intros [[[] ] ] _.
      apply okub_bind; [apply report_okub|]. intros.
      apply okub_bind; [apply parse_annotations_okub|]. intros [] _. apply parse_eol_okub.
    + okb. apply okub_ok.
    + okb. apply okub_ok.
Qed.

Lemma parse_line_shrinks : forall sm cb annot line st it st' r,
  parse_line sm cb annot line st it = Ok (st', r) ->
  (List.length r < List.length it)%nat.
Proof.
  intros. apply parse_line_split in H. destruct H as ((u & ->) & _).
  rewrite app_length. cbn. lia.
Qed.

Lemma parse_lines_okub : forall fuel sm cb annot line st it,
  (List.length it < fuel)%nat -> okub (parse_lines fuel sm cb annot line st it).
Proof.
  induction fuel as [|fuel IH]; intros sm cb annot line st it L; [lia|].
  cbn [parse_lines]. destruct it as [|c it]; [apply okub_ok|].
  apply okub_bind; [apply parse_line_okub|]. intros [st' r] E.
  apply parse_line_shrinks in E. apply IH. lia.
Qed.

Lemma parse_lines_fuel : forall f1 f2 sm cb annot line st it,
  (List.length it < f1)%nat -> (List.length it < f2)%nat ->
  parse_lines f1 sm cb annot line st it = parse_lines f2 sm cb annot line st it.
Proof.
  induction f1 as [|f1 IH]; intros f2 sm cb annot line st it L1 L2; [lia|].
  destruct f2 as [|f2]; [lia|]. cbn [parse_lines].
  destruct it as [|c it]; auto.
  destruct (parse_line sm cb annot (u32 (line + 1)) st (c :: it)) as [[st' r]| | | |] eqn:E; auto.
  cbn [obind]. apply parse_line_shrinks in E. apply IH; lia.
Qed.

(** The loop with enough fuel. *)
Definition lines (sm : shift_model) (cb : list event -> bool) (annot : bool)
    (line : N) (st : pstate) (it : text) : outcome pstate :=
  parse_lines (S (List.length it)) sm cb annot line st it.

Lemma lines_nil : forall sm cb annot line st, lines sm cb annot line st [] = Ok st.
Proof. reflexivity. Qed.

Lemma lines_step : forall sm cb annot line st it, it <> [] ->
  lines sm cb annot line st it
  = ('(st', r) <- parse_line sm cb annot (u32 (line + 1)) st it ;;
     lines sm cb annot (u32 (line + 1)) st' r).
Proof.
  intros sm cb annot line st it H. unfold lines at 1. cbn [parse_lines].
  destruct it as [|c it]; [contradiction|].
  destruct (parse_line sm cb annot (u32 (line + 1)) st (c :: it)) as [[st' r]| | | |] eqn:E; auto.
  cbn [obind]. apply parse_line_shrinks in E. unfold lines. apply parse_lines_fuel; lia.
Qed.

(** * Moving a parse: other line numbers, earlier calls, earlier result *)
Section Lift.
  Variables (h : list event) (k r0 : N).
  Definition lift (st : pstate) : pstate :=
    {| p_events := h ++ map (shift_event k) (p_events st);
       p_result := N.max r0 (p_result st) |}.
  Definition lift_cb (cb : list event -> bool) : list event -> bool :=
    fun e => cb (h ++ map (shift_event k) e).

  Lemma lift_raise : forall r st, lift (p_raise r st) = p_raise r (lift st).
  Proof. intros. unfold lift, p_raise; cbn. f_equal. lia. Qed.
  Lemma lift_emit : forall e st, lift (p_emit e st) = p_emit (shift_event k e) (lift st).
  Proof. intros. unfold lift, p_emit; cbn. now rewrite map_app, app_assoc. Qed.
  Lemma lift_raise_if : forall (c : bool) r st,
    lift (if c then p_raise r st else st) = (if c then p_raise r (lift st) else lift st).
  Proof. intros [] r st; auto using lift_raise. Qed.

  Lemma report_lift : forall sm cb line name mn w tot bs chunk st,
    report sm cb (u32 (line + k)) name mn w tot chunk bs (lift st)
    = omap lift (report sm (lift_cb cb) line name mn w tot chunk bs st).
  Proof.
    intros sm cb line name mn w tot. induction bs as [|v bs IH]; intros chunk st; cbn [report]; auto.
    cbv zeta. set (vw := if chunk =? tot - 1 then _ else 64). clearbody vw.
    destruct (clamp_mask sm vw) as [m| | | |]; cbn [obind omap]; auto.
    set (e := EFeature line name (u32 (mn + u32 (chunk * 64))) vw (N.land v m)).
    change (EFeature (u32 (line + k)) name (u32 (mn + u32 (chunk * 64))) vw (N.land v m))
      with (shift_event k e).
    rewrite <- lift_emit.
    replace (cb (p_events (lift (p_emit e st)))) with (lift_cb cb (p_events (p_emit e st))) by reflexivity.
    destruct (lift_cb cb (p_events (p_emit e st))); [apply IH|].
    cbn [omap obind]. now rewrite lift_raise.
  Qed.

  Lemma annotations_lift : forall fuel line name st it,
    annotations fuel (u32 (line + k)) name (lift st) it
    = omap (fun p => (lift (fst p), snd p)) (annotations fuel line name st it).
  Proof.
    induction fuel as [|fuel IH]; intros line name st it; cbn [annotations]; auto.
    destruct (skip_blank (tl it)) as [i1| | | |]; cbn [obind omap]; auto.
    destruct (read_ident i1) as [[an i2]| | | |]; cbn [obind omap]; auto.
    destruct (skip_blank i2) as [i3| | | |]; cbn [obind omap]; auto.
    destruct (peek i3) as [c3| | | |]; cbn [obind omap]; auto.
    destruct (negb (ch_is c3 "=")); [cbn [omap obind fst snd]; now rewrite lift_raise|].
    destruct (skip_blank (tl i3)) as [i4| | | |]; cbn [obind omap]; auto.
    destruct (peek i4) as [c4| | | |]; cbn [obind omap]; auto.
    destruct (negb (ch_is c4 ch_quote)); [cbn [omap obind fst snd]; now rewrite lift_raise|].
    destruct (scan_value ch_quote (tl i4)) as [[av i5]| | | |]; cbn [obind omap]; auto.
    destruct (peek i5) as [c5| | | |]; cbn [obind omap]; auto.
    destruct (ch_is c5 ch_nl); [cbn [omap obind fst snd]; now rewrite lift_raise|].
    cbv zeta. destruct (skip_blank (tl i5)) as [i6| | | |]; cbn [obind omap]; auto.
    destruct (peek i6) as [c6| | | |]; cbn [obind omap]; auto.
    change (EAnnotation (u32 (line + k)) name an av) with (shift_event k (EAnnotation line name an av)).
    rewrite <- lift_emit.
    destruct (ch_is c6 ","); [apply IH|reflexivity].
  Qed.

  Lemma parse_annotations_lift : forall annot line name st it,
    parse_annotations annot (u32 (line + k)) name (lift st) it
    = omap (fun p => (lift (fst p), snd p)) (parse_annotations annot line name st it).
  Proof.
    intros. unfold parse_annotations.
    destruct (peek it) as [c| | | |]; cbn [obind omap]; auto.
    destruct (ch_is c "{"); [|reflexivity].
    destruct annot.
    - rewrite annotations_lift.
      destruct (annotations (S (Datatypes.length it)) line name st it) as [[st1 i1]| | | |];
        cbn [obind omap fst snd]; auto.
      destruct (peek i1) as [c1| | | |]; cbn [obind omap]; auto.
      destruct (skip_to_eol i1) as [i2| | | |]; cbn [obind omap]; auto. cbn [fst snd].
      destruct (ch_is c1 "}"); [reflexivity|]. now rewrite lift_raise.
    - cbn [obind]. destruct (skip_to_eol it) as [i2| | | |]; cbn [obind omap]; auto.
  Qed.

  Lemma parse_eol_lift : forall st it,
    parse_eol (lift st) it = omap (fun p => (lift (fst p), snd p)) (parse_eol st it).
  Proof.
    intros. unfold parse_eol.
    destruct (peek it) as [c| | | |]; cbn [obind omap]; auto.
    destruct (if _ || _ then _ else _) as [i1| | | |]; cbn [obind omap]; auto.
    destruct (peek i1) as [c1| | | |]; cbn [obind omap]; auto.
    destruct (ch_is c1 ch_nl); [reflexivity|].
    destruct (skip_to_eol i1) as [i2| | | |]; cbn [obind omap fst snd]; auto.
    now rewrite lift_raise.
  Qed.

  Lemma parse_assign_lift : forall mx mn w st it,
    parse_assign mx mn w (lift st) it
    = omap (fun p => let '(b, w', st', r) := p in (b, w', lift st', r))
        (parse_assign mx mn w st it).
  Proof.
    intros. unfold parse_assign.
    destruct (peek it) as [c| | | |]; cbn [obind omap]; auto.
    destruct (ch_is c "=").
    2:{ cbn [omap obind]. destruct (mn =? mx); [reflexivity|]. now rewrite lift_raise. }
    destruct (skip_blank (tl it)) as [i1| | | |]; cbn [obind omap]; auto.
    destruct (peek i1) as [c1| | | |]; cbn [obind omap]; auto.
    destruct (if (_ <=? _)%Z then _ else _) as [[v i2]| | | |]; cbn [obind omap]; auto.
    destruct (skip_blank i2) as [i3| | | |]; cbn [obind omap]; auto.
    destruct (peek i3) as [c3| | | |]; cbn [obind omap]; auto.
    destruct (ch_is c3 ch_tick).
    - destruct (skip_blank (tl i3)) as [i4| | | |]; cbn [obind omap]; auto. cbv zeta.
      destruct (peek i4) as [c4| | | |]; cbn [obind omap]; auto.
      destruct (parse_based c4 (tl i4)) as [[[bs bad] i5]| | | |]; cbn [obind omap]; auto.
      destruct (skip_blank i5) as [i6| | | |]; cbn [obind omap]; auto.
      rewrite !lift_raise_if. reflexivity.
    - cbv zeta. cbn [omap obind]. rewrite lift_raise_if. reflexivity.
  Qed.

  Lemma parse_line_lift : forall sm cb annot line st it,
    parse_line sm cb annot (u32 (line + k)) (lift st) it
    = omap (fun p => (lift (fst p), snd p)) (parse_line sm (lift_cb cb) annot line st it).
  Proof.
    intros. unfold parse_line.
    destruct (skip_blank it) as [i1| | | |]; cbn [obind omap]; auto.
    destruct (read_ident i1) as [[name i2]| | | |]; cbn [obind omap]; auto.
    destruct (skip_blank i2) as [i3| | | |]; cbn [obind omap]; auto.
    destruct name as [|n0 ns].
    - rewrite parse_annotations_lift.
      destruct (parse_annotations annot line [] st i3) as [[st1 i4]| | | |]; cbn [obind omap fst snd]; auto.
      apply parse_eol_lift.
    - destruct (parse_range i3) as [rg| | | |]; cbn [obind omap]; auto.
      destruct rg as [mx mn i4|i4|i4].
      + destruct (skip_blank i4) as [i5| | | |]; cbn [obind omap]; auto. cbv zeta.
        rewrite parse_assign_lift.
        destruct (parse_assign mx mn (u32 (mx - mn + 1)) st i5) as [[[[bs w] st1] i6]| | | |];
          cbn [obind omap]; auto.
        rewrite report_lift.
        destruct (report sm (lift_cb cb) line (n0 :: ns) mn w (N.of_nat (Datatypes.length bs)) 0 bs st1)
          as [st2| | | |]; cbn [obind omap]; auto.
        rewrite parse_annotations_lift.
        destruct (parse_annotations annot line (n0 :: ns) st2 i6) as [[st3 i7]| | | |];
          cbn [obind omap fst snd]; auto.
        apply parse_eol_lift.
      + destruct (skip_to_eol i4) as [i5| | | |]; cbn [obind omap fst snd]; auto. now rewrite lift_raise.
      + destruct (skip_to_eol i4) as [i5| | | |]; cbn [obind omap fst snd]; auto. now rewrite lift_raise.
  Qed.

  Lemma u32_add : forall a b, u32 (u32 a + b) = u32 (a + b).
  Proof. intros. unfold u32. now rewrite N.add_mod_idemp_l by apply pow2_nz. Qed.

  Lemma parse_lines_lift : forall fuel sm cb annot line st it,
    parse_lines fuel sm cb annot (u32 (line + k)) (lift st) it
    = omap lift (parse_lines fuel sm (lift_cb cb) annot line st it).
  Proof.
    induction fuel as [|fuel IH]; intros; cbn [parse_lines]; auto.
    destruct it as [|c it]; auto.
    assert (E : u32 (u32 (line + k) + 1) = u32 (u32 (line + 1) + k)).
    { rewrite !u32_add. f_equal. lia. }
    cbv zeta. rewrite E, parse_line_lift.
    destruct (parse_line sm (lift_cb cb) annot (u32 (line + 1)) st (c :: it)) as [[st1 r]| | | |];
      cbn [obind omap fst snd]; auto.
  Qed.
End Lift.

(** * Lines *)
Lemma good_line_rest : forall p, good_line p -> line_rest (p ++ newline).
Proof. intros p (H1 & H2). exists p. auto. Qed.

Definition start_state : pstate := {| p_events := []; p_result := kSuccess |}.

Lemma lines_app : forall sm cb annot ps, Forall good_line ps ->
  forall line st b,
  lines sm cb annot line st (unlines ps ++ b)
  = (st' <- lines sm cb annot line st (unlines ps) ;;
     lines sm cb annot (u32 (line + N.of_nat (List.length ps)) ) st' b).
Proof.
  intros sm cb annot ps H.
  assert (U : forall line, u32 (u32 line) = u32 line).
  { intros. unfold u32. now rewrite N.mod_mod by apply pow2_nz. }
  assert (LU : forall line st it, lines sm cb annot (u32 line) st it = lines sm cb annot line st it).
  { intros line st it. destruct it; [reflexivity|].
    rewrite !lines_step by discriminate. rewrite u32_add. reflexivity. }
  induction H as [|p ps Hp Hps IH]; intros line st b.
  - cbn [unlines map concat app List.length N.of_nat]. rewrite lines_nil. cbn [obind].
    rewrite N.add_0_r. now rewrite LU.
  - change (unlines (p :: ps)) with ((p ++ newline) ++ unlines ps).
    rewrite <- app_assoc.
    assert (NE : forall x, (p ++ newline) ++ x <> []) by (intros x; destruct p; discriminate).
    rewrite !lines_step by apply NE.
    destruct (parse_line_local sm cb annot (u32 (line + 1)) st (p ++ newline) (good_line_rest p Hp))
      as (L & HL & _ & _).
    rewrite !HL. destruct L as [st1| | | |]; cbn [omap obind]; auto.
    rewrite IH. destruct (lines sm cb annot (u32 (line + 1)) st1 (unlines ps)) as [st2| | | |];
      cbn [obind]; auto.
    f_equal. rewrite u32_add. f_equal. cbn [List.length]. lia.
Qed.

Lemma unlines_last : forall ps, ps <> [] -> unlines ps <> [] /\ last (unlines ps) ch_nl = ch_nl.
Proof.
  intros ps H. induction ps as [|p ps IH]; [contradiction|].
  change (unlines (p :: ps)) with ((p ++ newline) ++ unlines ps).
  destruct ps as [|p' ps].
  - cbn [unlines map concat]. rewrite !app_nil_r. split; [destruct p; discriminate|].
    apply (last_last p ch_nl ch_nl).
  - destruct IH as (I1 & I2); [discriminate|]. split; [destruct p; discriminate|].
    destruct (exists_last I1) as (x & y & E). rewrite E in *.
    rewrite (last_last x y ch_nl) in I2. subst y.
    rewrite app_assoc. apply (last_last _ ch_nl ch_nl).
Qed.

Lemma fasm_parse_lines : forall sm cb annot t, nl_text t ->
  fasm_parse sm cb annot t = lines sm cb annot 0 start_state t.
Proof.
  intros sm cb annot t H. unfold fasm_parse, lines. destruct t as [|c t]; auto.
  destruct H as [H|H]; [discriminate|].
  unfold ch_nl at 1. rewrite H. reflexivity.
Qed.

Lemma nl_unlines : forall ps, nl_text (unlines ps).
Proof.
  intros [|p ps]; [now left|right]. apply unlines_last. discriminate.
Qed.

Lemma last_app_ne : forall (A : Type) (a b : list A) d, b <> [] -> last (a ++ b) d = last b d.
Proof.
  intros A a b d H. destruct (exists_last H) as (x & y & ->).
  now rewrite app_assoc, !last_last.
Qed.

Lemma nl_app : forall ps b, nl_text b -> nl_text (unlines ps ++ b).
Proof.
  intros ps b [->|H]; [rewrite app_nil_r; apply nl_unlines|].
  destruct b as [|c b]; [rewrite app_nil_r; apply nl_unlines|].
  right. rewrite last_app_ne by discriminate. exact H.
Qed.

Theorem parse_concat : forall sm cb annot ps b, Forall good_line ps -> nl_text b ->
  fasm_parse sm cb annot (unlines ps ++ b)
  = (sa <- fasm_parse sm cb annot (unlines ps) ;;
     sb <- fasm_parse sm (fun h => cb (p_events sa ++ map (shift_event (N.of_nat (List.length ps))) h))
             annot b ;;
     Ok {| p_events := p_events sa
             ++ map (shift_event (N.of_nat (List.length ps))) (p_events sb);
           p_result := N.max (p_result sa) (p_result sb) |}).
Proof.
  intros sm cb annot ps b H Hb.
  rewrite !fasm_parse_lines by auto using nl_app, nl_unlines.
  rewrite lines_app by auto.
  destruct (lines sm cb annot 0 start_state (unlines ps)) as [sa| | | |]; cbn [obind]; auto.
  rewrite fasm_parse_lines by auto.
  set (k := N.of_nat (Datatypes.length ps)).
  assert (E : sa = lift (p_events sa) k (p_result sa) start_state).
  { unfold lift, start_state. cbn [p_events p_result map]. rewrite app_nil_r.
    destruct sa as [e r]. cbn. f_equal. unfold kSuccess. lia. }
  rewrite E at 1. unfold lines. rewrite parse_lines_lift. reflexivity.
Qed.

(** * Memory safety *)
Lemma lines_hw_ok : forall cb annot ps, Forall good_line ps -> forall line st,
  exists st', lines Hw cb annot line st (unlines ps) = Ok st'.
Proof.
  intros cb annot ps H. induction H as [|p ps Hp Hps IH]; intros line st; [cbn; eauto|].
  change (unlines (p :: ps)) with ((p ++ newline) ++ unlines ps).
  rewrite lines_step by (destruct p; discriminate).
  destruct (parse_line_local Hw cb annot (u32 (line + 1)) st (p ++ newline) (good_line_rest p Hp))
    as (L & HL & [->|(st' & ->)] & HU); [contradiction HU; auto|].
  rewrite HL. cbn [omap obind]. apply IH.
Qed.

(** * The file of a list of items *)
Lemma lines_items : forall sm cb, agrees cb ->
  forall l, Forall (fun i => item_shape i /\ item_in_range i) l ->
  forall line st, line + N.of_nat (List.length l) < 2 ^ 32 ->
  lines sm cb true line st (file_text l)
  = Ok {| p_events := p_events st ++ file_events (line + 1) l;
          p_result := fold_left N.max (map item_severity l) (p_result st) |}.
Proof.
  intros sm cb Hcb l H. induction H as [|i l (Hs & Hr) Hl IH]; intros line st HL.
  - cbn. rewrite app_nil_r. destruct st; reflexivity.
  - change (file_text (i :: l)) with (item_text i ++ file_text l).
    rewrite lines_step.
    2:{ unfold item_text. intros E. apply app_eq_nil in E. destruct E as [E _].
        apply app_eq_nil in E. destruct E as [_ E]. apply app_eq_nil in E. destruct E as [_ E].
        apply app_eq_nil in E. destruct E as [_ E]. discriminate. }
    cbn [List.length] in HL.
    assert (U : u32 (line + 1) = line + 1) by (apply N.mod_small; lia).
    rewrite U, parse_item by auto. cbn [obind]. rewrite IH by lia.
    cbn [p_raise p_emits p_events p_result map fold_left file_events].
    now rewrite <- app_assoc.
Qed.

Lemma item_text_nl : forall i t, nl_text t -> nl_text (item_text i ++ t).
Proof.
  intros i t H. unfold item_text. rewrite <- !app_assoc. right.
  rewrite !app_assoc. destruct t as [|c t].
  - rewrite app_nil_r. apply last_last.
  - destruct H as [H|H]; [discriminate|]. rewrite last_app_ne by discriminate. exact H.
Qed.

Lemma file_text_nl : forall l, nl_text (file_text l).
Proof. induction l as [|i l IH]; [now left|]. apply (item_text_nl i (file_text l) IH). Qed.

(** * Accepted files *)
Lemma lines_accepted : forall sm cb n line st it st', (List.length it <= n)%nat ->
  lines sm cb true line st it = Ok st' ->
  p_result st <= p_result st'
  /\ (p_result st' < kSkipped -> exists l, Forall item_shape l /\ it = file_text l).
Proof.
  intros sm cb. induction n as [|n IH]; intros line st it st' L H.
  - destruct it; [|cbn in L; lia]. cbn in H. inversion H; subst. split; [lia|].
    intros _. exists []. split; [constructor|reflexivity].
  - destruct it as [|c it].
    + cbn in H. inversion H; subst. split; [lia|]. intros _. exists []. split; [constructor|reflexivity].
    + rewrite lines_step in H by discriminate. binv H. destruct v as [st1 r].
      pose proof (parse_line_shrinks _ _ _ _ _ _ _ _ E) as SH.
      apply parse_line_split in E. destruct E as (_ & LE & SHP).
      apply IH in H; [|lia]. destruct H as (LE2 & FT).
      split; [lia|]. intros LT. destruct (FT LT) as (l & Fl & ->).
      destruct (SHP eq_refl ltac:(lia)) as (i & Hi & ->).
      exists (i :: l). split; [constructor; auto|reflexivity].
Qed.

(** * The two readings of the shift *)
Lemma clamp_iso_hw : forall vw m, clamp_mask Iso vw = Ok m -> clamp_mask Hw vw = Ok m.
Proof.
  intros vw m. unfold clamp_mask.
  destruct (N.ltb_spec ((64 + 2 ^ 32 - vw) mod 2 ^ 32) 64) as [L|L]; [|discriminate].
  intros [= <-]. now rewrite (N.mod_small _ 64 L).
Qed.

Lemma report_iso_hw : forall cb line name mn w tot bs chunk st st',
  report Iso cb line name mn w tot chunk bs st = Ok st' ->
  report Hw cb line name mn w tot chunk bs st = Ok st'.
Proof.
  intros cb line name mn w tot. induction bs as [|v bs IH]; intros chunk st st' H; cbn [report] in *; auto.
  binv H. rewrite (clamp_iso_hw _ _ E). cbn [obind]. destruct (cb _); auto.
Qed.

Lemma report_events : forall sm cb line name mn w tot bs chunk st st',
  report sm cb line name mn w tot chunk bs st = Ok st' ->
  exists l, p_events st' = p_events st ++ l.
Proof.
  intros sm cb line name mn w tot. induction bs as [|v bs IH]; intros chunk st st' H; cbn [report] in *.
  - inversion H; subst. exists []. now rewrite app_nil_r.
  - binv H. destruct (cb _).
    + destruct (IH _ _ _ H) as (l & ->). cbn. eexists. rewrite <- app_assoc. reflexivity.
    + inversion H; subst. cbn. eauto.
Qed.

Lemma annotations_events : forall fuel line name st it st' r,
  annotations fuel line name st it = Ok (st', r) ->
  exists l, p_events st' = p_events st ++ l
            /\ Forall (fun e => match e with EFeature _ _ _ _ _ => False | _ => True end) l.
Proof.
  induction fuel as [|fuel IH]; intros line name st it st' r H; [discriminate|].
  cbn [annotations] in H.
  bind H as i1 E1. bind H as [an i2] E2. bind H as i3 E3. bind H as c3 E4.
  destruct (negb _).
  { inversion H; subst. exists []. cbn. rewrite app_nil_r. auto. }
  bind H as i4 E5. bind H as c4 E6. destruct (negb _).
  { inversion H; subst. exists []. cbn. rewrite app_nil_r. auto. }
  bind H as [av i5] E7. bind H as c5 E8. destruct (ch_is c5 ch_nl).
  { inversion H; subst. exists []. cbn. rewrite app_nil_r. auto. }
  cbv zeta in H. bind H as i6 E9. bind H as c6 E10.
  destruct (ch_is c6 ",").
  - destruct (IH _ _ _ _ _ _ H) as (l & -> & Fl). cbn. eexists. rewrite <- app_assoc. split; [reflexivity|].
    constructor; auto.
  - inversion H; subst. cbn. eexists. split; [reflexivity|]. auto.
Qed.

Definition no_feature (l : list event) : Prop :=
  Forall (fun e => match e with EFeature _ _ _ _ _ => False | _ => True end) l.

Lemma parse_annotations_events : forall annot line name st it st' r,
  parse_annotations annot line name st it = Ok (st', r) ->
  exists l, p_events st' = p_events st ++ l /\ no_feature l.
Proof.
  unfold parse_annotations. intros annot line name st it st' r H. binv H.
  destruct (ch_is v "{").
  2:{ inversion H; subst. exists []. rewrite app_nil_r. split; auto. constructor. }
  bind H as [st1 i1] E0. bind H as i2 E1. inversion H; subst.
  destruct annot.
  - bind E0 as [st2 i3] E2. bind E0 as c3 E3. inversion E0; subst.
    apply annotations_events in E2. destruct E2 as (l & El & Fl). exists l. split; auto.
    destruct (ch_is c3 "}"); auto.
  - inversion E0; subst. exists []. rewrite app_nil_r. split; auto. constructor.
Qed.

Lemma parse_eol_events : forall st it st' r, parse_eol st it = Ok (st', r) ->
  p_events st' = p_events st.
Proof.
  unfold parse_eol. intros st it st' r H. bind H as c E1. bind H as i1 E2. bind H as c2 E3.
  destruct (ch_is c2 ch_nl); [inversion H; reflexivity|]. bind H as i3 E4. inversion H; reflexivity.
Qed.

(** The width of a reported chunk fits 32 bits. *)
Definition chunk_width (width total chunk : N) : N :=
  if chunk =? total - 1
  then u32 (u64 (width + 2 ^ 64 - u64 (64 * (total - 1))))
  else 64.

Lemma chunk_width_u32 : forall w t c, chunk_width w t c < 2 ^ 32.
Proof.
  intros. unfold chunk_width. destruct (c =? t - 1); [apply N.mod_lt, pow2_nz|reflexivity].
Qed.

Lemma clamp_iso_sane : forall vw, vw < 2 ^ 32 ->
  (exists m, clamp_mask Iso vw = Ok m) <-> 1 <= vw <= 64.
Proof.
  intros vw Hv. split.
  - intros (m & H). unfold clamp_mask in H.
    destruct (N.ltb_spec ((64 + 2 ^ 32 - vw) mod 2 ^ 32) 64) as [L|L]; [|discriminate].
    destruct (N.le_gt_cases vw 64) as [A|A].
    + split; auto. destruct (N.eq_dec vw 0) as [->|]; [|lia]. vm_compute in L. discriminate.
    + exfalso. rewrite N.mod_small in L by lia. lia.
  - intros H. rewrite clamp_mask_ok by auto. eauto.
Qed.

Lemma report_iso_iff : forall cb line name mn w tot bs chunk st st' l,
  report Hw cb line name mn w tot chunk bs st = Ok st' ->
  p_events st' = p_events st ++ l ->
  (Forall sane_event l <-> report Iso cb line name mn w tot chunk bs st = Ok st').
Proof.
  intros cb line name mn w tot. induction bs as [|v bs IH]; intros chunk st st' l H HE; cbn [report] in *.
  - inversion H; subst. split; auto. intros _.
    rewrite <- (app_nil_r (p_events st')) in HE at 1. apply app_inv_head in HE. subst. constructor.
  - fold (chunk_width w tot chunk) in *.
    pose proof (chunk_width_u32 w tot chunk) as CW. set (vw := chunk_width w tot chunk) in *. clearbody vw.
    pose proof (clamp_iso_sane vw CW) as CS.
    destruct (clamp_mask Hw vw) as [m| | | |] eqn:EM; try discriminate. cbn [obind] in H.
    set (e := EFeature line name (u32 (mn + u32 (chunk * 64))) vw (N.land v m)) in *.
    assert (HL : exists l', l = e :: l' /\ (cb (p_events (p_emit e st)) = true ->
                p_events st' = p_events (p_emit e st) ++ l')
                /\ (cb (p_events (p_emit e st)) = false -> l' = [])).
    { destruct (cb (p_events (p_emit e st))) eqn:CB.
      - destruct (report_events _ _ _ _ _ _ _ _ _ _ _ H) as (l' & El').
        exists l'. split; [|split; [auto|discriminate]].
        cbn in El'. rewrite El', <- app_assoc in HE. apply app_inv_head in HE. symmetry. exact HE.
      - inversion H; subst. cbn in HE. apply app_inv_head in HE. exists []. split; auto.
        split; [discriminate|auto]. }
    destruct HL as (l' & -> & H1 & H2). split.
    + intros F. inversion F as [|? ? Se Fl]; subst. cbn in Se.
      destruct (proj2 CS Se) as (m' & EI). pose proof (clamp_iso_hw _ _ EI) as EH.
      rewrite EM in EH. inversion EH; subst m'. rewrite EI. cbn [obind]. fold e.
      destruct (cb (p_events (p_emit e st))) eqn:CB; auto.
      apply (IH _ _ _ l'); auto.
    + intros R. binv R. pose proof (clamp_iso_hw _ _ E) as EH. rewrite EM in EH. inversion EH; subst v0.
      fold e in R. constructor; [cbn; apply CS; eauto|].
      destruct (cb (p_events (p_emit e st))) eqn:CB.
      * apply (IH _ _ _ l') in H; auto. apply H. exact R.
      * rewrite H2 by auto. constructor.
Qed.

Lemma no_feature_sane : forall l, no_feature l -> Forall sane_event l.
Proof. intros l. apply Forall_impl. intros [] H; [contradiction|exact I]. Qed.

Lemma parse_line_iso_iff : forall cb annot line st it st' r l,
  parse_line Hw cb annot line st it = Ok (st', r) ->
  p_events st' = p_events st ++ l ->
  (Forall sane_event l <-> parse_line Iso cb annot line st it = Ok (st', r)).
Proof.
  intros cb annot line st it st' r l H HE. unfold parse_line in *.
  bind H as i0 E. rewrite E. cbn [obind]. bind H as [name i1] E0. rewrite E0. cbn [obind].
  bind H as i1' E1. rewrite E1. cbn [obind].
  destruct name as [|n0 ns].
  - bind H as [st1 i2] E2. rewrite E2. cbn [obind].
    apply parse_annotations_events in E2. destruct E2 as (l1 & El1 & NF).
    pose proof (parse_eol_events _ _ _ _ H) as EE. rewrite HE, El1 in EE.
    apply app_inv_head in EE. subst l. split; auto. intros _. now apply no_feature_sane.
  - bind H as rg E2. rewrite E2. cbn [obind]. destruct rg as [mx mn i2|i2|i2].
    + bind H as i2' E3. rewrite E3. cbn [obind]. cbv zeta in *. bind H as [[[bs w] st1] i3] E4'.
      rewrite E4'. cbn [obind].
      apply parse_assign_split in E4'. destruct E4' as (_ & _ & EV & _).
      bind H as st2 E4. destruct (report_events _ _ _ _ _ _ _ _ _ _ _ E4) as (l1 & El1).
      pose proof (report_iso_iff _ _ _ _ _ _ _ _ _ _ _ E4 El1) as RI.
      bind H as [st3 i4] E5.
      pose proof (parse_annotations_events _ _ _ _ _ _ _ E5) as (l2 & El2 & NF).
      pose proof (parse_eol_events _ _ _ _ H) as EE. rewrite HE, El2, El1, EV in EE.
      rewrite <- app_assoc in EE. apply app_inv_head in EE. subst l.
      rewrite Forall_app. split.
      * intros (F1 & _). apply RI in F1. rewrite F1. cbn [obind]. rewrite E5. exact H.
      * intros R. bind R as st2' E6. split; [|now apply no_feature_sane]. apply RI.
        pose proof (report_iso_hw _ _ _ _ _ _ _ _ _ _ E6). congruence.
    + bind H as i2' E3. rewrite E3. cbn [obind]. split; auto. intros _. inversion H; subst. cbn in HE.
      rewrite <- (app_nil_r (p_events st)) in HE at 1. apply app_inv_head in HE. subst. constructor.
    + bind H as i2' E3. rewrite E3. cbn [obind]. split; auto. intros _. inversion H; subst. cbn in HE.
      rewrite <- (app_nil_r (p_events st)) in HE at 1. apply app_inv_head in HE. subst. constructor.
Qed.

Lemma parse_line_events : forall sm cb annot line st it st' r,
  parse_line sm cb annot line st it = Ok (st', r) ->
  exists l, p_events st' = p_events st ++ l.
Proof.
  intros sm cb annot line st it st' r H. unfold parse_line in *.
  bind H as i0 E. bind H as [name i1] E0. bind H as i1' E1.
  destruct name as [|n0 ns].
  - bind H as [st1 i2] E2.
    apply parse_annotations_events in E2. destruct E2 as (l1 & El1 & NF).
    apply parse_eol_events in H. exists l1. congruence.
  - bind H as rg E2. destruct rg as [mx mn i2|i2|i2].
    + bind H as i2' E3. cbv zeta in *. bind H as [[[bs w] st1] i3] E4'.
      apply parse_assign_split in E4'. destruct E4' as (_ & _ & EV & _).
      bind H as st2 E4. destruct (report_events _ _ _ _ _ _ _ _ _ _ _ E4) as (l1 & El1).
      bind H as [st3 i4] E5.
      apply parse_annotations_events in E5. destruct E5 as (l2 & El2 & NF).
      apply parse_eol_events in H. exists (l1 ++ l2). rewrite H, El2, El1, EV. now rewrite app_assoc.
    + bind H as i2' E3. inversion H; subst. exists []. cbn. now rewrite app_nil_r.
    + bind H as i2' E3. inversion H; subst. exists []. cbn. now rewrite app_nil_r.
Qed.

Lemma lines_events : forall sm cb annot n line st it st', (List.length it <= n)%nat ->
  lines sm cb annot line st it = Ok st' -> exists l, p_events st' = p_events st ++ l.
Proof.
  intros sm cb annot. induction n as [|n IH]; intros line st it st' L H;
    (destruct it as [|c it]; [cbn in H; inversion H; subst; exists []; now rewrite app_nil_r|]);
    [cbn in L; lia|].
  rewrite lines_step in H by discriminate. bind H as [st1 r] E.
  pose proof (parse_line_shrinks _ _ _ _ _ _ _ _ E). apply parse_line_events in E. destruct E as (l1 & E1).
  destruct (IH _ _ r _ ltac:(lia) H) as (l2 & E2). exists (l1 ++ l2). rewrite E2, E1. now rewrite app_assoc.
Qed.

Lemma lines_iso_iff : forall cb annot n line st it st' l, (List.length it <= n)%nat ->
  lines Hw cb annot line st it = Ok st' -> p_events st' = p_events st ++ l ->
  (Forall sane_event l <-> lines Iso cb annot line st it = Ok st').
Proof.
  intros cb annot. induction n as [|n IH]; intros line st it st' l L H HE.
  - destruct it as [|c it]; [|cbn in L; lia]. cbn in H. inversion H; subst. split; auto. intros _.
    rewrite <- (app_nil_r (p_events st')) in HE at 1. apply app_inv_head in HE. subst. constructor.
  - destruct it as [|c it].
    { cbn in H. inversion H; subst. split; auto. intros _.
      rewrite <- (app_nil_r (p_events st')) in HE at 1. apply app_inv_head in HE. subst. constructor. }
    rewrite lines_step in H |- * by discriminate. bind H as [st1 r] E.
    pose proof (parse_line_shrinks _ _ _ _ _ _ _ _ E).
    destruct (parse_line_events _ _ _ _ _ _ _ _ E) as (l1 & E1).
    destruct (lines_events _ _ _ n _ _ r _ ltac:(lia) H) as (l2 & E2).
    pose proof (parse_line_iso_iff _ _ _ _ _ _ _ _ E E1) as P1.
    pose proof (IH _ _ r _ _ ltac:(lia) H E2) as P2.
    assert (l = l1 ++ l2).
    { rewrite HE, E1, <- app_assoc in E2. now apply app_inv_head in E2. }
    subst l. rewrite Forall_app. rewrite P1, P2. split.
    + intros (A & B). rewrite A. exact B.
    + intros R. bind R as [st2 r2] E0.
      assert (X : parse_line Hw cb annot (u32 (line + 1)) st (c :: it) = Ok (st2, r2)).
      { (* an Iso run that ends normally is the Hw run *)
        clear - E0. unfold parse_line in *.
        repeat (let v := fresh "v" in let E := fresh "E" in
                match type of E0 with
                | obind (report _ _ _ _ _ _ _ _ _ _) _ = Ok _ =>
                    apply obind_inv in E0; destruct E0 as (v & E & E0);
                    rewrite (report_iso_hw _ _ _ _ _ _ _ _ _ _ E); cbn [obind]
                | obind _ _ = Ok _ =>
                    apply obind_inv in E0; destruct E0 as (v & E & E0); rewrite E; cbn [obind]
                | match ?x with _ => _ end = Ok _ => destruct x
                | (let '_ := ?x in _) = Ok _ => destruct x
                end; cbv zeta in *); auto. }
      rewrite E in X. inversion X; subst. auto.
Qed.

(** * Aborts *)

Lemma report_abort : forall sm cb line name mn w tot bs chunk st st',
  report sm cb line name mn w tot chunk bs st = Ok st' -> p_result st' < kUserAbort ->
  exists l, p_events st' = p_events st ++ l
    /\ forall a e b, l = a ++ e :: b -> cb (p_events st ++ a ++ [e]) = true.
Proof.
  intros sm cb line name mn w tot. induction bs as [|v bs IH]; intros chunk st st' H LT; cbn [report] in *.
  - inversion H; subst. exists []. split; [now rewrite app_nil_r|]. intros [|] ? ? X; discriminate X.
  - binv H. destruct (cb (p_events (p_emit _ st))) eqn:CB.
    + destruct (IH _ _ _ H LT) as (l & El & HL). cbn in El. eexists. split.
      * rewrite El, <- app_assoc. reflexivity.
      * intros [|a0 a] e b X; cbn in X; inversion X; subst.
        -- exact CB.
        -- specialize (HL a e b eq_refl). cbn in HL. rewrite <- app_assoc in HL. exact HL.
    + inversion H; subst. cbn in LT. lia.
Qed.

Lemma parse_line_abort : forall sm cb annot line st it st' r,
  parse_line sm cb annot line st it = Ok (st', r) -> p_result st' < kUserAbort ->
  exists l, p_events st' = p_events st ++ l
    /\ forall a ln n s w v b, l = a ++ EFeature ln n s w v :: b ->
       cb (p_events st ++ a ++ [EFeature ln n s w v]) = true.
Proof.
  intros sm cb annot line st it st' r H LT. unfold parse_line in *.
  bind H as i0 E. bind H as [name i1] E0. bind H as i1' E1.
  assert (NF : forall l a e b, no_feature l -> l = a ++ e :: b ->
     match e with EFeature _ _ _ _ _ => False | _ => True end).
  { intros l a e b F X. subst l. apply Forall_app in F. destruct F as (_ & F). now inversion F. }
  destruct name as [|n0 ns].
  - bind H as [st1 i2] E2.
    apply parse_annotations_events in E2. destruct E2 as (l1 & El1 & F).
    apply parse_eol_events in H. exists l1. split; [congruence|].
    intros a ln n s w v1 b X. destruct (NF _ _ _ _ F X).
  - bind H as rg E2. destruct rg as [mx mn i2|i2|i2].
    + bind H as i2' E3. cbv zeta in *. bind H as [[[bs w] st1] i3] E4'.
      apply parse_assign_split in E4'. destruct E4' as (_ & LE1 & EV & _).
      bind H as st2 E4. bind H as [st3 i4] E5.
      pose proof (parse_annotations_split _ _ _ _ _ _ _ E5) as (_ & LE3 & _).
      pose proof (parse_eol_split _ _ _ _ H) as (_ & LE4 & _).
      destruct (report_abort _ _ _ _ _ _ _ _ _ _ _ E4) as (l1 & El1 & HL1); [lia|].
      apply parse_annotations_events in E5. destruct E5 as (l2 & El2 & F).
      apply parse_eol_events in H. exists (l1 ++ l2). split.
      * rewrite H, El2, El1, EV. now rewrite app_assoc.
      * intros a ln n s w' v3 b X. rewrite <- EV.
        assert (D : (exists b', l1 = a ++ EFeature ln n s w' v3 :: b') \/ exists a', l2 = a' ++ EFeature ln n s w' v3 :: b).
        { clear - X. revert X. generalize (EFeature ln n s w' v3). intros e0 X. revert a X. induction l1 as [|x l1 IH]; intros a X.
          - right. exists a. exact X.
          - destruct a as [|y a]; cbn in X; inversion X; subst.
            + left. exists l1. reflexivity.
            + destruct (IH a H1) as [(b' & ->)|R]; [left; exists b'; reflexivity|right; exact R]. }
        destruct D as [(b' & D)|(a' & D)]; [eapply HL1; eauto|].
        destruct (NF _ _ _ _ F D).
    + bind H as i2' E3. inversion H; subst. exists []. cbn. split; [now rewrite app_nil_r|].
      intros [] ? ? ? ? ? ? X; discriminate X.
    + bind H as i2' E3. inversion H; subst. exists []. cbn. split; [now rewrite app_nil_r|].
      intros [] ? ? ? ? ? ? X; discriminate X.
Qed.

Lemma lines_abort : forall sm cb annot n line st it st', (List.length it <= n)%nat ->
  lines sm cb annot line st it = Ok st' -> p_result st' < kUserAbort ->
  exists l, p_events st' = p_events st ++ l
    /\ forall a ln f s w v b, l = a ++ EFeature ln f s w v :: b ->
       cb (p_events st ++ a ++ [EFeature ln f s w v]) = true.
Proof.
  intros sm cb annot. induction n as [|n IH]; intros line st it st' L H LT;
    (destruct it as [|c it]; [cbn in H; inversion H; subst; exists []; split;
       [now rewrite app_nil_r| intros [|] ? ? ? ? ? ? X; discriminate X]|]);
    [cbn in L; lia|].
  rewrite lines_step in H by discriminate. bind H as [st1 r] E.
  pose proof (parse_line_shrinks _ _ _ _ _ _ _ _ E) as SH.
  destruct (IH _ _ r _ ltac:(lia) H LT) as (l2 & E2 & H2).
  assert (LE : p_result st1 <= p_result st').
  { clear - H. revert H. generalize (u32 (line + 1)).
    remember (List.length r) as m eqn:Em. assert (M : (List.length r <= m)%nat) by lia. clear Em.
    revert r st1 M. induction m as [|m IH]; intros r st1 M ln H;
      (destruct r as [|c r]; [cbn in H; inversion H; subst; lia|]); [cbn in M; lia|].
    rewrite lines_step in H by discriminate. bind H as [st2 r2] E.
    pose proof (parse_line_shrinks _ _ _ _ _ _ _ _ E).
    apply parse_line_split in E. destruct E as (_ & LE & _).
    pose proof (IH r2 st2 ltac:(lia) _ H). lia. }
  destruct (parse_line_abort _ _ _ _ _ _ _ _ E) as (l1 & E1 & H1); [lia|].
  exists (l1 ++ l2). split; [rewrite E2, E1; now rewrite app_assoc|].
  intros a ln f s w v b X.
  assert (D : (exists b', l1 = a ++ EFeature ln f s w v :: b')
              \/ exists a', a = l1 ++ a' /\ l2 = a' ++ EFeature ln f s w v :: b).
  { clear - X. revert X. generalize (EFeature ln f s w v). intros e0 X. revert a X.
    induction l1 as [|x l1 IH]; intros a X.
    - right. exists a. split; auto.
    - destruct a as [|y a]; cbn in X; inversion X; subst.
      + left. exists l1. reflexivity.
      + destruct (IH a H1) as [(b' & ->)|(a' & -> & ->)]; [left; exists b'|right; exists a']; auto. }
  destruct D as [(b' & D)|(a' & -> & D)]; [eapply H1; eauto|].
  specialize (H2 _ _ _ _ _ _ _ D). rewrite E1, <- app_assoc in H2.
  rewrite <- app_assoc. exact H2.
Qed.

(** Only a refusal gives kUserAbort. *)
Lemma raise_no_abort : forall r st, r <> kUserAbort -> p_result st <> kUserAbort ->
  p_result (p_raise r st) <> kUserAbort.
Proof. intros r st A B. cbn [p_raise p_result]. lia. Qed.

Lemma report_no_abort : forall sm cb line name mn w tot bs chunk st st', agrees cb ->
  report sm cb line name mn w tot chunk bs st = Ok st' -> p_result st <> kUserAbort ->
  p_result st' <> kUserAbort.
Proof.
  intros sm cb line name mn w tot. induction bs as [|v bs IH]; intros chunk st st' A H N; cbn [report] in *.
  - inversion H; subst; auto.
  - binv H. rewrite A in H. eapply IH; eauto.
Qed.

Lemma annotations_no_abort : forall fuel line name st it st' r,
  annotations fuel line name st it = Ok (st', r) -> p_result st <> kUserAbort ->
  p_result st' <> kUserAbort.
Proof.
  induction fuel as [|fuel IH]; intros line name st it st' r H N; [discriminate|].
  cbn [annotations] in H. binv H. bind H as [an i] E1. binv H. binv H.
  destruct (negb _) in H; [inversion H; subst; apply raise_no_abort; auto; discriminate|].
  binv H. binv H.
  destruct (negb _) in H; [inversion H; subst; apply raise_no_abort; auto; discriminate|].
  bind H as [av i'] E6. binv H.
  destruct (ch_is _ ch_nl) in H; [inversion H; subst; apply raise_no_abort; auto; discriminate|].
  binv H. binv H. destruct (ch_is _ ",") in H; [eapply IH; eauto|]. inversion H; subst. exact N.
Qed.

Lemma parse_annotations_no_abort : forall annot line name st it st' r,
  parse_annotations annot line name st it = Ok (st', r) -> p_result st <> kUserAbort ->
  p_result st' <> kUserAbort.
Proof.
  intros annot line name st it st' r H N. unfold parse_annotations in H. binv H.
  destruct (ch_is _ "{"); [|inversion H; subst; auto].
  bind H as [s1 i1] E1. binv H. inversion H; subst. destruct annot.
  - bind E1 as [s2 i2] E2. binv E1. apply annotations_no_abort in E2; auto.
    inversion E1; subst. destruct (ch_is _ "}"); auto. apply raise_no_abort; auto; discriminate.
  - inversion E1; subst; auto.
Qed.

Lemma parse_eol_no_abort : forall st it st' r,
  parse_eol st it = Ok (st', r) -> p_result st <> kUserAbort -> p_result st' <> kUserAbort.
Proof.
  intros st it st' r H N. unfold parse_eol in H. binv H. binv H. binv H.
  destruct (ch_is _ ch_nl) in H; [inversion H; subst; auto|]. binv H. inversion H; subst.
  apply raise_no_abort; auto; discriminate.
Qed.

Lemma parse_assign_no_abort : forall mx mn w st it bs w' st' r,
  parse_assign mx mn w st it = Ok (bs, w', st', r) -> p_result st <> kUserAbort ->
  p_result st' <> kUserAbort.
Proof.
  intros mx mn w st it bs w' st' r H N. unfold parse_assign in H.
  assert (R : forall (b : bool) k s, k <> kUserAbort -> p_result s <> kUserAbort ->
     p_result (if b then p_raise k s else s) <> kUserAbort).
  { intros [] k s A B; auto using raise_no_abort. }
  binv H. destruct (ch_is _ "=").
  - binv H. binv H. bind H as [vw i] E2. binv H. binv H. destruct (ch_is _ ch_tick).
    + binv H. cbv zeta in H. binv H. bind H as [[bs0 bad] i1] E7. binv H. inversion H; subst.
      repeat apply R; auto; discriminate.
    + inversion H; subst. apply R; auto; discriminate.
  - destruct (mn =? mx) in H; inversion H; subst; auto. apply raise_no_abort; auto; discriminate.
Qed.

Lemma parse_line_no_abort : forall sm cb annot line st it st' r, agrees cb ->
  parse_line sm cb annot line st it = Ok (st', r) -> p_result st <> kUserAbort ->
  p_result st' <> kUserAbort.
Proof.
  intros sm cb annot line st it st' r A H N. unfold parse_line in *.
  bind H as i0 E. bind H as [name i1] E0. bind H as i1' E1. destruct name as [|n0 ns].
  - bind H as [st1 i2] E2. eapply parse_eol_no_abort; eauto using parse_annotations_no_abort.
  - bind H as rg E2. destruct rg as [mx mn i2|i2|i2].
    + bind H as i2' E3. cbv zeta in *. bind H as [[[bs w] st1] i3] E4'.
      bind H as st2 E4. bind H as [st3 i4] E5.
      eapply parse_eol_no_abort; eauto. eapply parse_annotations_no_abort; eauto.
      eapply report_no_abort; eauto. eapply parse_assign_no_abort; eauto.
    + bind H as i2' E3. inversion H; subst. apply raise_no_abort; auto; discriminate.
    + bind H as i2' E3. inversion H; subst. apply raise_no_abort; auto; discriminate.
Qed.

Lemma lines_no_abort : forall sm cb annot, agrees cb -> forall n line st it st',
  (List.length it <= n)%nat ->
  lines sm cb annot line st it = Ok st' -> p_result st <> kUserAbort -> p_result st' <> kUserAbort.
Proof.
  intros sm cb annot A. induction n as [|n IH]; intros line st it st' L H N;
    (destruct it as [|c it]; [cbn in H; inversion H; subst; auto|]); [cbn in L; lia|].
  rewrite lines_step in H by discriminate. bind H as [st1 r] E.
  pose proof (parse_line_shrinks _ _ _ _ _ _ _ _ E) as SH.
  eapply (IH _ _ r); eauto; [lia|]. eapply parse_line_no_abort; eauto.
Qed.
