(** C38 for every consumer: exactly what it is shown, and the result. *)
From Verif Require Import Base BaseFacts Fasm FasmSpec FasmFacts FasmSafe FasmShape FasmFile
  FasmTextSpec ConsumerSpec P_Fasm P_FasmText.

Local Notation newline := FasmSpec.newline (only parsing).

Local Notation "x <- e ;; f" := (obind e (fun x => f))
  (at level 61, e at next level, right associativity).
Local Notation "' p <- e ;; f" := (obind e (fun p => f))
  (at level 61, p pattern, e at next level, right associativity).

(** * The stages of a line do the same to every state *)
Definition add (st : pstate) (l : list event) (q : N) : pstate :=
  {| p_events := p_events st ++ l; p_result := N.max (p_result st) q |}.
Definition after (st : pstate) (x : list event * N * text) : pstate * text :=
  let '(l, q, r) := x in (add st l q, r).

Lemma add_nil st : add st [] 0 = st.
Proof. destruct st as [ev re]. unfold add. cbn [p_events p_result]. now rewrite app_nil_r, N.max_0_r. Qed.
Lemma raise_add q st : p_raise q st = add st [] q.
Proof. unfold p_raise, add. now rewrite app_nil_r. Qed.
Lemma emit_add e st : p_emit e st = add st [e] 0.
Proof. unfold p_emit, add. now rewrite N.max_0_r. Qed.
Lemma add_add st l q l' q' : add (add st l q) l' q' = add st (l ++ l') (N.max q q').
Proof. unfold add. cbn [p_events p_result]. now rewrite app_assoc, N.max_assoc. Qed.

Lemma annotations_any : forall fuel line name it,
  exists o, forall st, annotations fuel line name st it = omap (after st) o.
Proof.
  induction fuel as [|fuel IH]; intros line name it; cbn [annotations]; [now exists NoFuel|].
  destruct (skip_blank (tl it)) as [i1| | | |]; cbn [obind];
    [|exists Err|exists Crash|exists UB|exists NoFuel]; try reflexivity.
  destruct (read_ident i1) as [[an i2]| | | |]; cbn [obind];
    [|exists Err|exists Crash|exists UB|exists NoFuel]; try reflexivity.
  destruct (skip_blank i2) as [i3| | | |]; cbn [obind];
    [|exists Err|exists Crash|exists UB|exists NoFuel]; try reflexivity.
  destruct (peek i3) as [c3| | | |]; cbn [obind];
    [|exists Err|exists Crash|exists UB|exists NoFuel]; try reflexivity.
  destruct (negb (ch_is c3 "="));
    [exists (Ok ([], kError, i3)); intros st; cbn [omap obind after]; now rewrite raise_add|].
  destruct (skip_blank (tl i3)) as [i4| | | |]; cbn [obind];
    [|exists Err|exists Crash|exists UB|exists NoFuel]; try reflexivity.
  destruct (peek i4) as [c4| | | |]; cbn [obind];
    [|exists Err|exists Crash|exists UB|exists NoFuel]; try reflexivity.
  destruct (negb (ch_is c4 ch_quote));
    [exists (Ok ([], kError, i4)); intros st; cbn [omap obind after]; now rewrite raise_add|].
  destruct (scan_value ch_quote (tl i4)) as [[av i5]| | | |]; cbn [obind];
    [|exists Err|exists Crash|exists UB|exists NoFuel]; try reflexivity.
  destruct (peek i5) as [c5| | | |]; cbn [obind];
    [|exists Err|exists Crash|exists UB|exists NoFuel]; try reflexivity.
  destruct (ch_is c5 ch_nl);
    [exists (Ok ([], kError, i5)); intros st; cbn [omap obind after]; now rewrite raise_add|].
  cbv zeta. destruct (skip_blank (tl i5)) as [i6| | | |]; cbn [obind];
    [|exists Err|exists Crash|exists UB|exists NoFuel]; try reflexivity.
  destruct (peek i6) as [c6| | | |]; cbn [obind];
    [|exists Err|exists Crash|exists UB|exists NoFuel]; try reflexivity.
  destruct (ch_is c6 ",").
  - destruct (IH line name i6) as (o & Ho).
    exists (omap (fun x => let '(l, q, r) := x in (EAnnotation line name an av :: l, q, r)) o).
    intros st. rewrite Ho, emit_add. destruct o as [[[l q] r]| | | |]; cbn [omap obind after]; try reflexivity.
    rewrite add_add. now rewrite N.max_0_l.
  - exists (Ok ([EAnnotation line name an av], 0, i6)). intros st. cbn [omap obind after]. now rewrite emit_add.
Qed.

Lemma parse_annotations_any : forall annot line name it,
  exists o, forall st, parse_annotations annot line name st it = omap (after st) o.
Proof.
  intros. unfold parse_annotations.
  destruct (peek it) as [c| | | |]; cbn [obind];
    [|exists Err|exists Crash|exists UB|exists NoFuel]; try reflexivity.
  destruct (ch_is c "{"); [|exists (Ok ([], 0, it)); intros st; cbn [omap obind after]; now rewrite add_nil].
  destruct annot.
  - destruct (annotations_any (S (List.length it)) line name it) as (o & Ho).
    exists ('(l, q, i1) <- o ;; c1 <- peek i1 ;; i2 <- skip_to_eol i1 ;;
            Ok (l, (if ch_is c1 "}" then q else N.max q kError), i2)).
    intros st. rewrite Ho. destruct o as [[[l q] i1]| | | |]; cbn [omap obind after]; try reflexivity.
    destruct (peek i1) as [c1| | | |]; cbn [omap obind]; try reflexivity.
    destruct (skip_to_eol i1) as [i2| | | |]; cbn [omap obind after]; try reflexivity.
    destruct (ch_is c1 "}"); [reflexivity|]. rewrite raise_add, add_add, app_nil_r. reflexivity.
  - cbn [obind]. exists (i2 <- skip_to_eol it ;; Ok ([], 0, i2)). intros st.
    destruct (skip_to_eol it) as [i2| | | |]; cbn [omap obind after]; try reflexivity. now rewrite add_nil.
Qed.

Lemma parse_eol_any : forall it, exists o, forall st, parse_eol st it = omap (after st) o.
Proof.
  intros. unfold parse_eol.
  destruct (peek it) as [c| | | |]; cbn [obind];
    [|exists Err|exists Crash|exists UB|exists NoFuel]; try reflexivity.
  destruct (if _ || _ then _ else _) as [i1| | | |]; cbn [obind];
    [|exists Err|exists Crash|exists UB|exists NoFuel]; try reflexivity.
  destruct (peek i1) as [c1| | | |]; cbn [obind];
    [|exists Err|exists Crash|exists UB|exists NoFuel]; try reflexivity.
  destruct (ch_is c1 ch_nl);
    [exists (Ok ([], 0, tl i1)); intros st; cbn [omap obind after]; now rewrite add_nil|].
  exists (i2 <- skip_to_eol i1 ;; Ok ([], kError, tl i2)). intros st.
  destruct (skip_to_eol i1) as [i2| | | |]; cbn [omap obind after]; try reflexivity. now rewrite raise_add.
Qed.

Lemma raise_if_add (b : bool) q st : (if b then p_raise q st else st) = add st [] (if b then q else 0).
Proof. destruct b; [apply raise_add|symmetry; apply add_nil]. Qed.

Lemma parse_assign_any : forall mx mn w it,
  exists o, forall st, parse_assign mx mn w st it
    = omap (fun x : list N * N * N * text => let '(b, w', q, r) := x in (b, w', add st [] q, r)) o.
Proof.
  intros. unfold parse_assign.
  destruct (peek it) as [c| | | |]; cbn [obind];
    [|exists Err|exists Crash|exists UB|exists NoFuel]; try reflexivity.
  destruct (ch_is c "=").
  2:{ exists (Ok ([1], w, (if mn =? mx then 0 else kInfo), it)). intros st. cbn [omap obind].
      destruct (mn =? mx); [now rewrite add_nil|now rewrite raise_add]. }
  destruct (skip_blank (tl it)) as [i1| | | |]; cbn [obind];
    [|exists Err|exists Crash|exists UB|exists NoFuel]; try reflexivity.
  destruct (peek i1) as [c1| | | |]; cbn [obind];
    [|exists Err|exists Crash|exists UB|exists NoFuel]; try reflexivity.
  destruct (if (_ <=? _)%Z then _ else _) as [[v i2]| | | |]; cbn [obind];
    [|exists Err|exists Crash|exists UB|exists NoFuel]; try reflexivity.
  destruct (skip_blank i2) as [i3| | | |]; cbn [obind];
    [|exists Err|exists Crash|exists UB|exists NoFuel]; try reflexivity.
  destruct (peek i3) as [c3| | | |]; cbn [obind];
    [|exists Err|exists Crash|exists UB|exists NoFuel]; try reflexivity.
  destruct (ch_is c3 ch_tick).
  - destruct (skip_blank (tl i3)) as [i4| | | |]; cbn [obind];
      [|exists Err|exists Crash|exists UB|exists NoFuel]; try reflexivity.
    cbv zeta. destruct (peek i4) as [c4| | | |]; cbn [obind];
      [|exists Err|exists Crash|exists UB|exists NoFuel]; try reflexivity.
    destruct (parse_based c4 (tl i4)) as [[[bs bad] i5]| | | |]; cbn [obind];
      [|exists Err|exists Crash|exists UB|exists NoFuel]; try reflexivity.
    destruct (skip_blank i5) as [i6| | | |]; cbn [obind];
      [|exists Err|exists Crash|exists UB|exists NoFuel]; try reflexivity.
    set (clamp := (64 <? w) && _).
    exists (Ok (bs, (if clamp then 64 else w),
      N.max (if w <? v then kNonCritical else 0) (N.max (if clamp then kError else 0) (if (bad : bool) then kError else 0)), i6)).
    intros st. cbn [omap obind]. rewrite !raise_if_add, !add_add. cbn [app]. rewrite <- ?N.max_assoc. reflexivity.
  - cbv zeta. exists (Ok ([v], (if 64 <? w then 64 else w), (if 64 <? w then kError else 0), i3)).
    intros st. cbn [omap obind]. now rewrite raise_if_add.
Qed.

(** * What is shown *)
Definition on_line (line : N) (e : event) : Prop := event_line e = line.
Definition is_feature (e : event) : Prop := match e with EFeature _ _ _ _ _ => True | _ => False end.

(** The refused line after the calls [full]. *)
Fixpoint dead_after (cb : list event -> bool) (h : list event) (d : option N) (full : list event) : option N :=
  match full with
  | [] => d
  | EAnnotation l n an av :: rest => dead_after cb (h ++ [EAnnotation l n an av]) d rest
  | EFeature l n s w v :: rest =>
      if match d with Some l' => l =? l' | None => false end then dead_after cb h d rest
      else let h' := h ++ [EFeature l n s w v] in dead_after cb h' (if cb h' then d else Some l) rest
  end.

Lemma shown_app cb : forall a h d b,
  shown cb h d (a ++ b) = shown cb h d a ++ shown cb (h ++ shown cb h d a) (dead_after cb h d a) b.
Proof.
  induction a as [|e a IH]; intros h d b; cbn [app shown dead_after]; [now rewrite app_nil_r|].
  destruct e as [l n s w v|l n an av].
  - destruct (match d with Some l' => l =? l' | None => false end); [apply IH|].
    cbv zeta. cbn [app]. f_equal. rewrite IH. now rewrite <- app_assoc.
  - cbn [app]. f_equal. rewrite IH. now rewrite <- app_assoc.
Qed.

(** A line refused earlier does not matter on other lines. *)
Lemma shown_other cb l0 : forall full h, Forall (fun e => event_line e <> l0) full ->
  shown cb h (Some l0) full = shown cb h None full
  /\ (dead_after cb h (Some l0) full = dead_after cb h None full
      \/ (dead_after cb h None full = None /\ dead_after cb h (Some l0) full = Some l0)).
Proof.
  induction full as [|e full IH]; intros h F; cbn [shown dead_after]; [auto|].
  inversion F; subst. destruct e as [l n s w v|l n an av]; cbn [event_line] in *.
  - destruct (N.eqb_spec l l0); [contradiction|]. cbv zeta.
    destruct (cb (h ++ [EFeature l n s w v])).
    + destruct (IH (h ++ [EFeature l n s w v]) ltac:(assumption)) as (-> & X). auto.
    + auto.
  - destruct (IH (h ++ [EAnnotation l n an av]) ltac:(assumption)) as (-> & X). auto.
Qed.

Lemma dead_on_line cb line : forall full h d, Forall (on_line line) full ->
  d = None \/ d = Some line -> dead_after cb h d full = None \/ dead_after cb h d full = Some line.
Proof.
  induction full as [|e full IH]; intros h d F D; cbn [dead_after]; auto.
  inversion F as [|? ? He Hf]; subst. unfold on_line in He. destruct e as [l n s w v|l n an av]; cbn [event_line] in He.
  - subst l. destruct (match d with Some l' => line =? l' | None => false end); auto.
    cbv zeta. apply IH; auto. destruct (cb _); auto.
  - auto.
Qed.

Lemma shown_dead cb line : forall full h, Forall (on_line line) full -> Forall is_feature full ->
  shown cb h (Some line) full = [].
Proof.
  induction full as [|e full IH]; intros h F G; cbn [shown]; auto.
  inversion F as [|? ? He Hf]; subst. inversion G as [|? ? Ge Gf]; subst. unfold on_line in He.
  destruct e as [l n s w v|]; [|contradiction]. cbn [event_line] in He. subst l. rewrite N.eqb_refl. auto.
Qed.

Lemma shown_annotations cb : forall full h d, Forall (fun e => ~ is_feature e) full ->
  shown cb h d full = full /\ dead_after cb h d full = d.
Proof.
  induction full as [|e full IH]; intros h d F; cbn [shown dead_after]; auto.
  inversion F as [|? ? He Hf]; subst. destruct e as [l n s w v|]; [exfalso; apply He; exact Logic.I|].
  destruct (IH (h ++ [EAnnotation line feature name value]) d Hf) as (-> & ->). auto.
Qed.

(** * Refusals *)
Fixpoint refusedb (cb : list event -> bool) (h l : list event) : bool :=
  match l with
  | [] => false
  | EFeature ln n s w v :: r =>
      negb (cb (h ++ [EFeature ln n s w v])) || refusedb cb (h ++ [EFeature ln n s w v]) r
  | EAnnotation ln n an av :: r => refusedb cb (h ++ [EAnnotation ln n an av]) r
  end.

Lemma refusedb_app cb : forall a h b, refusedb cb h (a ++ b) = refusedb cb h a || refusedb cb (h ++ a) b.
Proof.
  induction a as [|e a IH]; intros h b; cbn [app refusedb]; [now rewrite app_nil_r|].
  destruct e; rewrite IH, <- app_assoc; cbn [app]; now rewrite ?orb_assoc.
Qed.

Lemma refusedb_annotations cb : forall l h, Forall (fun e => ~ is_feature e) l -> refusedb cb h l = false.
Proof.
  induction l as [|e l IH]; intros h F; cbn [refusedb]; auto. inversion F as [|? ? He Hf]; subst.
  destruct e; [exfalso; apply He; exact Logic.I|auto].
Qed.

Lemma refusedb_iff cb : forall l h, refusedb cb h l = true <->
  exists a ln n s w v b, l = a ++ EFeature ln n s w v :: b /\ cb (h ++ a ++ [EFeature ln n s w v]) = false.
Proof.
  induction l as [|e l IH]; intros h; cbn [refusedb].
  - split; [discriminate|]. intros (a & ln & n & s & w & v & b & E & _). destruct a; discriminate E.
  - assert (G : (exists ln n s w v, e = EFeature ln n s w v /\ cb (h ++ [e]) = false) \/ refusedb cb (h ++ [e]) l = true
       <-> exists a ln n s w v b, e :: l = a ++ EFeature ln n s w v :: b /\ cb (h ++ a ++ [EFeature ln n s w v]) = false).
    { split.
      - intros [(ln & n & s & w & v & -> & C)|C].
        + exists [], ln, n, s, w, v, l. auto.
        + apply IH in C. destruct C as (a & ln & n & s & w & v & b & -> & C).
          exists (e :: a), ln, n, s, w, v, b. split; [reflexivity|]. rewrite <- app_assoc in C. exact C.
      - intros (a & ln & n & s & w & v & b & E & C). destruct a as [|e' a]; cbn [app] in *.
        + left. injection E as -> ->. exists ln, n, s, w, v. auto.
        + right. injection E as -> ->. apply IH. exists a, ln, n, s, w, v, b. split; auto.
          rewrite <- app_assoc. exact C. }
    rewrite <- G. destruct e as [ln n s w v|ln n an av].
    + rewrite orb_true_iff, negb_true_iff. split; (intros [C|C]; [left|right; exact C]).
      * exists ln, n, s, w, v. auto.
      * destruct C as (? & ? & ? & ? & ? & _ & C). exact C.
    + split; [auto|]. intros [(? & ? & ? & ? & ? & X & _)|C]; [discriminate X|exact C].
Qed.

Definition abort_if (b : bool) : N := if b then kUserAbort else 0.
Lemma abort_or a b : N.max (abort_if a) (abort_if b) = abort_if (a || b).
Proof. destruct a, b; reflexivity. Qed.

Section Consumer.
  Variables (sm : shift_model) (cb all : list event -> bool).
  Hypothesis ALL : agrees all.

  Lemma report_shown : forall line name mn w tot bs chunk st st' sta sta',
    report sm cb line name mn w tot chunk bs st = Ok st' ->
    report sm all line name mn w tot chunk bs sta = Ok sta' ->
    exists l, sta' = add sta l 0 /\ Forall (on_line line) l /\ Forall is_feature l
      /\ p_events st' = p_events st ++ shown cb (p_events st) None l
      /\ p_result st' = N.max (p_result st) (abort_if (refusedb cb (p_events st) (shown cb (p_events st) None l))).
  Proof.
    intros line name mn w tot. induction bs as [|v bs IH]; intros chunk st st' sta sta' H HA; cbn [report] in *.
    - injection H as <-. injection HA as <-. exists []. rewrite add_nil. cbn [shown refusedb].
      rewrite app_nil_r. cbn [abort_if]. rewrite N.max_0_r. auto.
    - binv H. rewrite E in HA. cbn [obind] in HA. rewrite ALL in HA.
      set (e := EFeature line name (u32 (mn + u32 (chunk * 64)))
        (if chunk =? tot - 1 then u32 (u64 (w + 2 ^ 64 - u64 (64 * (tot - 1)))) else 64) (N.land v v0)) in *.
      cbn [p_emit p_events] in H. destruct (cb (p_events st ++ [e])) eqn:C.
      + destruct (IH _ _ _ _ _ H HA) as (l & -> & F1 & F2 & E2 & E3). cbn [p_emit p_events p_result] in *.
        exists (e :: l). split; [rewrite emit_add, add_add; reflexivity|].
        split; [constructor; [reflexivity|exact F1]|]. split; [constructor; [exact Logic.I|exact F2]|].
        unfold e in C |- *. cbn [shown]. fold e in C |- *. cbv zeta. rewrite C.
        split; [rewrite E2, <- app_assoc; reflexivity|].
        rewrite E3. f_equal. f_equal. unfold e. cbn [refusedb]. fold e. now rewrite C.
      + (* refused: the rest of the chunks *)
        injection H as <-.
        assert (R : forall bs chunk sta sta', report sm all line name mn w tot chunk bs sta = Ok sta' ->
          exists l, sta' = add sta l 0 /\ Forall (on_line line) l /\ Forall is_feature l).
        { clear - ALL. induction bs as [|x bs IH]; intros chunk sta sta' HA; cbn [report] in HA.
          - injection HA as <-. exists []. rewrite add_nil. auto.
          - binv HA. rewrite ALL in HA. destruct (IH _ _ _ HA) as (l & -> & F1 & F2).
            eexists. rewrite emit_add, add_add. split; [reflexivity|].
            split; constructor; auto; [reflexivity|exact Logic.I]. }
        destruct (R _ _ _ _ HA) as (l & -> & F1 & F2). exists (e :: l).
        split; [rewrite emit_add, add_add; reflexivity|].
        split; [constructor; [reflexivity|exact F1]|]. split; [constructor; [exact Logic.I|exact F2]|].
        unfold e in C |- *. cbn [shown]. fold e in C |- *. cbv zeta. rewrite C.
        rewrite shown_dead by assumption. unfold e. cbn [refusedb]. fold e. rewrite C.
        cbn [p_raise p_emit p_events p_result negb orb abort_if]. auto.
  Qed.

  Lemma annotations_no_feature annot line name st it st' r :
    parse_annotations annot line name st it = Ok (st', r) ->
    exists l, p_events st' = p_events st ++ l /\ Forall (fun e => ~ is_feature e) l /\ Forall (on_line line) l.
  Proof.
    intros H. apply parse_annotations_read in H. destruct H as (l & E & _ & F). exists l. split; [exact E|].
    split; (eapply Forall_impl; [|exact F]; intros e (an & av & -> & _)); [intros []|reflexivity].
  Qed.

  Lemma add_inj_events st l q l' q' : add st l q = add st l' q' -> l = l'.
  Proof. intros H. assert (X := f_equal p_events H). cbn [add p_events] in X. now apply app_inv_head in X. Qed.

  (** Annotations and end of line: the same for both. *)
  Lemma line_end_shown : forall annot line name st it st2 i3 st' r sta i3a sta2 sta' ra,
    parse_annotations annot line name st it = Ok (st2, i3) -> parse_eol st2 i3 = Ok (st', r) ->
    parse_annotations annot line name sta it = Ok (sta2, i3a) -> parse_eol sta2 i3a = Ok (sta', ra) ->
    ra = r /\ exists l q, st' = add st l q /\ sta' = add sta l q
      /\ Forall (fun e => ~ is_feature e) l /\ Forall (on_line line) l.
  Proof.
    intros annot line name st it st2 i3 st' r sta i3a sta2 sta' ra H1 H2 A1 A2.
    destruct (annotations_no_feature _ _ _ _ _ _ _ H1) as (lf & Elf & Fl & Fo).
    destruct (parse_annotations_any annot line name it) as (o & Ho).
    rewrite Ho in H1, A1. destruct o as [[[l q] r1]| | | |]; cbn [omap obind after] in H1, A1; try discriminate.
    injection H1 as <- <-. injection A1 as <- <-.
    cbn [add p_events] in Elf. apply app_inv_head in Elf. subst lf.
    destruct (parse_eol_any r1) as (o & Hq). pose proof (parse_eol_events _ _ _ _ H2) as EV.
    rewrite Hq in H2, A2. destruct o as [[[l' q'] r2]| | | |]; cbn [omap obind after] in H2, A2; try discriminate.
    injection H2 as <- <-. injection A2 as <- <-.
    assert (l' = []) as ->.
    { cbn [add p_events] in EV. rewrite <- (app_nil_r (p_events st ++ l)) in EV at 2. now apply app_inv_head in EV. }
    split; [reflexivity|]. exists l, (N.max q q'). rewrite !add_add, app_nil_r. auto.
  Qed.

  Lemma parse_line_shown : forall annot line st it st' r sta sta' ra,
    parse_line sm cb annot line st it = Ok (st', r) ->
    parse_line sm all annot line sta it = Ok (sta', ra) ->
    ra = r /\ exists l q, sta' = add sta l q /\ Forall (on_line line) l
      /\ p_events st' = p_events st ++ shown cb (p_events st) None l
      /\ p_result st' = N.max (p_result st)
           (N.max q (abort_if (refusedb cb (p_events st) (shown cb (p_events st) None l)))).
  Proof.
    intros annot line st it st' r sta sta' ra H HA. unfold parse_line in *.
    bind H as i0 E. rewrite E in HA. cbn [obind] in HA.
    bind H as [name i1] E0. rewrite E0 in HA. cbn [obind] in HA.
    bind H as i2 E1. rewrite E1 in HA. cbn [obind] in HA.
    destruct name as [|n0 ns].
    - bind H as [st2 i3] E2. bind HA as [sta2 i3a] E3.
      destruct (line_end_shown _ _ _ _ _ _ _ _ _ _ _ _ _ _ E2 H E3 HA) as (-> & l & q & -> & -> & F & G).
      split; [reflexivity|]. exists l, q. split; [reflexivity|]. split; [exact G|].
      destruct (shown_annotations cb l (p_events st) None F) as (-> & _).
      rewrite refusedb_annotations by exact F. cbn [add p_events p_result abort_if].
      rewrite N.max_0_r. auto.
    - bind H as rg E2. rewrite E2 in HA. cbn [obind] in HA. destruct rg as [mx mn i3|i3|i3].
      + bind H as i3' E3. rewrite E3 in HA. cbn [obind] in HA. cbv zeta in H, HA.
        destruct (parse_assign_any mx mn (u32 (mx - mn + 1)) i3') as (o & Ho). rewrite Ho in H, HA.
        destruct o as [[[[bs w] q0] i4]| | | |]; cbn [omap obind] in H, HA; try discriminate.
        bind H as st1 E4. bind HA as sta1 E4a.
        destruct (report_shown _ _ _ _ _ _ _ _ _ _ _ E4 E4a) as (l1 & -> & O1 & F1 & EV1 & RS1).
        bind H as [st2 i5] E5. bind HA as [sta2 i5a] E5a.
        destruct (line_end_shown _ _ _ _ _ _ _ _ _ _ _ _ _ _ E5 H E5a HA) as (-> & l2 & q2 & -> & -> & F2 & G2).
        cbn [add p_events p_result] in EV1, RS1. rewrite app_nil_r in EV1, RS1.
        split; [reflexivity|]. exists (l1 ++ l2), (N.max q0 q2).
        split; [rewrite !add_add; cbn [app]; f_equal; lia|].
        split; [apply Forall_app; auto|].
        rewrite shown_app. destruct (shown_annotations cb l2 (p_events st ++ shown cb (p_events st) None l1)
          (dead_after cb (p_events st) None l1) F2) as (-> & _).
        cbn [add p_events p_result]. rewrite EV1, RS1, app_assoc. split; [reflexivity|].
        rewrite refusedb_app, (refusedb_annotations _ l2) by exact F2. rewrite orb_false_r. lia.
      + bind H as i4 E3. rewrite E3 in HA. cbn [obind] in HA. injection H as <- <-. injection HA as <- <-.
        split; [reflexivity|]. exists [], kError. cbn [shown refusedb abort_if p_raise p_events p_result].
        rewrite app_nil_r, N.max_0_r, raise_add. split; [reflexivity|]. split; [constructor|auto].
      + bind H as i4 E3. rewrite E3 in HA. cbn [obind] in HA. injection H as <- <-. injection HA as <- <-.
        split; [reflexivity|]. exists [], kSkipped. cbn [shown refusedb abort_if p_raise p_events p_result].
        rewrite app_nil_r, N.max_0_r, raise_add. split; [reflexivity|]. split; [constructor|auto].
  Qed.

  Lemma lines_shown : forall annot n line d st it st' sta sta', (List.length it <= n)%nat ->
    line + N.of_nat (List.length it) < 2 ^ 32 ->
    d = None \/ (exists l0, d = Some l0 /\ l0 <= line) ->
    lines sm cb annot line st it = Ok st' ->
    lines sm all annot line sta it = Ok sta' ->
    exists l q, sta' = add sta l q
      /\ p_events st' = p_events st ++ shown cb (p_events st) d l
      /\ p_result st' = N.max (p_result st)
           (N.max q (abort_if (refusedb cb (p_events st) (shown cb (p_events st) d l)))).
  Proof.
    intros annot. induction n as [|n IH]; intros line d st it st' sta sta' L LT D H HA;
      (destruct it as [|c it];
       [rewrite lines_nil in H, HA; injection H as <-; injection HA as <-; exists [], 0;
        cbn [shown refusedb abort_if]; rewrite app_nil_r, add_nil, N.max_0_r; auto|]);
      [cbn in L; lia|].
    rewrite lines_step in H, HA by discriminate. bind H as [st1 r] E. bind HA as [sta1 ra] EA.
    pose proof (parse_line_shrinks _ _ _ _ _ _ _ _ E) as SH.
    destruct (parse_line_shown _ _ _ _ _ _ _ _ _ E EA) as (-> & l1 & q1 & -> & O1 & EV1 & RS1).
    assert (U : u32 (line + 1) = line + 1) by (apply N.mod_small; cbn [List.length] in LT; lia).
    rewrite U in *. clear E EA.
    assert (SD : shown cb (p_events st) d l1 = shown cb (p_events st) None l1
       /\ (dead_after cb (p_events st) d l1 = None
           \/ exists l0, dead_after cb (p_events st) d l1 = Some l0 /\ l0 <= line + 1)).
    { pose proof (dead_on_line cb (line + 1) l1 (p_events st) None O1 (or_introl eq_refl)) as DN.
      destruct D as [->|(l0 & -> & Ll)].
      - split; [reflexivity|]. destruct DN as [->| ->]; [now left|right; exists (line + 1); split; [reflexivity|lia]].
      - destruct (shown_other cb l0 l1 (p_events st)) as (-> & X).
        { eapply Forall_impl; [|exact O1]. unfold on_line. intros e ->. lia. }
        split; [reflexivity|]. destruct X as [->|(_ & ->)].
        + destruct DN as [->| ->]; [now left|right; exists (line + 1); split; [reflexivity|lia]].
        + right. exists l0. split; [reflexivity|lia]. }
    destruct SD as (SD & DA).
    destruct (IH (line + 1) (dead_after cb (p_events st) d l1) st1 r st' (add sta l1 q1) sta'
      ltac:(lia) ltac:(lia) DA H HA) as (l2 & q2 & -> & EV2 & RS2).
    exists (l1 ++ l2), (N.max q1 q2). split; [now rewrite add_add|].
    rewrite shown_app, SD. rewrite EV1 in EV2, RS2. split; [rewrite EV2, app_assoc; reflexivity|].
    rewrite RS2, RS1, refusedb_app, <- abort_or. lia.
  Qed.
End Consumer.

(** ** C38 *)
(** [sta]: the parse with a consumer that refuses nothing.  Any other consumer is called exactly
    for the calls of [sta] but the further pieces of features it has refused a piece of, and the
    result is that of [sta] or, if it refused something, at least an abort.  (Both parses are
    required to be defined: a piece left out may be the one whose width is out of range, C34.) *)
Theorem C38_every_consumer :
  forall sm cb all annot t st sta, agrees all -> N.of_nat (List.length t) < 2 ^ 32 ->
  fasm_parse sm cb annot t = Ok st -> fasm_parse sm all annot t = Ok sta ->
  p_events st = shown cb [] None (p_events sta)
  /\ (refuses cb (p_events st) -> p_result st = N.max (p_result sta) kUserAbort)
  /\ (~ refuses cb (p_events st) -> p_result st = p_result sta).
Proof.
  intros sm cb all annot t st sta ALL LT H HA.
  assert (X : exists l q, sta = add start_state l q
      /\ p_events st = shown cb [] None l
      /\ p_result st = N.max q (abort_if (refusedb cb [] (p_events st)))).
  { unfold fasm_parse in H, HA. destruct t as [|c t].
    { injection H as <-. injection HA as <-. exists [], 0. auto. }
    destruct (ch_is _ ch_nl).
    - set (it := c :: t) in *.
      change (parse_lines (S (List.length it)) sm cb annot 0 start_state it = Ok st) in H.
      change (parse_lines (S (List.length it)) sm all annot 0 start_state it = Ok sta) in HA.
      assert (E1 : lines sm cb annot 0 start_state it = Ok st) by (rewrite <- H; unfold lines; apply parse_lines_fuel; lia).
      assert (E2 : lines sm all annot 0 start_state it = Ok sta) by (rewrite <- HA; unfold lines; apply parse_lines_fuel; lia).
      destruct (lines_shown sm cb all ALL annot (List.length it) 0 None start_state it st start_state sta
        (le_n _) ltac:(lia) (or_introl eq_refl) E1 E2) as (l & q & -> & EV & RS).
      cbn [start_state p_events p_result app] in EV, RS. rewrite <- EV in RS.
      exists l, q. split; [reflexivity|]. split; [exact EV|]. rewrite RS. apply N.max_0_l.
    - injection H as <-. injection HA as <-. exists [], kError. auto. }
  destruct X as (l & q & -> & EV & RS). cbn [add start_state p_events p_result app] in *.
  split; [exact EV|]. rewrite N.max_0_l.
  assert (R : refuses cb (p_events st) <-> refusedb cb [] (p_events st) = true)
    by (rewrite (refusedb_iff cb (p_events st) []); reflexivity).
  rewrite R, RS. destruct (refusedb cb [] (p_events st)); cbn [abort_if].
  - split; [auto|]. intros N0. now destruct N0.
  - split; [discriminate|]. intros _. apply N.max_0_r.
Qed.
Print Assumptions C38_every_consumer.

(** The consumer refuses the low half of a 128-bit value: the high half is not shown, the
    annotation and the next line are. *)
Example C38_consumer_case :
  let no_a := fun h => match last h (EAnnotation 0 [] [] []) with
                       | EFeature _ n _ _ _ => negb (text_eqb n (tx "a")) | _ => true end in
  let t := unlines [tx "a[127:0] = 128'h00000000000000070000000000000005 { x = " ++ dquote ++ tx "1" ++ dquote ++ tx "}"; tx "b"] in
  fasm_parse Iso yes true t
  = Ok {| p_events := [EFeature 1 (tx "a") 0 64 5; EFeature 1 (tx "a") 64 64 7;
                       EAnnotation 1 (tx "a") (tx "x") (tx "1"); EFeature 2 (tx "b") 0 1 1]; p_result := kSuccess |}
  /\ fasm_parse Iso no_a true t
  = Ok {| p_events := [EFeature 1 (tx "a") 0 64 5;
                       EAnnotation 1 (tx "a") (tx "x") (tx "1"); EFeature 2 (tx "b") 0 1 1]; p_result := kUserAbort |}.
Proof. split; vm_compute; reflexivity. Qed.
