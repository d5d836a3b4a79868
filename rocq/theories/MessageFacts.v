(** Facts about the FASM parser with its messages. *)
From Verif Require Import Base BaseFacts Absl Fasm FasmSpec FasmFacts FasmSafe FasmShape FasmFile FasmLines FasmLog MessageSpec.

Local Notation "x <- e ;; f" := (obind e (fun x => f))
  (at level 61, e at next level, right associativity).
Local Notation "' p <- e ;; f" := (obind e (fun p => f))
  (at level 61, p pattern, e at next level, right associativity).

(** ** Without its messages it is the parser of Fasm.v *)
Definition erase (st : lstate) : pstate := {| p_events := l_events st; p_result := l_result st |}.
Lemma erase_say m r st : erase (say m r st) = p_raise r (erase st).
Proof. reflexivity. Qed.
Lemma erase_raise r st : erase (l_raise r st) = p_raise r (erase st).
Proof. reflexivity. Qed.
Lemma erase_emit e st : erase (l_emit e st) = p_emit e (erase st).
Proof. reflexivity. Qed.
Definition erase_range (r : lrange) : range_res :=
  match r with LRangeOk a b i => RangeOk a b i | LRangeErr i => RangeErr i | LRangeInverted _ _ i => RangeInverted i end.

Ltac ob := match goal with
  | |- context [obind ?a _] => lazymatch a with obind _ _ => fail | _ => destruct a eqn:?; cbn [obind omap]; try reflexivity end
  end.
Lemma range_erase it : parse_range it = omap erase_range (log_range it).
Proof.
  unfold parse_range, log_range. destruct (peek it) as [c| | | |]; cbn [obind omap]; auto.
  destruct (ch_is c "["); [|reflexivity].
  destruct (parse_number 10 (2 ^ 16) 0 (tl it)) as [[mx i]| | | |]; cbn [obind omap]; auto.
  destruct (skip_blank i) as [i1| | | |]; cbn [obind omap]; auto.
  destruct (peek i1) as [c1| | | |]; cbn [obind omap]; auto.
  destruct (if ch_is c1 ":" then _ else _) as [[mn i2]| | | |]; cbn [obind omap]; auto.
  destruct (peek i2) as [c2| | | |]; cbn [obind omap]; auto.
  destruct (negb (ch_is c2 "]")); [reflexivity|]. destruct (mx <? mn); reflexivity.
Qed.
Lemma assign_erase line f mx mn w st it :
  parse_assign mx mn w (erase st) it
  = omap (fun p => let '(b, w', st', r) := p in (b, w', erase st', r)) (log_assign line f mx mn w st it).
Proof.
  unfold parse_assign, log_assign. destruct (peek it) as [c| | | |]; cbn [obind omap]; auto.
  destruct (ch_is c "=").
  2:{ cbn [omap obind]. destruct (mn =? mx); reflexivity. }
  destruct (skip_blank (tl it)) as [i1| | | |]; cbn [obind omap]; auto.
  destruct (peek i1) as [c1| | | |]; cbn [obind omap]; auto.
  destruct (if (_ <=? _)%Z then _ else _) as [[v i2]| | | |]; cbn [obind omap]; auto.
  destruct (skip_blank i2) as [i3| | | |]; cbn [obind omap]; auto.
  destruct (peek i3) as [c3| | | |]; cbn [obind omap]; auto.
  destruct (ch_is c3 ch_tick).
  - destruct (skip_blank (tl i3)) as [i4| | | |]; cbn [obind omap]; auto. cbv zeta.
    destruct (peek i4) as [c4| | | |]; cbn [obind omap]; auto.
    destruct (parse_based c4 (tl i4)) as [[[bs bad] i5]| | | |]; cbn [obind omap]; auto.
    destruct (skip_blank i5) as [i6| | | |]; cbn [obind omap]; auto.
    destruct (w <? v), ((64 <? w) && (ch_is c4 "d" || ch_is c4 "o")), bad; reflexivity.
  - cbv zeta. cbn [omap obind]. destruct (64 <? w); reflexivity.
Qed.
Lemma report_erase sm cb line f mn w tot : forall bs chunk st,
  report sm cb line f mn w tot chunk bs (erase st) = omap erase (log_report sm cb line f mn w tot chunk bs st).
Proof.
  induction bs as [|v bs IH]; intros chunk st; cbn [report log_report]; [reflexivity|].
  cbv zeta. destruct (clamp_mask sm _) as [m| | | |]; cbn [obind omap]; auto.
  rewrite <- erase_emit. change (p_events (erase ?x)) with (l_events x). destruct (cb _); [apply IH|reflexivity].
Qed.
Lemma annotations_erase : forall fuel line f st it,
  annotations fuel line f (erase st) it = omap (fun p => (erase (fst p), snd p)) (log_annotations fuel line f st it).
Proof.
  induction fuel as [|fuel IH]; intros line name st it; cbn [annotations log_annotations]; auto.
  destruct (skip_blank (tl it)) as [i1| | | |]; cbn [obind omap]; auto.
  destruct (read_ident i1) as [[an i2]| | | |]; cbn [obind omap]; auto.
  destruct (skip_blank i2) as [i3| | | |]; cbn [obind omap]; auto.
  destruct (peek i3) as [c3| | | |]; cbn [obind omap]; auto.
  destruct (negb (ch_is c3 "=")); [reflexivity|].
  destruct (skip_blank (tl i3)) as [i4| | | |]; cbn [obind omap]; auto.
  destruct (peek i4) as [c4| | | |]; cbn [obind omap]; auto.
  destruct (negb (ch_is c4 ch_quote)); [reflexivity|].
  destruct (scan_value ch_quote (tl i4)) as [[av i5]| | | |]; cbn [obind omap]; auto.
  destruct (peek i5) as [c5| | | |]; cbn [obind omap]; auto.
  destruct (ch_is c5 ch_nl); [reflexivity|].
  cbv zeta. destruct (skip_blank (tl i5)) as [i6| | | |]; cbn [obind omap]; auto.
  destruct (peek i6) as [c6| | | |]; cbn [obind omap]; auto.
  rewrite <- erase_emit. destruct (ch_is c6 ","); [apply IH|reflexivity].
Qed.
Lemma annotation_part_erase annot line f st it :
  parse_annotations annot line f (erase st) it = omap (fun p => (erase (fst p), snd p)) (log_annotation_part annot line f st it).
Proof.
  unfold parse_annotations, log_annotation_part. destruct (peek it) as [c| | | |]; cbn [obind omap]; auto.
  destruct (ch_is c "{"); [|reflexivity]. destruct annot.
  - rewrite annotations_erase.
    destruct (log_annotations (S (List.length it)) line f st it) as [[st1 i1]| | | |]; cbn [obind omap fst snd]; auto.
    destruct (peek i1) as [c1| | | |]; cbn [obind omap]; auto.
    destruct (skip_to_eol i1) as [i2| | | |]; cbn [obind omap]; auto. destruct (ch_is c1 "}"); reflexivity.
  - cbn [obind]. destruct (skip_to_eol it) as [i2| | | |]; cbn [obind omap]; auto.
Qed.
Lemma eol_erase line st it : parse_eol (erase st) it = omap (fun p => (erase (fst p), snd p)) (log_eol line st it).
Proof.
  unfold parse_eol, log_eol. destruct (peek it) as [c| | | |]; cbn [obind omap]; auto.
  destruct (if _ || _ then _ else _) as [i1| | | |]; cbn [obind omap]; auto.
  destruct (peek i1) as [c1| | | |]; cbn [obind omap]; auto. destruct (ch_is c1 ch_nl); [reflexivity|].
  destruct (skip_to_eol i1) as [i2| | | |]; cbn [obind omap]; auto.
Qed.
Lemma line_erase sm cb annot line st it :
  parse_line sm cb annot line (erase st) it = omap (fun p => (erase (fst p), snd p)) (log_line sm cb annot line st it).
Proof.
  unfold parse_line, log_line. destruct (skip_blank it) as [i1| | | |]; cbn [obind omap]; auto.
  destruct (read_ident i1) as [[name i2]| | | |]; cbn [obind omap]; auto.
  destruct (skip_blank i2) as [i3| | | |]; cbn [obind omap]; auto.
  destruct name as [|n0 ns].
  - rewrite annotation_part_erase. destruct (log_annotation_part annot line [] st i3) as [[st1 i4]| | | |]; cbn [obind omap fst snd]; auto.
    apply eol_erase.
  - rewrite range_erase. destruct (log_range i3) as [rg| | | |]; cbn [obind omap]; auto.
    destruct rg as [mx mn i4|i4|mx mn i4]; cbn [erase_range].
    + destruct (skip_blank i4) as [i5| | | |]; cbn [obind omap]; auto. cbv zeta.
      rewrite (assign_erase line (n0 :: ns)).
      destruct (log_assign line (n0 :: ns) mx mn (u32 (mx - mn + 1)) st i5) as [[[[bs w] st1] i6]| | | |]; cbn [obind omap]; auto.
      rewrite report_erase. destruct (log_report sm cb line (n0 :: ns) mn w (N.of_nat (List.length bs)) 0 bs st1) as [st2| | | |]; cbn [obind omap]; auto.
      rewrite annotation_part_erase. destruct (log_annotation_part annot line (n0 :: ns) st2 i6) as [[st3 i7]| | | |]; cbn [obind omap fst snd]; auto.
      apply eol_erase.
    + destruct (skip_to_eol i4) as [i5| | | |]; cbn [obind omap]; auto.
    + destruct (skip_to_eol i4) as [i5| | | |]; cbn [obind omap]; auto.
Qed.
Lemma lines_erase sm cb annot : forall fuel line st it,
  parse_lines fuel sm cb annot line (erase st) it = omap erase (log_lines fuel sm cb annot line st it).
Proof.
  induction fuel as [|fuel IH]; intros line st it; cbn [parse_lines log_lines]; [reflexivity|].
  destruct it as [|c it]; [reflexivity|]. cbv zeta. rewrite line_erase.
  destruct (log_line sm cb annot (u32 (line + 1)) st (c :: it)) as [[st1 r]| | | |]; cbn [obind omap fst snd]; auto.
Qed.
Definition log_start : lstate := {| l_events := []; l_result := kSuccess; l_messages := [] |}.
Lemma parse_erase sm cb annot t : fasm_parse sm cb annot t = omap erase (fasm_log sm cb annot t).
Proof.
  unfold fasm_parse, fasm_log. destruct t as [|c t]; [reflexivity|]. cbv zeta.
  destruct (ch_is _ _); [|reflexivity]. apply (lines_erase sm cb annot _ 0 log_start).
Qed.

(** ** What a line adds *)
(** Calls and messages about [line] are added; the result is raised with every message. *)
Inductive adds (line : N) : lstate -> lstate -> Prop :=
| adds_nil : forall st, adds line st st
| adds_emit : forall st st' e, adds line st st' -> adds line st (l_emit e st')
| adds_say : forall st st' m, adds line st st' -> line_of m = Some line -> adds line st (say m (severity m) st').
Lemma adds_trans line a b c : adds line a b -> adds line b c -> adds line a c.
Proof. intros H1 H2. induction H2; auto; constructor; auto. Qed.

Lemma assign_adds line f mx mn w st it b w' st' r : log_assign line f mx mn w st it = Ok (b, w', st', r) -> adds line st st'.
Proof.
  unfold log_assign. intros H. binv H. destruct (ch_is v "=").
  2:{ injection H as _ _ <- _. destruct (mn =? mx); [constructor|]. apply (adds_say line st st (MNoValue line f mx mn)); [constructor|reflexivity]. }
  binv H. binv H. binv H. destruct v2 as [vw i2]. binv H. binv H. destruct (ch_is v3 ch_tick).
  - binv H. cbv zeta in H. binv H. binv H. destruct v6 as [[bs bad] i5]. binv H. injection H as _ _ <- _.
    set (s1 := if w <? vw then _ else st).
    assert (A1 : adds line st s1) by (unfold s1; destruct (w <? vw); [apply (adds_say line st st (MWidth line vw f mx mn w)); [constructor|reflexivity]|constructor]).
    set (s2 := if _ && _ then _ else s1).
    assert (A2 : adds line st s2) by (unfold s2; destruct (_ && _); [apply (adds_say line st s1 (MTooWide line f mx mn w)); [exact A1|reflexivity]|exact A1]).
    destruct bad; [|exact A2]. apply (adds_say line st s2 (MBase line v5)); [exact A2|reflexivity].
  - cbv zeta in H. injection H as _ _ <- _. destruct (64 <? w); [|constructor].
    apply (adds_say line st st (MTooWide line f mx mn w)); [constructor|reflexivity].
Qed.
Lemma report_adds sm cb line f mn w tot : agrees cb -> forall bs chunk st st',
  log_report sm cb line f mn w tot chunk bs st = Ok st' -> adds line st st'.
Proof.
  intros A. induction bs as [|v bs IH]; intros chunk st st' H; cbn [log_report] in H; [injection H as <-; constructor|].
  cbv zeta in H. binv H. rewrite A in H. eapply adds_trans; [|eapply IH; exact H]. constructor. constructor.
Qed.
Lemma annotations_adds line f : forall fuel st it st' r, log_annotations fuel line f st it = Ok (st', r) -> adds line st st'.
Proof.
  induction fuel as [|fuel IH]; intros st it st' r H; [discriminate|]. cbn [log_annotations] in H.
  binv H. binv H. destruct v0 as [an i1]. binv H. binv H.
  destruct (negb _); [injection H as <- _; apply (adds_say line st st (MAnnotEqual line an)); [constructor|reflexivity]|].
  binv H. binv H. destruct (negb _); [injection H as <- _; apply (adds_say line st st (MAnnotQuote line f an)); [constructor|reflexivity]|].
  binv H. destruct v4 as [av i2]. binv H.
  destruct (ch_is v4 ch_nl); [injection H as <- _; apply (adds_say line st st (MAnnotOpen line)); [constructor|reflexivity]|].
  cbv zeta in H. binv H. binv H. destruct (ch_is v6 ",").
  - eapply adds_trans; [|eapply IH; exact H]. constructor. constructor.
  - injection H as <- _. constructor. constructor.
Qed.
Lemma annotation_part_adds annot line f st it st' r : log_annotation_part annot line f st it = Ok (st', r) -> adds line st st'.
Proof.
  unfold log_annotation_part. intros H. binv H. destruct (ch_is v "{"); [|injection H as <- _; constructor].
  binv H. destruct v0 as [s i]. binv H. injection H as <- _. destruct annot; [|injection E0 as <- _; constructor].
  binv E0. destruct v1 as [s1 i1]. apply annotations_adds in E2. binv E0. injection E0 as <- _.
  destruct (ch_is v1 "}"); [exact E2|]. apply (adds_say line st s1 (MAnnotEnd line v1)); [exact E2|reflexivity].
Qed.
Lemma eol_adds line st it st' r : log_eol line st it = Ok (st', r) -> adds line st st'.
Proof.
  unfold log_eol. intros H. binv H. binv H. binv H. destruct (ch_is v1 ch_nl); [injection H as <- _; constructor|].
  binv H. injection H as <- _. apply (adds_say line st st (MEol line v1)); [constructor|reflexivity].
Qed.
Lemma line_adds sm cb annot line st it st' r : agrees cb -> log_line sm cb annot line st it = Ok (st', r) -> adds line st st'.
Proof.
  intros A. unfold log_line. intros H. binv H. binv H. destruct v0 as [name i1]. binv H. destruct name as [|n0 ns].
  - binv H. destruct v1 as [s1 i2]. apply annotation_part_adds in E2. apply eol_adds in H. eapply adds_trans; eauto.
  - binv H. destruct v1 as [mx mn i2|i2|mx mn i2].
    + binv H. cbv zeta in H. binv H. destruct v2 as [[[bs w] s1] i3]. apply assign_adds in E4.
      binv H. apply (report_adds _ _ _ _ _ _ _ A) in E5. binv H. destruct v3 as [s3 i4].
      apply annotation_part_adds in E6. apply eol_adds in H. eauto using adds_trans.
    + cbv zeta in H. binv H. injection H as <- _.
      match goal with |- adds _ _ (say (MBracket line ?s) _ _) => apply (adds_say line st st (MBracket line s)) end; [constructor|reflexivity].
    + binv H. injection H as <- _. apply (adds_say line st st (MInverted line (n0 :: ns) mx mn)); [constructor|reflexivity].
Qed.

Lemma worst_app a b : worst (a ++ b) = N.max (worst a) (worst b).
Proof. unfold worst. rewrite map_app, fold_left_app, fold_max_init. reflexivity. Qed.
Lemma severity_pos m : 1 <= severity m.
Proof. destruct m; discriminate. Qed.
Lemma worst_zero ms : worst ms = 0 <-> ms = [].
Proof.
  split; [|intros ->; reflexivity]. destruct ms as [|m ms]; [reflexivity|]. change (m :: ms) with ([m] ++ ms). rewrite worst_app.
  unfold worst at 1. cbn [map fold_left]. pose proof (severity_pos m). unfold kSuccess in *. intros W. exfalso. clear - H W. generalize dependent (worst ms). generalize dependent (severity m). intros. lia.
Qed.
Lemma adds_inv line st st' : adds line st st' ->
  exists ms, l_messages st' = l_messages st ++ ms /\ Forall (fun m => line_of m = Some line) ms /\
    l_result st' = N.max (l_result st) (worst ms).
Proof.
  induction 1 as [st|st st' e A (ms & E & F & R)|st st' m A (ms & E & F & R) L].
  - exists []. rewrite app_nil_r. split; [reflexivity|]. split; [constructor|]. change (worst []) with 0. now rewrite N.max_0_r.
  - exists ms. auto.
  - exists (ms ++ [m]). cbn [say l_messages l_result]. rewrite E, <- app_assoc. split; [reflexivity|]. split; [apply Forall_app; auto|].
    rewrite R, worst_app. unfold worst at 3. cbn [map fold_left]. unfold kSuccess. lia.
Qed.

(** ** What follows does not matter *)
Definition lrange_app (r : lrange) (t : text) : lrange :=
  match r with
  | LRangeOk a b it => LRangeOk a b (it ++ t)
  | LRangeErr it => LRangeErr (it ++ t)
  | LRangeInverted a b it => LRangeInverted a b (it ++ t)
  end.
Lemma log_range_ext it r t : log_range it = Ok r -> log_range (it ++ t) = Ok (lrange_app r t).
Proof.
  unfold log_range. intros H. ext_step H t.
  destruct (ch_is c "[").
  - rewrite (tl_app _ _ _ t H0).
    binv H. destruct v as [mx i1]. rewrite (parse_number_ext _ _ _ _ _ _ t E0). cbn [obind].
    ext_step H t. ext_step H t.
    binv H. destruct v as [mn i2].
    match goal with |- obind ?a _ = _ => assert (X : a = Ok (mn, i2 ++ t)) end.
    { destruct (ch_is c0 ":").
      - binv E3. destruct v as [a b]. rewrite (tl_app _ _ _ t H1).
        rewrite (parse_number_ext _ _ _ _ _ _ t E4). cbn [obind].
        ext_step E3 t. inversion E3; subst. reflexivity.
      - inversion E3; subst. reflexivity. }
    rewrite X. cbn [obind].
    ext_step H t.
    rewrite (tl_app _ _ _ t H2).
    destruct (negb (ch_is c1 "]")); [inversion H; subst; reflexivity|].
    destruct (mx <? mn); inversion H; subst; reflexivity.
  - inversion H; subst. reflexivity.
Qed.
Lemma log_range_err it i : log_range it = Ok (LRangeErr i) -> i <> [].
Proof.
  unfold log_range. intros H. binv H. destruct (ch_is v "["); [|discriminate].
  binv H. destruct v0. binv H. binv H. binv H. destruct v2. binv H.
  destruct (negb (ch_is v2 "]")); [|destruct (_ <? _); discriminate]. injection H as <-. intros ->. discriminate.
Qed.
Lemma log_assign_ext line f mx mn w st it b w' st' r t :
  log_assign line f mx mn w st it = Ok (b, w', st', r) -> log_assign line f mx mn w st (it ++ t) = Ok (b, w', st', r ++ t).
Proof.
  unfold log_assign. intros H. ext_step H t.
  destruct (ch_is c "=").
  - rewrite (tl_app _ _ _ t H0). ext_step H t. ext_step H t.
    binv H. destruct v as [vw i2].
    match goal with |- obind ?a _ = _ => assert (X : a = Ok (vw, i2 ++ t)) end.
    { destruct (digit_of c0 <=? 9)%Z; [now apply parse_number_ext|].
      inversion E2; subst; reflexivity. }
    rewrite X. cbn [obind]. ext_step H t. ext_step H t.
    destruct (ch_is c1 ch_tick).
    + rewrite (tl_app _ _ _ t H2). ext_step H t. cbv zeta in *. ext_step H t.
      rewrite (tl_app _ _ _ t H3).
      binv H. destruct v as [[bs bad] i3]. rewrite (parse_based_ext _ _ _ _ _ t E7). cbn [obind].
      ext_step H t. cg.
    + cg.
  - cg.
Qed.
Lemma log_annotations_ext : forall fuel line name it st st' r t k, it <> [] ->
  log_annotations fuel line name st it = Ok (st', r) ->
  log_annotations (fuel + k) line name st (it ++ t) = Ok (st', r ++ t).
Proof.
  induction fuel as [|fuel IH]; intros line name it st st' r t k Hne H; [discriminate|].
  cbn [log_annotations Nat.add] in *.
  destruct it as [|c0 it]; [contradiction|]. cbn [app tl] in *.
  ext_step H t. binv H. destruct v as [an i1]. rewrite (read_ident_ext _ _ _ t E0). cbn [obind].
  ext_step H t. ext_step H t. destruct (negb (ch_is c "=")); [cg|].
  rewrite (tl_app _ _ _ t H0). ext_step H t. ext_step H t.
  destruct (negb (ch_is c1 ch_quote)); [cg|].
  rewrite (tl_app _ _ _ t H1).
  binv H. destruct v as [av i2]. rewrite (scan_value_ext _ _ _ _ t E5). cbn [obind].
  ext_step H t. destruct (ch_is c2 ch_nl); [cg|].
  rewrite (tl_app _ _ _ t H2). cbv zeta in *. ext_step H t. ext_step H t.
  destruct (ch_is c3 ","); [|cg].
  apply IH; auto. intros ->. discriminate.
Qed.
Lemma log_annotation_part_ext annot line name st it st' r t :
  log_annotation_part annot line name st it = Ok (st', r) ->
  log_annotation_part annot line name st (it ++ t) = Ok (st', r ++ t).
Proof.
  unfold log_annotation_part. intros H. ext_step H t.
  destruct (ch_is c "{"); [|cg].
  binv H. destruct v as [st1 i1].
  match goal with |- obind ?a _ = _ => assert (X : a = Ok (st1, i1 ++ t)) end.
  { destruct annot; [|cg].
    binv E0. destruct v as [st2 i2].
    assert (NE : it <> []) by (intros ->; discriminate).
    pose proof (log_annotations_ext _ _ _ _ _ _ _ t (List.length t) NE E1) as A.
    replace (S (List.length it) + List.length t)%nat with (S (List.length (it ++ t))) in A
      by (rewrite app_length; lia).
    rewrite A. cbn [obind]. ext_step E0 t. cg. }
  rewrite X. cbn [obind]. ext_step H t. cg.
Qed.
Lemma log_eol_ext line st it st' r t : log_eol line st it = Ok (st', r) -> log_eol line st (it ++ t) = Ok (st', r ++ t).
Proof.
  unfold log_eol. intros H. ext_step H t.
  binv H.
  match goal with |- obind ?a _ = _ => assert (X : a = Ok (v ++ t)) end.
  { destruct (ch_is c "#" || ch_is c ch_cr); [now apply skip_to_eol_ext|cg]. }
  rewrite X. cbn [obind]. ext_step H t. rewrite (tl_app _ _ _ t H1).
  destruct (ch_is c0 ch_nl); [cg|].
  ext_step H t. destruct (skip_to_eol_ne _ _ E2) as (r' & ->). cbn [app tl] in *. cg.
Qed.
Lemma log_line_ext sm cb annot line st it st' r t :
  log_line sm cb annot line st it = Ok (st', r) -> log_line sm cb annot line st (it ++ t) = Ok (st', r ++ t).
Proof.
  unfold log_line. intros H. ext_step H t.
  binv H. destruct v as [name i1]. rewrite (read_ident_ext _ _ _ t E0). cbn [obind].
  ext_step H t. destruct name as [|n0 ns].
  - binv H. destruct v as [st1 i2]. rewrite (log_annotation_part_ext _ _ _ _ _ _ _ t E2).
    cbn [obind]. now apply log_eol_ext.
  - binv H. pose proof (log_range_ext _ _ t E2) as X. rewrite X. cbn [obind]. clear X.
    destruct v as [mx mn i2|i2|mx mn i2]; cbn [lrange_app].
    + ext_step H t. cbv zeta in *. binv H. destruct v as [[[bs w] st1] i3].
      rewrite (log_assign_ext _ _ _ _ _ _ _ _ _ _ _ t E4). cbn [obind].
      binv H. rewrite E5. cbn [obind]. binv H. destruct v0 as [st2 i4].
      rewrite (log_annotation_part_ext _ _ _ _ _ _ _ t E6). cbn [obind].
      now apply log_eol_ext.
    + cbv zeta in *. ext_step H t. destruct (skip_to_eol_ne _ _ E3) as (r' & ->). cbn [app tl] in *.
      rewrite !app_length. replace (List.length it0 + List.length t - (List.length i2 + List.length t))%nat with (List.length it0 - List.length i2)%nat by lia.
      assert (NE : i2 <> []) by (eapply log_range_err; exact E2).
      assert (NE0 : it0 <> []) by (intros ->; discriminate E0).
      assert (F : firstn (S (List.length it0 - List.length i2)) (it0 ++ t) = firstn (S (List.length it0 - List.length i2)) it0).
      { rewrite firstn_app. assert (L : (S (List.length it0 - List.length i2) - List.length it0 = 0)%nat).
        { destruct i2; [contradiction|]. destruct it0; [contradiction|]. cbn [List.length]. lia. }
        rewrite L. cbn [firstn]. apply app_nil_r. }
      change (list ascii) with text in F. rewrite F. cg.
    + ext_step H t. destruct (skip_to_eol_ne _ _ E3) as (r' & ->). cbn [app tl] in *. cg.
Qed.

(** ** The same line elsewhere *)
Definition event_at (n : N) (e : event) : event :=
  match e with EFeature _ f s w b => EFeature n f s w b | EAnnotation _ f a v => EAnnotation n f a v end.
Section Elsewhere.
  Context (line line' : N) (base : lstate).
  Definition there (s : lstate) : lstate :=
    {| l_events := l_events base ++ map (event_at line') (l_events s); l_result := N.max (l_result base) (l_result s);
       l_messages := l_messages base ++ map (about line') (l_messages s) |}.
  Lemma there_say m r s : there (say m r s) = say (about line' m) r (there s).
  Proof. unfold there, say. cbn. f_equal; [lia|]. now rewrite map_app, app_assoc. Qed.
  Lemma there_emit e s : there (l_emit e s) = l_emit (event_at line' e) (there s).
  Proof. unfold there, l_emit. cbn. f_equal. now rewrite map_app, app_assoc. Qed.
  Definition at2 (p : lstate * text) : lstate * text := (there (fst p), snd p).

  Lemma assign_there f mx mn w s it :
    log_assign line' f mx mn w (there s) it
    = omap (fun p => let '(b, w', s', r) := p in (b, w', there s', r)) (log_assign line f mx mn w s it).
  Proof.
    unfold log_assign. destruct (peek it) as [c| | | |]; cbn [obind omap]; auto.
    destruct (ch_is c "=").
    2:{ cbn [omap obind]. destruct (mn =? mx); [reflexivity|]. now rewrite there_say. }
    destruct (skip_blank (tl it)) as [i1| | | |]; cbn [obind omap]; auto.
    destruct (peek i1) as [c1| | | |]; cbn [obind omap]; auto.
    destruct (if (_ <=? _)%Z then _ else _) as [[v i2]| | | |]; cbn [obind omap]; auto.
    destruct (skip_blank i2) as [i3| | | |]; cbn [obind omap]; auto.
    destruct (peek i3) as [c3| | | |]; cbn [obind omap]; auto.
    destruct (ch_is c3 ch_tick).
    - destruct (skip_blank (tl i3)) as [i4| | | |]; cbn [obind omap]; auto. cbv zeta.
      destruct (peek i4) as [c4| | | |]; cbn [obind omap]; auto.
      destruct (parse_based c4 (tl i4)) as [[[bs bad] i5]| | | |]; cbn [obind omap]; auto.
      destruct (skip_blank i5) as [i6| | | |]; cbn [obind omap]; auto.
      destruct (w <? v), ((64 <? w) && (ch_is c4 "d" || ch_is c4 "o")), bad; rewrite ?there_say; reflexivity.
    - cbv zeta. cbn [omap obind]. destruct (64 <? w); rewrite ?there_say; reflexivity.
  Qed.
  Lemma report_there sm cb f mn w tot : agrees cb -> forall bs chunk s,
    log_report sm cb line' f mn w tot chunk bs (there s) = omap there (log_report sm cb line f mn w tot chunk bs s).
  Proof.
    intros A. induction bs as [|v bs IH]; intros chunk s; cbn [log_report]; [reflexivity|].
    cbv zeta. destruct (clamp_mask sm _) as [m| | | |]; cbn [obind omap]; auto. rewrite !A.
    match goal with |- log_report _ _ _ _ _ _ _ _ _ (l_emit (EFeature _ ?a ?b ?c ?d) _) = _ =>
      change (EFeature line' a b c d) with (event_at line' (EFeature line a b c d)) end.
    rewrite <- there_emit. apply IH.
  Qed.
  Lemma annotations_there f : forall fuel s it,
    log_annotations fuel line' f (there s) it = omap at2 (log_annotations fuel line f s it).
  Proof.
    induction fuel as [|fuel IH]; intros s it; cbn [log_annotations]; auto.
    destruct (skip_blank (tl it)) as [i1| | | |]; cbn [obind omap]; auto.
    destruct (read_ident i1) as [[an i2]| | | |]; cbn [obind omap]; auto.
    destruct (skip_blank i2) as [i3| | | |]; cbn [obind omap]; auto.
    destruct (peek i3) as [c3| | | |]; cbn [obind omap]; auto.
    destruct (negb (ch_is c3 "=")); [unfold at2; cbn [omap obind fst snd]; now rewrite there_say|].
    destruct (skip_blank (tl i3)) as [i4| | | |]; cbn [obind omap]; auto.
    destruct (peek i4) as [c4| | | |]; cbn [obind omap]; auto.
    destruct (negb (ch_is c4 ch_quote)); [unfold at2; cbn [omap obind fst snd]; now rewrite there_say|].
    destruct (scan_value ch_quote (tl i4)) as [[av i5]| | | |]; cbn [obind omap]; auto.
    destruct (peek i5) as [c5| | | |]; cbn [obind omap]; auto.
    destruct (ch_is c5 ch_nl); [unfold at2; cbn [omap obind fst snd]; now rewrite there_say|].
    cbv zeta. destruct (skip_blank (tl i5)) as [i6| | | |]; cbn [obind omap]; auto.
    destruct (peek i6) as [c6| | | |]; cbn [obind omap]; auto.
    change (EAnnotation line' f an av) with (event_at line' (EAnnotation line f an av)). rewrite <- there_emit.
    destruct (ch_is c6 ","); [apply IH|reflexivity].
  Qed.
  Lemma annotation_part_there annot f s it :
    log_annotation_part annot line' f (there s) it = omap at2 (log_annotation_part annot line f s it).
  Proof.
    unfold log_annotation_part. destruct (peek it) as [c| | | |]; cbn [obind omap]; auto.
    destruct (ch_is c "{"); [|reflexivity]. destruct annot.
    - rewrite annotations_there.
      destruct (log_annotations (S (List.length it)) line f s it) as [[s1 i1]| | | |]; cbn [obind omap fst snd at2]; auto.
      destruct (peek i1) as [c1| | | |]; cbn [obind omap]; auto.
      destruct (skip_to_eol i1) as [i2| | | |]; cbn [obind omap]; auto. unfold at2. cbn [fst snd].
      destruct (ch_is c1 "}"); [reflexivity|now rewrite there_say].
    - cbn [obind]. destruct (skip_to_eol it) as [i2| | | |]; cbn [obind omap]; auto.
  Qed.
  Lemma eol_there s it : log_eol line' (there s) it = omap at2 (log_eol line s it).
  Proof.
    unfold log_eol. destruct (peek it) as [c| | | |]; cbn [obind omap]; auto.
    destruct (if _ || _ then _ else _) as [i1| | | |]; cbn [obind omap]; auto.
    destruct (peek i1) as [c1| | | |]; cbn [obind omap]; auto. destruct (ch_is c1 ch_nl); [reflexivity|].
    destruct (skip_to_eol i1) as [i2| | | |]; cbn [obind omap]; auto. unfold at2. cbn [fst snd]. now rewrite there_say.
  Qed.
  Lemma line_there sm cb annot s it : agrees cb ->
    log_line sm cb annot line' (there s) it = omap at2 (log_line sm cb annot line s it).
  Proof.
    intros A. unfold log_line. destruct (skip_blank it) as [i1| | | |]; cbn [obind omap]; auto.
    destruct (read_ident i1) as [[name i2]| | | |]; cbn [obind omap]; auto.
    destruct (skip_blank i2) as [i3| | | |]; cbn [obind omap]; auto.
    destruct name as [|n0 ns].
    - rewrite annotation_part_there. destruct (log_annotation_part annot line [] s i3) as [[s1 i4]| | | |]; cbn [obind omap fst snd at2]; auto.
      apply eol_there.
    - destruct (log_range i3) as [rg| | | |]; cbn [obind omap]; auto.
      destruct rg as [mx mn i4|i4|mx mn i4].
      + destruct (skip_blank i4) as [i5| | | |]; cbn [obind omap]; auto. cbv zeta.
        rewrite assign_there.
        destruct (log_assign line (n0 :: ns) mx mn (u32 (mx - mn + 1)) s i5) as [[[[bs w] s1] i6]| | | |]; cbn [obind omap]; auto.
        rewrite (report_there _ _ _ _ _ _ A). destruct (log_report sm cb line (n0 :: ns) mn w (N.of_nat (List.length bs)) 0 bs s1) as [s2| | | |]; cbn [obind omap]; auto.
        rewrite annotation_part_there. destruct (log_annotation_part annot line (n0 :: ns) s2 i6) as [[s3 i7]| | | |]; cbn [obind omap fst snd at2]; auto.
        apply eol_there.
      + cbv zeta. destruct (skip_to_eol i4) as [i5| | | |]; cbn [obind omap]; auto. unfold at2. cbn [fst snd]. now rewrite there_say.
      + destruct (skip_to_eol i4) as [i5| | | |]; cbn [obind omap]; auto. unfold at2. cbn [fst snd]. now rewrite there_say.
  Qed.
End Elsewhere.
