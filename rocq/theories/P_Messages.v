(** Property C80: what the FASM parser prints. *)
From Verif Require Import Base BaseFacts Absl DbText Database Fasm FasmSpec FasmFacts FasmSafe FasmShape FasmFile FasmLines FasmLog MessageSpec MessageFacts Assembler AsmSpec AsmLog.

Local Notation "x <- e ;; f" := (obind e (fun x => f))
  (at level 61, e at next level, right associativity).

(** ** Where a line ends *)
Definition suffix (r it : text) : Prop := exists q, it = q ++ r.
Lemma suffix_refl it : suffix it it. Proof. now exists []. Qed.
Lemma suffix_trans a b c : suffix a b -> suffix b c -> suffix a c.
Proof. intros (q & ->) (q' & ->). exists (q' ++ q). now rewrite app_assoc. Qed.
Lemma suffix_tl it : suffix (tl it) it.
Proof. destruct it as [|c it]; [now exists []|now exists [c]]. Qed.
Lemma suffix_cons c a b : suffix a b -> suffix a (c :: b).
Proof. intros (q & ->). now exists (c :: q). Qed.
Create HintDb suf discriminated.
#[local] Hint Resolve suffix_refl suffix_tl suffix_cons : suf.
#[local] Hint Extern 3 (suffix _ _) => (eapply suffix_trans; [|apply suffix_tl]) : suf.
Lemma skip_blank_suf : forall it r, skip_blank it = Ok r -> suffix r it.
Proof.
  induction it as [|c it IH]; cbn [skip_blank]; intros r H; [discriminate|].
  destruct (_ || _); [auto with suf|injection H as <-; auto with suf].
Qed.
Lemma skip_to_eol_suf : forall it r, skip_to_eol it = Ok r -> suffix r it.
Proof.
  induction it as [|c it IH]; cbn [skip_to_eol]; intros r H; [discriminate|].
  destruct (ch_is _ _); [injection H as <-; auto with suf|auto with suf].
Qed.
Lemma read_ident_suf : forall it n r, read_ident it = Ok (n, r) -> suffix r it.
Proof.
  induction it as [|c it IH]; cbn [read_ident]; intros n r H; [discriminate|].
  destruct (ident_char c); [|injection H as _ <-; auto with suf].
  binv H. destruct v as [n' r']. injection H as _ <-. eauto with suf.
Qed.
Lemma number_loop_suf : forall base wrap it v n r, number_loop base wrap v it = Ok (n, r) -> suffix r it.
Proof.
  intros base wrap. induction it as [|c it IH]; cbn [number_loop]; intros v n r H; [discriminate|].
  destruct (_ <? _)%Z; [destruct (_ =? _)%Z; eauto with suf|injection H as _ <-; auto with suf].
Qed.
Lemma parse_number_suf base wrap v it n r : parse_number base wrap v it = Ok (n, r) -> suffix r it.
Proof. unfold parse_number. intros H. binv H. eapply suffix_trans; eauto using skip_blank_suf, number_loop_suf. Qed.
Lemma long_loop_suf : forall l it n v x r, long_loop l n v it = Ok (x, r) -> suffix r it.
Proof.
  intros l. induction it as [|c it IH]; cbn [long_loop]; intros n v x r H; [discriminate|].
  destruct (_ <? _)%Z; [destruct (_ =? _)%Z; eauto with suf|injection H as _ <-; auto with suf].
Qed.
Lemma parse_long_suf l it x r : parse_long l it = Ok (x, r) -> suffix r it.
Proof. unfold parse_long. intros H. binv H. binv H. destruct v0. injection H as _ <-. eapply suffix_trans; eauto using skip_blank_suf, long_loop_suf. Qed.
Lemma scan_value_suf : forall it p v r, scan_value p it = Ok (v, r) -> suffix r it.
Proof.
  induction it as [|c it IH]; cbn [scan_value]; intros p v r H; [discriminate|].
  destruct (ch_is _ _); [injection H as _ <-; auto with suf|]. destruct (_ && _); [injection H as _ <-; auto with suf|].
  binv H. destruct v0 as [v0 r0]. injection H as _ <-. eauto with suf.
Qed.
Lemma parse_based_suf f it v b r : parse_based f it = Ok (v, b, r) -> suffix r it.
Proof.
  unfold parse_based. intros H.
  destruct (ch_is f "h"); [|destruct (ch_is f "b"); [|destruct (ch_is f "o"); [|destruct (ch_is f "d")]]];
    binv H; try (destruct v0 as [x y]); injection H as _ _ <-; eauto using parse_long_suf, parse_number_suf, skip_to_eol_suf.
Qed.
Definition range_pos (r : lrange) : text := match r with LRangeOk _ _ i | LRangeErr i | LRangeInverted _ _ i => i end.
Lemma log_range_suf it r : log_range it = Ok r -> suffix (range_pos r) it.
Proof.
  unfold log_range. intros H. binv H. destruct (ch_is v "["); [|injection H as <-; apply suffix_refl].
  binv H. destruct v0 as [mx i0]. apply parse_number_suf in E0. binv H. apply skip_blank_suf in E1. binv H. binv H. destruct v2 as [mn i2].
  assert (S : suffix i2 v0).
  { destruct (ch_is v1 ":"); [|injection E3 as _ <-; apply suffix_refl]. binv E3. destruct v2. apply parse_number_suf in E4.
    binv E3. apply skip_blank_suf in E5. injection E3 as _ <-. eauto using suffix_trans, suffix_tl. }
  assert (S' : suffix i2 it) by eauto 6 using suffix_trans, suffix_tl.
  binv H. destruct (negb _); [injection H as <-; exact S'|]. destruct (_ <? _); injection H as <-; eauto using suffix_trans, suffix_tl.
Qed.
Lemma log_assign_suf line f mx mn w st it b w' st' r : log_assign line f mx mn w st it = Ok (b, w', st', r) -> suffix r it.
Proof.
  unfold log_assign. intros H. binv H. destruct (ch_is v "="); [|injection H as _ _ _ <-; apply suffix_refl].
  binv H. apply skip_blank_suf in E0. binv H. binv H. destruct v2 as [vw i2].
  assert (S : suffix i2 v0) by (destruct (_ <=? _)%Z; [eapply parse_number_suf; eauto|injection E2 as _ <-; apply suffix_refl]).
  binv H. apply skip_blank_suf in E3. binv H. destruct (ch_is v3 ch_tick).
  - binv H. apply skip_blank_suf in E5. cbv zeta in H. binv H. binv H. destruct v6 as [[bs bad] i5]. apply parse_based_suf in E7.
    binv H. apply skip_blank_suf in E8. injection H as _ _ _ <-. 
    eapply suffix_trans; [exact E8|]. eapply suffix_trans; [exact E7|]. eapply suffix_trans; [apply suffix_tl|]. eapply suffix_trans; [exact E5|].
    eapply suffix_trans; [apply suffix_tl|]. eapply suffix_trans; [exact E3|]. eapply suffix_trans; [exact S|]. eapply suffix_trans; [exact E0|]. apply suffix_tl.
  - injection H as _ _ _ <-. eapply suffix_trans; [exact E3|]. eapply suffix_trans; [exact S|]. eapply suffix_trans; [exact E0|]. apply suffix_tl.
Qed.
Lemma log_annotations_suf line f : forall fuel st it st' r, log_annotations fuel line f st it = Ok (st', r) -> suffix r it.
Proof.
  induction fuel as [|fuel IH]; intros st it st' r H; [discriminate|]. cbn [log_annotations] in H.
  binv H. apply skip_blank_suf in E. binv H. destruct v0 as [an i1]. apply read_ident_suf in E0. binv H. apply skip_blank_suf in E1. 
  assert (S1 : suffix v0 it) by (eapply suffix_trans; [exact E1|]; eapply suffix_trans; [exact E0|]; eapply suffix_trans; [exact E|]; apply suffix_tl).
  binv H.
  destruct (negb _); [injection H as _ <-; exact S1|].
  binv H. apply skip_blank_suf in E3.
  assert (S2 : suffix v2 it) by (eapply suffix_trans; [exact E3|]; eapply suffix_trans; [apply suffix_tl|exact S1]).
  binv H. destruct (negb _); [injection H as _ <-; exact S2|].
  binv H. destruct v4 as [av i2]. apply scan_value_suf in E5.
  assert (S3 : suffix i2 it) by (eapply suffix_trans; [exact E5|]; eapply suffix_trans; [apply suffix_tl|exact S2]).
  binv H. destruct (ch_is v4 ch_nl); [injection H as _ <-; exact S3|].
  cbv zeta in H. binv H. apply skip_blank_suf in E7.
  assert (S4 : suffix v5 it) by (eapply suffix_trans; [exact E7|]; eapply suffix_trans; [apply suffix_tl|exact S3]).
  binv H. destruct (ch_is v6 ","); [|injection H as _ <-; exact S4].
  eapply suffix_trans; [eapply IH; exact H|exact S4].
Qed.
Lemma log_annotation_part_suf annot line f st it st' r : log_annotation_part annot line f st it = Ok (st', r) -> suffix r it.
Proof.
  unfold log_annotation_part. intros H. binv H. destruct (ch_is v "{"); [|injection H as _ <-; apply suffix_refl].
  binv H. destruct v0 as [s i]. binv H. apply skip_to_eol_suf in E1. injection H as _ <-. eapply suffix_trans; [exact E1|].
  destruct annot; [|injection E0 as _ <-; apply suffix_refl].
  binv E0. destruct v1 as [s1 i1]. apply log_annotations_suf in E2. binv E0. injection E0 as _ <-. exact E2.
Qed.
Lemma peek_nl it c : peek it = Ok c -> ch_is c ch_nl = true -> it = ch_nl :: tl it.
Proof. intros P E. apply peek_inv in P. apply ch_is_true in E. now subst c. Qed.
Lemma log_eol_suf line st it st' r : log_eol line st it = Ok (st', r) -> suffix (ch_nl :: r) it.
Proof.
  unfold log_eol. intros H. binv H. binv H.
  assert (S : suffix v0 it) by (destruct (_ || _); [eapply skip_to_eol_suf; eauto|injection E0 as <-; apply suffix_refl]).
  binv H. destruct (ch_is v1 ch_nl) eqn:N.
  - injection H as _ <-. rewrite <- (peek_nl _ _ E1 N). exact S.
  - binv H. injection H as _ <-. destruct (skip_to_eol_ne _ _ E2) as (r' & ->). apply skip_to_eol_suf in E2. cbn [tl]. eapply suffix_trans; eauto.
Qed.
Lemma log_line_suf sm cb annot line st it st' r : log_line sm cb annot line st it = Ok (st', r) -> suffix (ch_nl :: r) it.
Proof.
  unfold log_line. intros H. binv H. apply skip_blank_suf in E. binv H. destruct v0 as [name i1]. apply read_ident_suf in E0.
  binv H. apply skip_blank_suf in E1.
  assert (S : suffix v0 it) by (eapply suffix_trans; [exact E1|]; eapply suffix_trans; [exact E0|exact E]).
  destruct name as [|n0 ns].
  - binv H. destruct v1 as [s1 i2]. apply log_annotation_part_suf in E2. apply log_eol_suf in H.
    eapply suffix_trans; [exact H|]. eapply suffix_trans; [exact E2|exact S].
  - binv H. apply log_range_suf in E2. destruct v1 as [mx mn i2|i2|mx mn i2]; cbn [range_pos] in E2.
    + binv H. apply skip_blank_suf in E3. cbv zeta in H. binv H. destruct v2 as [[[bs w] s1] i3]. apply log_assign_suf in E4.
      binv H. binv H. destruct v3 as [s3 i4]. apply log_annotation_part_suf in E6. apply log_eol_suf in H.
      eapply suffix_trans; [exact H|]. eapply suffix_trans; [exact E6|]. eapply suffix_trans; [exact E4|]. eapply suffix_trans; [exact E3|].
      eapply suffix_trans; [exact E2|exact S].
    + cbv zeta in H. binv H. injection H as _ <-. destruct (skip_to_eol_ne _ _ E3) as (r' & ->). apply skip_to_eol_suf in E3. cbn [tl].
      eapply suffix_trans; [exact E3|]. eapply suffix_trans; [exact E2|exact S].
    + binv H. injection H as _ <-. destruct (skip_to_eol_ne _ _ E3) as (r' & ->). apply skip_to_eol_suf in E3. cbn [tl].
      eapply suffix_trans; [exact E3|]. eapply suffix_trans; [exact E2|exact S].
Qed.

(** ** Decimal numbers *)
Definition decimal (n : N) (ds : text) : Prop :=
  ds <> [] /\ numeral_value 10 ds = n /\ Forall (fun c => 48 <= N_of_ascii c <= 57) ds.
Lemma dec_char_digit d : d < 10 -> digit_value (dec_char d) = Some d /\ 48 <= N_of_ascii (dec_char d) <= 57.
Proof.
  intros H. assert (I : In d (map N.of_nat (seq 0 10))) by (apply in_map_iff; exists (N.to_nat d); split; [lia|apply in_seq; lia]).
  cbn in I. repeat destruct I as [<-|I]; try (split; [reflexivity|cbn; lia]). destruct I.
Qed.
Lemma numeral_value_snoc ds d : d < 10 -> numeral_value 10 (ds ++ [dec_char d]) = numeral_value 10 ds * 10 + d.
Proof.
  intros H. unfold numeral_value. assert (E : numeral_digits (ds ++ [dec_char d]) = numeral_digits ds ++ [d]).
  { induction ds as [|c ds IH]; cbn [numeral_digits app].
    - now rewrite (proj1 (dec_char_digit d H)).
    - rewrite IH. destruct (digit_value c); reflexivity. }
  rewrite E. unfold digits_value. now rewrite fold_left_app.
Qed.
Lemma dec_fuel_spec : forall fuel n acc, n < 2 ^ N.of_nat fuel -> (0 < fuel)%nat ->
  exists ds, dec_fuel fuel n acc = ds ++ acc /\ decimal n ds.
Proof.
  induction fuel as [|fuel IH]; intros n acc H F; [lia|]. cbn [dec_fuel]. cbv zeta.
  pose proof (N.mod_lt n 10 ltac:(lia)) as M. pose proof (N.div_mod n 10 ltac:(lia)) as DM.
  destruct (N.eqb_spec (n / 10) 0) as [Z|NZ].
  - exists [dec_char (n mod 10)]. split; [reflexivity|]. split; [discriminate|]. split.
    + change [dec_char (n mod 10)] with ([] ++ [dec_char (n mod 10)]). rewrite numeral_value_snoc by exact M. change (numeral_value 10 []) with 0. lia.
    + constructor; [apply (dec_char_digit _ M)|constructor].
  - rewrite Nat2N.inj_succ, N.pow_succ_r' in H.
    destruct fuel as [|fuel].
    { exfalso. change (2 ^ N.of_nat 0) with 1 in H. apply NZ. apply N.div_small. lia. }
    destruct (IH (n / 10) (dec_char (n mod 10) :: acc)) as (ds & E & NE & V & D).
    { apply N.div_lt_upper_bound; [lia|]. generalize dependent (2 ^ N.of_nat (S fuel)). intros. lia. }
    { lia. }
    exists (ds ++ [dec_char (n mod 10)]). rewrite E, <- app_assoc. split; [reflexivity|]. split; [destruct ds; discriminate|]. split.
    + rewrite numeral_value_snoc by exact M. rewrite V. lia.
    + apply Forall_app. split; [exact D|]. constructor; [apply (dec_char_digit _ M)|constructor].
Qed.
Lemma dec_text_spec n : decimal n (dec_text n).
Proof.
  unfold dec_text. destruct (dec_fuel_spec (S (N.to_nat (N.log2 n))) n []) as (ds & E & D); [|lia|].
  - rewrite Nat2N.inj_succ, N2Nat.id. destruct (N.eq_dec n 0) as [->|NZ]; [reflexivity|]. apply N.log2_spec. lia.
  - rewrite E, app_nil_r. exact D.
Qed.

(** ** C80 *)
(** Printing does not influence the parse. *)
Theorem C80_same_parse : forall sm cb annot t,
  fasm_parse sm cb annot t =
  (st <- fasm_log sm cb annot t ;; Ok {| p_events := l_events st; p_result := l_result st |}).
Proof. exact parse_erase. Qed.

Lemma lines_worst sm cb annot : agrees cb -> forall fuel line st it st',
  log_lines fuel sm cb annot line st it = Ok st' -> l_result st = worst (l_messages st) -> l_result st' = worst (l_messages st').
Proof.
  intros A. induction fuel as [|fuel IH]; intros line st it st' H W; [discriminate|]. cbn [log_lines] in H.
  destruct it as [|c it]; [injection H as <-; exact W|]. cbv zeta in H. binv H. destruct v as [s r].
  eapply IH; [exact H|]. apply (line_adds _ _ _ _ _ _ _ _ A) in E. apply adds_inv in E as (ms & E & _ & R).
  rewrite E, worst_app, R, W. reflexivity.
Qed.
(** The result is the worst problem reported: for a consumer that never refuses, nothing is wrong
    without a message and no message comes without effect on the result. *)
Theorem C80_result_is_the_worst_message : forall sm cb annot t st, agrees cb ->
  fasm_log sm cb annot t = Ok st -> l_result st = worst (l_messages st).
Proof.
  intros sm cb annot t st A. unfold fasm_log. destruct t as [|c t]; [intros H; injection H as <-; reflexivity|]. cbv zeta.
  destruct (ch_is _ _); [|intros H; injection H as <-; reflexivity]. intros H. eapply lines_worst; [exact A|exact H|reflexivity].
Qed.
Corollary C80_silence_is_success : forall sm cb annot t st, agrees cb ->
  fasm_log sm cb annot t = Ok st -> (l_messages st = [] <-> l_result st = kSuccess).
Proof. intros sm cb annot t st A H. rewrite (C80_result_is_the_worst_message _ _ _ _ _ A H). symmetry. apply worst_zero. Qed.

Lemma log_lines_fuel sm cb annot : forall f1 f2 line st it st', log_lines f1 sm cb annot line st it = Ok st' -> (f1 <= f2)%nat ->
  log_lines f2 sm cb annot line st it = Ok st'.
Proof.
  induction f1 as [|f1 IH]; intros f2 line st it st' H L; [discriminate|]. destruct f2 as [|f2]; [lia|]. cbn [log_lines] in *.
  destruct it as [|c it]; [exact H|]. cbv zeta in *. binv H. destruct v as [s r]. rewrite E. cbn [obind]. apply IH; [exact H|lia].
Qed.
Lemma there_start line base : there line base log_start = base.
Proof. unfold there, log_start. cbn. rewrite !app_nil_r. destruct base as [a r m]. cbn. f_equal. unfold kSuccess. lia. Qed.
Lemma one_line_log sm cb annot p s : log_line sm cb annot 1 log_start (p ++ newline) = Ok (s, []) -> fasm_log sm cb annot (unlines [p]) = Ok s.
Proof.
  intros H. unfold unlines. cbn [map concat]. rewrite app_nil_r. unfold fasm_log.
  destruct (p ++ newline) as [|c t] eqn:E; [destruct p; discriminate E|]. rewrite <- E in *. cbv zeta.
  assert (L : last (p ++ newline) ch_nl = ch_nl) by apply (last_last p ch_nl ch_nl). rewrite L. cbn [ch_is].
  change (ch_is ch_nl ch_nl) with true. cbv iota. cbn [log_lines]. rewrite E at 1. cbv zeta.
  change (u32 (0 + 1)) with 1. fold log_start. rewrite H. cbn [obind]. destruct (List.length (p ++ newline)) eqn:Z; [rewrite E in Z; discriminate Z|reflexivity].
Qed.
Lemma lines_each sm cb annot : agrees cb -> forall ps, Forall good_line ps -> forall fuel n base st, n + N.of_nat (List.length ps) < 2 ^ 32 ->
  log_lines fuel sm cb annot n base (unlines ps) = Ok st ->
  exists ss, Forall2 (fun p s => fasm_log sm cb annot (unlines [p]) = Ok s) ps ss /\
    l_messages st = l_messages base ++ numbered_messages (n + 1) (map l_messages ss).
Proof.
  intros A ps G. induction G as [|p ps Gp Gs IH]; intros fuel n base st L H.
  - destruct fuel; [discriminate|]. injection H as <-. exists []. split; [constructor|]. cbn. now rewrite app_nil_r.
  - destruct fuel as [|fuel]; [discriminate|]. rewrite unlines_cons in H. unfold unlines at 1 in H. cbn [map concat] in H. rewrite app_nil_r in H.
    cbn [log_lines] in H. destruct ((p ++ newline) ++ unlines ps) as [|c0 t0] eqn:EQ; [destruct p; discriminate EQ|]. rewrite <- EQ in H. cbv zeta in H.
    cbn [List.length] in L. rewrite Nat2N.inj_succ in L.
    assert (U : u32 (n + 1) = n + 1) by (unfold u32; apply N.mod_small; lia). rewrite U in H.
    binv H. destruct v as [st1 r].
    destruct (parse_line_local sm cb annot (n + 1) (erase base) (p ++ newline) (good_line_rest p Gp)) as (Lo & HL & _).
    pose proof (HL (unlines ps)) as X. rewrite line_erase, E in X. cbn [omap obind fst snd] in X.
    destruct Lo as [s0| | | |]; try discriminate X. cbn [omap obind] in X. injection X as X1 X2. subst r.
    pose proof (HL []) as Y. rewrite app_nil_r, line_erase in Y.
    destruct (log_line sm cb annot (n + 1) base (p ++ newline)) as [[st1' r']| | | |] eqn:E'; try discriminate Y.
    cbn [omap obind fst snd] in Y. injection Y as _ Y. subst r'.
    pose proof (log_line_ext _ _ _ _ _ _ _ _ (unlines ps) E') as Z. rewrite E in Z. injection Z as <-.
    pose proof (line_there 1 (n + 1) base sm cb annot log_start (p ++ newline) A) as T. rewrite there_start, E' in T.
    destruct (log_line sm cb annot 1 log_start (p ++ newline)) as [[s r]| | | |] eqn:E1; try discriminate T.
    cbn [omap obind] in T. unfold at2 in T. cbn [fst snd] in T. injection T as T1 T2. subst r st1.
    destruct (IH fuel (n + 1) _ st ltac:(lia) H) as (ss & F & M). exists (s :: ss). split.
    + constructor; [apply one_line_log; exact E1|exact F].
    + rewrite M. cbn [map numbered_messages]. cbn [there l_messages]. now rewrite <- app_assoc.
Qed.
(** The messages of a text are those of its lines parsed alone, each under the number of its line. *)
Theorem C80_lines_are_reported_by_number : forall sm cb annot ps st, agrees cb -> Forall good_line ps ->
  N.of_nat (List.length ps) < 2 ^ 32 -> fasm_log sm cb annot (unlines ps) = Ok st ->
  exists ss, Forall2 (fun p s => fasm_log sm cb annot (unlines [p]) = Ok s) ps ss /\
    l_messages st = numbered_messages 1 (map l_messages ss).
Proof.
  intros sm cb annot ps st A G L H. destruct ps as [|p ps].
  - injection H as <-. exists []. split; [constructor|reflexivity].
  - unfold fasm_log in H. destruct (unlines_last (p :: ps) ltac:(discriminate)) as [NE LA].
    destruct (unlines (p :: ps)) as [|c t] eqn:E; [contradiction|]. rewrite <- E in *. cbv zeta in H. rewrite LA in H.
    change (ch_is ch_nl ch_nl) with true in H. cbv iota in H.
    apply (lines_each sm cb annot A (p :: ps) G _ 0 _ st L H).
Qed.

Lemma line_of_about n m : line_of (about n m) = None \/ line_of (about n m) = Some n.
Proof. destruct m; cbn; auto. Qed.
Lemma lines_labelled sm cb annot : agrees cb -> forall fuel line st it st', log_lines fuel sm cb annot line st it = Ok st' ->
  Forall (fun m => line_of m <> None) (l_messages st) -> Forall (fun m => line_of m <> None) (l_messages st').
Proof.
  intros A. induction fuel as [|fuel IH]; intros line st it st' H W; [discriminate|]. cbn [log_lines] in H.
  destruct it as [|c it]; [injection H as <-; exact W|]. cbv zeta in H. binv H. destruct v as [s r].
  eapply IH; [exact H|]. apply (line_adds _ _ _ _ _ _ _ _ A) in E. apply adds_inv in E as (ms & E & F & _).
  rewrite E. apply Forall_app. split; [exact W|]. eapply Forall_impl; [|exact F]. cbn. congruence.
Qed.
Lemma log_labelled sm cb annot t st : agrees cb -> nl_text t -> fasm_log sm cb annot t = Ok st -> Forall (fun m => line_of m <> None) (l_messages st).
Proof.
  intros A NT. unfold fasm_log. destruct t as [|c t]; [intros H; injection H as <-; constructor|]. cbv zeta.
  destruct NT as [NT|NT]; [discriminate|]. unfold ch_nl at 1. rewrite NT. change (ch_is "010" ch_nl) with true. cbv iota.
  intros H. eapply lines_labelled; [exact A|exact H|constructor].
Qed.
Lemma about_line n m : line_of m <> None -> line_of (about n m) = Some n.
Proof. destruct m; cbn; congruence. Qed.
Lemma numbered_in : forall l k m, Forall (Forall (fun m => line_of m <> None)) l ->
  In m (numbered_messages k l) -> exists i ms m', nth_error l i = Some ms /\ In m' ms /\ m = about (k + N.of_nat i) m' /\ line_of m = Some (k + N.of_nat i).
Proof.
  induction l as [|ms l IH]; intros k m F H; [destruct H|]. inversion F; subst. cbn [numbered_messages] in H. apply in_app_iff in H as [H|H].
  - apply in_map_iff in H as (m' & <- & I). exists 0%nat, ms, m'. rewrite N.add_0_r. split; [reflexivity|]. split; [exact I|]. split; [reflexivity|].
    apply about_line. rewrite Forall_forall in H2. auto.
  - apply IH in H as (i & ms' & m' & E & I & -> & L); [|assumption]. exists (S i), ms', m'.
    replace (k + N.of_nat (S i)) with (k + 1 + N.of_nat i) by lia. auto.
Qed.
Lemma in_numbered : forall l k i ms m, nth_error l i = Some ms -> In m ms -> In (about (k + N.of_nat i) m) (numbered_messages k l).
Proof.
  induction l as [|ms l IH]; intros k i ms' m E I; [destruct i; discriminate|]. cbn [numbered_messages]. apply in_app_iff. destruct i as [|i].
  - injection E as ->. left. rewrite N.add_0_r. now apply in_map.
  - right. replace (k + N.of_nat (S i)) with (k + 1 + N.of_nat i) by lia. eapply IH; eauto.
Qed.
Lemma Forall2_nth {A B} (R : A -> B -> Prop) l l' i x : Forall2 R l l' -> nth_error l i = Some x -> exists y, nth_error l' i = Some y /\ R x y.
Proof. intros F. revert i. induction F; intros [|i] E; cbn in *; try discriminate; eauto. injection E as <-. eauto. Qed.
Lemma Forall2_nth_r {A B} (R : A -> B -> Prop) l l' i y : Forall2 R l l' -> nth_error l' i = Some y -> exists x, nth_error l i = Some x /\ R x y.
Proof. intros F. revert i. induction F; intros [|i] E; cbn in *; try discriminate; eauto. injection E as <-. eauto. Qed.
(** A line is named in a message exactly when it has a problem, and every message names a line. *)
Theorem C80_named_lines_have_a_problem : forall sm cb annot ps st, agrees cb -> Forall good_line ps ->
  N.of_nat (List.length ps) < 2 ^ 32 -> fasm_log sm cb annot (unlines ps) = Ok st ->
  (forall i p, nth_error ps i = Some p ->
    ((exists m, In m (l_messages st) /\ line_of m = Some (N.of_nat i + 1)) <->
     exists s, fasm_parse sm cb annot (unlines [p]) = Ok s /\ p_result s <> kSuccess)) /\
  (forall m, In m (l_messages st) -> exists i, (i < List.length ps)%nat /\ line_of m = Some (N.of_nat i + 1)).
Proof.
  intros sm cb annot ps st A G L H. destruct (C80_lines_are_reported_by_number _ _ _ _ _ A G L H) as (ss & F & M).
  assert (LB : Forall (Forall (fun m => line_of m <> None)) (map l_messages ss)).
  { clear - F A. induction F as [|p s ps ss E F IH]; [constructor|]. cbn [map]. constructor; [|exact IH].
    eapply log_labelled; [exact A| |exact E]. apply nl_unlines. }
  split.
  - intros i p E. destruct (Forall2_nth _ _ _ _ _ F E) as (s & Es & Hs).
    assert (P : fasm_parse sm cb annot (unlines [p]) = Ok (erase s)) by (rewrite parse_erase, Hs; reflexivity).
    pose proof (C80_silence_is_success _ _ _ _ _ A Hs) as SS.
    assert (Em : nth_error (map l_messages ss) i = Some (l_messages s)) by (now apply map_nth_error).
    split.
    + intros (m & I & Lm). rewrite M in I. apply (numbered_in _ _ _ LB) in I as (j & ms & m' & Ej & I & -> & Lj).
      rewrite Lm in Lj. assert (Q : N.of_nat i + 1 = 1 + N.of_nat j) by congruence. assert (j = i) by (clear - Q; lia). subst j. rewrite Em in Ej. injection Ej as <-.
      exists (erase s). split; [exact P|]. cbn [erase p_result]. intros Z. apply SS in Z. rewrite Z in I. destruct I.
    + intros (s' & P' & N'). rewrite P in P'. injection P' as <-. cbn [erase p_result] in N'.
      destruct (l_messages s) as [|m ms] eqn:Q; [exfalso; apply N', SS; reflexivity|].
      exists (about (1 + N.of_nat i) m). split; [rewrite M; apply (in_numbered _ _ _ (m :: ms)); [exact Em|now left]|].
      rewrite (N.add_comm (N.of_nat i) 1). apply about_line. rewrite Forall_forall in LB.
      apply nth_error_In in Em. specialize (LB _ Em). now inversion LB.
  - intros m I. rewrite M in I. apply (numbered_in _ _ _ LB) in I as (j & ms & m' & Ej & I & -> & Lj). exists j.
    split; [|rewrite Lj; f_equal; apply N.add_comm].
    assert (X : nth_error (map l_messages ss) j <> None) by congruence. apply nth_error_Some in X. rewrite map_length in X.
    assert (Q : List.length ps = List.length ss) by (clear - F; induction F; cbn; congruence). lia.
Qed.

Definition ends_nl (t : text) : Prop := exists b, t = b ++ newline.
Lemma ends_nl_app x y : ends_nl y -> ends_nl (x ++ y).
Proof. intros (b & ->). exists (x ++ b). apply app_assoc. Qed.
Lemma ends_nl_nl : ends_nl msg_nl. Proof. exists []. reflexivity. Qed.
Lemma starts s y : firstn 2 s = tx ": " -> ends_nl y -> exists body, s ++ y = tx ": " ++ body ++ newline.
Proof.
  intros E (b & ->). exists (skipn 2 s ++ b). rewrite <- (firstn_skipn 2 s) at 1. rewrite E, <- !app_assoc. reflexivity.
Qed.
(** A message about a line starts with its number, and every message ends its line. *)
Theorem C80_messages_start_with_the_line : forall m n, line_of m = Some n -> n < 2 ^ 31 ->
  exists ds body, render m = ds ++ tx ": " ++ body ++ newline /\ decimal n ds.
Proof.
  intros m n E L. assert (AI : as_int n = dec_text n) by (unfold as_int; apply N.ltb_lt in L; now rewrite L).
  pose proof (dec_text_spec n) as D. exists (dec_text n).
  destruct m; cbn [line_of] in E; try discriminate E; injection E as ->; unfold render; rewrite ?AI; clear AI; generalize dependent (dec_text n); intros ds D;
  match goal with
  | |- exists body, ds ++ ?s ++ ?rest = _ /\ _ =>
     destruct (starts s rest) as (body & ->); [reflexivity|repeat apply ends_nl_app; apply ends_nl_nl|exists body; split; [reflexivity|exact D]]
  end.
Qed.
Print Assumptions C80_same_parse.
Print Assumptions C80_result_is_the_worst_message.
Print Assumptions C80_silence_is_success.
Print Assumptions C80_lines_are_reported_by_number.
Print Assumptions C80_named_lines_have_a_problem.
Print Assumptions C80_messages_start_with_the_line.

(** ** The tool *)
Lemma suffix_one_line p r : no_newline p -> suffix (ch_nl :: r) (p ++ newline) -> r = [].
Proof.
  intros N (q & E). revert q E. induction N as [|c p NC N IH]; intros q E.
  - destruct q as [|d q]; [cbn in E; inversion E; reflexivity|]. destruct q; discriminate E.
  - destruct q as [|d q]; [cbn in E; elim NC; inversion E; reflexivity|]. apply (IH q). cbn in E. inversion E. reflexivity.
Qed.
Lemma one_line_labels sm annot p st : no_newline p -> fasm_log sm always annot (p ++ newline) = Ok st ->
  Forall (fun m => line_of m = Some 1) (l_messages st).
Proof.
  intros N H. unfold fasm_log in H. destruct (p ++ newline) as [|c t] eqn:E; [destruct p; discriminate E|]. rewrite <- E in *. cbv zeta in H.
  assert (L : last (p ++ newline) ch_nl = ch_nl) by apply (last_last p ch_nl ch_nl). rewrite L in H.
  change (ch_is ch_nl ch_nl) with true in H. cbv iota in H. cbn [log_lines] in H. rewrite E in H at 1. cbv zeta in H. change (u32 (0 + 1)) with 1 in H.
  binv H. destruct v as [s r]. pose proof (log_line_suf _ _ _ _ _ _ _ _ E0) as S. apply (suffix_one_line _ _ N) in S. subst r.
  apply line_adds in E0; [|intros h; reflexivity]. apply adds_inv in E0 as (ms & M & F & _). cbn [l_messages app] in M.
  destruct (List.length (p ++ newline)) eqn:Z; [rewrite E in Z; discriminate Z|]. cbn [log_lines] in H. injection H as <-. rewrite M. exact F.
Qed.
Lemma getlines_shape input l : In l (getlines input) -> (exists p, no_newline p /\ l = p ++ newline) \/ (no_newline l /\ l <> []).
Proof.
  revert l. induction input as [|c s IH]; intros l H; cbn [getlines] in H; [destruct H|].
  change nl with ch_nl in H. destruct (Ascii.eqb_spec c ch_nl) as [->|NC].
  - destruct H as [<-|H]; [left; exists []; split; [constructor|reflexivity]|auto].
  - destruct (getlines s) as [|l0 ls].
    + destruct H as [<-|[]]. right. split; [repeat constructor; exact NC|discriminate].
    + destruct H as [<-|H]; [|apply IH; now right].
      destruct (IH l0 (or_introl eq_refl)) as [(p & N & ->)|[N NE]].
      * left. exists (c :: p). split; [constructor; [exact NC|exact N]|reflexivity].
      * right. split; [constructor; [exact NC|exact N]|discriminate].
Qed.
Lemma last_no_newline l : no_newline l -> l <> [] -> last l ch_nl <> ch_nl.
Proof.
  intros N NE. destruct (exists_last NE) as (x & y & ->). rewrite last_last. apply Forall_app in N as [_ N]. now inversion N.
Qed.
(** While fpga-as reads its input, every message about a line says line 1, wherever the line is. *)
Theorem C80_the_tool_always_says_line_one : forall sm input ms,
  reading_messages sm (getlines input) = Ok ms ->
  Forall (fun m => line_of m = Some 1 \/ m = MNoFinalNewline) ms.
Proof.
  intros sm input. assert (G : forall l, In l (getlines input) -> (exists p, no_newline p /\ l = p ++ newline) \/ (no_newline l /\ l <> [])) by apply getlines_shape.
  induction (getlines input) as [|l ls IH]; intros ms H; cbn [reading_messages] in H; [injection H as <-; constructor|].
  binv H.
  assert (F : Forall (fun m => line_of m = Some 1 \/ m = MNoFinalNewline) (l_messages v)).
  { destruct (G l (or_introl eq_refl)) as [(p & N & ->)|[N NE]].
    - eapply Forall_impl; [|eapply one_line_labels; eauto]. cbn. auto.
    - pose proof (last_no_newline l N NE) as X. unfold fasm_log in E. destruct l as [|c l]; [contradiction|]. cbv zeta in E.
      destruct (ch_is (last (c :: l) ch_nl) ch_nl) eqn:C; [apply ch_is_true in C; contradiction|]. injection E as <-. constructor; [now right|constructor]. }
  destruct (_ || _); [injection H as <-; exact F|]. binv H. injection H as <-. apply Forall_app. split; [exact F|].
  apply IH; [|exact E0]. intros l' I. apply G. now right.
Qed.
(** So the number in a message of fpga-as is not the number of the line in the input. *)
Theorem C80_line_numbers_of_the_tool_refuted :
  reading_messages Iso (getlines (unlines [tx "A.B"; tx "# fine"; tx "C.D oops"]))
  = Ok [MEol 1 "o"%char] /\ render (MEol 1 "o"%char) = tx "1: expected newline, got 'o'" ++ newline /\
  (exists st, fasm_log Iso always true (unlines [tx "A.B"; tx "# fine"; tx "C.D oops"]) = Ok st /\ l_messages st = [MEol 3 "o"%char]).
Proof. split; [reflexivity|]. split; [reflexivity|]. eexists. split; reflexivity. Qed.
Print Assumptions C80_the_tool_always_says_line_one.
Print Assumptions C80_line_numbers_of_the_tool_refuted.

(** ** What fpga-as prints while it reads, and whether it goes on *)
Definition is_error (m : message) : Prop := severity m = kError.
Lemma severity_cases m : severity m <= 3 \/ severity m = 5.
Proof. destruct m; cbn; (now left) || (now right). Qed.
Lemma worst_error ms : (exists m, In m ms /\ is_error m) <-> worst ms = kError.
Proof.
  unfold is_error, kError. induction ms as [|m ms IH]; [split; [intros (m & [] & _)|discriminate]|].
  change (m :: ms) with ([m] ++ ms) at 2. rewrite worst_app. unfold worst at 1. cbn [map fold_left]. unfold kSuccess.
  assert (B : worst ms <= 5).
  { clear. induction ms as [|x ms IH]; [discriminate|]. change (x :: ms) with ([x] ++ ms). rewrite worst_app. unfold worst at 1. cbn [map fold_left].
    unfold kSuccess. pose proof (severity_cases x). generalize dependent (worst ms). generalize dependent (severity x). intros. lia. }
  pose proof (severity_cases m) as C. split.
  - intros (x & [<-|I] & E).
    + rewrite E in *. generalize dependent (worst ms). intros. lia.
    + assert (W : worst ms = 5) by (apply IH; eauto). rewrite W. generalize dependent (severity m). intros. lia.
  - intros E. destruct (N.eq_dec (severity m) 5) as [D|D]; [exists m; split; [now left|exact D]|].
    assert (W : worst ms = 5) by (generalize dependent (worst ms); generalize dependent (severity m); intros; lia).
    apply IH in W as (x & I & X). exists x. split; [now right|exact X].
Qed.
Lemma worst_abort ms : worst ms <> kUserAbort.
Proof.
  unfold kUserAbort. induction ms as [|m ms IH]; [discriminate|].
  change (m :: ms) with ([m] ++ ms). rewrite worst_app. unfold worst at 1. cbn [map fold_left]. unfold kSuccess.
  pose proof (severity_cases m). generalize dependent (worst ms). generalize dependent (severity m). intros. lia.
Qed.
Lemma stop_or_go sm line st : fasm_log sm always true line = Ok st ->
  (((l_result st =? kUserAbort) || (l_result st =? kError)) = true /\ exists m, In m (l_messages st) /\ is_error m) \/
  (((l_result st =? kUserAbort) || (l_result st =? kError)) = false /\ forall m, In m (l_messages st) -> ~ is_error m).
Proof.
  intros H. rewrite (C80_result_is_the_worst_message _ _ _ _ _ (fun h => eq_refl) H).
  pose proof (worst_abort (l_messages st)) as A. apply N.eqb_neq in A. rewrite A. cbn [orb].
  destruct (N.eqb_spec (worst (l_messages st)) kError) as [E|E].
  - left. split; [reflexivity|]. now apply worst_error.
  - right. split; [reflexivity|]. intros m I X. apply E, worst_error. eauto.
Qed.
Lemma assemble_line_log sm fs line : assemble_line sm fs line =
  (st <- fasm_log sm always true line ;;
   if (l_result st =? kUserAbort) || (l_result st =? kError) then Err else Ok (fs ++ flat_map feature_of_event (l_events st))).
Proof. unfold assemble_line. rewrite parse_erase. destruct (fasm_log sm always true line); reflexivity. Qed.

(** The lines were all read, and nothing was an error. *)
Definition all_read (sm : shift_model) (lines : list text) (ms : list message) : Prop :=
  exists logs, Forall2 (fun l st => fasm_log sm always true l = Ok st) lines logs /\
    ms = concat (map l_messages logs) /\ forall m, In m ms -> ~ is_error m.
(** Reading stopped at the first line with an error, whose messages come last. *)
Definition stopped (sm : shift_model) (lines : list text) (ms : list message) : Prop :=
  exists before bad after ms0 st, lines = before ++ bad :: after /\ all_read sm before ms0 /\
    fasm_log sm always true bad = Ok st /\ ms = ms0 ++ l_messages st /\ exists m, In m (l_messages st) /\ is_error m.

Lemma reading_cases sm : forall lines ms, reading_messages sm lines = Ok ms ->
  (all_read sm lines ms /\ forall fs, exists fs', ofold (assemble_line sm) lines fs = Ok fs') \/
  (stopped sm lines ms /\ forall fs, ofold (assemble_line sm) lines fs = Err).
Proof.
  induction lines as [|l ls IH]; intros ms H; cbn [reading_messages] in H.
  - injection H as <-. left. split; [exists []; split; [constructor|]; split; [reflexivity|]; intros m []|]. intros fs. now exists fs.
  - binv H. destruct (stop_or_go sm l v E) as [[S X]|[S X]]; rewrite S in H.
    + injection H as <-. right. split.
      * exists [], l, ls, [], v. split; [reflexivity|]. split; [exists []; split; [constructor|]; split; [reflexivity|]; intros m []|]. auto.
      * intros fs. cbn [ofold]. rewrite assemble_line_log, E. cbn [obind]. rewrite S. reflexivity.
    + binv H. injection H as <-. destruct (IH _ E0) as [[(logs & F & -> & NE) O]|[(before & bad & after & ms0 & st & -> & (logs & F & -> & NE) & B & -> & ER) O]].
      * left. split.
        -- exists (v :: logs). split; [constructor; assumption|]. split; [reflexivity|]. intros m I. apply in_app_iff in I as [I|I]; [now apply X|now apply NE].
        -- intros fs. cbn [ofold]. rewrite assemble_line_log, E. cbn [obind]. rewrite S. cbn [obind]. apply O.
      * right. split.
        -- exists (l :: before), bad, after, (l_messages v ++ concat (map l_messages logs)), st. split; [reflexivity|]. split.
           { exists (v :: logs). split; [constructor; assumption|]. split; [reflexivity|]. intros m I. apply in_app_iff in I as [I|I]; [now apply X|now apply NE]. }
           split; [exact B|]. split; [apply app_assoc|exact ER].
        -- intros fs. cbn [ofold]. rewrite assemble_line_log, E. cbn [obind]. rewrite S. cbn [obind]. apply O.
Qed.

Lemma reading_of_fold sm : forall lines fs fs', ofold (assemble_line sm) lines fs = Ok fs' -> exists ms, reading_messages sm lines = Ok ms.
Proof.
  induction lines as [|l ls IH]; intros fs fs' H; [now exists []|]. cbn [ofold reading_messages] in *.
  binv H. rewrite assemble_line_log in E. binv E. rewrite E0. cbn [obind].
  destruct (_ || _); [now exists (l_messages v0)|]. destruct (IH _ _ H) as (ms & ->). eexists. reflexivity.
Qed.

(** Reading prints, line by line, what each line alone gives; it ends with the first line that has an error, and
    exactly then the frames are refused. *)
Theorem C80_refused_exactly_after_an_error : forall sm ord tls input ms fs,
  reading_messages sm (getlines input) = Ok ms -> pudcb_features (tl_grid tls) = Ok fs ->
  (all_read sm (getlines input) ms \/ stopped sm (getlines input) ms) /\
  ((exists m, In m ms /\ is_error m) <-> stopped sm (getlines input) ms) /\
  (stopped sm (getlines input) ms -> assemble_frames sm ord tls input = Err).
Proof.
  intros sm ord tls input ms fs H P. destruct (reading_cases sm _ _ H) as [[A O]|[S O]].
  - split; [now left|]. assert (N : ~ stopped sm (getlines input) ms).
    { intros (b & bad & a & ms0 & st & _ & _ & _ & E & m & I & X). destruct A as (logs & _ & _ & NE).
      apply (NE m); [|exact X]. rewrite E. apply in_app_iff. now right. }
    split; [|intros C; contradiction]. split; [|intros C; contradiction]. intros (m & I & X). destruct A as (logs & _ & _ & NE). now elim (NE m I).
  - split; [now right|]. split; [|intros _; unfold assemble_frames; rewrite P; cbn [obind]; rewrite O; reflexivity].
    split; [intros _; exact S|]. intros (b & bad & a & ms0 & st & _ & _ & _ & -> & m & I & X). exists m. split; [apply in_app_iff; now right|exact X].
Qed.
Theorem C80_frames_only_without_errors : forall sm ord tls input fr,
  assemble_frames sm ord tls input = Ok fr ->
  exists ms, reading_messages sm (getlines input) = Ok ms /\ all_read sm (getlines input) ms.
Proof.
  intros sm ord tls input fr H. unfold assemble_frames in H. binv H. binv H.
  destruct (reading_of_fold _ _ _ _ E0) as (ms & M). exists ms. split; [exact M|].
  destruct (reading_cases sm _ _ M) as [[A _]|[_ O]]; [exact A|]. rewrite O in E0. discriminate.
Qed.
Print Assumptions C80_refused_exactly_after_an_error.
Print Assumptions C80_frames_only_without_errors.

(** Both happen: an information and a warning, and then the same text with an error in the middle. *)
Example C80_reading_case :
  reading_messages Iso (getlines (unlines [tx "E[2:1]"; tx "F[1:2]"; tx "J"])) = Ok [MNoValue 1 (tx "E") 2 1; MInverted 1 (tx "F") 1 2] /\
  reading_messages Iso (getlines (unlines [tx "E[2:1]"; tx "J K"; tx "F[1:2]"])) = Ok [MNoValue 1 (tx "E") 2 1; MEol 1 "K"%char].
Proof. split; reflexivity. Qed.

(** Every kind of message about a line. *)
Example C80_case :
  exists st, fasm_log Iso always true (unlines
    [tx "A[3"; tx "B[1:2]"; tx "C[1:0] = 3'b01"; tx "D = 4'x1"; tx "E[2:1]"; tx "F {a}"; tx "G {a=b}"; tx "H {a=""b"; tx "I {a=""b"" c"; tx "J K"; tx "L[99:0]=1"]) = Ok st /\
  map render (l_messages st) =
    [tx "1: ERR expected ']' : 'A[3" ++ newline ++ tx "'" ++ newline;
     tx "2: SKIP inverted range B[1:2]" ++ newline;
     tx "3: WARN Attempt to assign more bits (3') for C[1:0] with supported bit width of 2" ++ newline;
     tx "4: WARN Attempt to assign more bits (4') for D[0:0] with supported bit width of 1" ++ newline;
     tx "4: unknown base signifier 'x'; expected one of b, d, h, o" ++ newline;
     tx "5: INFO Range of bits E[2:1], but no assignment" ++ newline;
     tx "6: annotation a: expected '='" ++ newline;
     tx "7: G : annotation 'a': value not quoted" ++ newline;
     tx "7: annotations: expected ',' or '}'; got 'b'" ++ newline;
     tx "8: annotation not finished before end of line" ++ newline;
     tx "8: annotations: expected ',' or '}'; got '" ++ newline ++ tx "'" ++ newline;
     tx "9: annotations: expected ',' or '}'; got 'c'" ++ newline;
     tx "10: expected newline, got 'K'" ++ newline;
     tx "11: ERR: Sorry, can only deal with ranges <= 64 bit currently for integers L[99:0]; trimming width 100 to 64" ++ newline] /\
  l_result st = worst (l_messages st).
Proof. eexists. split; [vm_compute; reflexivity|]. split; vm_compute; reflexivity. Qed.
