(** Files line by line, and wide values. *)
From Verif Require Import Base BaseFacts Fasm FasmSpec FasmFacts FasmSafe FasmShape FasmFile.

Local Notation "x <- e ;; f" := (obind e (fun x => f))
  (at level 61, e at next level, right associativity).
Local Notation "' p <- e ;; f" := (obind e (fun p => f))
  (at level 61, p pattern, e at next level, right associativity).

Lemma report_agree : forall sm cb line name mn w tot bs chunk st, agrees cb ->
  report sm cb line name mn w tot chunk bs st
  = report sm (fun _ => true) line name mn w tot chunk bs st.
Proof.
  intros sm cb line name mn w tot. induction bs as [|v bs IH]; intros chunk st A; cbn [report]; auto.
  destruct (clamp_mask sm _); cbn [obind]; auto. rewrite A. apply IH. exact A.
Qed.

Lemma parse_line_agree : forall sm cb annot line st it, agrees cb ->
  parse_line sm cb annot line st it = parse_line sm (fun _ => true) annot line st it.
Proof.
  intros sm cb annot line st it A. unfold parse_line.
  destruct (skip_blank it) as [i0| | | |]; cbn [obind]; auto.
  destruct (read_ident i0) as [[nm i1]| | | |]; cbn [obind]; auto.
  destruct (skip_blank i1) as [i2| | | |]; cbn [obind]; auto.
  destruct nm; auto.
  destruct (parse_range i2) as [rg| | | |]; cbn [obind]; auto.
  destruct rg as [mx mn i3|i3|i3]; auto.
  destruct (skip_blank i3) as [i4| | | |]; cbn [obind]; auto. cbv zeta.
  destruct (parse_assign mx mn _ st i4) as [[[[bs w] st1] i5]| | | |]; cbn [obind]; auto.
  rewrite report_agree by exact A. reflexivity.
Qed.

Lemma fasm_agree : forall sm cb annot t, agrees cb ->
  fasm_parse sm cb annot t = fasm_parse sm (fun _ => true) annot t.
Proof.
  intros sm cb annot t A. unfold fasm_parse. destruct t as [|c t]; auto.
  destruct (ch_is _ _); auto.
  assert (G : forall n ln st it, parse_lines n sm cb annot ln st it
                = parse_lines n sm (fun _ => true) annot ln st it); [|apply G].
  induction n as [|n IH]; intros ln st it; auto. cbn [parse_lines]. destruct it; auto.
  rewrite parse_line_agree by exact A.
  destruct (parse_line sm (fun _ => true) annot _ st _) as [[st1 r]| | | |]; cbn [obind]; auto.
Qed.

Lemma unlines_cons : forall p ps, unlines (p :: ps) = unlines [p] ++ unlines ps.
Proof. intros. unfold unlines. cbn [map concat]. now rewrite app_nil_r. Qed.

Lemma fold_max_init : forall l a, fold_left N.max l a = N.max a (fold_left N.max l 0).
Proof.
  induction l as [|x l IH]; intros a; cbn [fold_left]; [lia|]. rewrite IH, (IH (N.max 0 x)). lia.
Qed.

Theorem parse_worst : forall sm cb annot ps st, agrees cb -> Forall good_line ps ->
  fasm_parse sm cb annot (unlines ps) = Ok st ->
  exists rs, Forall2 (fun p s => fasm_parse sm cb annot (unlines [p]) = Ok s) ps rs
             /\ p_result st = fold_left N.max (map p_result rs) 0.
Proof.
  intros sm cb annot ps st A H E. rewrite fasm_agree in E by exact A.
  assert (X : exists rs, Forall2 (fun p s => fasm_parse sm (fun _ => true) annot (unlines [p]) = Ok s) ps rs
             /\ p_result st = fold_left N.max (map p_result rs) 0).
  { revert st E. induction H as [|p ps Hp Hps IH]; intros st E.
    - cbn in E. inversion E; subst. exists []. split; [constructor|reflexivity].
    - rewrite unlines_cons in E.
      rewrite parse_concat in E by (auto using nl_unlines).
      bind E as sa Ea. bind E as sb Eb. inversion E; subst. cbn [p_result].
      destruct (IH _ Eb) as (rs & F & R). exists (sa :: rs). split; [constructor; auto|].
      cbn [map fold_left]. rewrite fold_max_init, R. lia. }
  destruct X as (rs & F & R). exists rs. split; auto.
  clear - F A. induction F; constructor; auto. now rewrite fasm_agree.
Qed.

(** * Wide values *)
Lemma chunk_last : forall width k, 1 <= width -> chunk_count width = N.of_nat (S k) ->
  64 * N.of_nat k < width /\ width <= 64 * N.of_nat (S k).
Proof.
  intros width k Hw E. destruct (chunk_count_pos width Hw) as (k' & E' & A & B).
  assert (k' = k) by lia. subst. auto.
Qed.

Lemma chunks_pieces : forall line name lo width value k,
  64 * N.of_nat k < width -> width <= 64 * N.of_nat (S k) ->
  forall j c, (c + j = S k)%nat ->
  pieces line name (lo + N.min width (64 * N.of_nat c)) (lo + width)
    ((value mod 2 ^ width) / 2 ^ (N.min width (64 * N.of_nat c)))
    (map (fun i => chunk_event line name lo width value (N.of_nat i)) (seq c j)).
Proof.
  intros line name lo width value k Hk1 Hk2. induction j as [|j IH]; intros c Hc; cbn [seq map].
  - assert (M : N.min width (64 * N.of_nat c) = width) by lia. rewrite M.
    assert ((value mod 2 ^ width) / 2 ^ width = 0) as ->; [|constructor].
    apply N.div_small. apply N.mod_lt, pow2_nz.
  - assert (M : N.min width (64 * N.of_nat c) = 64 * N.of_nat c) by lia. rewrite M.
    specialize (IH (S c) ltac:(lia)).
    unfold chunk_event at 1. set (w := N.min 64 (width - 64 * N.of_nat c)) in *.
    assert (V : (value / 2 ^ (64 * N.of_nat c)) mod 2 ^ w
                = ((value mod 2 ^ width) / 2 ^ (64 * N.of_nat c)) mod 2 ^ w).
    { apply N.bits_inj. intros i.
      destruct (N.lt_ge_cases i w) as [L|L].
      - rewrite !N.mod_pow2_bits_low by exact L. rewrite !N.div_pow2_bits.
        rewrite N.mod_pow2_bits_low by (unfold w in *; lia). reflexivity.
      - now rewrite !N.mod_pow2_bits_high by exact L. }
    rewrite V. clear V.
    assert (Hw : 1 <= w <= 64) by (unfold w; lia).
    assert (ES : lo + 64 * N.of_nat c + w = lo + N.min width (64 * N.of_nat (S c))) by (unfold w; lia).
    assert (EP : 64 * N.of_nat c + w = N.min width (64 * N.of_nat (S c))) by (unfold w; lia).
    clearbody w. generalize dependent (value mod 2 ^ width). intros val IH.
    generalize dependent (64 * N.of_nat c). intros cc M ES EP.
    apply pieces_cons; [exact Hw|].
    rewrite ES. rewrite N.div_div by apply pow2_nz. rewrite <- N.pow_add_r, EP. exact IH.
Qed.

Lemma value_events_pieces : forall line name lo width value, 1 <= width ->
  pieces line name lo (lo + width) (value mod 2 ^ width) (value_events line name lo width value).
Proof.
  intros line name lo width value Hw.
  destruct (chunk_count_pos width Hw) as (k & E & A & B).
  pose proof (chunks_pieces line name lo width value k A B (S k) 0 ltac:(lia)) as P.
  unfold value_events. rewrite E, Nat2N.id.
  replace (N.min width (64 * N.of_nat 0)) with 0 in P by lia.
  rewrite N.add_0_r, N.pow_0_r, N.div_1_r in P. exact P.
Qed.

Lemma value_events_full : forall line name lo width value, 1 <= width ->
  full_but_last (value_events line name lo width value).
Proof.
  intros line name lo width value Hw a ln n s w v b H NB.
  destruct (chunk_count_pos width Hw) as (k & E & A & B).
  unfold value_events in H. rewrite E, Nat2N.id in H.
  assert (L : (List.length a + S (List.length b) = S k)%nat).
  { apply (f_equal (@List.length event)) in H. rewrite map_length, seq_length, app_length in H. cbn in H. lia. }
  assert (X : nth_error (map (fun i => chunk_event line name lo width value (N.of_nat i)) (seq 0 (S k))) (List.length a)
              = Some (chunk_event line name lo width value (N.of_nat (List.length a)))).
  { apply (map_nth_error (fun i => chunk_event line name lo width value (N.of_nat i))).
    rewrite nth_error_nth' with (d := 0%nat); [|rewrite seq_length; lia].
    rewrite seq_nth by lia. reflexivity. }
  rewrite H, nth_error_app2, Nat.sub_diag in X by lia. cbn in X.
  unfold chunk_event in X.
  assert (EW : w = N.min 64 (width - 64 * N.of_nat (List.length a))).
  { apply (f_equal (fun o => match o with Some (EFeature _ _ _ x _) => x | _ => 0 end)) in X. exact X. }
  clear X H. rewrite EW. clear EW.
  destruct b as [|e b]; [contradiction|]. cbn in L. clear - L A. lia.
Qed.

Lemma pieces_sum : forall line name lo hi v l, pieces line name lo hi v l ->
  v = fold_right (fun e acc => match e with EFeature _ _ s _ b => b * 2 ^ (s - lo) + acc | _ => acc end) 0 l.
Proof.
  intros line name lo hi v l H.
  assert (G : forall base, base <= lo -> v * 2 ^ (lo - base)
     = fold_right (fun e acc => match e with EFeature _ _ s _ b => b * 2 ^ (s - base) + acc | _ => acc end) 0 l).
  { induction H as [a|a hi w v l Hw H IH]; intros base Hb; cbn [fold_right]; [lia|].
    rewrite <- (IH base) by lia.
    replace (a + w - base) with (w + (a - base)) by lia. rewrite N.pow_add_r.
    rewrite (N.div_mod v (2 ^ w) (pow2_nz w)) at 1. ring. }
  specialize (G lo (N.le_refl _)). rewrite N.sub_diag, N.pow_0_r, N.mul_1_r in G. exact G.
Qed.
