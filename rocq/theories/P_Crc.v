(** Property C82: the configuration CRC is CRC-32C. *)
From Verif Require Import Base BitOps Frame BitOpsFacts EccSpec CrcSpec EccFacts CrcFacts.
From Coq Require Import ZifyBool ZifyN ZifyNat.

(** ** Polynomials *)
Lemma double_lxor a b : N.double (N.lxor a b) = N.lxor (N.double a) (N.double b).
Proof.
  rewrite !N.double_spec, !(N.mul_comm 2). change 2 with (2 ^ 1) at 1 2 3.
  rewrite <- !N.shiftl_mul_pow2. apply N.shiftl_lxor.
Qed.
Lemma pmul_double_l a p : pmul (N.double a) p = N.double (pmul a p).
Proof. destruct a; reflexivity. Qed.
Lemma pmul_succ_double_l a p : pmul (N.succ_double a) p = N.lxor p (N.double (pmul a p)).
Proof. destruct a; [cbn; now rewrite N.lxor_0_r|reflexivity]. Qed.
Lemma pmul_0_r a : pmul a 0 = 0.
Proof. destruct a as [|a]; [reflexivity|]. induction a as [a IH|a IH|]; cbn in *; now rewrite ?IH. Qed.

Lemma lxor_double a b : N.lxor (N.double a) (N.double b) = N.double (N.lxor a b).
Proof. symmetry. apply double_lxor. Qed.
Lemma lxor_sd_d a b : N.lxor (N.succ_double a) (N.double b) = N.succ_double (N.lxor a b).
Proof. destruct a, b; try reflexivity. Qed.
Lemma lxor_d_sd a b : N.lxor (N.double a) (N.succ_double b) = N.succ_double (N.lxor a b).
Proof. destruct a, b; try reflexivity. Qed.
Lemma lxor_sd_sd a b : N.lxor (N.succ_double a) (N.succ_double b) = N.double (N.lxor a b).
Proof. destruct a, b; try reflexivity. Qed.

Lemma bin_cases b : (exists c, b = N.double c) \/ (exists c, b = N.succ_double c).
Proof.
  destruct b as [|[b|b|]]; [left; now exists 0|right; now exists (N.pos b)|left; now exists (N.pos b)|right; now exists 0].
Qed.
Lemma N_bin_ind (P : N -> Prop) : P 0 -> (forall n, P n -> P (N.double n)) ->
  (forall n, P n -> P (N.succ_double n)) -> forall n, P n.
Proof.
  intros H0 H1 H2 [|n]; [exact H0|]. induction n as [n IH|n IH|].
  - exact (H2 _ IH).
  - exact (H1 _ IH).
  - exact (H2 0 H0).
Qed.

Lemma pmul_lxor_l a b p : pmul (N.lxor a b) p = N.lxor (pmul a p) (pmul b p).
Proof.
  revert b. induction a as [|a IH|a IH] using N_bin_ind; intros b; [reflexivity| |];
    destruct (bin_cases b) as [[c ->]|[c ->]];
    rewrite ?lxor_double, ?lxor_sd_d, ?lxor_d_sd, ?lxor_sd_sd, ?pmul_double_l, ?pmul_succ_double_l, IH, double_lxor.
  - reflexivity.
  - rewrite !(N.lxor_comm p), N.lxor_assoc. reflexivity.
  - rewrite N.lxor_assoc. reflexivity.
  - rewrite lxor_swap, N.lxor_nilpotent, N.lxor_0_l. reflexivity.
Qed.

Lemma pmul_lxor_r a b p : pmul a (N.lxor b p) = N.lxor (pmul a b) (pmul a p).
Proof.
  induction a as [|a IH|a IH] using N_bin_ind; [reflexivity| |];
    rewrite ?pmul_double_l, ?pmul_succ_double_l, IH, double_lxor; [reflexivity|].
  apply lxor_swap.
Qed.
Lemma pmul_double_r a b : pmul a (N.double b) = N.double (pmul a b).
Proof.
  induction a as [|a IH|a IH] using N_bin_ind; [reflexivity| |];
    rewrite ?pmul_double_l, ?pmul_succ_double_l, IH; [reflexivity|].
  apply lxor_double.
Qed.
Lemma pmul_1_l a : pmul 1 a = a.
Proof. reflexivity. Qed.
Lemma pmul_comm a b : pmul a b = pmul b a.
Proof.
  revert b. induction a as [|a IH|a IH] using N_bin_ind; intros b; [symmetry; apply pmul_0_r| |].
  - now rewrite pmul_double_l, pmul_double_r, IH.
  - rewrite pmul_succ_double_l, IH, <- pmul_double_r.
    assert (E1 : forall n, pmul n 1 = n).
    { intros n. induction n as [|n IHn|n IHn] using N_bin_ind; [reflexivity| |];
        rewrite ?pmul_double_l, ?pmul_succ_double_l, IHn; [reflexivity|]. destruct n; reflexivity. }
    rewrite <- (E1 b) at 1. rewrite <- pmul_lxor_r. f_equal. destruct a; reflexivity.
Qed.
Lemma pmul_assoc a b c : pmul (pmul a b) c = pmul a (pmul b c).
Proof.
  induction a as [|a IH|a IH] using N_bin_ind; [reflexivity| |];
    rewrite ?pmul_double_l, ?pmul_succ_double_l, ?pmul_lxor_l, ?pmul_double_l, IH; reflexivity.
Qed.

(** ** Congruence *)
Lemma congruent_refl p a : congruent p a a.
Proof. exists 0. apply N.lxor_nilpotent. Qed.
Lemma congruent_sym p a b : congruent p a b -> congruent p b a.
Proof. intros [q E]. exists q. now rewrite N.lxor_comm. Qed.
Lemma congruent_trans p a b c : congruent p a b -> congruent p b c -> congruent p a c.
Proof.
  intros [q E] [r F]. exists (N.lxor q r). rewrite pmul_lxor_l, <- E, <- F.
  rewrite (N.lxor_assoc a b), <- (N.lxor_assoc b b), N.lxor_nilpotent, N.lxor_0_l. reflexivity.
Qed.
Lemma congruent_lxor p a b c d : congruent p a b -> congruent p c d -> congruent p (N.lxor a c) (N.lxor b d).
Proof. intros [q E] [r F]. exists (N.lxor q r). rewrite pmul_lxor_l, <- E, <- F. apply lxor_swap. Qed.
Lemma congruent_double p a b : congruent p a b -> congruent p (N.double a) (N.double b).
Proof. intros [q E]. exists (N.double q). rewrite pmul_double_l, <- E. apply lxor_double. Qed.
Lemma congruent_pmul p a b c d : congruent p a b -> congruent p c d -> congruent p (pmul a c) (pmul b d).
Proof.
  intros [q E] [r F]. apply congruent_trans with (pmul b c).
  - exists (pmul c q). now rewrite <- pmul_lxor_l, E, pmul_assoc, (pmul_comm p), <- pmul_assoc, (pmul_comm q).
  - exists (pmul b r). now rewrite <- pmul_lxor_r, F, pmul_assoc.
Qed.
Lemma congruent_self p : congruent p p 0.
Proof. exists 1. apply N.lxor_0_r. Qed.
Lemma congruent_bit p (b : bool) a : congruent p (N.lxor a (if b then p else 0)) a.
Proof.
  rewrite <- (N.lxor_0_r a) at 2. apply congruent_lxor; [apply congruent_refl|].
  destruct b; [apply congruent_self|apply congruent_refl].
Qed.

Lemma double_pow2 a n : N.double a * 2 ^ n = a * 2 ^ (n + 1).
Proof. rewrite N.double_spec, N.pow_add_r. change (2 ^ 1) with 2. lia. Qed.
Lemma congruent_shift p a b n : congruent p a b -> congruent p (a * 2 ^ n) (b * 2 ^ n).
Proof.
  revert a b. induction n as [|n IH] using N.peano_ind; intros a b H; [now rewrite N.pow_0_r, !N.mul_1_r|].
  rewrite <- N.add_1_r, <- !double_pow2. apply IH, congruent_double, H.
Qed.

(** An odd modulus lets powers of x be cancelled. *)
Lemma odd_double n : N.odd (N.double n) = false.
Proof. destruct n; reflexivity. Qed.
Lemma odd_succ_double n : N.odd (N.succ_double n) = true.
Proof. destruct n; reflexivity. Qed.
Lemma odd_pmul q p : N.odd (pmul q p) = (N.odd q && N.odd p)%bool.
Proof.
  destruct (bin_cases q) as [[r ->]|[r ->]]; rewrite ?pmul_double_l, ?pmul_succ_double_l.
  - now rewrite !odd_double.
  - rewrite <- !N.bit0_odd, N.lxor_spec, !N.bit0_odd, odd_double, odd_succ_double. apply xorb_false_r.
Qed.
Lemma double_inj a b : N.double a = N.double b -> a = b.
Proof. rewrite !N.double_spec. lia. Qed.
Lemma congruent_undouble p a b : N.odd p = true ->
  congruent p (N.double a) (N.double b) -> congruent p a b.
Proof.
  intros Hp [q E]. rewrite lxor_double in E.
  assert (Hq : N.odd q = false).
  { assert (F := odd_pmul q p). rewrite <- E, Hp, Bool.andb_true_r, odd_double in F. now rewrite <- F. }
  destruct (bin_cases q) as [[r ->]|[r ->]].
  - exists r. apply double_inj. now rewrite E, pmul_double_l.
  - rewrite odd_succ_double in Hq. discriminate.
Qed.
Lemma congruent_unshift p a b n : N.odd p = true ->
  congruent p (a * 2 ^ n) (b * 2 ^ n) -> congruent p a b.
Proof.
  intros Hp. revert a b. induction n as [|n IH] using N.peano_ind; intros a b H; [now rewrite N.pow_0_r, !N.mul_1_r in H|].
  rewrite <- N.add_1_r, <- !double_pow2 in H. apply congruent_undouble, IH; assumption.
Qed.

(** A non-zero multiple has a bit at or above the degree. *)
Lemma pmul_pos_high a p d : (forall i, d < i -> N.testbit p i = false) -> N.testbit p d = true ->
  exists i, d <= i /\ N.testbit (pmul_pos a p) i = true.
Proof.
  intros Hh Hd. enough (E : N.testbit (pmul_pos a p) (d + N.log2 (N.pos a)) = true) by (eexists; split; [|exact E]; lia).
  induction a as [a IH|a IH|].
  - cbn [pmul_pos]. change (N.pos a~1) with (2 * N.pos a + 1). rewrite N.log2_succ_double by lia.
    rewrite N.lxor_spec, Hh, xorb_false_l by lia. rewrite N.double_spec.
    replace (d + N.succ (N.log2 (N.pos a))) with (N.succ (d + N.log2 (N.pos a))) by lia.
    now rewrite N.double_bits_succ.
  - cbn [pmul_pos]. change (N.pos a~0) with (2 * N.pos a). rewrite N.log2_double by lia.
    rewrite N.double_spec. replace (d + N.succ (N.log2 (N.pos a))) with (N.succ (d + N.log2 (N.pos a))) by lia.
    now rewrite N.double_bits_succ.
  - cbn. now rewrite N.add_0_r.
Qed.
Lemma castagnoli_high i : 32 < i -> N.testbit castagnoli i = false.
Proof. intros H. assert (E : castagnoli < 2 ^ 33) by reflexivity. rewrite lt_pow2_bits in E. apply E. lia. Qed.
Lemma unique_remainder a b : a < 2 ^ 32 -> b < 2 ^ 32 -> congruent castagnoli a b -> a = b.
Proof.
  intros Ha Hb [[|q] E]; [apply N.lxor_eq, E|].
  destruct (pmul_pos_high q castagnoli 32 castagnoli_high eq_refl) as (i & Hi & F).
  assert (L := lxor_lt a b 32 Ha Hb). rewrite lt_pow2_bits in L. cbn [pmul] in E. rewrite E in L.
  rewrite L in F by lia. discriminate.
Qed.

(** ** Lists of coefficients *)
Lemma poly_snoc l b : poly (l ++ [b]) = 2 * poly l + N.b2n b.
Proof. unfold poly. now rewrite fold_left_app. Qed.
Lemma add_bit_lxor v b : 2 * v + N.b2n b = N.lxor (N.double v) (N.b2n b).
Proof. destruct v as [|v], b; reflexivity. Qed.
Lemma poly_lt l : poly l < 2 ^ N.of_nat (length l).
Proof.
  induction l as [|b l IH] using rev_ind; [reflexivity|].
  rewrite poly_snoc, app_length, Nat2N.inj_add, N.pow_add_r. cbn [length N.of_nat Pos.of_succ_nat]. change (2 ^ 1) with 2.
  destruct b; cbn [N.b2n]; lia.
Qed.
Lemma poly_app l m : poly (l ++ m) = N.lxor (poly l * 2 ^ N.of_nat (length m)) (poly m).
Proof.
  induction m as [|b m IH] using rev_ind.
  - rewrite app_nil_r. cbn. now rewrite N.mul_1_r, N.lxor_0_r.
  - rewrite app_assoc, !poly_snoc, !add_bit_lxor, IH, double_lxor, N.lxor_assoc. f_equal.
    rewrite app_length, Nat2N.inj_add. cbn [length N.of_nat Pos.of_succ_nat].
    rewrite N.double_spec, N.pow_add_r. change (2 ^ 1) with 2. lia.
Qed.
Lemma poly_bit l : forall i, (i < length l)%nat -> N.testbit (poly l) (N.of_nat i) = nth (length l - 1 - i) l false.
Proof.
  induction l as [|b l IH] using rev_ind; intros i Hi; [inversion Hi|].
  rewrite poly_snoc. rewrite app_length in *. cbn [length] in *.
  destruct i as [|i].
  - rewrite N.add_comm. change (N.of_nat 0) with 0. rewrite N.add_b2n_double_bit0, app_nth2 by lia.
    now replace (length l + 1 - 1 - 0 - length l)%nat with 0%nat by lia.
  - rewrite Nat2N.inj_succ, N.testbit_succ_r_div2, N.div2_div, N.add_comm, N.add_b2n_double_div2, IH by lia.
    rewrite app_nth1 by lia. f_equal. lia.
Qed.
Lemma poly_inj l m : length l = length m -> poly l = poly m -> l = m.
Proof.
  revert m. induction l as [|b l IH] using rev_ind; intros m HL E.
  - destruct m; [reflexivity|discriminate].
  - destruct m as [|c m _] using rev_ind; [rewrite app_length in HL; cbn in HL; lia|].
    rewrite !app_length in HL. cbn in HL. rewrite !poly_snoc in E.
    assert (b = c /\ poly l = poly m) as [-> E2] by (destruct b, c; cbn [N.b2n] in E; split; (reflexivity || lia)).
    rewrite (IH m); [reflexivity|lia|assumption].
Qed.

Lemma low_bits_length n v : length (low_bits n v) = n.
Proof. unfold low_bits. now rewrite map_length, seq_length. Qed.
Lemma low_bits_nth n v i : (i < n)%nat -> nth i (low_bits n v) false = N.testbit v (N.of_nat i).
Proof.
  intros H. unfold low_bits. rewrite (nth_indep _ _ (N.testbit v (N.of_nat 0))) by now rewrite map_length, seq_length.
  rewrite (map_nth (fun i => N.testbit v (N.of_nat i))), seq_nth by assumption. reflexivity.
Qed.
Lemma low_bits_S n v : low_bits (S n) v = N.testbit v 0 :: low_bits n (N.shiftr v 1).
Proof.
  unfold low_bits. cbn [seq map]. f_equal. rewrite <- seq_shift, map_map. apply map_ext. intros i.
  rewrite N.shiftr_spec'. f_equal. lia.
Qed.

Lemma register_bit c j : c < 2 ^ 32 ->
  N.testbit (register_poly c) j = if j <? 32 then N.testbit c (31 - j) else false.
Proof.
  intros Hc. unfold register_poly. destruct (N.ltb_spec j 32) as [H|H].
  - replace j with (N.of_nat (N.to_nat j)) at 1 by lia. rewrite poly_bit; rewrite low_bits_length; [|lia].
    rewrite low_bits_nth by lia. f_equal. lia.
  - assert (L := poly_lt (low_bits 32 c)). rewrite low_bits_length in L. rewrite lt_pow2_bits in L. apply L. lia.
Qed.
Lemma register_lt c : register_poly c < 2 ^ 32.
Proof. assert (L := poly_lt (low_bits 32 c)). now rewrite low_bits_length in L. Qed.
Lemma register_inj c d : c < 2 ^ 32 -> d < 2 ^ 32 -> register_poly c = register_poly d -> c = d.
Proof.
  intros Hc Hd E. apply N.bits_inj. intros i.
  assert (F := register_bit c (31 - i) Hc). rewrite E, register_bit in F by assumption.
  rewrite lt_pow2_bits in Hc, Hd. destruct (N.ltb_spec i 32) as [H|H]; [|now rewrite Hc, Hd by lia].
  replace (31 - (31 - i)) with i in F by lia. destruct (N.ltb_spec (31 - i) 32); [congruence|lia].
Qed.

(** ** The register divides *)
Lemma register_step b c : c < 2 ^ 32 ->
  register_poly (crc_step b c) =
  N.lxor (N.lxor (N.double (register_poly c)) (N.b2n b * 2 ^ 32))
         (if xorb b (N.testbit c 0) then castagnoli else 0).
Proof.
  intros Hc. apply N.bits_inj. intros j. rewrite register_bit by now apply crc_step_lt.
  rewrite crc_step_alt, !N.lxor_spec, N.shiftr_spec', N.double_spec.
  assert (B : N.testbit (N.b2n b * 2 ^ 32) j = if j =? 32 then b else false).
  { destruct (N.eqb_spec j 32) as [->|Hj].
    - rewrite N.mul_pow2_bits_high by lia. destruct b; reflexivity.
    - destruct (N.lt_ge_cases j 32); [now apply N.mul_pow2_bits_low|].
      rewrite N.mul_pow2_bits_high by lia. destruct b; [|apply N.bits_0].
      cbn [N.b2n]. apply (N.bits_above_log2 1). cbn. lia. }
  rewrite B. destruct (N.eq_dec j 0) as [->|Hj].
  { rewrite N.testbit_even_0. rewrite lt_pow2_bits in Hc. change (0 <? 32) with true. change (0 =? 32) with false.
    cbv iota. change (31 - 0 + 1) with 32. rewrite Hc by lia. destruct (xorb b _); reflexivity. }
  assert (D : N.testbit (2 * register_poly c) j = if j <=? 32 then N.testbit c (32 - j) else false).
  { replace j with (N.succ (j - 1)) at 1 by lia. rewrite N.double_bits_succ, register_bit by assumption.
    destruct (N.ltb_spec (j - 1) 32), (N.leb_spec j 32); try reflexivity; try (exfalso; lia). f_equal. lia. }
  rewrite D. destruct (N.lt_trichotomy j 32) as [H|[->|H]].
  - destruct (N.ltb_spec j 32), (N.eqb_spec j 32), (N.leb_spec j 32); try lia.
    replace (31 - j + 1) with (32 - j) by lia. rewrite xorb_false_r. f_equal.
    destruct (xorb b _); [|now rewrite !N.bits_0].
    assert (K : forallb (fun j => Bool.eqb (N.testbit kCrcPoly (31 - N.of_nat j)) (N.testbit castagnoli (N.of_nat j))) (seq 0 32) = true) by reflexivity.
    rewrite forallb_forall in K. specialize (K (N.to_nat j)). rewrite in_seq in K.
    specialize (K ltac:(lia)). apply Bool.eqb_prop in K. rewrite N2Nat.id in K. exact K.
  - change (32 <? 32) with false. change (32 =? 32) with true. change (32 <=? 32) with true. cbv iota.
    rewrite N.sub_diag. destruct b, (N.testbit c 0); reflexivity.
  - destruct (N.ltb_spec j 32), (N.eqb_spec j 32), (N.leb_spec j 32); try lia.
    destruct (xorb b _); [now rewrite castagnoli_high|now rewrite N.bits_0].
Qed.

Definition crc_list (l : list bool) (c : N) : N := fold_left (fun c b => crc_step b c) l c.
Lemma crc_list_lt l c : c < 2 ^ 32 -> crc_list l c < 2 ^ 32.
Proof. revert c. induction l as [|b l IH]; intros c H; [exact H|]. apply IH, crc_step_lt, H. Qed.
Lemma crc_list_app l m c : crc_list (l ++ m) c = crc_list m (crc_list l c).
Proof. apply fold_left_app. Qed.
Lemma crc_bits_list n : forall v c, crc_bits n v c = crc_list (low_bits n v) c.
Proof. induction n as [|n IH]; intros v c; [reflexivity|]. rewrite crc_bits_step, IH, low_bits_S. reflexivity. Qed.

Lemma crc_list_poly l c : c < 2 ^ 32 ->
  congruent castagnoli (register_poly (crc_list l c))
    (N.lxor (register_poly c * 2 ^ N.of_nat (length l)) (poly l * 2 ^ 32)).
Proof.
  intros Hc. induction l as [|b l IH] using rev_ind.
  - cbn [length N.of_nat]. unfold poly, crc_list. cbn [fold_left]. rewrite N.pow_0_r, N.mul_1_r, N.mul_0_l, N.lxor_0_r.
    apply congruent_refl.
  - rewrite crc_list_app. cbn [crc_list fold_left]. rewrite register_step by now apply crc_list_lt.
    eapply congruent_trans; [apply congruent_bit|].
    rewrite poly_snoc, add_bit_lxor, app_length, Nat2N.inj_add. cbn [length N.of_nat Pos.of_succ_nat].
    assert (E : N.lxor (N.double (poly l)) (N.b2n b) * 2 ^ 32 =
                N.lxor (N.double (poly l) * 2 ^ 32) (N.b2n b * 2 ^ 32)).
    { rewrite <- !N.shiftl_mul_pow2. apply N.shiftl_lxor. }
    rewrite E, <- N.lxor_assoc. apply congruent_lxor; [|apply congruent_refl].
    replace (register_poly c * 2 ^ (N.of_nat (length l) + 1))
      with (N.double (register_poly c * 2 ^ N.of_nat (length l)))
      by (rewrite N.double_spec, N.pow_add_r; change (2 ^ 1) with 2; lia).
    replace (N.double (poly l) * 2 ^ 32) with (N.double (poly l * 2 ^ 32)) by (rewrite !N.double_spec; lia).
    rewrite <- double_lxor. apply congruent_double, IH.
Qed.

(** ** Register writes *)
Lemma icap_crc_list a d c : a < 2 ^ 5 -> d < 2 ^ 32 -> c < 2 ^ 32 ->
  icap_crc a d c = crc_list (low_bits 32 d ++ low_bits 5 a) c.
Proof.
  intros Ha Hd Hc. rewrite icap_crc_parts, crc_list_app, <- !crc_bits_list by assumption.
  rewrite <- (crc_bits_absorb 32) by (try assumption; lia).
  rewrite <- (crc_bits_absorb 5) by (try assumption; lia). reflexivity.
Qed.
Lemma wire_cons a d ws : wire ((a, d) :: ws) = (low_bits 32 d ++ low_bits 5 a) ++ wire ws.
Proof. unfold wire. cbn [flat_map]. reflexivity. Qed.
Lemma reg_run_cons {A} (step : A -> N -> N) w ws c : reg_run step (w :: ws) c = reg_run step ws (step w c).
Proof. reflexivity. Qed.
Lemma crc_run_cons w ws c : crc_run (w :: ws) c = crc_run ws (crc_write w c).
Proof. exact (reg_run_cons crc_write w ws c). Qed.
Lemma crc_write_eq a d c : crc_write (a, d) c = icap_crc a d c.
Proof. reflexivity. Qed.
Lemma crc_run_list ws c : Forall write_ok ws -> c < 2 ^ 32 -> crc_run ws c = crc_list (wire ws) c.
Proof.
  revert c. induction ws as [|[a d] ws IH]; intros c Hws Hc; [reflexivity|].
  inversion Hws as [|? ? [Ha Hd] Hws']; subst.
  rewrite crc_run_cons, crc_write_eq, wire_cons, crc_list_app, <- (icap_crc_list a d c Ha Hd Hc).
  apply IH; [assumption|]. apply icap_crc_lt.
Qed.
Lemma wire_length ws : length (wire ws) = (37 * length ws)%nat.
Proof.
  induction ws as [|[a d] ws IH]; [reflexivity|]. rewrite wire_cons, !app_length, !low_bits_length, IH. cbn [length]. lia.
Qed.

Theorem C82_crc_is_crc32c ws c :
  Forall write_ok ws -> c < 2 ^ 32 ->
  crc_run ws c < 2 ^ 32 /\
  congruent castagnoli (register_poly (crc_run ws c))
    (N.lxor (register_poly c * 2 ^ N.of_nat (37 * length ws)) (poly (wire ws) * 2 ^ 32)).
Proof.
  intros Hws Hc. rewrite crc_run_list, <- wire_length by assumption.
  split; [now apply crc_list_lt|now apply crc_list_poly].
Qed.

(** The remainder is the only one: a register that satisfies the congruence is the one computed. *)
Theorem C82_remainder_unique ws c r :
  Forall write_ok ws -> c < 2 ^ 32 -> r < 2 ^ 32 ->
  congruent castagnoli (register_poly r)
    (N.lxor (register_poly c * 2 ^ N.of_nat (37 * length ws)) (poly (wire ws) * 2 ^ 32)) ->
  r = crc_run ws c.
Proof.
  intros Hws Hc Hr E. destruct (C82_crc_is_crc32c ws c Hws Hc) as [L F].
  apply register_inj; [assumption|assumption|]. apply unique_remainder; try apply register_lt.
  eapply congruent_trans; [exact E|]. apply congruent_sym, F.
Qed.

(** ** What the CRC detects *)
Lemma equal_crc l m c : c < 2 ^ 32 -> length l = length m -> crc_list l c = crc_list m c ->
  congruent castagnoli (N.lxor (poly l) (poly m)) 0.
Proof.
  intros Hc HL E. assert (A := crc_list_poly l c Hc). assert (B := crc_list_poly m c Hc).
  rewrite <- HL, <- E in B. apply congruent_unshift with 32; [reflexivity|].
  assert (D := congruent_lxor _ _ _ _ _ A B). rewrite N.lxor_nilpotent in D.
  rewrite lxor_swap, N.lxor_nilpotent, N.lxor_0_l in D. apply congruent_sym in D.
  rewrite <- !N.shiftl_mul_pow2 in *. now rewrite N.shiftl_lxor, N.shiftl_0_l.
Qed.

Lemma burst_detected pre b1 b2 post c : c < 2 ^ 32 -> length b1 = length b2 -> (length b1 <= 32)%nat ->
  b1 <> b2 -> crc_list (pre ++ b1 ++ post) c <> crc_list (pre ++ b2 ++ post) c.
Proof.
  intros Hc HL H32 Hb E. apply equal_crc in E; [|assumption|rewrite !app_length; lia].
  rewrite !poly_app, !app_length, HL in E. rewrite lxor_swap, N.lxor_nilpotent, N.lxor_0_l in E.
  rewrite lxor_swap, N.lxor_nilpotent, N.lxor_0_r in E.
  rewrite <- !N.shiftl_mul_pow2, <- N.shiftl_lxor, N.shiftl_mul_pow2 in E.
  rewrite <- (N.mul_0_l (2 ^ N.of_nat (length post))) in E. apply congruent_unshift in E; [|reflexivity].
  apply Hb, poly_inj; [assumption|]. apply N.lxor_eq. apply unique_remainder; [|reflexivity|exact E].
  apply lxor_lt; eapply N.lt_le_trans; try apply poly_lt; apply N.pow_le_mono_r; lia.
Qed.

Theorem C82_detects_bursts ws1 ws2 c pre b1 b2 post :
  Forall write_ok ws1 -> Forall write_ok ws2 -> c < 2 ^ 32 ->
  wire ws1 = pre ++ b1 ++ post -> wire ws2 = pre ++ b2 ++ post ->
  length b1 = length b2 -> (length b1 <= 32)%nat -> b1 <> b2 ->
  crc_run ws1 c <> crc_run ws2 c.
Proof.
  intros H1 H2 Hc E1 E2 HL H32 Hb. rewrite !crc_run_list by assumption. rewrite E1, E2.
  now apply burst_detected.
Qed.

(** ** Parity *)
Lemma parity_app l m : parity (l ++ m) = xorb (parity l) (parity m).
Proof. induction l as [|b l IH]; [symmetry; apply xorb_false_l|]. change (xorb b (parity (l ++ m)) = xorb (xorb b (parity l)) (parity m)).
  rewrite IH. symmetry. apply xorb_assoc. Qed.
Lemma parity_lxor n a b : parity (low_bits n (N.lxor a b)) = xorb (parity (low_bits n a)) (parity (low_bits n b)).
Proof.
  revert a b. induction n as [|n IH]; intros a b; [reflexivity|]. rewrite !low_bits_S, N.shiftr_lxor. cbn [parity fold_right].
  unfold parity in IH. rewrite IH, N.lxor_spec.
  destruct (N.testbit a 0), (N.testbit b 0), (fold_right xorb false (low_bits n (N.shiftr a 1))), (fold_right xorb false (low_bits n (N.shiftr b 1))); reflexivity.
Qed.
Lemma low_bits_snoc n v : low_bits (S n) v = low_bits n v ++ [N.testbit v (N.of_nat n)].
Proof. unfold low_bits. now rewrite seq_S, map_app. Qed.
Lemma parity_step b c : c < 2 ^ 32 -> parity (low_bits 32 (crc_step b c)) = xorb (parity (low_bits 32 c)) b.
Proof.
  intros Hc. rewrite crc_step_alt, parity_lxor.
  assert (E1 : parity (low_bits 32 (N.shiftr c 1)) = parity (low_bits 31 (N.shiftr c 1))).
  { rewrite low_bits_snoc, parity_app. cbn [parity fold_right]. rewrite lt_pow2_bits in Hc.
    rewrite N.shiftr_spec', Hc by lia. now rewrite !xorb_false_r. }
  rewrite E1, (low_bits_S 31 c). cbn [parity fold_right]. fold (parity (low_bits 31 (N.shiftr c 1))).
  assert (E2 : parity (low_bits 32 (if xorb b (N.testbit c 0) then kCrcPoly else 0)) = xorb b (N.testbit c 0))
    by (destruct (xorb b _); reflexivity).
  unfold parity in *. rewrite E2.
  destruct b, (N.testbit c 0), (fold_right xorb false (low_bits 31 (N.shiftr c 1))); reflexivity.
Qed.
Lemma parity_list l c : c < 2 ^ 32 -> parity (low_bits 32 (crc_list l c)) = xorb (parity (low_bits 32 c)) (parity l).
Proof.
  revert c. induction l as [|b l IH]; intros c Hc; [symmetry; apply xorb_false_r|].
  cbn [crc_list fold_left]. fold (crc_list l (crc_step b c)). rewrite IH by now apply crc_step_lt.
  rewrite parity_step by assumption. change (parity (b :: l)) with (xorb b (parity l)). apply xorb_assoc.
Qed.

Theorem C82_parity_law ws c :
  Forall write_ok ws -> c < 2 ^ 32 ->
  parity (low_bits 32 (crc_run ws c)) = xorb (parity (low_bits 32 c)) (parity (wire ws)).
Proof. intros. rewrite crc_run_list by assumption. now apply parity_list. Qed.

(** ** Two flipped bits: x has order 2^31 - 1 *)
Definition mulx (v : N) : N := let d := N.double v in if N.testbit d 32 then N.lxor d castagnoli else d.
Fixpoint mulmod (a : positive) (b : N) : N :=
  match a with
  | xH => b
  | xO a' => mulx (mulmod a' b)
  | xI a' => N.lxor b (mulx (mulmod a' b))
  end.
Definition sqmod (v : N) : N := match v with N0 => 0 | Npos p => mulmod p v end.
Lemma mulx_ok v : congruent castagnoli (mulx v) (N.double v).
Proof.
  unfold mulx. cbv zeta. assert (C := congruent_bit castagnoli (N.testbit (N.double v) 32) (N.double v)).
  destruct (N.testbit _ 32); [exact C|apply congruent_refl].
Qed.
Lemma mulmod_ok a b : congruent castagnoli (mulmod a b) (pmul_pos a b).
Proof.
  induction a as [a IH|a IH|]; cbn [mulmod pmul_pos]; [| |apply congruent_refl].
  - apply congruent_lxor; [apply congruent_refl|]. eapply congruent_trans; [apply mulx_ok|apply congruent_double, IH].
  - eapply congruent_trans; [apply mulx_ok|apply congruent_double, IH].
Qed.
Lemma sqmod_ok v : congruent castagnoli (sqmod v) (pmul v v).
Proof. destruct v; [apply congruent_refl|apply mulmod_ok]. Qed.
Lemma pmul_pow2 a v : pmul (2 ^ a) v = v * 2 ^ a.
Proof.
  induction a as [|a IH] using N.peano_ind; [cbn; lia|].
  rewrite N.pow_succ_r', <- N.double_spec, pmul_double_l, IH, N.double_spec. lia.
Qed.
Fixpoint sqs (k : nat) : N := match k with O => 2 | S k' => sqmod (sqs k') end.
Lemma sqs_ok k : forall m, m = 2 ^ N.of_nat k -> congruent castagnoli (sqs k) (2 ^ m).
Proof.
  induction k as [|k IH]; intros m ->; [apply congruent_refl|].
  cbn [sqs]. eapply congruent_trans; [apply sqmod_ok|].
  replace (2 ^ (2 ^ N.of_nat (S k))) with (pmul (2 ^ (2 ^ N.of_nat k)) (2 ^ (2 ^ N.of_nat k))).
  - apply congruent_pmul; apply IH; reflexivity.
  - rewrite pmul_pow2, <- N.pow_add_r. f_equal. rewrite Nat2N.inj_succ, N.pow_succ_r'. lia.
Qed.
Lemma x_order m : m = 2147483647 -> congruent castagnoli (2 ^ m) 1.
Proof.
  intros Hm. apply congruent_unshift with 1; [reflexivity|].
  rewrite <- N.pow_add_r. apply congruent_sym. assert (E := sqs_ok 31 (m + 1)).
  assert (F : 1 * 2 ^ 1 = sqs 31) by reflexivity. rewrite F. apply E. rewrite Hm. reflexivity.
Qed.
Lemma pow_one p n : congruent p (2 ^ n) 1 -> forall a, congruent p (2 ^ (a * n)) 1.
Proof.
  intros H a. induction a as [|a IH] using N.peano_ind; [apply congruent_refl|].
  rewrite N.mul_succ_l, N.pow_add_r. eapply congruent_trans; [apply congruent_shift, IH|]. now rewrite N.mul_1_l.
Qed.
Lemma coprime_order m n : 0 < n -> N.gcd n m = 1 -> congruent castagnoli (2 ^ m) 1 ->
  congruent castagnoli (2 ^ n) 1 -> False.
Proof.
  intros Hn Hg Hm H. destruct (N.gcd_bezout_pos n m Hn) as (a & b & E). rewrite Hg in E.
  assert (A := pow_one _ _ H a). assert (B := pow_one _ _ Hm b). rewrite E, N.pow_add_r, N.mul_comm in A.
  assert (C := congruent_shift _ _ _ 1 B).
  assert (D : 2 = 1); [|discriminate]. apply unique_remainder; [reflexivity|reflexivity|].
  eapply congruent_trans; [|exact A]. apply congruent_sym. exact C.
Qed.

(** 2^31 - 1 has no divisor between 2 and its square root. *)
Fixpoint no_divisor (k : nat) (d : N) : bool :=
  match k with
  | O => true
  | S k' => if 2147483647 mod d =? 0 then false else no_divisor k' (d + 2)
  end.
Lemma no_divisor_ok k : forall d, no_divisor k d = true -> forall i, (i < k)%nat -> 2147483647 mod (d + 2 * N.of_nat i) <> 0.
Proof.
  induction k as [|k IH]; intros d H i Hi; [lia|]. cbn [no_divisor] in H.
  destruct (N.eqb_spec (2147483647 mod d) 0) as [|Hd]; [discriminate|].
  destruct i as [|i]; [now rewrite N.add_0_r|]. replace (d + 2 * N.of_nat (S i)) with (d + 2 + 2 * N.of_nat i) by lia.
  apply IH; [assumption|lia].
Qed.
Lemma no_divisors : no_divisor (N.to_nat 23170) 3 = true.
Proof. vm_compute. reflexivity. Qed.
Lemma mersenne_coprime m n : m = 2147483647 -> 0 < n -> n < m -> N.gcd n m = 1.
Proof.
  intros Hm Hn Hnm. destruct (N.gcd_divide_r n m) as [k Hk]. assert (Hgn := N.gcd_divide_l n m).
  apply N.divide_pos_le in Hgn; [|assumption]. set (g := N.gcd n m) in *. clearbody g.
  assert (Small : forall d e, m = d * e -> 1 < e -> e <= 46341 -> False).
  { intros d e E He He2. assert (D : m mod e = 0) by (rewrite E; apply N.mod_mul; lia).
    destruct (N.Even_or_Odd e) as [[f F]|[f F]].
    - rewrite F in E. rewrite Hm in E. lia.
    - apply (no_divisor_ok _ _ no_divisors (N.to_nat (f - 1))); [lia|].
      rewrite Hm in D. rewrite N2Nat.id. replace (3 + 2 * (f - 1)) with e by lia. exact D. }
  destruct (N.le_gt_cases g 1) as [H1|H1].
  - assert (g <> 0) by (intros ->; lia). lia.
  - exfalso. destruct (N.le_gt_cases g 46341) as [H2|H2]; [now apply (Small k g)|].
    apply (Small g k); [lia| |].
    + destruct (N.le_gt_cases k 1); [|assumption]. assert (k = 0 \/ k = 1) as [->| ->] by lia; lia.
    + destruct (N.le_gt_cases k 46341); [assumption|]. assert (46341 * 46341 <= k * g) by (apply N.mul_le_mono; lia). lia.
Qed.

Lemma pair_detected pre a mid b post c m : m = 2147483647 -> c < 2 ^ 32 -> N.of_nat (length mid) + 1 < m ->
  crc_list (pre ++ a :: mid ++ b :: post) c <> crc_list (pre ++ negb a :: mid ++ negb b :: post) c.
Proof.
  intros Hm Hc Hd E. apply equal_crc in E; [|assumption|rewrite !app_length; cbn [length]; rewrite !app_length; reflexivity].
  assert (R : forall x y, pre ++ x :: mid ++ y :: post = (pre ++ [x] ++ mid ++ [y]) ++ post)
    by (intros; now rewrite <- !app_assoc).
  rewrite !R, (poly_app _ post), (poly_app (pre ++ [negb a] ++ _) post) in E.
  rewrite lxor_swap, N.lxor_nilpotent, N.lxor_0_r in E.
  rewrite <- !N.shiftl_mul_pow2, <- N.shiftl_lxor, N.shiftl_mul_pow2 in E.
  rewrite <- (N.mul_0_l (2 ^ N.of_nat (length post))) in E. apply congruent_unshift in E; [|reflexivity].
  rewrite !poly_app, !app_length in E. cbn [length] in E.
  rewrite lxor_swap, N.lxor_nilpotent, N.lxor_0_l in E.
  rewrite lxor_swap in E.
  rewrite (lxor_swap (poly mid * _)), N.lxor_nilpotent, N.lxor_0_l in E.
  rewrite <- !N.shiftl_mul_pow2, <- N.shiftl_lxor, N.shiftl_mul_pow2 in E.
  replace (N.lxor (poly [a]) (poly [negb a])) with 1 in E by (destruct a; reflexivity).
  replace (N.lxor (poly [b]) (poly [negb b])) with 1 in E by (destruct b; reflexivity).
  rewrite N.mul_1_l in E.
  apply (coprime_order m (N.of_nat (length mid + 1))).
  - lia.
  - apply mersenne_coprime; [assumption|lia|lia].
  - apply x_order, Hm.
  - destruct E as [q E]. exists q. now rewrite N.lxor_0_r in E.
Qed.

Lemma distance_parity l : forall m, length l = length m -> xorb (parity l) (parity m) = Nat.odd (distance l m).
Proof.
  induction l as [|a l IH]; intros [|b m] HL; try discriminate; [reflexivity|].
  cbn [distance]. rewrite Nat.odd_add. rewrite <- IH by (cbn in HL; lia).
  change (parity (a :: l)) with (xorb a (parity l)). change (parity (b :: m)) with (xorb b (parity m)).
  destruct a, b, (parity l), (parity m); reflexivity.
Qed.
Lemma distance_0 l : forall m, length l = length m -> distance l m = 0%nat -> l = m.
Proof.
  induction l as [|a l IH]; intros [|b m] HL D; try discriminate; [reflexivity|].
  cbn [distance] in D. destruct (Bool.eqb a b) eqn:E; [|discriminate]. apply Bool.eqb_prop in E.
  rewrite E, (IH m); [reflexivity|cbn in HL; lia|exact D].
Qed.
Lemma distance_S l : forall m k, length l = length m -> distance l m = S k ->
  exists pre a l' m', l = pre ++ a :: l' /\ m = pre ++ negb a :: m' /\ length l' = length m' /\ distance l' m' = k.
Proof.
  induction l as [|a l IH]; intros [|b m] k HL D; try discriminate.
  cbn [distance] in D. destruct (Bool.eqb a b) eqn:E.
  - apply Bool.eqb_prop in E. subst b. destruct (IH m k) as (pre & x & l' & m' & E1 & E2 & E3 & E4); [cbn in HL; lia|exact D|].
    exists (a :: pre), x, l', m'. rewrite E1, E2. auto.
  - exists [], a, l, m. cbn in HL. assert (b = negb a) as -> by (destruct a, b; (reflexivity || discriminate E)). repeat split; lia.
Qed.

(** Up to three flipped bits anywhere in a stream of at most 2^31 - 1 bits are noticed, and any odd number. *)
Theorem C82_detects_three_bits ws1 ws2 c :
  Forall write_ok ws1 -> Forall write_ok ws2 -> c < 2 ^ 32 ->
  length ws1 = length ws2 -> N.of_nat (length (wire ws1)) <= 2 ^ 31 - 1 ->
  (0 < distance (wire ws1) (wire ws2) <= 3)%nat ->
  crc_run ws1 c <> crc_run ws2 c.
Proof.
  intros H1 H2 Hc HL Hlen D E. rewrite !crc_run_list in E by assumption.
  assert (HW : length (wire ws1) = length (wire ws2)) by now rewrite !wire_length, HL.
  set (l := wire ws1) in *. set (k := wire ws2) in *. clearbody l k.
  assert (P := distance_parity l k HW).
  assert (Odd : Nat.odd (distance l k) = false).
  { rewrite <- P. assert (A := parity_list l c Hc). rewrite E, parity_list in A by assumption.
    destruct (parity (low_bits 32 c)), (parity l), (parity k); (reflexivity || discriminate). }
  assert (D2 : distance l k = 2%nat).
  { destruct (distance l k) as [|[|[|[|n]]]]; try lia; discriminate. }
  destruct (distance_S l k 1 HW D2) as (pre & a & l' & k' & El & Ek & HL' & D').
  destruct (distance_S l' k' 0 HL' D') as (mid & b & l2 & k2 & El' & Ek' & HL2 & D0).
  apply distance_0 in D0; [|assumption]. subst k2 l' k'. subst l k.
  revert E. apply (pair_detected pre a mid b l2 c 2147483647 eq_refl Hc).
  rewrite app_length in Hlen. cbn [length] in Hlen. rewrite app_length in Hlen. cbn [length] in Hlen.
  change (2 ^ 31 - 1) with 2147483647 in Hlen. lia.
Qed.

Theorem C82_detects_odd_flips ws1 ws2 c :
  Forall write_ok ws1 -> Forall write_ok ws2 -> c < 2 ^ 32 -> length ws1 = length ws2 ->
  Nat.Odd (distance (wire ws1) (wire ws2)) -> crc_run ws1 c <> crc_run ws2 c.
Proof.
  intros H1 H2 Hc HL D E. apply Nat.odd_spec in D. rewrite <- distance_parity in D by now rewrite !wire_length, HL.
  assert (A := C82_parity_law ws1 c H1 Hc). rewrite E, C82_parity_law in A by assumption.
  destruct (parity (low_bits 32 c)), (parity (wire ws1)), (parity (wire ws2)); discriminate.
Qed.

(** The cases are real: the check value of CRC-32C of nine bytes "123456789" is 0xE3069283, reached bit by bit
    from the register 0xFFFFFFFF; and two writes that differ in two bits far apart. *)
Example C82_check_value :
  N.lxor (crc_list (flat_map (fun b => low_bits 8 b) [0x31; 0x32; 0x33; 0x34; 0x35; 0x36; 0x37; 0x38; 0x39]) 0xFFFFFFFF)
         0xFFFFFFFF = 0xE3069283.
Proof. reflexivity. Qed.
Example C82_case :
  let ws1 := [(4, 7); (2, 0xAA995566)] in let ws2 := [(4, 6); (2, 0x2A995566)] in
  Forall write_ok ws1 /\ Forall write_ok ws2 /\ distance (wire ws1) (wire ws2) = 2%nat /\
  crc_run ws1 0 <> crc_run ws2 0.
Proof.
  cbv zeta. split; [repeat constructor|]. split; [repeat constructor|]. split; [reflexivity|].
  apply N.eqb_neq. vm_compute. reflexivity.
Qed.
Print Assumptions C82_crc_is_crc32c.
Print Assumptions C82_remainder_unique.
Print Assumptions C82_detects_bursts.
Print Assumptions C82_parity_law.
Print Assumptions C82_detects_three_bits.
Print Assumptions C82_detects_odd_flips.
