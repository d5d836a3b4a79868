(** Facts about the configuration CRC (Frame.v: crc_bits, icap_crc). *)
From Verif Require Import Base BitOps Frame BitOpsFacts EccSpec EccFacts.
From Coq Require Import ZifyBool ZifyN ZifyNat.

(** One step of the register. *)
Definition crc_step (v : bool) (c : N) : N :=
  N.shiftr (if xorb v (N.testbit c 0) then N.lxor c (N.shiftl kCrcPoly 1) else c) 1.

Lemma crc_step_alt v c :
  crc_step v c = N.lxor (N.shiftr c 1) (if xorb v (N.testbit c 0) then kCrcPoly else 0).
Proof.
  unfold crc_step. destruct (xorb v (N.testbit c 0)).
  - rewrite N.shiftr_lxor. f_equal.
  - rewrite N.lxor_0_r. reflexivity.
Qed.

Lemma crc_bits_step n v c :
  crc_bits (S n) v c = crc_bits n (N.shiftr v 1) (crc_step (N.testbit v 0) c).
Proof. reflexivity. Qed.

Lemma crc_step_lin v1 v2 c1 c2 :
  crc_step (xorb v1 v2) (N.lxor c1 c2) = N.lxor (crc_step v1 c1) (crc_step v2 c2).
Proof.
  rewrite !crc_step_alt, N.lxor_spec, N.shiftr_lxor, lxor_swap. f_equal.
  destruct v1, v2, (N.testbit c1 0), (N.testbit c2 0); reflexivity.
Qed.

Lemma crc_bits_lin n : forall v1 v2 c1 c2,
  crc_bits n (N.lxor v1 v2) (N.lxor c1 c2) = N.lxor (crc_bits n v1 c1) (crc_bits n v2 c2).
Proof.
  induction n as [|n IH]; intros; [reflexivity|].
  rewrite !crc_bits_step, N.shiftr_lxor, N.lxor_spec, crc_step_lin. apply IH.
Qed.

Lemma crc_step_lt v c : c < 2 ^ 32 -> crc_step v c < 2 ^ 32.
Proof.
  intros H. rewrite crc_step_alt. apply lxor_lt; [apply shiftr_lt; assumption|].
  destruct (xorb _ _); reflexivity.
Qed.

Lemma crc_bits_lt n : forall v c, c < 2 ^ 32 -> crc_bits n v c < 2 ^ 32.
Proof.
  induction n as [|n IH]; intros v c H; [assumption|].
  rewrite crc_bits_step. apply IH, crc_step_lt; assumption.
Qed.

(** The step is undone by reading bit 31. *)
Definition crc_unstep (v : bool) (y : N) : N :=
  let fb := N.testbit y 31 in
  2 * (if fb then N.lxor y kCrcPoly else y) + N.b2n (xorb v fb).

Lemma crc_step_bit31 v c : c < 2 ^ 32 -> N.testbit (crc_step v c) 31 = xorb v (N.testbit c 0).
Proof.
  intros H. rewrite crc_step_alt, N.lxor_spec, N.shiftr_spec'.
  rewrite lt_pow2_bits in H. rewrite H by lia.
  destruct (xorb v (N.testbit c 0)); reflexivity.
Qed.

Lemma crc_unstep_step v c : c < 2 ^ 32 -> crc_unstep v (crc_step v c) = c.
Proof.
  intros H. unfold crc_unstep. rewrite crc_step_bit31 by assumption. cbv zeta.
  rewrite crc_step_alt.
  assert (E : (if xorb v (N.testbit c 0)
               then N.lxor (N.lxor (N.shiftr c 1)
                      (if xorb v (N.testbit c 0) then kCrcPoly else 0)) kCrcPoly
               else N.lxor (N.shiftr c 1) (if xorb v (N.testbit c 0) then kCrcPoly else 0))
              = N.shiftr c 1).
  { destruct (xorb v (N.testbit c 0)).
    - rewrite N.lxor_assoc, N.lxor_nilpotent, N.lxor_0_r. reflexivity.
    - apply N.lxor_0_r. }
  rewrite E. replace (xorb v (xorb v (N.testbit c 0))) with (N.testbit c 0)
    by (destruct v, (N.testbit c 0); reflexivity).
  rewrite <- N.div2_spec. rewrite N.bit0_odd. symmetry. apply N.div2_odd.
Qed.

Lemma crc_unstep_lt v y : y < 2 ^ 32 -> crc_unstep v y < 2 ^ 32.
Proof.
  intros H. unfold crc_unstep. cbv zeta.
  assert (B : (if N.testbit y 31 then N.lxor y kCrcPoly else y) < 2 ^ 31).
  { apply lt_pow2_bits. intros i Hi. rewrite lt_pow2_bits in H.
    destruct (N.testbit y 31) eqn:E.
    - rewrite N.lxor_spec. destruct (N.eq_dec i 31) as [->|]; [rewrite E; reflexivity|].
      rewrite H by lia. rewrite xorb_false_l. apply (proj1 (lt_pow2_bits kCrcPoly 32) eq_refl). lia.
    - destruct (N.eq_dec i 31) as [->|]; [assumption|]. apply H. lia. }
  change (2 ^ 32) with (2 * 2 ^ 31).
  destruct (xorb v (N.testbit y 31)); cbn [N.b2n]; lia.
Qed.

Lemma crc_step_unstep v y : y < 2 ^ 32 -> crc_step v (crc_unstep v y) = y.
Proof.
  intros H. rewrite crc_step_alt. unfold crc_unstep. cbv zeta.
  set (t := if N.testbit y 31 then N.lxor y kCrcPoly else y).
  set (b := xorb v (N.testbit y 31)).
  assert (E1 : N.shiftr (2 * t + N.b2n b) 1 = t).
  { rewrite <- N.div2_spec, N.div2_div, N.add_comm. apply N.add_b2n_double_div2. }
  assert (E2 : N.testbit (2 * t + N.b2n b) 0 = b) by (rewrite N.add_comm; apply N.add_b2n_double_bit0).
  rewrite E1, E2. unfold b. replace (xorb v (xorb v (N.testbit y 31))) with (N.testbit y 31)
    by (destruct v, (N.testbit y 31); reflexivity).
  unfold t. destruct (N.testbit y 31).
  - rewrite N.lxor_assoc, N.lxor_nilpotent, N.lxor_0_r. reflexivity.
  - apply N.lxor_0_r.
Qed.

Lemma crc_bits_inj n : forall v c1 c2, c1 < 2 ^ 32 -> c2 < 2 ^ 32 ->
  crc_bits n v c1 = crc_bits n v c2 -> c1 = c2.
Proof.
  induction n as [|n IH]; intros v c1 c2 H1 H2 E; [assumption|].
  rewrite !crc_bits_step in E. apply IH in E; try (apply crc_step_lt; assumption).
  rewrite <- (crc_unstep_step (N.testbit v 0) c1), <- (crc_unstep_step (N.testbit v 0) c2)
    by assumption.
  congruence.
Qed.

Lemma crc_bits_surj n : forall v y, y < 2 ^ 32 ->
  exists c, c < 2 ^ 32 /\ crc_bits n v c = y.
Proof.
  induction n as [|n IH]; intros v y H; [exists y; auto|].
  destruct (IH (N.shiftr v 1) y H) as (c & Hc & E).
  exists (crc_unstep (N.testbit v 0) c). split; [apply crc_unstep_lt; assumption|].
  rewrite crc_bits_step, crc_step_unstep by assumption. assumption.
Qed.

(** Feeding at most 32 bits is the same as xoring them into the register. *)
Lemma crc_bits_absorb n : forall v c, (n <= 32)%nat -> v < 2 ^ N.of_nat n ->
  crc_bits n v c = crc_bits n 0 (N.lxor c v).
Proof.
  induction n as [|n IH]; intros v c Hn Hv.
  - cbn in Hv. assert (v = 0) by lia. subst. cbn [crc_bits]. symmetry. apply N.lxor_0_r.
  - rewrite !crc_bits_step. rewrite N.shiftr_0_l, N.bits_0.
    assert (Hv' : N.shiftr v 1 < 2 ^ N.of_nat n).
    { rewrite N.shiftr_div_pow2. apply N.div_lt_upper_bound; [discriminate|].
      replace (N.of_nat (S n)) with (1 + N.of_nat n) in Hv by lia.
      rewrite N.pow_add_r in Hv. assumption. }
    rewrite IH by (try assumption; lia). f_equal.
    rewrite !crc_step_alt, N.lxor_spec, N.shiftr_lxor.
    rewrite (xorb_comm (N.testbit c 0)). rewrite xorb_false_l.
    rewrite !N.lxor_assoc. f_equal. apply N.lxor_comm.
Qed.

Lemma crc_bits_app n m : forall v c,
  crc_bits (n + m) v c = crc_bits m (N.shiftr v (N.of_nat n)) (crc_bits n v c).
Proof.
  induction n as [|n IH]; intros v c.
  - cbn [Nat.add crc_bits]. rewrite N.shiftr_0_r. reflexivity.
  - cbn [Nat.add]. rewrite !crc_bits_step, IH. f_equal. rewrite N.shiftr_shiftr. f_equal. lia.
Qed.

(** Only the low [n] bits of the input matter. *)
Lemma crc_bits_mod n : forall v c, crc_bits n v c = crc_bits n (v mod 2 ^ N.of_nat n) c.
Proof.
  induction n as [|n IH]; intros v c; [reflexivity|].
  rewrite !crc_bits_step. rewrite (IH (N.shiftr v 1)), (IH (N.shiftr (v mod _) 1)).
  f_equal.
  - apply N.bits_inj; intros i.
    rewrite !testbit_mod_pow2, !N.shiftr_spec', testbit_mod_pow2.
    destruct (N.ltb_spec i (N.of_nat n)); [|reflexivity].
    replace (i + 1 <? N.of_nat (S n)) with true by lia. reflexivity.
  - f_equal. rewrite testbit_mod_pow2. replace (0 <? N.of_nat (S n)) with true by lia. reflexivity.
Qed.

(** ** The CRC of one register write: 5 address bits, 32 data bits. *)
Lemma icap_crc_parts addr data prev :
  addr < 2 ^ 5 -> data < 2 ^ 32 -> prev < 2 ^ 32 ->
  icap_crc addr data prev = crc_bits 5 0 (N.lxor (crc_bits 32 0 (N.lxor prev data)) addr).
Proof.
  intros Ha Hd Hp. unfold icap_crc.
  assert (Ha' : N.shiftl addr 32 < 2 ^ 64).
  { rewrite N.shiftl_mul_pow2. change (2 ^ 5) with 32 in Ha.
    change (2 ^ 64) with (4294967296 * 4294967296). change (2 ^ 32) with 4294967296. lia. }
  unfold u64 at 2. rewrite N.mod_small by assumption.
  assert (HA : N.lor (N.shiftl addr 32) data < 2 ^ 64).
  { rewrite lor_disjoint_add by assumption. rewrite N.shiftl_mul_pow2 in Ha'.
    change (2 ^ 5) with 32 in Ha. change (2 ^ 64) with (4294967296 * 4294967296) in *.
    change (2 ^ 32) with 4294967296 in *. lia. }
  unfold u64. rewrite (N.mod_small _ _ HA).
  change 37%nat with (32 + 5)%nat. rewrite crc_bits_app.
  rewrite (crc_bits_mod 32). change (N.of_nat 32) with 32.
  assert (E1 : N.lor (N.shiftl addr 32) data mod 2 ^ 32 = data).
  { rewrite lor_disjoint_add by assumption.
    rewrite N.add_comm, N.mod_add, N.mod_small by (try assumption; discriminate). reflexivity. }
  assert (E2 : N.shiftr (N.lor (N.shiftl addr 32) data) 32 = addr).
  { rewrite lor_disjoint_add, N.shiftr_div_pow2 by assumption.
    rewrite N.div_add_l by discriminate. rewrite N.div_small by assumption. lia. }
  rewrite E1, E2. rewrite (crc_bits_absorb 32) by (try assumption; lia).
  rewrite (crc_bits_absorb 5) by (try assumption; lia).
  unfold u32. apply N.mod_small. apply crc_bits_lt. apply lxor_lt.
  - apply crc_bits_lt, lxor_lt; assumption.
  - eapply N.lt_trans; [eassumption|]. reflexivity.
Qed.

Lemma icap_crc_lt a d c : icap_crc a d c < 2 ^ 32.
Proof. unfold icap_crc, u32. apply N.mod_lt. discriminate. Qed.

Lemma icap_crc_lin a1 a2 d1 d2 c1 c2 :
  a1 < 2 ^ 5 -> a2 < 2 ^ 5 -> d1 < 2 ^ 32 -> d2 < 2 ^ 32 -> c1 < 2 ^ 32 -> c2 < 2 ^ 32 ->
  icap_crc (N.lxor a1 a2) (N.lxor d1 d2) (N.lxor c1 c2) =
  N.lxor (icap_crc a1 d1 c1) (icap_crc a2 d2 c2).
Proof.
  intros. rewrite !icap_crc_parts by (try assumption; apply lxor_lt; assumption).
  rewrite <- crc_bits_lin. change (N.lxor 0 0) with 0. f_equal.
  rewrite (lxor_swap (crc_bits 32 0 (N.lxor c1 d1))). f_equal.
  rewrite <- crc_bits_lin. change (N.lxor 0 0) with 0. f_equal. apply lxor_swap.
Qed.

Lemma icap_crc_inj_prev a d c1 c2 :
  a < 2 ^ 5 -> d < 2 ^ 32 -> c1 < 2 ^ 32 -> c2 < 2 ^ 32 ->
  icap_crc a d c1 = icap_crc a d c2 -> c1 = c2.
Proof.
  intros Ha Hd H1 H2 E. rewrite !icap_crc_parts in E by assumption.
  assert (L5 : a < 2 ^ 32) by (eapply N.lt_trans; [eassumption|reflexivity]).
  apply crc_bits_inj in E; try (apply lxor_lt; [apply crc_bits_lt, lxor_lt; assumption|assumption]).
  rewrite !(N.lxor_comm _ a) in E. apply lxor_cancel_l in E.
  apply crc_bits_inj in E; try (apply lxor_lt; assumption).
  rewrite !(N.lxor_comm _ d) in E. apply lxor_cancel_l in E. assumption.
Qed.

Lemma icap_crc_inj_data a d1 d2 c :
  a < 2 ^ 5 -> d1 < 2 ^ 32 -> d2 < 2 ^ 32 -> c < 2 ^ 32 ->
  icap_crc a d1 c = icap_crc a d2 c -> d1 = d2.
Proof.
  intros Ha Hd H1 H2 E. rewrite !icap_crc_parts in E by assumption.
  assert (L5 : a < 2 ^ 32) by (eapply N.lt_trans; [eassumption|reflexivity]).
  apply crc_bits_inj in E; try (apply lxor_lt; [apply crc_bits_lt, lxor_lt; assumption|assumption]).
  rewrite !(N.lxor_comm _ a) in E. apply lxor_cancel_l in E.
  apply crc_bits_inj in E; try (apply lxor_lt; assumption).
  apply lxor_cancel_l in E. assumption.
Qed.

Lemma icap_crc_inj_addr a1 a2 d c :
  a1 < 2 ^ 5 -> a2 < 2 ^ 5 -> d < 2 ^ 32 -> c < 2 ^ 32 ->
  icap_crc a1 d c = icap_crc a2 d c -> a1 = a2.
Proof.
  intros Ha1 Ha2 Hd H E. rewrite !icap_crc_parts in E by assumption.
  assert (L1 : a1 < 2 ^ 32) by (eapply N.lt_trans; [eassumption|reflexivity]).
  assert (L2 : a2 < 2 ^ 32) by (eapply N.lt_trans; [eassumption|reflexivity]).
  apply crc_bits_inj in E; try (apply lxor_lt; [apply crc_bits_lt, lxor_lt; assumption|assumption]).
  apply lxor_cancel_l in E. assumption.
Qed.

Lemma icap_crc_surj a d y : a < 2 ^ 5 -> d < 2 ^ 32 -> y < 2 ^ 32 ->
  exists c, c < 2 ^ 32 /\ icap_crc a d c = y.
Proof.
  intros Ha Hd Hy.
  assert (L5 : a < 2 ^ 32) by (eapply N.lt_trans; [eassumption|reflexivity]).
  destruct (crc_bits_surj 5 0 y Hy) as (c1 & H1 & E1).
  destruct (crc_bits_surj 32 0 (N.lxor c1 a)) as (c2 & H2 & E2); [apply lxor_lt; assumption|].
  exists (N.lxor c2 d). split; [apply lxor_lt; assumption|].
  rewrite icap_crc_parts by (try assumption; apply lxor_lt; assumption).
  rewrite (N.lxor_assoc c2 d d), N.lxor_nilpotent, N.lxor_0_r, E2.
  rewrite (N.lxor_assoc c1 a a), N.lxor_nilpotent, N.lxor_0_r. assumption.
Qed.

Section RegRun.
  Context {A : Type} (step : A -> N -> N) (ok : A -> Prop).
  Lemma reg_run_app a : forall b c,
    reg_run step (a ++ b) c = reg_run step b (reg_run step a c).
  Proof. induction a as [|w a IH]; intros b c; cbn [app reg_run]; [reflexivity|]. apply IH. Qed.
  Hypothesis step_lt : forall w c, step w c < 2 ^ 32.
  Hypothesis step_inj : forall w c1 c2, ok w -> c1 < 2 ^ 32 -> c2 < 2 ^ 32 ->
    step w c1 = step w c2 -> c1 = c2.
  Lemma reg_run_lt ws : forall c, c < 2 ^ 32 -> reg_run step ws c < 2 ^ 32.
  Proof. induction ws as [|w ws IH]; intros c H; cbn [reg_run]; [assumption|]. apply IH, step_lt. Qed.
  Lemma reg_run_inj ws : Forall ok ws -> forall c1 c2, c1 < 2 ^ 32 -> c2 < 2 ^ 32 ->
    reg_run step ws c1 = reg_run step ws c2 -> c1 = c2.
  Proof.
    induction 1 as [|w ws Hw Hws IH]; intros c1 c2 H1 H2 E; cbn [reg_run] in E; [assumption|].
    apply IH in E; try apply step_lt. eapply step_inj; eassumption.
  Qed.
  Lemma reg_run_detects pre w1 w2 post c :
    c < 2 ^ 32 -> Forall ok post ->
    (forall x, x < 2 ^ 32 -> step w1 x <> step w2 x) ->
    reg_run step (pre ++ w1 :: post) c <> reg_run step (pre ++ w2 :: post) c.
  Proof.
    intros Hc Hpost Hd E. rewrite !reg_run_app in E. cbn [reg_run] in E.
    apply (reg_run_inj post Hpost) in E; try apply step_lt.
    revert E. apply Hd, reg_run_lt. assumption.
  Qed.
End RegRun.

Lemma crc_write_lt w c : crc_write w c < 2 ^ 32.
Proof. unfold crc_write. apply icap_crc_lt. Qed.
Lemma crc_write_inj w c1 c2 : write_ok w -> c1 < 2 ^ 32 -> c2 < 2 ^ 32 ->
  crc_write w c1 = crc_write w c2 -> c1 = c2.
Proof. intros [Ha Hd]. unfold crc_write. apply icap_crc_inj_prev; assumption. Qed.

Lemma crc_run_inj ws c1 c2 : Forall write_ok ws -> c1 < 2 ^ 32 -> c2 < 2 ^ 32 ->
  crc_run ws c1 = crc_run ws c2 -> c1 = c2.
Proof.
  intros. eapply (reg_run_inj crc_write write_ok crc_write_lt crc_write_inj ws); eassumption.
Qed.

Lemma crc_write_detects w1 w2 x :
  write_ok w1 -> write_ok w2 -> w1 <> w2 -> fst w1 = fst w2 \/ snd w1 = snd w2 ->
  x < 2 ^ 32 -> crc_write w1 x <> crc_write w2 x.
Proof.
  destruct w1 as [a1 d1], w2 as [a2 d2]. intros [A1 D1] [A2 D2] Hne Hd Hx.
  unfold crc_write. cbn [fst snd] in *. intros E. apply Hne. destruct Hd as [Hd|Hd].
  - rewrite Hd in *. f_equal. apply (icap_crc_inj_data a2 d1 d2 x); assumption.
  - rewrite Hd in *. f_equal. apply (icap_crc_inj_addr a1 a2 d2 x); assumption.
Qed.

(** Two histories that differ in one write -- the data or the register, not both --
    end with different CRCs. *)
Lemma crc_run_detects pre w1 w2 post c :
  c < 2 ^ 32 -> write_ok w1 -> write_ok w2 -> Forall write_ok post ->
  w1 <> w2 -> fst w1 = fst w2 \/ snd w1 = snd w2 ->
  crc_run (pre ++ w1 :: post) c <> crc_run (pre ++ w2 :: post) c.
Proof.
  intros Hc H1 H2 Hpost Hne Hd.
  apply (reg_run_detects crc_write write_ok crc_write_lt crc_write_inj); try assumption.
  intros x Hx. apply crc_write_detects; assumption.
Qed.
