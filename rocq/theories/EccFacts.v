(** Facts about the frame ECC (Frame.v: icap_ecc, calculate_ecc, update_ecc). *)
From Verif Require Import Base BitOps Frame BitOpsFacts EccSpec.
From Coq Require Import ZifyBool ZifyN ZifyNat.

(** ** Bitwise helpers *)
Lemma lxor_swap a b c d : N.lxor (N.lxor a b) (N.lxor c d) = N.lxor (N.lxor a c) (N.lxor b d).
Proof.
  rewrite !N.lxor_assoc. f_equal. rewrite <- !N.lxor_assoc. f_equal. apply N.lxor_comm.
Qed.

Lemma lxor_shiftr a b n : N.shiftr (N.lxor a b) n = N.lxor (N.shiftr a n) (N.shiftr b n).
Proof. apply N.shiftr_lxor. Qed.

Lemma lxor_shiftl a b n : N.shiftl (N.lxor a b) n = N.lxor (N.shiftl a n) (N.shiftl b n).
Proof. apply N.shiftl_lxor. Qed.

Lemma lxor_land a b m : N.land (N.lxor a b) m = N.lxor (N.land a m) (N.land b m).
Proof.
  apply N.bits_inj; intros i. rewrite N.lxor_spec, !N.land_spec, N.lxor_spec.
  destruct (N.testbit a i), (N.testbit b i), (N.testbit m i); reflexivity.
Qed.

Lemma lxor_lt a b n : a < 2 ^ n -> b < 2 ^ n -> N.lxor a b < 2 ^ n.
Proof.
  rewrite !lt_pow2_bits. intros Ha Hb i Hi. rewrite N.lxor_spec, Ha, Hb by assumption.
  reflexivity.
Qed.

Lemma land_lt a b n : b < 2 ^ n -> N.land a b < 2 ^ n.
Proof.
  rewrite !lt_pow2_bits. intros Hb i Hi. rewrite N.land_spec, Hb by assumption.
  apply andb_false_r.
Qed.

Lemma shiftr_lt a k n : a < 2 ^ n -> N.shiftr a k < 2 ^ n.
Proof.
  rewrite !lt_pow2_bits. intros Ha i Hi. rewrite N.shiftr_spec'. apply Ha. lia.
Qed.

(** ** Linearity *)
Lemma ecc_bits_lin n : forall i val w1 w2 e1 e2,
  ecc_bits n i val (N.lxor w1 w2) (N.lxor e1 e2) =
  N.lxor (ecc_bits n i val w1 e1) (ecc_bits n i val w2 e2).
Proof.
  induction n as [|n IH]; intros i val w1 w2 e1 e2; cbn [ecc_bits]; [reflexivity|].
  rewrite lxor_shiftr, <- IH. f_equal. rewrite N.lxor_spec.
  set (v := u32 (val + i)).
  destruct (N.testbit w1 0), (N.testbit w2 0); cbn [xorb].
  - rewrite lxor_swap, N.lxor_nilpotent, N.lxor_0_r. reflexivity.
  - rewrite !N.lxor_assoc. f_equal. apply N.lxor_comm.
  - rewrite !N.lxor_assoc. reflexivity.
  - reflexivity.
Qed.

Lemma fold_step_lin a b k :
  N.lxor (N.lxor a b) (N.shiftr (N.lxor a b) k) =
  N.lxor (N.lxor a (N.shiftr a k)) (N.lxor b (N.shiftr b k)).
Proof. rewrite lxor_shiftr. apply lxor_swap. Qed.

Lemma ecc_parity_lin a b : ecc_parity (N.lxor a b) = N.lxor (ecc_parity a) (ecc_parity b).
Proof.
  unfold ecc_parity. cbv zeta.
  rewrite (lxor_land a b 0xFFF). set (x := N.land a 0xFFF). set (y := N.land b 0xFFF).
  rewrite (fold_step_lin x y 8). rewrite (fold_step_lin _ _ 4).
  rewrite (fold_step_lin _ _ 2). rewrite (fold_step_lin _ _ 1).
  rewrite lxor_land, lxor_shiftl. apply lxor_swap.
Qed.

Lemma icap_ecc_lin idx w1 w2 e1 e2 :
  icap_ecc idx (N.lxor w1 w2) (N.lxor e1 e2) =
  N.lxor (icap_ecc idx w1 e1) (icap_ecc idx w2 e2).
Proof.
  unfold icap_ecc. cbv zeta.
  destruct (idx =? 0x32), (idx =? 0x64); rewrite ?lxor_land, ?ecc_bits_lin, ?ecc_parity_lin;
    reflexivity.
Qed.

Fixpoint map2 {A B C} (f : A -> B -> C) (l : list A) (m : list B) : list C :=
  match l, m with
  | a :: l', b :: m' => f a b :: map2 f l' m'
  | _, _ => []
  end.

Lemma map2_length {A B C} (f : A -> B -> C) : forall l m, length l = length m ->
  length (map2 f l m) = length l.
Proof.
  induction l as [|a l IH]; intros [|b m] H; cbn in *; try discriminate; try reflexivity.
  f_equal. apply IH. congruence.
Qed.

Lemma calc_ecc_from_lin : forall ws1 ws2 i e1 e2, length ws1 = length ws2 ->
  calc_ecc_from i (map2 N.lxor ws1 ws2) (N.lxor e1 e2) =
  N.lxor (calc_ecc_from i ws1 e1) (calc_ecc_from i ws2 e2).
Proof.
  induction ws1 as [|a ws1 IH]; intros [|b ws2] i e1 e2 H; cbn in H; try discriminate.
  - reflexivity.
  - cbn [map2 calc_ecc_from]. rewrite icap_ecc_lin. apply IH. congruence.
Qed.

Lemma calculate_ecc_lin ws1 ws2 : length ws1 = length ws2 ->
  calculate_ecc (map2 N.lxor ws1 ws2) = N.lxor (calculate_ecc ws1) (calculate_ecc ws2).
Proof.
  intros H. unfold calculate_ecc. rewrite <- calc_ecc_from_lin by assumption.
  reflexivity.
Qed.

(** ** The value fits 13 bits *)
Lemma ecc_val_bound idx : idx < 101 -> ecc_val idx + 31 < 2 ^ 13.
Proof.
  intros H. unfold ecc_val, u32.
  change (2 ^ 32) with 4294967296. change (2 ^ 13) with 8192.
  rewrite (N.mod_small (idx * 32)) by lia.
  destruct (N.ltb_spec 0x25 idx); [|destruct (N.ltb_spec 0x6 idx)];
    rewrite N.mod_small by lia; lia.
Qed.

Lemma ecc_bits_lt n : forall i val w e,
  val + i + N.of_nat n <= 2 ^ 13 -> e < 2 ^ 13 -> ecc_bits n i val w e < 2 ^ 13.
Proof.
  induction n as [|n IH]; intros i val w e Hb He; cbn [ecc_bits]; [assumption|].
  apply IH; [lia|]. destruct (N.testbit w 0); [|assumption].
  apply lxor_lt; [assumption|]. unfold u32.
  change (2 ^ 13) with 8192 in *. change (2 ^ 32) with 4294967296.
  rewrite N.mod_small by lia. lia.
Qed.

Lemma ecc_parity_lt e : e < 2 ^ 13 -> ecc_parity e < 2 ^ 13.
Proof.
  intros He. unfold ecc_parity. cbv zeta. apply lxor_lt; [assumption|].
  match goal with |- N.shiftl (N.land ?v 1) 12 < _ => set (u := v) end.
  rewrite N.shiftl_mul_pow2. change 1 with (N.ones 1). rewrite N.land_ones.
  change (2 ^ 1) with 2. change (2 ^ 12) with 4096. change (2 ^ 13) with 8192.
  pose proof (N.mod_lt u 2). lia.
Qed.

Lemma icap_ecc_lt idx w e : idx < 101 -> e < 2 ^ 13 -> icap_ecc idx w e < 2 ^ 13.
Proof.
  intros Hi He. unfold icap_ecc. cbv zeta.
  pose proof (ecc_val_bound idx Hi).
  match goal with |- context [ecc_bits 32 0 ?v ?w ?e] =>
    assert (ecc_bits 32 0 v w e < 2 ^ 13) by (apply ecc_bits_lt; [cbn in *; lia|assumption]) end.
  destruct (idx =? 0x64); [apply ecc_parity_lt|]; assumption.
Qed.

Lemma calc_ecc_from_lt : forall ws i e,
  i + N.of_nat (length ws) <= 101 -> e < 2 ^ 13 -> calc_ecc_from i ws e < 2 ^ 13.
Proof.
  induction ws as [|w ws IH]; intros i e Hi He; cbn [calc_ecc_from]; [assumption|].
  cbn [length] in Hi. apply IH; [lia|]. apply icap_ecc_lt; [lia|assumption].
Qed.

Lemma calculate_ecc_lt f : (length f <= 101)%nat -> calculate_ecc f < 2 ^ 13.
Proof. intros H. apply calc_ecc_from_lt; [lia|]. reflexivity. Qed.

(** ** list_update *)
Lemma list_update_length {A} (g : A -> A) : forall n l, length (list_update n g l) = length l.
Proof. induction n; intros [|x l]; cbn; try reflexivity. f_equal. apply IHn. Qed.

Lemma list_update_nth {A} (g : A -> A) d : forall n l k,
  nth k (list_update n g l) d =
  if Nat.eqb n k && Nat.ltb k (length l) then g (nth k l d) else nth k l d.
Proof.
  induction n as [|n IH]; intros [|x l] k; cbn [list_update length].
  - rewrite andb_false_r. reflexivity.
  - destruct k; reflexivity.
  - rewrite andb_false_r. reflexivity.
  - destruct k; [reflexivity|]. cbn [nth]. rewrite IH. reflexivity.
Qed.

Lemma nth_ext_N (l m : list N) : length l = length m ->
  (forall k, nth k l 0 = nth k m 0) -> l = m.
Proof. intros. apply (nth_ext l m 0 0); auto. Qed.

Lemma map2_nth : forall l m k, length l = length m ->
  nth k (map2 N.lxor l m) 0 = N.lxor (nth k l 0) (nth k m 0).
Proof.
  induction l as [|a l IH]; intros [|b m] k H; cbn in H; try discriminate.
  - destruct k; reflexivity.
  - destruct k; cbn; [reflexivity|]. apply IH. congruence.
Qed.

(** ** The check bits do not influence the computed code *)
Definition mask50 (f : frame) : frame :=
  list_update kECCFrameNumber (fun w => N.land w 0xFFFFE000) f.

Lemma icap_ecc_50_mask w e : icap_ecc 50 (N.land w 0xFFFFE000) e = icap_ecc 50 w e.
Proof.
  unfold icap_ecc. change (50 =? 50) with true. cbv iota zeta.
  rewrite <- N.land_assoc. reflexivity.
Qed.

Lemma calc_ecc_from_agree : forall f g i e, length f = length g ->
  (forall k, nth k f 0 = nth k g 0 \/
     (i + N.of_nat k = 50 /\
      N.land (nth k f 0) 0xFFFFE000 = N.land (nth k g 0) 0xFFFFE000)) ->
  calc_ecc_from i f e = calc_ecc_from i g e.
Proof.
  induction f as [|a f IH]; intros [|b g] i e Hl H; cbn in Hl; try discriminate;
    [reflexivity|].
  cbn [calc_ecc_from].
  assert (E : icap_ecc i a e = icap_ecc i b e).
  { destruct (H 0%nat) as [E|[E1 E2]]; cbn [nth] in *; [congruence|].
    replace i with 50 by lia. rewrite <- (icap_ecc_50_mask a), <- (icap_ecc_50_mask b).
    congruence. }
  rewrite E. apply IH; [congruence|].
  intros k. destruct (H (S k)) as [E2|[E1 E2]]; cbn [nth] in *; [left; assumption|].
  right; split; [lia|assumption].
Qed.

Lemma update_ecc_length f : length (update_ecc f) = length f.
Proof. unfold update_ecc. cbv zeta. rewrite !list_update_length. reflexivity. Qed.

Lemma update_ecc_nth f k : length f = 101%nat ->
  nth k (update_ecc f) 0 =
  if Nat.eqb 50 k then N.lor (N.land (nth 50 f 0) 0xFFFFE000) (calculate_ecc f)
  else nth k f 0.
Proof.
  intros Hl. unfold update_ecc. cbv zeta. unfold kECCFrameNumber.
  rewrite !list_update_nth, list_update_length, Hl.
  destruct (Nat.eqb_spec 50 k) as [E|E].
  - subst k. change (Nat.ltb 50 101) with true. cbn [andb].
    change (Nat.eqb 50 50) with true. cbn [andb]. f_equal.
    assert (E : calculate_ecc (list_update 50 (fun w => N.land w 0xFFFFE000) f) = calculate_ecc f).
    { unfold calculate_ecc. apply calc_ecc_from_agree.
      - apply list_update_length.
      - intros k. rewrite list_update_nth.
        destruct (Nat.eqb_spec 50 k); cbn [andb]; [|left; reflexivity].
        destruct (Nat.ltb k (length f)); [|left; reflexivity].
        right. split; [lia|]. rewrite <- N.land_assoc. reflexivity. }
    rewrite E. change 0x1FFF with (N.ones 13). rewrite N.land_ones.
    apply N.mod_small, calculate_ecc_lt. lia.
  - cbn [andb]. reflexivity.
Qed.

Lemma mask_testbit i : N.testbit 0xFFFFE000 i = (13 <=? i) && (i <? 32).
Proof.
  assert (E : 0xFFFFE000 = N.ldiff (N.ones 32) (N.ones 13)) by reflexivity.
  rewrite E, N.ldiff_spec, !testbit_ones. lia.
Qed.

Lemma mod_as_bits (a : N) n i : N.testbit (a mod 2 ^ n) i = (i <? n) && N.testbit a i.
Proof. apply testbit_mod_pow2. Qed.

Lemma update_ecc_bit f p : frame_ok f ->
  frame_bit (update_ecc f) p =
  if Nat.eqb 50 (fst p) && (snd p <? 13) then N.testbit (calculate_ecc f) (snd p)
  else frame_bit f p.
Proof.
  intros [Hl Hw]. unfold frame_bit. rewrite update_ecc_nth by assumption.
  destruct p as [k j]; cbn [fst snd].
  destruct (Nat.eqb_spec 50 k) as [E|E]; cbn [andb]; [|reflexivity].
  subst k. rewrite N.lor_spec, N.land_spec, mask_testbit.
  pose proof (calculate_ecc_lt f) as B. rewrite lt_pow2_bits in B.
  destruct (N.ltb_spec j 13).
  - replace (13 <=? j) with false by lia. cbn [andb]. rewrite andb_false_r. reflexivity.
  - rewrite B by lia. replace (13 <=? j) with true by lia. cbn [andb]. rewrite orb_false_r.
    destruct (N.ltb_spec j 32); [apply andb_true_r|].
    rewrite andb_false_r. symmetry.
    assert (W : nth 50 f 0 < 2 ^ 32).
    { rewrite Forall_forall in Hw. apply Hw, nth_In. lia. }
    rewrite lt_pow2_bits in W. apply W. lia.
Qed.

Lemma frame_ok_bits f : length f = 101%nat ->
  (forall k j, 32 <= j -> frame_bit f (k, j) = false) -> frame_ok f.
Proof.
  intros Hl H. split; [assumption|]. apply Forall_forall. intros w Hin.
  apply (In_nth _ _ 0) in Hin. destruct Hin as (k & Hk & E). subst w.
  apply lt_pow2_bits. intros j Hj. apply (H k j Hj).
Qed.

Lemma frame_bit_high f k j : frame_ok f -> 32 <= j -> frame_bit f (k, j) = false.
Proof.
  intros [Hl Hw] Hj. unfold frame_bit; cbn [fst snd].
  destruct (Nat.lt_ge_cases k (length f)) as [L|L].
  - rewrite Forall_forall in Hw. assert (W : nth k f 0 < 2 ^ 32) by (apply Hw, nth_In; assumption).
    rewrite lt_pow2_bits in W. apply W; assumption.
  - rewrite nth_overflow by assumption. apply N.bits_0.
Qed.

Lemma update_ecc_ok f : frame_ok f -> frame_ok (update_ecc f).
Proof.
  intros H. apply frame_ok_bits.
  - rewrite update_ecc_length. apply H.
  - intros k j Hj. rewrite update_ecc_bit by assumption; cbn [fst snd].
    replace (j <? 13) with false by lia. rewrite andb_false_r. apply frame_bit_high; assumption.
Qed.

Lemma calc_ecc_update f : frame_ok f -> calculate_ecc (update_ecc f) = calculate_ecc f.
Proof.
  intros H. unfold calculate_ecc. apply calc_ecc_from_agree.
  - apply update_ecc_length.
  - intros k. rewrite update_ecc_nth by apply H.
    destruct (Nat.eqb_spec 50 k) as [E|E]; [|left; reflexivity].
    subst k. right. split; [lia|].
    apply N.bits_inj; intros i. rewrite !N.land_spec, N.lor_spec, N.land_spec, !mask_testbit.
    pose proof (calculate_ecc_lt f) as B. rewrite lt_pow2_bits in B. destruct H as [Hl _].
    destruct (N.leb_spec 13 i); [|rewrite !andb_false_r; reflexivity].
    rewrite B by lia. cbn [andb]. rewrite orb_false_r.
    destruct (i <? 32), (N.testbit (nth 50 f 0) i); reflexivity.
Qed.

Lemma update_ecc_stored f : frame_ok f -> stored_ecc (update_ecc f) = calculate_ecc (update_ecc f).
Proof.
  intros H. rewrite calc_ecc_update by assumption. unfold stored_ecc.
  apply N.bits_inj; intros i. rewrite testbit_mod_pow2.
  pose proof (update_ecc_bit f (50%nat, i) H) as U. unfold frame_bit in U. cbn [fst snd] in U.
  rewrite U. change (Nat.eqb 50 50) with true. cbn [andb].
  pose proof (calculate_ecc_lt f) as B. rewrite lt_pow2_bits in B. destruct H as [Hl _].
  destruct (N.ltb_spec i 13); [reflexivity|]. rewrite B by lia. reflexivity.
Qed.

Lemma frame_eq_bits f g : length f = length g ->
  (forall p, frame_bit f p = frame_bit g p) -> f = g.
Proof.
  intros Hl H. apply nth_ext_N; [assumption|]. intros k. apply N.bits_inj. intros j.
  apply (H (k, j)).
Qed.

Lemma update_ecc_idem f : frame_ok f -> update_ecc (update_ecc f) = update_ecc f.
Proof.
  intros H. apply frame_eq_bits; [apply update_ecc_length|]. intros [k j].
  rewrite !update_ecc_bit, calc_ecc_update by auto using update_ecc_ok.
  cbn [fst snd]. destruct (Nat.eqb 50 k && (j <? 13)); reflexivity.
Qed.

(** ** Syndromes of single bits *)
(** Frame with the single bit [p] set. *)
Definition unit_frame (p : bitpos) : frame :=
  map (fun k => if Nat.eqb (fst p) k then 2 ^ snd p else 0) (seq 0 101).

Lemma unit_frame_length p : length (unit_frame p) = 101%nat.
Proof. unfold unit_frame. rewrite map_length, seq_length. reflexivity. Qed.

Lemma unit_frame_nth p k : (k < 101)%nat ->
  nth k (unit_frame p) 0 = if Nat.eqb (fst p) k then 2 ^ snd p else 0.
Proof.
  intros H. unfold unit_frame.
  rewrite (nth_indep _ _ (if Nat.eqb (fst p) 0 then 2 ^ snd p else 0))
    by (rewrite map_length, seq_length; assumption).
  rewrite (map_nth (fun k => if Nat.eqb (fst p) k then 2 ^ snd p else 0) (seq 0 101) 0%nat k).
  rewrite seq_nth by assumption. reflexivity.
Qed.

Lemma flipped_lxor p f g : bitpos_ok p -> flipped p f g -> g = map2 N.lxor f (unit_frame p).
Proof.
  intros [Hp1 Hp2] (Hf & Hg & H).
  apply frame_eq_bits.
  - rewrite map2_length; [destruct Hf, Hg; congruence|]. rewrite unit_frame_length. apply Hf.
  - intros [k j]. rewrite H. unfold frame_bit. cbn [fst snd].
    rewrite map2_nth by (rewrite unit_frame_length; apply Hf).
    rewrite N.lxor_spec. f_equal.
    destruct (Nat.lt_ge_cases k 101) as [L|L].
    + rewrite unit_frame_nth by assumption.
      destruct (Nat.eqb_spec (fst p) k); cbn [andb]; [|rewrite N.bits_0; reflexivity].
      symmetry. apply N.pow2_bits_eqb.
    + rewrite nth_overflow by (rewrite unit_frame_length; assumption). rewrite N.bits_0.
      replace (Nat.eqb (fst p) k) with false by lia. reflexivity.
Qed.

(** Computed code xor stored code. *)
Definition syndrome (f : frame) : N := N.lxor (calculate_ecc f) (stored_ecc f).

Lemma syndrome_lin f g : length f = length g ->
  syndrome (map2 N.lxor f g) = N.lxor (syndrome f) (syndrome g).
Proof.
  intros H. unfold syndrome, stored_ecc. rewrite calculate_ecc_lin, map2_nth by assumption.
  rewrite lxor_swap. f_equal. apply N.bits_inj. intros i.
  rewrite N.lxor_spec, !testbit_mod_pow2, N.lxor_spec.
  destruct (i <? 13); destruct (N.testbit _ i), (N.testbit _ i); reflexivity.
Qed.

(** The parity of a 13-bit number. *)
Definition parity13 (x : N) : bool :=
  fold_left xorb (map (fun i => N.testbit x (N.of_nat i)) (seq 0 13)) false.

Lemma parity13_lxor a b : parity13 (N.lxor a b) = xorb (parity13 a) (parity13 b).
Proof.
  unfold parity13. change false with (xorb false false) at 1.
  generalize false at 2 4. generalize false at 1 2. generalize (seq 0 13).
  induction l as [|i l IH]; intros s t; cbn [map fold_left]; [reflexivity|].
  rewrite <- IH. f_equal. rewrite N.lxor_spec.
  destruct s, t, (N.testbit a (N.of_nat i)), (N.testbit b (N.of_nat i)); reflexivity.
Qed.

Lemma ecc_bits_zero n : forall i val e, ecc_bits n i val 0 e = e.
Proof. induction n; intros; cbn [ecc_bits]; [reflexivity|]. rewrite N.bits_0. apply IHn. Qed.

Lemma ecc_bits_pow2 n : forall i val e j, j < N.of_nat n ->
  ecc_bits n i val (2 ^ j) e = N.lxor e (u32 (val + (i + j))).
Proof.
  induction n as [|n IH]; intros i val e j Hj; [lia|]. cbn [ecc_bits].
  destruct (N.eq_dec j 0) as [E|E].
  - subst j. change (2 ^ 0) with 1. change (N.testbit 1 0) with true.
    change (N.shiftr 1 1) with 0. cbv iota. rewrite ecc_bits_zero. do 2 f_equal. lia.
  - rewrite N.pow2_bits_false by lia. rewrite N.shiftr_div_pow2.
    replace (2 ^ j / 2 ^ 1) with (2 ^ (j - 1)).
    + rewrite IH by lia. do 2 f_equal. lia.
    + symmetry. rewrite <- N.pow_sub_r by lia. reflexivity.
Qed.

Lemma calc_ecc_from_app : forall a b i e,
  calc_ecc_from i (a ++ b) e = calc_ecc_from (i + N.of_nat (length a)) b (calc_ecc_from i a e).
Proof.
  induction a as [|x a IH]; intros b i e; cbn [app calc_ecc_from length].
  - rewrite N.add_0_r. reflexivity.
  - rewrite IH. f_equal. lia.
Qed.

Lemma icap_ecc_zero idx e : icap_ecc idx 0 e = if idx =? 100 then ecc_parity e else e.
Proof.
  unfold icap_ecc. cbv zeta. rewrite N.land_0_l.
  destruct (idx =? 0x32); rewrite ecc_bits_zero; reflexivity.
Qed.

Lemma calc_ecc_zeros n : forall i e,
  calc_ecc_from i (repeat 0 n) e =
  if (i <=? 100) && (100 <? i + N.of_nat n) then ecc_parity e else e.
Proof.
  induction n as [|n IH]; intros i e; cbn [repeat calc_ecc_from].
  - replace (100 <? i + N.of_nat 0) with (100 <? i) by (f_equal; lia).
    destruct (N.leb_spec i 100), (N.ltb_spec 100 i); try lia; reflexivity.
  - rewrite IH, icap_ecc_zero. destruct (N.eqb_spec i 100) as [E|E].
    + replace (i + 1 <=? 100) with false by lia. cbn [andb].
      replace ((i <=? 100) && (100 <? i + N.of_nat (S n))) with true by lia. reflexivity.
    + replace ((i + 1 <=? 100) && (100 <? i + 1 + N.of_nat n))
        with ((i <=? 100) && (100 <? i + N.of_nat (S n))) by lia.
      reflexivity.
Qed.

Lemma unit_frame_split p : (fst p < 101)%nat ->
  unit_frame p = repeat 0 (fst p) ++ [2 ^ snd p] ++ repeat 0 (100 - fst p)%nat.
Proof.
  intros H. apply nth_ext_N.
  - rewrite unit_frame_length, !app_length, !repeat_length. cbn [length]. lia.
  - intros k. destruct (Nat.lt_ge_cases k 101) as [L|L].
    + rewrite unit_frame_nth by assumption.
      destruct (Nat.eqb_spec (fst p) k) as [E|E].
      * rewrite app_nth2 by (rewrite repeat_length; lia). rewrite repeat_length.
        replace (k - fst p)%nat with 0%nat by lia. reflexivity.
      * destruct (Nat.lt_ge_cases k (fst p)).
        -- rewrite app_nth1 by (rewrite repeat_length; lia). rewrite nth_repeat. reflexivity.
        -- rewrite app_nth2 by (rewrite repeat_length; lia). rewrite repeat_length.
           replace (k - fst p)%nat with (S (k - fst p - 1)) by lia. cbn [app nth].
           rewrite nth_repeat. reflexivity.
    + rewrite !nth_overflow; [reflexivity| |rewrite unit_frame_length; assumption].
      rewrite !app_length, !repeat_length. cbn [length]. lia.
Qed.

(** Closed form of the syndrome of a single bit. *)
Definition unit_code (i j : N) : N :=
  ecc_parity (if (i =? 50) && (j <? 13) then 0 else u32 (ecc_val i + j)).
Definition unit_syn (i j : N) : N :=
  N.lxor (unit_code i j) (if (i =? 50) && (j <? 13) then 2 ^ j else 0).

Lemma calc_ecc_unit p : bitpos_ok p ->
  calculate_ecc (unit_frame p) = unit_code (N.of_nat (fst p)) (snd p).
Proof.
  destruct p as [k j]. intros [Hk Hj]. cbn [fst snd] in *.
  unfold calculate_ecc. rewrite unit_frame_split by assumption. cbn [fst snd].
  rewrite calc_ecc_from_app, repeat_length, calc_ecc_zeros.
  replace ((0 <=? 100) && (100 <? 0 + N.of_nat k)) with false by lia.
  cbn [app calc_ecc_from]. rewrite N.add_0_l, calc_ecc_zeros.
  unfold unit_code, icap_ecc. cbv zeta.
  assert (E : (if N.of_nat k =? 50 then N.land (2 ^ j) 0xFFFFE000 else 2 ^ j) =
              if (N.of_nat k =? 50) && (j <? 13) then 0 else 2 ^ j).
  { destruct (N.eqb_spec (N.of_nat k) 50); cbn [andb]; [|reflexivity].
    apply N.bits_inj; intros i. rewrite N.land_spec, mask_testbit, N.pow2_bits_eqb.
    destruct (N.ltb_spec j 13).
    - rewrite N.bits_0. destruct (N.eqb_spec j i); [|reflexivity]. subst. lia.
    - rewrite N.pow2_bits_eqb. destruct (N.eqb_spec j i); [|reflexivity]. subst.
      replace ((13 <=? i) && (i <? 32)) with true by lia. reflexivity. }
  rewrite E. clear E.
  set (chk := (N.of_nat k =? 50) && (j <? 13)).
  assert (E2 : ecc_bits 32 0 (ecc_val (N.of_nat k)) (if chk then 0 else 2 ^ j) 0 =
               if chk then 0 else u32 (ecc_val (N.of_nat k) + j)).
  { destruct chk; [apply ecc_bits_zero|]. rewrite ecc_bits_pow2 by (cbn; assumption).
    rewrite N.lxor_0_l. reflexivity. }
  rewrite E2. clear E2.
  destruct (N.eqb_spec (N.of_nat k) 100).
  - replace (N.of_nat k + 1 <=? 100) with false by lia. reflexivity.
  - replace ((N.of_nat k + 1 <=? 100) && (100 <? N.of_nat k + 1 + N.of_nat (100 - k)))
      with true by lia. reflexivity.
Qed.

Lemma stored_ecc_unit p : bitpos_ok p ->
  stored_ecc (unit_frame p) =
  if (N.of_nat (fst p) =? 50) && (snd p <? 13) then 2 ^ snd p else 0.
Proof.
  intros [Hk Hj]. unfold stored_ecc. rewrite unit_frame_nth by lia.
  destruct (Nat.eqb_spec (fst p) 50) as [E|E].
  - rewrite E. change (N.of_nat 50 =? 50) with true. cbn [andb].
    destruct (N.ltb_spec (snd p) 13).
    + apply N.mod_small. apply N.pow_lt_mono_r; lia.
    + apply N.mod_divide; [apply N.pow_nonzero; lia|].
      exists (2 ^ (snd p - 13)). rewrite <- N.pow_add_r. f_equal. lia.
  - replace (N.of_nat (fst p) =? 50) with false by lia. reflexivity.
Qed.

Lemma syndrome_unit p : bitpos_ok p ->
  syndrome (unit_frame p) = unit_syn (N.of_nat (fst p)) (snd p).
Proof.
  intros H. unfold syndrome, unit_syn. rewrite calc_ecc_unit, stored_ecc_unit by assumption.
  reflexivity.
Qed.

(** Inverse of [unit_syn]: which bit does a syndrome point at. *)
Definition locate (s : N) : bitpos :=
  let low := s mod 4096 in
  if low =? 0 then (50%nat, 12)
  else if low =? 2 ^ N.log2 low then (50%nat, N.log2 low)
  else
    let v := low + 4096 in
    if 6176 <=? v then (N.to_nat ((v - 0x1360) / 32), (v - 0x1360) mod 32)
    else if 5152 <=? v then (N.to_nat ((v - 0x1340) / 32), (v - 0x1340) mod 32)
    else (N.to_nat ((v - 0x1320) / 32), (v - 0x1320) mod 32).

Definition unit_check (i j : N) : bool :=
  let s := unit_syn i j in
  let q := locate s in
  (N.of_nat (fst q) =? i) && (snd q =? j) && parity13 s && negb (s =? 0).

Fixpoint all_below (n : nat) (f : N -> bool) : bool :=
  match n with
  | O => true
  | S n' => f (N.of_nat n') && all_below n' f
  end.

Lemma all_below_spec f : forall n, all_below n f = true -> forall k, k < N.of_nat n -> f k = true.
Proof.
  induction n as [|n IH]; intros H k Hk; [lia|]. cbn [all_below] in H.
  apply andb_true_iff in H. destruct H as [H1 H2].
  destruct (N.eq_dec k (N.of_nat n)) as [->|]; [assumption|]. apply IH; [assumption|lia].
Qed.

Lemma unit_check_all : all_below 101 (fun i => all_below 32 (fun j => unit_check i j)) = true.
Proof. vm_compute. reflexivity. Qed.

Lemma unit_syn_props p : bitpos_ok p ->
  let s := syndrome (unit_frame p) in locate s = p /\ parity13 s = true /\ s <> 0.
Proof.
  intros H. cbv zeta. rewrite syndrome_unit by assumption.
  destruct p as [k j]. destruct H as [Hk Hj]. cbn [fst snd] in *.
  pose proof (all_below_spec _ _ unit_check_all (N.of_nat k)) as A.
  specialize (A ltac:(lia)).
  pose proof (all_below_spec _ _ A j ltac:(lia)) as B. cbv beta in B.
  unfold unit_check in B. cbv zeta in B.
  repeat rewrite andb_true_iff in B. destruct B as [[[B1 B2] B3] B4].
  destruct (locate _) as [k' j']. cbn [fst snd] in *.
  repeat split; try assumption.
  - f_equal; lia.
  - intros E. rewrite E in B4. discriminate B4.
Qed.

(** ** Detection and location *)
Lemma syndrome_flip p f g : bitpos_ok p -> flipped p f g ->
  syndrome g = N.lxor (syndrome f) (syndrome (unit_frame p)).
Proof.
  intros Hp H. rewrite (flipped_lxor p f g Hp H).
  apply syndrome_lin. rewrite unit_frame_length. apply H.
Qed.

Lemma syndrome_zero f : syndrome f = 0 <-> calculate_ecc f = stored_ecc f.
Proof. unfold syndrome. apply N.lxor_eq_0_iff. Qed.

Lemma ecc_locates p f g :
  bitpos_ok p -> calculate_ecc f = stored_ecc f -> flipped p f g ->
  locate (N.lxor (calculate_ecc g) (stored_ecc g)) = p.
Proof.
  intros Hp Hf H. fold (syndrome g). rewrite (syndrome_flip p f g Hp H).
  rewrite (proj2 (syndrome_zero f) Hf), N.lxor_0_l. apply unit_syn_props; assumption.
Qed.

Lemma ecc_detects_single p f g :
  bitpos_ok p -> calculate_ecc f = stored_ecc f -> flipped p f g ->
  calculate_ecc g <> stored_ecc g.
Proof.
  intros Hp Hf H. rewrite <- syndrome_zero. rewrite (syndrome_flip p f g Hp H).
  rewrite (proj2 (syndrome_zero f) Hf), N.lxor_0_l. apply unit_syn_props; assumption.
Qed.

Lemma unit_syn_inj p q : bitpos_ok p -> bitpos_ok q ->
  syndrome (unit_frame p) = syndrome (unit_frame q) -> p = q.
Proof.
  intros Hp Hq E. destruct (unit_syn_props p Hp) as [A _], (unit_syn_props q Hq) as [B _].
  rewrite <- A, <- B, E. reflexivity.
Qed.

Lemma ecc_detects_double p q f g h :
  bitpos_ok p -> bitpos_ok q -> p <> q ->
  calculate_ecc f = stored_ecc f -> flipped p f g -> flipped q g h ->
  calculate_ecc h <> stored_ecc h /\
  (forall r f' g', bitpos_ok r -> calculate_ecc f' = stored_ecc f' -> flipped r f' g' ->
     N.lxor (calculate_ecc g') (stored_ecc g') <> N.lxor (calculate_ecc h) (stored_ecc h)).
Proof.
  intros Hp Hq Hpq Hf Hfg Hgh.
  assert (S : syndrome h = N.lxor (syndrome (unit_frame p)) (syndrome (unit_frame q))).
  { rewrite (syndrome_flip q g h Hq Hgh), (syndrome_flip p f g Hp Hfg).
    rewrite (proj2 (syndrome_zero f) Hf), N.lxor_0_l. reflexivity. }
  split.
  - rewrite <- syndrome_zero, S, N.lxor_eq_0_iff. intros E. apply Hpq.
    apply unit_syn_inj; assumption.
  - intros r f' g' Hr Hf' H' E. fold (syndrome g') in E. fold (syndrome h) in E.
    rewrite (syndrome_flip r f' g' Hr H') in E.
    rewrite (proj2 (syndrome_zero f') Hf'), N.lxor_0_l, S in E.
    apply (f_equal parity13) in E. rewrite parity13_lxor in E.
    destruct (unit_syn_props r Hr) as (_ & R & _), (unit_syn_props p Hp) as (_ & P & _),
      (unit_syn_props q Hq) as (_ & Q & _).
    rewrite R, P, Q in E. discriminate E.
Qed.

(** On payload bits, the computed code itself changes. *)
Lemma payload_unit_code p : is_payload p -> calculate_ecc (unit_frame p) = syndrome (unit_frame p).
Proof.
  intros [Hok Hc]. unfold syndrome. rewrite (stored_ecc_unit p Hok).
  destruct (N.eqb_spec (N.of_nat (fst p)) 50); cbn [andb]; [|symmetry; apply N.lxor_0_r].
  destruct (N.ltb_spec (snd p) 13); [|symmetry; apply N.lxor_0_r].
  exfalso. apply Hc. split; [lia|assumption].
Qed.

Lemma payload_flip p f g : is_payload p -> flipped p f g ->
  calculate_ecc g = N.lxor (calculate_ecc f) (syndrome (unit_frame p)).
Proof.
  intros Hp H. rewrite <- payload_unit_code by assumption.
  rewrite (flipped_lxor p f g (proj1 Hp) H). apply calculate_ecc_lin.
  rewrite unit_frame_length. apply H.
Qed.

Lemma lxor_cancel_l a b c : N.lxor a b = N.lxor a c -> b = c.
Proof.
  intros E. apply (f_equal (N.lxor a)) in E.
  rewrite <- !N.lxor_assoc, N.lxor_nilpotent, !N.lxor_0_l in E. exact E.
Qed.

Lemma payload_single p f g : is_payload p -> flipped p f g -> calculate_ecc g <> calculate_ecc f.
Proof.
  intros Hp H E. rewrite (payload_flip p f g Hp H) in E.
  rewrite <- (N.lxor_0_r (calculate_ecc f)) in E at 2. apply lxor_cancel_l in E.
  destruct (unit_syn_props p (proj1 Hp)) as (_ & _ & N). auto.
Qed.

Lemma payload_distinct p q f g g' : is_payload p -> is_payload q ->
  flipped p f g -> flipped q f g' -> calculate_ecc g = calculate_ecc g' -> p = q.
Proof.
  intros Hp Hq Hg Hg' E.
  rewrite (payload_flip p f g Hp Hg), (payload_flip q f g' Hq Hg') in E.
  apply lxor_cancel_l in E. apply unit_syn_inj; [apply Hp|apply Hq|assumption].
Qed.

Lemma payload_double p q f g h : is_payload p -> is_payload q -> p <> q ->
  flipped p f g -> flipped q g h -> calculate_ecc h <> calculate_ecc f.
Proof.
  intros Hp Hq Hpq Hg Hh E.
  rewrite (payload_flip q g h Hq Hh), (payload_flip p f g Hp Hg) in E.
  rewrite N.lxor_assoc in E. rewrite <- (N.lxor_0_r (calculate_ecc f)) in E at 2.
  apply lxor_cancel_l in E. rewrite N.lxor_eq_0_iff in E.
  apply Hpq, unit_syn_inj; [apply Hp|apply Hq|]. exact E.
Qed.
