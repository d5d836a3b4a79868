(** Facts about BitOps.v. *)
From Verif Require Import Base BitOps.
From Coq Require Import ZifyBool ZifyN ZifyNat.

Lemma pow2_pos n : 0 < 2 ^ n.
Proof. apply N.neq_0_lt_0, N.pow_nonzero; lia. Qed.

Lemma testbit_mod_pow2 a n i : N.testbit (a mod 2 ^ n) i = (i <? n) && N.testbit a i.
Proof.
  destruct (N.ltb_spec i n).
  - rewrite N.mod_pow2_bits_low by assumption; reflexivity.
  - rewrite N.mod_pow2_bits_high by assumption; reflexivity.
Qed.

Lemma testbit_ones n i : N.testbit (N.ones n) i = (i <? n).
Proof.
  destruct (N.ltb_spec i n).
  - apply N.ones_spec_low; assumption.
  - apply N.ones_spec_high; assumption.
Qed.

Lemma ones_minus w : bit_all_ones w = N.ones w.
Proof. unfold bit_all_ones. rewrite N.ones_equiv. lia. Qed.

(** A number below 2^n has no bit from n on, and conversely. *)
Lemma lt_pow2_bits a n : a < 2 ^ n <-> forall i, n <= i -> N.testbit a i = false.
Proof.
  split.
  - intros H i Hi. destruct (N.eq_dec a 0) as [->|Ha]; [apply N.bits_0|].
    apply N.bits_above_log2. apply N.log2_lt_pow2 in H; lia.
  - intros H. assert (E : a = a mod 2 ^ n).
    { apply N.bits_inj; intros i. rewrite testbit_mod_pow2.
      destruct (N.ltb_spec i n); [reflexivity|]. rewrite H by assumption; reflexivity. }
    rewrite E. apply N.mod_lt, N.pow_nonzero; lia.
Qed.

Lemma mask_range_testbit w top bottom i :
  bottom <= top -> top < w ->
  N.testbit (bit_mask_range w top bottom) i = (bottom <=? i) && (i <=? top).
Proof.
  intros Hb Ht. unfold bit_mask_range. rewrite N.land_spec, ones_minus.
  rewrite N.shiftr_spec', testbit_ones.
  assert (E : (N.ones w - bit_mask w bottom + 1) mod 2 ^ w
              = N.shiftl (N.ones (w - bottom)) bottom mod 2 ^ w).
  { f_equal. unfold bit_mask. rewrite N.shiftl_1_l.
    rewrite N.mod_small by (apply N.pow_lt_mono_r; lia).
    rewrite N.shiftl_mul_pow2, !N.ones_equiv.
    pose proof (N.pow_add_r 2 (w - bottom) bottom) as P.
    replace (w - bottom + bottom) with w in P by lia.
    pose proof (pow2_pos bottom). pose proof (pow2_pos (w - bottom)).
    assert (2 ^ bottom < 2 ^ w) by (apply N.pow_lt_mono_r; lia).
    rewrite <- !N.sub_1_r, N.mul_sub_distr_r, <- P, N.mul_1_l. lia. }
  rewrite E, testbit_mod_pow2. clear E.
  destruct (N.leb_spec bottom i) as [L|L].
  - rewrite N.shiftl_spec_high' by assumption. rewrite testbit_ones. lia.
  - rewrite N.shiftl_spec_low by assumption. lia.
Qed.

Lemma bit_field_get_testbit w v top bottom i :
  bottom <= top -> top < w ->
  N.testbit (bit_field_get w v top bottom) i = (i + bottom <=? top) && N.testbit v (i + bottom).
Proof.
  intros Hb Ht. unfold bit_field_get.
  rewrite N.shiftr_spec', N.land_spec, mask_range_testbit by assumption.
  destruct (N.testbit v (i + bottom)); lia.
Qed.

(** Reading a field is the usual div/mod. *)
Lemma bit_field_get_div w v top bottom :
  bottom <= top -> top < w ->
  bit_field_get w v top bottom = (v / 2 ^ bottom) mod 2 ^ (top - bottom + 1).
Proof.
  intros Hb Ht. apply N.bits_inj; intros i.
  rewrite bit_field_get_testbit, testbit_mod_pow2 by assumption.
  rewrite <- N.shiftr_div_pow2, N.shiftr_spec'.
  destruct (N.testbit v (i + bottom)); lia.
Qed.

Lemma bit_field_set_testbit w r top bottom v i :
  bottom <= top -> top < w ->
  N.testbit (bit_field_set w r top bottom v) i =
  if (bottom <=? i) && (i <=? top) then N.testbit v (i - bottom) else N.testbit r i.
Proof.
  intros Hb Ht. unfold bit_field_set.
  rewrite N.lor_spec, N.ldiff_spec, N.land_spec, mask_range_testbit by assumption.
  rewrite testbit_mod_pow2.
  destruct (N.leb_spec bottom i) as [L|L]; cbn [andb].
  - rewrite N.shiftl_spec_high' by assumption. rewrite testbit_mod_pow2.
    destruct (N.leb_spec i top) as [L2|L2]; cbn [negb andb orb].
    + rewrite andb_false_r. cbn [orb]. rewrite andb_true_r.
      replace (i <? w) with true by lia. replace (i - bottom <? w) with true by lia.
      reflexivity.
    + rewrite andb_true_r, andb_false_r, orb_false_r. reflexivity.
  - rewrite andb_true_r, andb_false_r, orb_false_r. reflexivity.
Qed.

(** Arithmetic reading of a field write into a cleared field. *)
Lemma bit_field_set_lt w r top bottom v :
  bottom <= top -> top < w -> r < 2 ^ w -> bit_field_set w r top bottom v < 2 ^ w.
Proof.
  intros Hb Ht Hr. apply lt_pow2_bits; intros i Hi.
  rewrite bit_field_set_testbit by assumption.
  replace (i <=? top) with false by lia. rewrite andb_false_r.
  rewrite lt_pow2_bits in Hr. apply Hr; assumption.
Qed.

Lemma lor_disjoint_add a b n : a < 2 ^ n -> N.lor (N.shiftl b n) a = b * 2 ^ n + a.
Proof.
  intros Ha.
  assert (E : N.land (N.shiftl b n) a = 0).
  { apply N.bits_inj_0; intros i. rewrite N.land_spec.
    destruct (N.lt_ge_cases i n) as [L|L].
    - rewrite N.shiftl_spec_low by assumption. reflexivity.
    - rewrite (proj1 (lt_pow2_bits a n) Ha i L). apply andb_false_r. }
  rewrite <- N.lxor_lor, <- N.add_nocarry_lxor by exact E.
  rewrite N.shiftl_mul_pow2. reflexivity.
Qed.

(** ** Statements for property C01 *)
Lemma field_get_set w r top bottom v :
  bottom <= top -> top < w ->
  bit_field_get w (bit_field_set w r top bottom v) top bottom = v mod 2 ^ (top - bottom + 1).
Proof.
  intros Hb Ht. apply N.bits_inj; intros i.
  rewrite bit_field_get_testbit, testbit_mod_pow2, bit_field_set_testbit by assumption.
  replace (bottom <=? i + bottom) with true by lia. cbn [andb].
  destruct (N.leb_spec (i + bottom) top); cbn [andb].
  - replace (i + bottom - bottom) with i by lia. replace (i <? top - bottom + 1) with true by lia.
    reflexivity.
  - replace (i <? top - bottom + 1) with false by lia. reflexivity.
Qed.

Lemma field_set_other w r top bottom v i :
  bottom <= top -> top < w -> (i < bottom \/ top < i) ->
  N.testbit (bit_field_set w r top bottom v) i = N.testbit r i.
Proof.
  intros Hb Ht Hi. rewrite bit_field_set_testbit by assumption.
  replace ((bottom <=? i) && (i <=? top)) with false by lia. reflexivity.
Qed.

Lemma field_get_set_disjoint w r top bottom v top' bottom' :
  bottom <= top -> top < w -> bottom' <= top' -> top' < w ->
  (top < bottom' \/ top' < bottom) ->
  bit_field_get w (bit_field_set w r top bottom v) top' bottom' = bit_field_get w r top' bottom'.
Proof.
  intros Hb Ht Hb' Ht' Hd. apply N.bits_inj; intros i.
  rewrite !bit_field_get_testbit, bit_field_set_testbit by assumption.
  destruct (N.leb_spec (i + bottom') top'); cbn [andb]; [|reflexivity].
  replace ((bottom <=? i + bottom') && (i + bottom' <=? top)) with false by lia. reflexivity.
Qed.

Lemma field_set_get_id w r top bottom :
  bottom <= top -> top < w ->
  bit_field_set w r top bottom (bit_field_get w r top bottom) = r.
Proof.
  intros Hb Ht. apply N.bits_inj; intros i. rewrite bit_field_set_testbit by assumption.
  destruct ((bottom <=? i) && (i <=? top)) eqn:E; [|reflexivity].
  rewrite bit_field_get_testbit by assumption.
  replace (i - bottom + bottom) with i by lia. replace (i <=? top) with true by lia. reflexivity.
Qed.
