(** Facts about Frame.v: frame addresses. *)
From Verif Require Import Base BitOps Frame BitOpsFacts.
From Coq Require Import ZifyBool ZifyN ZifyNat.

(** ** Field writes into a register whose low bits are clear *)
Lemma testbit_mul_pow2 a n i :
  N.testbit (a * 2 ^ n) i = (n <=? i) && N.testbit a (i - n).
Proof.
  rewrite <- N.shiftl_mul_pow2. destruct (N.leb_spec n i) as [L|L].
  - rewrite N.shiftl_spec_high' by assumption. reflexivity.
  - rewrite N.shiftl_spec_low by assumption. reflexivity.
Qed.

Lemma testbit_append q v k i :
  v < 2 ^ k ->
  N.testbit (q * 2 ^ k + v) i = if i <? k then N.testbit v i else N.testbit q (i - k).
Proof.
  intros Hv. rewrite <- lor_disjoint_add by assumption.
  rewrite N.lor_spec. destruct (N.ltb_spec i k) as [L|L].
  - rewrite N.shiftl_spec_low by assumption. reflexivity.
  - rewrite N.shiftl_spec_high' by assumption.
    rewrite (proj1 (lt_pow2_bits v k) Hv) by assumption. apply orb_false_r.
Qed.

Lemma field_set_fresh w q top bottom v :
  bottom <= top -> top < w ->
  bit_field_set w (q * 2 ^ (top + 1)) top bottom v =
  (q * 2 ^ (top - bottom + 1) + v mod 2 ^ (top - bottom + 1)) * 2 ^ bottom.
Proof.
  intros Hb Ht. apply N.bits_inj; intros i.
  rewrite bit_field_set_testbit, (testbit_mul_pow2 _ bottom) by assumption.
  destruct (N.leb_spec bottom i) as [L|L]; cbn [andb].
  - rewrite testbit_append by (apply N.mod_lt, N.pow_nonzero; lia).
    rewrite testbit_mod_pow2, testbit_mul_pow2.
    destruct (N.leb_spec i top) as [L2|L2].
    + replace (i - bottom <? top - bottom + 1) with true by lia. reflexivity.
    + replace (i - bottom <? top - bottom + 1) with false by lia.
      replace (top + 1 <=? i) with true by lia. cbn [andb]. f_equal. lia.
  - rewrite testbit_mul_pow2. replace (top + 1 <=? i) with false by lia. reflexivity.
Qed.

Lemma bit_field_set_int_25_23 b :
  bit_field_set_int 0 25 23 b = (b mod 2 ^ 9) * 2 ^ 23.
Proof.
  unfold bit_field_set_int.
  change (bit_mask_range_int 25 23) with (Z.lnot (Z.ones 23)).
  rewrite Z.land_0_l, Z.lor_0_l.
  rewrite <- Z.ldiff_land, Z.ldiff_ones_r by lia.
  rewrite Z.shiftr_shiftl_l, Z.sub_diag, Z.shiftl_0_r by lia.
  rewrite Z.shiftl_mul_pow2 by lia.
  change (2 ^ 32)%Z with (2 ^ 9 * 2 ^ 23)%Z.
  rewrite Z.mul_mod_distr_r by lia.
  change (2 ^ 9)%Z with (Z.of_N (2 ^ 9)). change (2 ^ 23)%Z with (Z.of_N (2 ^ 23)).
  rewrite <- N2Z.inj_mod, <- N2Z.inj_mul, N2Z.id. reflexivity.
Qed.

(** ** The address as a number: block*2^23 + half*2^22 + row*2^17 + column*2^7 + minor.
    Out-of-range arguments are reduced. *)
Lemma fa_make_value b h r c m :
  fa_make b h r c m =
  (b mod 512) * 8388608 + N.b2n h * 4194304 + (r mod 32) * 131072
  + (c mod 1024) * 128 + m mod 128.
Proof.
  unfold fa_make. rewrite bit_field_set_int_25_23.
  rewrite (field_set_fresh 32 (b mod 2 ^ 9) 22 22) by lia.
  change (22 - 22 + 1) with 1.
  rewrite (field_set_fresh 32 _ 21 17) by lia. change (21 - 17 + 1) with 5.
  rewrite (field_set_fresh 32 _ 16 7) by lia. change (16 - 7 + 1) with 10.
  replace (_ * 2 ^ 7) with
    (((((b mod 2 ^ 9 * 2 ^ 1 + N.b2n h mod 2 ^ 1) * 2 ^ 5 + u8 r mod 2 ^ 5) * 2 ^ 10
      + u16 c mod 2 ^ 10)) * 2 ^ (6 + 1)) by reflexivity.
  rewrite (field_set_fresh 32 _ 6 0) by lia. change (6 - 0 + 1) with 7.
  assert (N.b2n h mod 2 ^ 1 = N.b2n h) as -> by (destruct h; reflexivity).
  unfold u8, u16.
  assert (forall x, (x mod 2 ^ 8) mod 2 ^ 5 = x mod 32) as ->.
  { intros x. change (2 ^ 8) with (32 * 8). change (2 ^ 5) with 32.
    rewrite N.mod_mul_r, N.mul_comm, N.mod_add, N.mod_mod by lia. reflexivity. }
  assert (forall x, (x mod 2 ^ 8) mod 2 ^ 7 = x mod 128) as ->.
  { intros x. change (2 ^ 8) with (128 * 2). change (2 ^ 7) with 128.
    rewrite N.mod_mul_r, N.mul_comm, N.mod_add, N.mod_mod by lia. reflexivity. }
  assert (forall x, (x mod 2 ^ 16) mod 2 ^ 10 = x mod 1024) as ->.
  { intros x. change (2 ^ 16) with (1024 * 64). change (2 ^ 10) with 1024.
    rewrite N.mod_mul_r, N.mul_comm, N.mod_add, N.mod_mod by lia. reflexivity. }
  change (2 ^ 9) with 512. change (2 ^ 1) with 2. change (2 ^ 5) with 32.
  change (2 ^ 10) with 1024. change (2 ^ 7) with 128. change (2 ^ 0) with 1.
  lia.
Qed.

Lemma fa_block_type_value a : fa_block_type a = (a / 8388608) mod 8.
Proof. unfold fa_block_type. rewrite bit_field_get_div by lia. reflexivity. Qed.
Lemma fa_is_bottom_value a : fa_is_bottom a = negb ((a / 4194304) mod 2 =? 0).
Proof. unfold fa_is_bottom. rewrite bit_field_get_div by lia. reflexivity. Qed.
Lemma fa_row_value a : fa_row a = (a / 131072) mod 32.
Proof.
  unfold fa_row, u8. rewrite bit_field_get_div by lia.
  change (2 ^ 17) with 131072. change (2 ^ (21 - 17 + 1)) with 32. change (2 ^ 8) with 256.
  apply N.mod_small. pose proof (N.mod_lt (a / 131072) 32). lia.
Qed.
Lemma fa_column_value a : fa_column a = (a / 128) mod 1024.
Proof.
  unfold fa_column, u16. rewrite bit_field_get_div by lia.
  change (2 ^ 7) with 128. change (2 ^ (16 - 7 + 1)) with 1024. change (2 ^ 16) with 65536.
  apply N.mod_small. pose proof (N.mod_lt (a / 128) 1024). lia.
Qed.
Lemma fa_minor_value a : fa_minor a = a mod 128.
Proof.
  unfold fa_minor, u8. rewrite bit_field_get_div by lia.
  change (2 ^ 0) with 1. change (2 ^ (6 - 0 + 1)) with 128. change (2 ^ 8) with 256.
  rewrite N.div_1_r. apply N.mod_small. pose proof (N.mod_lt a 128). lia.
Qed.

(** The numbers that are in the ranges of the five fields. *)
Definition fa_ok (b r c m : N) : Prop := b < 8 /\ r < 32 /\ c < 1024 /\ m < 128.

Ltac dm := Z.div_mod_to_equations.

Lemma fa_make_ok b h r c m :
  fa_ok b r c m ->
  fa_make b h r c m = b * 8388608 + N.b2n h * 4194304 + r * 131072 + c * 128 + m.
Proof.
  intros (Hb & Hr & Hc & Hm). rewrite fa_make_value.
  rewrite !N.mod_small by lia. reflexivity.
Qed.

Lemma div_mod_fields q p k r : p <> 0 -> r < p -> (q * p + r) / p mod k = q mod k.
Proof. intros. f_equal. rewrite N.div_add_l by assumption. rewrite N.div_small by assumption. lia. Qed.

Lemma fa_fields b h r c m :
  fa_ok b r c m ->
  let a := fa_make b h r c m in
  fa_block_type a = b /\ fa_is_bottom a = h /\ fa_row a = r /\ fa_column a = c
  /\ fa_minor a = m.
Proof.
  intros H a. unfold a. rewrite (fa_make_ok b h r c m H). destruct H as (Hb & Hr & Hc & Hm).
  rewrite fa_block_type_value, fa_is_bottom_value, fa_row_value, fa_column_value,
    fa_minor_value.
  assert (N.b2n h < 2) by (destruct h; cbn; lia).
  set (x := N.b2n h) in *.
  repeat split.
  - replace (_ + m) with (b * 8388608 + (x * 4194304 + r * 131072 + c * 128 + m)) by lia.
    rewrite div_mod_fields by lia. apply N.mod_small; lia.
  - replace (_ + m) with ((b * 2 + x) * 4194304 + (r * 131072 + c * 128 + m)) by lia.
    rewrite div_mod_fields by lia.
    rewrite N.add_comm, N.mod_add, N.mod_small by lia. unfold x. destruct h; reflexivity.
  - replace (_ + m) with (((b * 2 + x) * 32 + r) * 131072 + (c * 128 + m)) by lia.
    rewrite div_mod_fields by lia.
    rewrite N.add_comm, N.mod_add, N.mod_small by lia. reflexivity.
  - replace (_ + m) with ((((b * 2 + x) * 32 + r) * 1024 + c) * 128 + m) by lia.
    rewrite div_mod_fields by lia.
    rewrite N.add_comm, N.mod_add, N.mod_small by lia. reflexivity.
  - replace (_ + m) with (m + (((b * 2 + x) * 32 + r) * 1024 + c) * 128) by lia.
    rewrite N.mod_add, N.mod_small by lia. reflexivity.
Qed.

Lemma fa_ranges a :
  fa_ok (fa_block_type a) (fa_row a) (fa_column a) (fa_minor a).
Proof.
  rewrite fa_block_type_value, fa_row_value, fa_column_value, fa_minor_value.
  repeat split; apply N.mod_lt; lia.
Qed.

(** Every 26-bit address is rebuilt from its fields. *)
Lemma fa_rebuild a :
  a < 2 ^ 26 ->
  fa_make (fa_block_type a) (fa_is_bottom a) (fa_row a) (fa_column a) (fa_minor a) = a.
Proof.
  intros Ha. rewrite fa_make_ok by apply fa_ranges.
  assert (Hh : N.b2n (fa_is_bottom a) = (a / 4194304) mod 2).
  { rewrite fa_is_bottom_value. pose proof (N.mod_lt (a / 4194304) 2).
    destruct (N.eqb_spec ((a / 4194304) mod 2) 0); cbn [negb N.b2n]; lia. }
  rewrite Hh, fa_block_type_value, fa_row_value, fa_column_value, fa_minor_value.
  change (2 ^ 26) with (8 * 8388608) in Ha.
  pose proof (N.div_mod a 128) as E1.
  pose proof (N.div_mod (a / 128) 1024) as E2. rewrite N.div_div in E2 by lia.
  change (128 * 1024) with 131072 in E2.
  pose proof (N.div_mod (a / 131072) 32) as E3. rewrite N.div_div in E3 by lia.
  change (131072 * 32) with 4194304 in E3.
  pose proof (N.div_mod (a / 4194304) 2) as E4. rewrite N.div_div in E4 by lia.
  change (4194304 * 2) with 8388608 in E4.
  assert (a / 8388608 < 8) by (apply N.div_lt_upper_bound; lia).
  rewrite (N.mod_small (a / 8388608) 8) by assumption.
  lia.
Qed.

Lemma fa_make_lt b h r c m : fa_ok b r c m -> fa_make b h r c m < 2 ^ 26.
Proof.
  intros H. rewrite fa_make_ok by assumption. destruct H as (?&?&?&?).
  change (2 ^ 26) with 67108864. destruct h; cbn [N.b2n]; lia.
Qed.

Lemma fa_make_inj b h r c m b' h' r' c' m' :
  fa_ok b r c m -> fa_ok b' r' c' m' ->
  fa_make b h r c m = fa_make b' h' r' c' m' ->
  b = b' /\ h = h' /\ r = r' /\ c = c' /\ m = m'.
Proof.
  intros H H' E.
  destruct (fa_fields b h r c m H) as (A1 & A2 & A3 & A4 & A5).
  destruct (fa_fields b' h' r' c' m' H') as (B1 & B2 & B3 & B4 & B5).
  rewrite E in *. repeat split; congruence.
Qed.

(** Lexicographic order of tuples *)
Lemma fa_make_lt_iff b h r c m b' h' r' c' m' :
  fa_ok b r c m -> fa_ok b' r' c' m' ->
  (fa_make b h r c m < fa_make b' h' r' c' m' <->
   b < b' \/ (b = b' /\ (N.b2n h < N.b2n h' \/ (h = h' /\
     (r < r' \/ (r = r' /\ (c < c' \/ (c = c' /\ m < m'))))))))%N.
Proof.
  intros H H'. rewrite !fa_make_ok by assumption.
  destruct H as (?&?&?&?), H' as (?&?&?&?).
  destruct h, h'; cbn [N.b2n]; intuition (try lia; try discriminate).
Qed.
