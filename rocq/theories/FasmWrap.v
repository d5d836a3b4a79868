(** Lines of good shape whose numbers do not fit the variables they are read
    into: everything is read modulo the size of the variable. *)
From Verif Require Import Base BaseFacts Fasm FasmSpec FasmFacts.

Local Notation "x <- e ;; f" := (obind e (fun x => f))
  (at level 61, e at next level, right associativity).
Local Notation "' p <- e ;; f" := (obind e (fun p => f))
  (at level 61, p pattern, e at next level, right associativity).

#[local] Hint Resolve starts_sep_blank starts_sep_digit starts_end_sep : fasm.
#[local] Hint Extern 4 (starts sep_char _) => (cbn; unfold sep_char, end_char; auto 15; fail) : fasm.
#[local] Hint Resolve assign_starts range_opt_starts : fasm.

Definition feature_read (f : feature) (t : text) : range_res :=
  if range_hi f mod 2 ^ 16 <? range_lo f mod 2 ^ 16
  then RangeInverted t
  else RangeOk (range_hi f mod 2 ^ 16) (range_lo f mod 2 ^ 16) t.

Lemma feature_parts : forall b0 f tail, blanks b0 -> feature_shape f -> starts end_char tail ->
  exists it1 it2 it3 it4, skip_blank (b0 ++ f_name f ++ f_b1 f
       ++ range_opt_text (f_range f) ++ f_b2 f ++ assign_text (f_assign f) ++ tail) = Ok it1
    /\ read_ident it1 = Ok (f_name f, it2) /\ skip_blank it2 = Ok it3
    /\ parse_range it3 = Ok (feature_read f it4)
    /\ skip_blank it4 = Ok (assign_text (f_assign f) ++ tail)
    /\ exists b, blanks b /\ it4 = b ++ assign_text (f_assign f) ++ tail.
Proof.
  intros b0 f tail H0 (Hne & Hn & H1 & Hrg & H2 & Ha) Hend.
  assert (HT : starts sep_char (assign_text (f_assign f) ++ tail)) by now apply assign_starts.
  unfold feature_read, range_hi, range_lo in *.
  destruct (f_range f) as [r|].
  - destruct (name_app b0 (f_name f) (f_b1 f)
         (range_text r ++ f_b2 f ++ assign_text (f_assign f) ++ tail))
      as (i1 & i2 & E1 & E2 & E3); auto with fasm.
    exists i1, i2. eexists. exists (f_b2 f ++ assign_text (f_assign f) ++ tail).
    split; [exact E1|]. split; [exact E2|]. split; [exact E3|].
    rewrite parse_range_app by exact Hrg. unfold range_read.
    split; [|split; [apply skip_blank_to; auto with fasm|exists (f_b2 f); auto]].
    destruct (r_lo r) as [[[b lo] b']|]; reflexivity.
  - cbn [range_opt_text app].
    assert (HB : blanks (f_b1 f ++ f_b2 f)) by (apply Forall_app; auto).
    destruct (name_app b0 (f_name f) (f_b1 f ++ f_b2 f) (assign_text (f_assign f) ++ tail))
      as (i1 & i2 & E1 & E2 & E3); auto with fasm.
    rewrite <- app_assoc in E1.
    exists i1, i2. eexists. exists (assign_text (f_assign f) ++ tail).
    split; [exact E1|]. split; [exact E2|]. split; [exact E3|].
    split; [|split; [apply skip_blank_stop; auto with fasm|exists []; split; [constructor|reflexivity]]].
    change (0 mod 2 ^ 16) with 0. change (0 <? 0) with false. cbv iota.
    apply parse_range_none.
    destruct (f_assign f) as [[b v]|]; cbn [assign_text app].
    + cbn. discriminate.
    + eapply starts_weaken; [|exact Hend].
      unfold end_char. intros c Hc ->. intuition discriminate.
Qed.

(** The width the parser computes. *)
Definition read_width (f : feature) : N := range_hi f mod 2 ^ 16 - range_lo f mod 2 ^ 16 + 1.

Lemma read_width_bound : forall f, 1 <= read_width f <= 2 ^ 16.
Proof.
  intros f. unfold read_width. pose proof (N.mod_lt (range_hi f) (2 ^ 16) ltac:(discriminate)). lia.
Qed.

Lemma parse_item_any : forall sm cb line st b0 f e t,
  blanks b0 -> feature_shape f -> ending_shape e ->
  range_lo f mod 2 ^ 16 <= range_hi f mod 2 ^ 16 ->
  parse_line sm cb true line st (item_text {| i_b0 := b0; i_feature := Some f; i_end := e |} ++ t)
  = (st' <- report sm cb line (f_name f) (range_lo f mod 2 ^ 16)
              (assign_width (read_width f) (f_assign f))
              (N.of_nat (List.length (assign_bits (f_assign f)))) 0 (assign_bits (f_assign f))
              (p_raise (assign_raise (range_hi f mod 2 ^ 16) (range_lo f mod 2 ^ 16)
                          (read_width f) (f_assign f)) st) ;;
     Ok (p_emits (ending_events line (f_name f) e) st', t)).
Proof.
  intros sm cb line st b0 f e t H0 Hf He HR.
  unfold parse_line, item_text. cbn [i_b0 i_feature i_end]. rewrite <- !app_assoc.
  pose proof (ending_starts e t) as Hend.
  unfold feature_text. rewrite <- !app_assoc.
  fold (range_opt_text (f_range f)). fold (assign_text (f_assign f)).
  set (tail := ending_text e ++ newline ++ t) in *.
  destruct (feature_parts b0 f tail H0 Hf Hend) as (it1 & it2 & it3 & it4 & E1 & E2 & E3 & E4 & E5 & _).
  match goal with |- obind (skip_blank ?x) _ = _ =>
    assert (E1' : skip_blank x = Ok it1) by exact E1; rewrite E1' end.
  cbn [obind]. rewrite E2. cbn [obind]. rewrite E3. cbn [obind].
  destruct Hf as (Hne & Hn & H1 & Hrg & H2 & Ha).
  destruct (f_name f) as [|n0 ns] eqn:EN; [contradiction|]. rewrite <- EN in *.
  rewrite E4. cbn [obind]. unfold feature_read.
  assert (range_hi f mod 2 ^ 16 <? range_lo f mod 2 ^ 16 = false) as -> by (apply N.ltb_ge; auto).
  rewrite E5. cbn [obind]. cbv zeta.
  assert (UW : u32 (range_hi f mod 2 ^ 16 - range_lo f mod 2 ^ 16 + 1) = read_width f).
  { fold (read_width f). pose proof (read_width_bound f). unfold u32. apply N.mod_small.
    change (2 ^ 32) with 4294967296; change (2 ^ 16) with 65536 in *. lia. }
  rewrite UW. rewrite parse_assign_app by auto. cbn [obind].
  destruct (report sm cb line (f_name f) _ _ _ _ _ _) as [st'| | | |]; cbn [obind]; auto.
  subst tail. rewrite parse_ending by exact He. reflexivity.
Qed.

Lemma parse_item_inverted : forall sm cb line st b0 f e t,
  blanks b0 -> feature_shape f -> ending_shape e ->
  range_hi f mod 2 ^ 16 < range_lo f mod 2 ^ 16 ->
  no_newline (assign_text (f_assign f)) -> no_newline (ending_text e) ->
  parse_line sm cb true line st (item_text {| i_b0 := b0; i_feature := Some f; i_end := e |} ++ t)
  = Ok (p_raise kSkipped st, t).
Proof.
  intros sm cb line st b0 f e t H0 Hf He HR NA NE.
  unfold parse_line, item_text. cbn [i_b0 i_feature i_end]. rewrite <- !app_assoc.
  pose proof (ending_starts e t) as Hend.
  unfold feature_text. rewrite <- !app_assoc.
  fold (range_opt_text (f_range f)). fold (assign_text (f_assign f)).
  set (tail := ending_text e ++ newline ++ t) in *.
  destruct (feature_parts b0 f tail H0 Hf Hend) as (it1 & it2 & it3 & it4 & E1 & E2 & E3 & E4 & E5 & b & Hb & Eb).
  match goal with |- obind (skip_blank ?x) _ = _ =>
    assert (E1' : skip_blank x = Ok it1) by exact E1; rewrite E1' end.
  cbn [obind]. rewrite E2. cbn [obind]. rewrite E3. cbn [obind].
  destruct Hf as (Hne & Hn & H1 & Hrg & H2 & Ha).
  destruct (f_name f) as [|n0 ns] eqn:EN; [contradiction|]. rewrite <- EN in *.
  rewrite E4. cbn [obind]. unfold feature_read.
  assert (range_hi f mod 2 ^ 16 <? range_lo f mod 2 ^ 16 = true) as -> by (apply N.ltb_lt; auto).
  rewrite Eb. unfold tail.
  match goal with |- obind (skip_to_eol ?x) _ = _ =>
    assert (X : skip_to_eol x = Ok (newline ++ t)) end.
  { rewrite skip_to_eol_app by now apply blanks_no_newline.
    rewrite skip_to_eol_app by auto. now apply no_newline_eol. }
  rewrite X. reflexivity.
Qed.

(** Values that are held in a single 64-bit word. *)
Definition one_word (a : option (text * rhs)) : Prop :=
  match a with
  | Some (_, Based _ _ _ Hex _ d _) => 4 * N.of_nat (List.length (numeral_digits d)) <= 64
  | Some (_, Based _ _ _ Bin _ d _) => N.of_nat (List.length (numeral_digits d)) <= 64
  | _ => True
  end.

Lemma one_word_bits : forall f, feature_shape f -> one_word (f_assign f) ->
  exists v, assign_bits (f_assign f) = [v] /\ v = feature_value f mod 2 ^ 64.
Proof.
  intros f (_ & _ & _ & _ & _ & Ha) OW. unfold feature_value.
  destruct (f_assign f) as [[b v]|]; [|exists 1; split; reflexivity].
  destruct v as [d b'|w b1 b2 r b3 d b4]; cbn [one_word assign_bits rhs_shape] in *; [eauto|].
  destruct Ha as (_ & _ & _ & _ & _ & Hd & _).
  destruct r; cbn [radix_value] in *; try (eexists; split; reflexivity).
  - exists (numeral_value 16 d). 
    pose proof (long_value_in_range 4 1 d ltac:(auto) ltac:(lia) Hd) as L.
    rewrite (chunk_count_narrow 1) in L by lia. change (N.to_nat 1) with 1%nat in L.
    assert (B : numeral_value 16 d < 2 ^ 64).
    { eapply N.lt_le_trans; [apply digits_value_bound; [lia|now apply numeral_digits_bound]|].
      change 16 with (2 ^ 4). rewrite <- N.pow_mul_r. apply N.pow_le_mono_r; lia. }
    change (2 ^ 4) with 16 in L. rewrite chunks_one in L by exact B. split.
    + apply L. exact OW.
    + symmetry. apply N.mod_small. exact B.
  - exists (numeral_value 2 d).
    pose proof (long_value_in_range 1 1 d ltac:(auto) ltac:(lia) Hd) as L.
    rewrite (chunk_count_narrow 1) in L by lia. change (N.to_nat 1) with 1%nat in L.
    assert (B : numeral_value 2 d < 2 ^ 64).
    { eapply N.lt_le_trans; [apply digits_value_bound; [lia|now apply numeral_digits_bound]|].
      apply N.pow_le_mono_r; lia. }
    change (2 ^ 1) with 2 in L. rewrite chunks_one in L by exact B. split.
    + apply L. cbv zeta. change (1 <=? 64) with true. cbv iota. lia.
    + symmetry. apply N.mod_small. exact B.
Qed.

Lemma report_one : forall sm cb line name mn w v st, 1 <= w <= 64 -> mn < 2 ^ 16 -> agrees cb ->
  report sm cb line name mn w 1 0 [v] st = Ok (p_emit (EFeature line name mn w (v mod 2 ^ w)) st).
Proof.
  intros sm cb line name mn w v st Hw Hm Hcb. cbn [report].
  change (0 =? 1 - 1) with true. cbv iota.
  assert (E : u32 (u64 (w + 2 ^ 64 - u64 (64 * (1 - 1)))) = w).
  { change (u64 (64 * (1 - 1))) with 0. rewrite N.sub_0_r. unfold u64.
    replace (w + 2 ^ 64) with (w + 1 * 2 ^ 64) by lia. rewrite N.mod_add by discriminate.
    rewrite (N.mod_small w (2 ^ 64)) by (change (2 ^ 64) with 18446744073709551616; lia).
    unfold u32. apply N.mod_small. change (2 ^ 32) with 4294967296. lia. }
  rewrite E, clamp_mask_ok by auto. cbn [obind]. rewrite Hcb, N.land_ones.
  change (u32 (0 * 64)) with 0. rewrite N.add_0_r.
  assert (u32 mn = mn) as ->; [|reflexivity].
  unfold u32. apply N.mod_small. change (2 ^ 32) with 4294967296; change (2 ^ 16) with 65536 in *. lia.
Qed.

(** What is said of a narrow line: that a range has no value, or that the declared width is above that of the range. *)
Definition read_severity (f : feature) : N :=
  match f_assign f with
  | None => if range_lo f mod 2 ^ 16 =? range_hi f mod 2 ^ 16 then kSuccess else kInfo
  | Some (_, Plain _ _) => kSuccess
  | Some (_, Based w _ _ _ _ _ _) => if read_width f <? numeral_value 10 w mod 2 ^ 64 then kNonCritical else kSuccess
  end.
(** A narrow line: exactly one call, everything modulo the machine types, and
    never an error. *)
Lemma parse_item_wrap : forall sm cb line st b0 f e t, agrees cb ->
  blanks b0 -> feature_shape f -> ending_shape e ->
  range_lo f mod 2 ^ 16 <= range_hi f mod 2 ^ 16 ->
  read_width f <= 64 -> one_word (f_assign f) ->
  exists r, (r <= kNonCritical /\ r = read_severity f) /\
  parse_line sm cb true line st (item_text {| i_b0 := b0; i_feature := Some f; i_end := e |} ++ t)
  = Ok (p_emits (EFeature line (f_name f) (range_lo f mod 2 ^ 16) (read_width f)
                   (feature_value f mod 2 ^ read_width f)
                 :: ending_events line (f_name f) e) (p_raise r st), t).
Proof.
  intros sm cb line st b0 f e t Hcb H0 Hf He HR HW OW.
  exists (assign_raise (range_hi f mod 2 ^ 16) (range_lo f mod 2 ^ 16) (read_width f) (f_assign f)).
  split.
  - unfold assign_raise, read_severity. destruct (f_assign f) as [[b v]|].
    + assert (64 <? read_width f = false) as -> by (apply N.ltb_ge; auto). cbn [andb].
      destruct v as [|? ? ? ? ? ? ?]; [split; [vm_compute; discriminate|reflexivity]|].
      destruct (read_width f <? _); (split; [vm_compute; discriminate|reflexivity]).
    + destruct (range_lo f mod 2 ^ 16 =? range_hi f mod 2 ^ 16); (split; [vm_compute; discriminate|reflexivity]).
  - rewrite parse_item_any by auto.
    destruct (one_word_bits f Hf OW) as (v & -> & Ev).
    assert (AW : assign_width (read_width f) (f_assign f) = read_width f).
    { unfold assign_width. assert (64 <? read_width f = false) as -> by (apply N.ltb_ge; auto). reflexivity. }
    rewrite AW. change (N.of_nat (List.length [v])) with 1.
    rewrite report_one; auto.
    2:{ pose proof (read_width_bound f). lia. }
    2:{ apply N.mod_lt. discriminate. }
    cbn [obind]. rewrite Ev. rewrite mod_mod_pow2 by exact HW.
    rewrite p_emit_emits, p_emits_emits. reflexivity.
Qed.
