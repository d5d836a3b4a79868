(** Property C83: the frame error-correcting code is the extended Hamming code of [EccCodeSpec]. *)
From Verif Require Import Base BitOps Frame BitOpsFacts EccSpec EccFacts EccCodeSpec.
From Coq Require Import ZifyBool ZifyN ZifyNat.

Definition same_pos (p q : bitpos) : bool := Nat.eqb (fst p) (fst q) && (snd p =? snd q).
Lemma same_pos_eq p q : same_pos p q = true <-> p = q.
Proof.
  unfold same_pos. destruct p as [a b], q as [c d]. cbn [fst snd]. rewrite andb_true_iff, Nat.eqb_eq, N.eqb_eq.
  split; [now intros [-> ->]|]. intros E. inversion E. auto.
Qed.

(** ** A frame is the sum of its set bits *)
Definition frame_of (ps : list bitpos) : frame := fold_right (fun p g => map2 N.lxor g (unit_frame p)) zero_frame ps.
Lemma frame_of_length ps : length (frame_of ps) = 101%nat.
Proof.
  induction ps as [|p ps IH]; [apply repeat_length|]. cbn [frame_of fold_right]. fold (frame_of ps).
  rewrite map2_length; [exact IH|]. now rewrite unit_frame_length.
Qed.
Lemma frame_of_bit ps q : (forall p, In p ps -> bitpos_ok p) ->
  frame_bit (frame_of ps) q = fold_right xorb false (map (fun p => same_pos p q) ps).
Proof.
  intros Hps. induction ps as [|p ps IH].
  - cbn [frame_of fold_right map]. unfold frame_bit, zero_frame. rewrite nth_repeat. apply N.bits_0.
  - cbn [frame_of fold_right map]. fold (frame_of ps). unfold frame_bit.
    rewrite map2_nth by now rewrite frame_of_length, unit_frame_length.
    rewrite N.lxor_spec, xorb_comm. f_equal; [|apply IH; intros; apply Hps; now right].
    destruct (Hps p (or_introl eq_refl)) as [H1 H2]. unfold same_pos.
    destruct (Nat.lt_ge_cases (fst q) 101) as [L|L].
    + rewrite unit_frame_nth by assumption. destruct (Nat.eqb_spec (fst p) (fst q)); cbn [andb]; [|apply N.bits_0].
      apply N.pow2_bits_eqb.
    + rewrite nth_overflow by now rewrite unit_frame_length. rewrite N.bits_0.
      destruct (Nat.eqb_spec (fst p) (fst q)); [lia|reflexivity].
Qed.
Lemma xor_count (l : list bitpos) q : NoDup l ->
  fold_right xorb false (map (fun p => same_pos p q) l) = existsb (fun p => same_pos p q) l.
Proof.
  induction l as [|p l IH]; intros ND; [reflexivity|]. inversion ND as [|? ? Hn ND']; subst.
  cbn [map fold_right existsb]. rewrite IH by assumption. destruct (same_pos p q) eqn:E; [|apply xorb_false_l].
  apply same_pos_eq in E. subst q. destruct (existsb _ l) eqn:F; [|reflexivity].
  apply existsb_exists in F. destruct F as (x & Hx & Ex). apply same_pos_eq in Ex. subst x. contradiction.
Qed.
Lemma in_frame_bits p : In p frame_bits <-> bitpos_ok p.
Proof.
  destruct p as [k j]. unfold bitpos_ok. cbn [fst snd].
  etransitivity; [exact (in_prod_iff (seq 0 101) (map N.of_nat (seq 0 32)) k j)|]. rewrite in_seq, in_map_iff. split.
  - intros [H (i & Hi & Hs)]. rewrite in_seq in Hs. lia.
  - intros [H1 H2]. split; [lia|]. exists (N.to_nat j). rewrite in_seq. lia.
Qed.
Lemma nodup_prod {A B} (l : list A) (m : list B) : NoDup l -> NoDup m -> NoDup (list_prod l m).
Proof.
  intros Hl Hm. induction Hl as [|a l Ha Hl IH]; [constructor|]. cbn [list_prod].
  assert (G : forall x : list B, NoDup x -> NoDup (map (fun y => (a, y)) x)).
  { intros x Hx. apply FinFun.Injective_map_NoDup; [|assumption]. intros u v E. congruence. }
  specialize (G m Hm). clear Hm.
  assert (D : forall p, In p (map (fun y => (a, y)) m) -> ~ In p (list_prod l m)).
  { intros [x y] H1 H2. apply in_map_iff in H1. destruct H1 as (z & E & _). inversion E; subst.
    apply in_prod_iff in H2. destruct H2. contradiction. }
  revert G D. generalize (map (fun y => (a, y)) m) as u. induction u as [|p u IHu]; intros G D; [exact IH|].
  inversion G; subst. cbn [app]. constructor.
  - rewrite in_app_iff. intros [H|H]; [contradiction|]. now apply (D p (or_introl eq_refl)).
  - apply IHu; [assumption|]. intros q Hq. apply D. now right.
Qed.
Lemma nodup_frame_bits : NoDup frame_bits.
Proof.
  apply nodup_prod; [apply seq_NoDup|]. apply FinFun.Injective_map_NoDup; [|apply seq_NoDup].
  intros a b E. now apply Nat2N.inj.
Qed.
Lemma frame_of_filter f (bs : list bitpos) : frame_ok f -> NoDup bs -> (forall p, In p bs <-> bitpos_ok p) ->
  frame_of (filter (frame_bit f) bs) = f.
Proof.
  intros Hf ND HL. apply frame_eq_bits; [rewrite frame_of_length; symmetry; apply Hf|].
  intros q. rewrite frame_of_bit by (intros p Hp; apply filter_In in Hp; apply HL, Hp).
  rewrite xor_count by apply NoDup_filter, ND.
  destruct (frame_bit f q) eqn:E.
  - apply existsb_exists. exists q. rewrite same_pos_eq. split; [|reflexivity].
    apply filter_In. split; [|assumption]. apply HL.
    destruct q as [k j]. unfold bitpos_ok. cbn [fst snd]. split.
    + destruct (Nat.lt_ge_cases k 101) as [L|L]; [assumption|]. unfold frame_bit in E. cbn [fst snd] in E.
      rewrite nth_overflow, N.bits_0 in E by (destruct Hf; lia). discriminate.
    + destruct (N.lt_ge_cases j 32) as [L|L]; [assumption|]. rewrite frame_bit_high in E by assumption. discriminate.
  - destruct (existsb _ _) eqn:F; [|reflexivity]. apply existsb_exists in F. destruct F as (x & Hx & Ex).
    apply same_pos_eq in Ex. subst x. apply filter_In in Hx. destruct Hx. congruence.
Qed.
Lemma frame_of_set_bits f : frame_ok f -> frame_of (set_bits f) = f.
Proof. intros Hf. exact (frame_of_filter f frame_bits Hf nodup_frame_bits in_frame_bits). Qed.
Lemma set_bits_ok f p : In p (set_bits f) -> bitpos_ok p.
Proof. intros H. apply in_frame_bits. revert H. unfold set_bits. generalize frame_bits as bs. intros bs H.
  apply filter_In in H. apply H. Qed.

(** ** The syndrome of a frame is the sum over its set bits *)
Lemma syndrome_frame_of ps : syndrome (frame_of ps) = fold_right N.lxor 0 (map (fun p => syndrome (unit_frame p)) ps).
Proof.
  induction ps as [|p ps IH]; [reflexivity|]. cbn [frame_of fold_right map]. fold (frame_of ps).
  rewrite syndrome_lin, IH by now rewrite frame_of_length, unit_frame_length. apply N.lxor_comm.
Qed.

(** The parity of the twelve low bits. *)
Definition par12 (v : N) : bool := fold_right xorb false (map (fun i => N.testbit v (N.of_nat i)) (seq 0 12)).
Lemma par12_lxor a b : par12 (N.lxor a b) = xorb (par12 a) (par12 b).
Proof.
  unfold par12. induction (seq 0 12) as [|i l IH]; [reflexivity|]. cbn [map fold_right]. rewrite IH, N.lxor_spec.
  destruct (N.testbit a (N.of_nat i)), (N.testbit b (N.of_nat i)),
    (fold_right xorb false (map (fun i => N.testbit a (N.of_nat i)) l)),
    (fold_right xorb false (map (fun i => N.testbit b (N.of_nat i)) l)); reflexivity.
Qed.
Definition weight (v : N) : N := N.lxor v (if par12 v then 0 else 4096).

Lemma unit_weight_all :
  all_below 101 (fun i => all_below 32 (fun j =>
    (unit_syn i j =? weight (code_position (N.to_nat i, j))) && (code_position (N.to_nat i, j) <? 4096))) = true.
Proof. vm_compute. reflexivity. Qed.
Lemma unit_weight p : bitpos_ok p -> syndrome (unit_frame p) = weight (code_position p) /\ code_position p < 4096.
Proof.
  intros H. rewrite syndrome_unit by assumption. destruct p as [k j]. destruct H as [Hk Hj]. cbn [fst snd] in *.
  pose proof (all_below_spec _ _ unit_weight_all (N.of_nat k) ltac:(lia)) as A.
  pose proof (all_below_spec _ _ A j ltac:(lia)) as B. cbv beta in B. rewrite Nat2N.id in B.
  apply andb_true_iff in B. destruct B as [B1 B2]. split; [now apply N.eqb_eq|now apply N.ltb_lt].
Qed.

Lemma weights_sum ps : (forall p, In p ps -> bitpos_ok p) ->
  let s := fold_right N.lxor 0 (map code_position ps) in
  fold_right N.lxor 0 (map (fun p => syndrome (unit_frame p)) ps) =
    N.lxor s (if xorb (par12 s) (Nat.odd (length ps)) then 4096 else 0) /\ s < 4096.
Proof.
  intros H. cbv zeta. induction ps as [|p ps IH]; [split; reflexivity|].
  destruct IH as [IH L]; [intros; apply H; now right|]. destruct (unit_weight p (H p (or_introl eq_refl))) as [E Lp].
  cbn [map fold_right length]. rewrite Nat.odd_succ, <- Nat.negb_odd, IH, E.
  set (s := fold_right N.lxor 0 (map code_position ps)) in *. set (v := code_position p) in *.
  split; [|apply (lxor_lt v s 12); assumption].
  unfold weight. rewrite par12_lxor, lxor_swap. f_equal.
  destruct (par12 v), (par12 s), (Nat.odd (length ps)); reflexivity.
Qed.

Lemma code_sum_zero s o : s < 4096 ->
  (N.lxor s (if xorb (par12 s) o then 4096 else 0) = 0 <-> s = 0 /\ o = false).
Proof.
  intros L. split.
  - intros Z. assert (s = 0) as ->.
    { destruct (xorb (par12 s) o); [|now rewrite N.lxor_0_r in Z]. apply N.lxor_eq in Z. lia. }
    split; [reflexivity|]. destruct o; [discriminate Z|reflexivity].
  - intros [-> ->]. reflexivity.
Qed.
Lemma code_word_list (ps : list bitpos) : (forall p, In p ps -> bitpos_ok p) ->
  (syndrome (frame_of ps) = 0 <->
   fold_right N.lxor 0 (map code_position ps) = 0 /\ Nat.Even (length ps)).
Proof.
  intros H. rewrite syndrome_frame_of. destruct (weights_sum ps H) as [E L]. rewrite E, (code_sum_zero _ _ L).
  rewrite <- Nat.even_spec, <- Nat.negb_odd. destruct (Nat.odd (length ps)); intuition discriminate.
Qed.
Lemma syndrome_code_word f : frame_ok f -> (syndrome f = 0 <-> code_word f).
Proof.
  intros Hf. assert (A := code_word_list (set_bits f) (set_bits_ok f)). rewrite frame_of_set_bits in A by assumption.
  exact A.
Qed.

(** Putting the check bits in makes the frame a code word, and the only one with its payload. *)
Theorem C83_update_gives_code_word f : frame_ok f -> code_word (update_ecc f).
Proof.
  intros Hf. apply syndrome_code_word; [now apply update_ecc_ok|]. apply syndrome_zero. symmetry. now apply update_ecc_stored.
Qed.

Lemma same_payload_same_code f g : frame_ok f -> frame_ok g ->
  (forall p, is_payload p -> frame_bit g p = frame_bit f p) -> calculate_ecc g = calculate_ecc f.
Proof.
  intros Hf Hg Hp. assert (Hl : length g = length f) by (destruct Hf, Hg; congruence).
  unfold calculate_ecc. apply calc_ecc_from_agree; [assumption|]. intros k.
  destruct (Nat.eq_dec k 50) as [->|Hk].
  - right. split; [reflexivity|]. apply N.bits_inj. intros j. rewrite !N.land_spec, mask_testbit.
    destruct (N.leb_spec 13 j); [|now rewrite !andb_false_r]. destruct (N.ltb_spec j 32); [|now rewrite !andb_false_r].
    cbn [andb]. rewrite !andb_true_r. apply (Hp (50%nat, j)). split; [split; cbn [fst snd]; lia|].
    intros [_ C]. cbn [snd] in C. lia.
  - left. apply N.bits_inj. intros j. destruct (Nat.lt_ge_cases k 101) as [L|L].
    + destruct (N.lt_ge_cases j 32) as [J|J].
      * apply (Hp (k, j)). split; [split; cbn [fst snd]; lia|]. intros [C _]. cbn [fst] in C. lia.
      * assert (A := frame_bit_high f k j Hf J). assert (B := frame_bit_high g k j Hg J). unfold frame_bit in A, B.
        cbn [fst snd] in A, B. congruence.
    + rewrite !nth_overflow by (destruct Hf; lia). reflexivity.
Qed.
Theorem C83_code_word_unique f g : frame_ok f -> frame_ok g ->
  (forall p, is_payload p -> frame_bit g p = frame_bit f p) -> code_word g -> g = update_ecc f.
Proof.
  intros Hf Hg Hp Hc. apply syndrome_code_word in Hc; [|assumption]. apply syndrome_zero in Hc.
  rewrite (same_payload_same_code f g Hf Hg Hp) in Hc.
  apply frame_eq_bits; [rewrite update_ecc_length; destruct Hf, Hg; congruence|].
  intros [k j]. rewrite update_ecc_bit by assumption. cbn [fst snd].
  destruct (Nat.eqb_spec 50 k) as [E|E]; cbn [andb].
  - subst k. destruct (N.ltb_spec j 13) as [J|J].
    + rewrite Hc. unfold stored_ecc. rewrite testbit_mod_pow2. destruct (N.ltb_spec j 13); [|lia]. reflexivity.
    + destruct (N.lt_ge_cases j 32) as [J2|J2].
      * apply Hp. split; [split; cbn [fst snd]; lia|]. intros [_ C]. cbn [snd] in C. lia.
      * now rewrite !frame_bit_high.
  - destruct (Nat.lt_ge_cases k 101) as [L|L].
    + destruct (N.lt_ge_cases j 32) as [J2|J2].
      * apply Hp. split; [split; cbn [fst snd]; lia|]. intros [C _]. cbn [fst] in C. lia.
      * now rewrite !frame_bit_high.
    + unfold frame_bit. cbn [fst snd]. rewrite !nth_overflow by (destruct Hf, Hg; lia). reflexivity.
Qed.

(** A reader's test: stored and computed check bits agree exactly in the code words. *)
Theorem C83_consistent_iff_code_word f : frame_ok f -> (calculate_ecc f = stored_ecc f <-> code_word f).
Proof. intros Hf. rewrite <- syndrome_code_word by assumption. symmetry. apply syndrome_zero. Qed.

(** Different bits have different positions, none of a payload bit is a power of two, and all have twelve bits:
    what makes it a Hamming code. *)
Theorem C83_positions : 
  length code_blocks = 101%nat /\
  (forall p q, bitpos_ok p -> bitpos_ok q -> code_position p = code_position q -> p = q) /\
  (forall p, bitpos_ok p -> code_position p < 2 ^ 12) /\
  (forall p i, is_payload p -> code_position p <> 2 ^ i /\ code_position p <> 0).
Proof.
  split; [reflexivity|]. split; [|split].
  - intros p q Hp Hq E. apply unit_syn_inj; [assumption|assumption|].
    destruct (unit_weight p Hp) as [-> _], (unit_weight q Hq) as [-> _]. now rewrite E.
  - intros p Hp. apply (unit_weight p Hp).
  - intros p i [Hp Hc]. destruct (unit_weight p Hp) as [_ L].
    assert (Inj : forall q, bitpos_ok q -> code_position p = code_position q -> p = q).
    { intros q Hq E. apply unit_syn_inj; [assumption|assumption|].
      destruct (unit_weight p Hp) as [-> _], (unit_weight q Hq) as [-> _]. now rewrite E. }
    split; intros E; apply Hc.
    + assert (Hi : i < 12).
      { destruct (N.lt_ge_cases i 12) as [|C]; [assumption|]. apply (N.pow_le_mono_r 2) in C; [|discriminate].
        change (2 ^ 12) with 4096 in C. lia. }
      rewrite (Inj (50%nat, i)); [split; cbn [fst snd]; [reflexivity|lia]|split; cbn [fst snd]; lia|].
      rewrite E. unfold code_position. cbn [fst snd]. rewrite Nat.eqb_refl. cbn [andb].
      destruct (N.ltb_spec i 13), (N.ltb_spec i 12); (reflexivity || lia).
    + rewrite (Inj (50%nat, 12)); [split; cbn [fst snd]; [reflexivity|lia]|split; cbn [fst snd]; lia|exact E].
Qed.

(** The statements apply: a frame with three payload bits, whose positions 0x320, 0x420 and 0x9AD sum to 0xEAD: the
    check bits are those of 0xEAD, and bit 12 makes the number of set bits even. *)
Example C83_case :
  let f := list_update 0 (fun _ => 1) (list_update 7 (fun _ => 1) (list_update 50 (fun _ => 0x2000) zero_frame)) in
  frame_ok f /\ map code_position (set_bits f) = [0x320; 0x420; 0x9AD] /\
  nth 50 (update_ecc f) 0 = 0x3EAD /\ length (set_bits (update_ecc f)) = 12%nat.
Proof.
  cbv zeta. split; [|vm_compute; repeat split; reflexivity].
  split; [reflexivity|]. apply Forall_forall. intros w Hw. vm_compute in Hw.
  repeat (destruct Hw as [<-|Hw]; [reflexivity|]). contradiction.
Qed.
Print Assumptions C83_update_gives_code_word.
Print Assumptions C83_code_word_unique.
Print Assumptions C83_consistent_iff_code_word.
Print Assumptions C83_positions.
