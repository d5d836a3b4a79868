(** Property C08, for every 32-bit address: bits 31..26, which no field uses, are ignored and kept. *)
From Verif Require Import Base BitOps Frame Part Frames BaseFacts FrameFacts PartSpec PartFacts PartFromFacts FramesFacts P_Frame P_Part.
From Coq Require Import Lia.

Definition low (a : N) : N := a mod 2 ^ 26.
Lemma low_lt a : low a < 2 ^ 26.
Proof. unfold low. apply N.mod_lt. discriminate. Qed.
Lemma low_get a top bottom : bottom <= top -> top < 26 -> bit_field_get 32 (low a) top bottom = bit_field_get 32 a top bottom.
Proof.
  intros B T. assert (T' : top < 32) by lia. destruct (C01_bit_field_write_read 32 0 top bottom 0 B T') as (_ & _ & G). rewrite !G. unfold low.
  apply N.bits_inj. intros i. destruct (N.lt_ge_cases i (top - bottom + 1)) as [L|L].
  - rewrite !N.mod_pow2_bits_low by exact L. rewrite !N.div_pow2_bits, N.mod_pow2_bits_low by lia. reflexivity.
  - now rewrite !N.mod_pow2_bits_high by exact L.
Qed.
Lemma low_block a : fa_block_type (low a) = fa_block_type a.
Proof. unfold fa_block_type. rewrite low_get; [reflexivity|discriminate|reflexivity]. Qed.
Lemma low_bottom a : fa_is_bottom (low a) = fa_is_bottom a.
Proof. unfold fa_is_bottom. rewrite low_get; [reflexivity|discriminate|reflexivity]. Qed.
Lemma low_row a : fa_row (low a) = fa_row a.
Proof. unfold fa_row. rewrite low_get; [reflexivity|discriminate|reflexivity]. Qed.
Lemma low_column a : fa_column (low a) = fa_column a.
Proof. unfold fa_column. rewrite low_get; [reflexivity|discriminate|reflexivity]. Qed.
Lemma low_minor a : fa_minor (low a) = fa_minor a.
Proof. unfold fa_minor. rewrite low_get; [reflexivity|discriminate|reflexivity]. Qed.

Lemma low_valid p a : part_valid p (low a) = part_valid p a.
Proof.
  unfold part_valid, region_valid, row_valid, bus_valid, col_valid. rewrite low_bottom, low_row, low_block, low_column, low_minor. reflexivity.
Qed.

(** The successor, computed for the low bits: another frame 0, or the next minor. *)
Definition like (a : N) (x y : option N) : Prop :=
  match x, y with
  | None, None => True
  | Some n, Some m => n = m \/ n = u32 (a + 1) /\ m = u32 (low a + 1)
  | _, _ => False
  end.
Lemma like_refl a x : like a x x.
Proof. destruct x; cbn; auto. Qed.
Lemma like_else a x y z : like a x y -> like a (match x with Some n => Some n | None => z end) (match y with Some n => Some n | None => z end).
Proof. destruct x, y; cbn [like]; try contradiction; auto. intros _. apply like_refl. Qed.
Lemma like_next p a : like a (part_next p a) (part_next p (low a)).
Proof.
  unfold part_next, part_next_block. rewrite !low_bottom, !low_block.
  set (z := if negb (fa_is_bottom a) then _ else _). clearbody z.
  assert (G : forall g, like a (region_next g a) (region_next g (low a))); [|destruct (fa_is_bottom a); apply like_else, G].
  intros g. unfold region_next. rewrite low_row, low_bottom, low_block. destruct (bt_find (fa_row a) g) as [r|]; [|exact Logic.I]. apply like_else.
  unfold row_next. rewrite low_block. destruct (bt_find (fa_block_type a) r) as [b|]; [|exact Logic.I].
  unfold bus_next. rewrite low_column, low_bottom, low_block, low_row. destruct (bt_find (fa_column a) b) as [fc|]; [|exact Logic.I]. apply like_else.
  unfold col_next, col_valid. rewrite low_minor. destruct (fa_minor a <? fc); cbn [negb]; [|exact Logic.I].
  destruct (fa_minor a + 1 <? fc); [|exact Logic.I]. right. split; reflexivity.
Qed.
Lemma u32_small x : x < 2 ^ 32 -> u32 x = x.
Proof. intros L. unfold u32. apply N.mod_small. exact L. Qed.
Lemma like_low p a n : part_wf p -> a < 2 ^ 32 -> part_next p a = Some n ->
  exists m, part_next p (low a) = Some m /\ m < 2 ^ 26 /\ low a < m /\ (n = m \/ n = 2 ^ 26 * (a / 2 ^ 26) + m).
Proof.
  intros W L E. pose proof (like_next p a) as K. rewrite E in K. destruct (part_next p (low a)) as [m|] eqn:EM; [|contradiction].
  destruct (part_next_increases p (low a) m W (low_lt a) EM) as [G Lm]. exists m. repeat (split; [reflexivity || assumption|]).
  destruct K as [->|[-> ->]]; [now left|right]. pose proof (low_lt a) as LL. pose proof (N.div_mod a (2 ^ 26)) as D. fold (low a) in D.
  change (2 ^ 26) with 67108864 in *. change (2 ^ 32) with 4294967296 in *.
  assert (Q : a / 67108864 < 64) by (apply N.div_lt_upper_bound; [discriminate|lia]). generalize dependent (a / 67108864). intros q D Q.
  specialize (D ltac:(discriminate)). rewrite u32_small in Lm |- * by (change (2 ^ 32) with 4294967296; lia). rewrite u32_small in * by (change (2 ^ 32) with 4294967296; lia). lia.
Qed.

(** What the code's test says of any 32-bit address: the described frames, with anything in bits 31..26. *)
Theorem C08_valid_ignores_high_bits :
  forall dp a, part_fits dp -> (part_valid (part_from dp) a = true <-> is_frame_address dp (a mod 2 ^ 26)).
Proof. intros dp a F. rewrite <- low_valid. apply part_from_valid; [exact F|apply low_lt]. Qed.
Print Assumptions C08_valid_ignores_high_bits.

(** From any 32-bit address, the address returned passes the test, names a described frame beyond the given one, and its bits 31..26 are kept (next frame of
    the same column) or 0. *)
Theorem C08_next_frame_of_any_address :
  forall dp a a', part_fits dp -> a < 2 ^ 32 -> part_next (part_from dp) a = Some a' ->
    part_valid (part_from dp) a' = true /\ is_frame_address dp (a' mod 2 ^ 26) /\ a mod 2 ^ 26 < a' mod 2 ^ 26 /\
    (a' / 2 ^ 26 = a / 2 ^ 26 \/ a' / 2 ^ 26 = 0).
Proof.
  intros dp a a' F L E. destruct (like_low _ a a' (part_from_wf dp F) L E) as (m & EM & Lm & G & K).
  assert (V : is_frame_address dp m) by (eapply C08_next_frame_is_a_frame; [exact F|apply low_lt|exact EM]).
  assert (R : a' mod 2 ^ 26 = m /\ (a' / 2 ^ 26 = a / 2 ^ 26 \/ a' / 2 ^ 26 = 0)).
  { destruct K as [-> | ->].
    - split; [now apply N.mod_small|right; now apply N.div_small].
    - rewrite (N.add_comm (2 ^ 26 * _)), (N.mul_comm (2 ^ 26)). split; [rewrite N.mod_add by discriminate; now apply N.mod_small|left].
      rewrite N.div_add by discriminate. rewrite N.div_small by exact Lm. reflexivity. }
  destruct R as [R H]. fold (low a). rewrite (C08_valid_ignores_high_bits dp a' F), R. auto.
Qed.
Print Assumptions C08_next_frame_of_any_address.

(** So an address no description of the device contains is taken for a frame of it. *)
Theorem C08_refuted_unused_bits_must_be_zero :
  exists dp a a', part_fits dp /\ a < 2 ^ 32 /\ ~ is_frame_address dp a /\ part_valid (part_from dp) a = true /\
    part_next (part_from dp) a = Some a' /\ ~ is_frame_address dp a'.
Proof.
  assert (H : forall a, 2 ^ 26 <= a -> ~ is_frame_address small_part a).
  { intros a L I. pose proof (is_frame_address_lt small_part a small_part_fits I) as X. apply N.lt_nge in X. contradiction. }
  exists small_part, (2 ^ 31 + 5), (2 ^ 31 + 6). split; [exact small_part_fits|]. split; [reflexivity|]. split; [apply H; discriminate|].
  split; [vm_compute; reflexivity|]. split; [vm_compute; reflexivity|apply H; discriminate].
Qed.
Print Assumptions C08_refuted_unused_bits_must_be_zero.

(** A case for the walk of C07: the last four frames of a row of the small device. *)
Example C07_case : walk (part_from small_part) (address 1 true 0 0 124) (map (address 1 true 0 0) [124; 125; 126; 127]).
Proof. cbn [map]. do 3 (eapply walk_step; [vm_compute; reflexivity|]). apply walk_last. vm_compute. reflexivity. Qed.
