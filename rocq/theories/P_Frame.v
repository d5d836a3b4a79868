(** Properties C01-C06: bit fields, frame addresses, frame ECC, configuration CRC. *)
From Verif Require Import Base BitOps Frame BitOpsFacts FrameFacts EccSpec EccFacts CrcFacts
  PartSpec PartFromFacts.

(** ** C01 *)
(** Writing a field of a [w]-bit word: inside the range the bits are those of the
    value (so reading back gives the value truncated to the field), outside nothing
    changes. *)
Theorem C01_bit_field_write_read :
  forall w r top bottom v, bottom <= top -> top < w ->
    bit_field_get w (bit_field_set w r top bottom v) top bottom = v mod 2 ^ (top - bottom + 1)
    /\ (forall i, i < bottom \/ top < i ->
          N.testbit (bit_field_set w r top bottom v) i = N.testbit r i)
    /\ (forall x, bit_field_get w x top bottom = (x / 2 ^ bottom) mod 2 ^ (top - bottom + 1)).
Proof.
  intros w r top bottom v Hb Ht. split; [|split].
  - apply field_get_set; assumption.
  - intros i Hi. apply field_set_other; assumption.
  - intros x. apply bit_field_get_div; assumption.
Qed.
Print Assumptions C01_bit_field_write_read.

Example C01_case :
  bit_field_get 32 (bit_field_set 32 0xDEADBEEF 16 7 0xABCD) 16 7 = 0x3CD
  /\ bit_field_set 32 0xDEADBEEF 16 7 0xABCD = 0xDEADE6EF.
Proof. split; reflexivity. Qed.

(** ** C02 *)
Theorem C02_frame_address_packs_unpacks :
  forall block bottom row column minor,
    block < 8 -> row < 32 -> column < 1024 -> minor < 128 ->
    let a := fa_make block bottom row column minor in
    a = address block bottom row column minor /\
    fa_block_type a = block /\ fa_is_bottom a = bottom /\ fa_row a = row /\
    fa_column a = column /\ fa_minor a = minor /\ a < 2 ^ 26.
Proof.
  intros b h r c m Hb Hr Hc Hm a.
  assert (O : fa_ok b r c m) by (repeat split; assumption).
  destruct (fa_fields b h r c m O) as (A1 & A2 & A3 & A4 & A5).
  split; [apply address_make; assumption|].
  repeat split; try assumption. apply fa_make_lt; assumption.
Qed.
Print Assumptions C02_frame_address_packs_unpacks.

Theorem C02_frame_address_injective :
  forall b h r c m b' h' r' c' m',
    b < 8 -> r < 32 -> c < 1024 -> m < 128 ->
    b' < 8 -> r' < 32 -> c' < 1024 -> m' < 128 ->
    fa_make b h r c m = fa_make b' h' r' c' m' ->
    (b, h, r, c, m) = (b', h', r', c', m').
Proof.
  intros b h r c m b' h' r' c' m' ? ? ? ? ? ? ? ? E.
  assert (O : fa_ok b r c m) by (repeat split; assumption).
  assert (O' : fa_ok b' r' c' m') by (repeat split; assumption).
  destruct (fa_make_inj _ _ _ _ _ _ _ _ _ _ O O' E) as (-> & -> & -> & -> & ->). reflexivity.
Qed.
Print Assumptions C02_frame_address_injective.

(** Conversely every 26-bit address is determined by its fields. *)
Theorem C02_frame_address_rebuild :
  forall a, a < 2 ^ 26 ->
    address (fa_block_type a) (fa_is_bottom a) (fa_row a) (fa_column a) (fa_minor a) = a.
Proof. intros a Ha. rewrite <- address_make by apply fa_ranges. apply fa_rebuild; assumption. Qed.
Print Assumptions C02_frame_address_rebuild.

Example C02_case :
  fa_make 1 true 1 37 5 = 0xC21285 /\ fa_row 0xC21285 = 1 /\ fa_column 0xC21285 = 37.
Proof. repeat split; reflexivity. Qed.

(** ** C03 *)
Theorem C03_frame_address_order :
  forall b h r c m b' h' r' c' m',
    b < 8 -> r < 32 -> c < 1024 -> m < 128 ->
    b' < 8 -> r' < 32 -> c' < 1024 -> m' < 128 ->
    (fa_make b h r c m < fa_make b' h' r' c' m' <->
     b < b' \/ (b = b' /\
       ((h = false /\ h' = true) \/ (h = h' /\
         (r < r' \/ (r = r' /\ (c < c' \/ (c = c' /\ m < m')))))))).
Proof.
  intros. rewrite fa_make_lt_iff by (repeat split; assumption).
  destruct h, h'; cbn [N.b2n]; intuition (try discriminate; try lia).
Qed.
Print Assumptions C03_frame_address_order.

Example C03_case : fa_make 0 true 3 40 127 < fa_make 1 false 0 0 0.
Proof. reflexivity. Qed.

(** ** C04 *)
(** [frame_ok]: 101 words of 32 bits; check bits: bits 0..12 of word 50. *)
Theorem C04_ecc_update_local :
  forall f, frame_ok f ->
    frame_ok (update_ecc f) /\
    forall p, ~ is_check p -> frame_bit (update_ecc f) p = frame_bit f p.
Proof.
  intros f H. split; [apply update_ecc_ok; assumption|].
  intros [k j] Hp. rewrite update_ecc_bit by assumption. cbn [fst snd].
  destruct (Nat.eqb_spec 50 k) as [E|E]; cbn [andb]; [|reflexivity].
  destruct (N.ltb_spec j 13); [|reflexivity].
  exfalso. apply Hp. split; cbn [fst snd]; auto.
Qed.
Print Assumptions C04_ecc_update_local.

Theorem C04_ecc_update_stable :
  forall f, frame_ok f ->
    update_ecc (update_ecc f) = update_ecc f /\
    calculate_ecc (update_ecc f) = stored_ecc (update_ecc f) /\
    calculate_ecc (update_ecc f) = calculate_ecc f.
Proof.
  intros f H. repeat split.
  - apply update_ecc_idem; assumption.
  - symmetry. apply update_ecc_stored; assumption.
  - apply calc_ecc_update; assumption.
Qed.
Print Assumptions C04_ecc_update_stable.

(** ** C05 *)
(** Payload bits: every payload flip changes the computed code, two different single
    flips change it differently, and two flips never cancel. *)
Theorem C05_ecc_payload_flips :
  forall f g p, is_payload p -> flipped p f g ->
    calculate_ecc g <> calculate_ecc f /\
    (forall q g', is_payload q -> flipped q f g' -> calculate_ecc g = calculate_ecc g' -> p = q) /\
    (forall q h, is_payload q -> p <> q -> flipped q g h -> calculate_ecc h <> calculate_ecc f).
Proof.
  intros f g p Hp H. split; [|split].
  - exact (payload_single p f g Hp H).
  - intros q g' Hq Hg' E. exact (payload_distinct p q f g g' Hp Hq H Hg' E).
  - intros q h Hq Hne Hh. exact (payload_double p q f g h Hp Hq Hne H Hh).
Qed.
Print Assumptions C05_ecc_payload_flips.

(** SECDED over all 3232 bits of a consistent frame, including its check bits: any
    single error is detected and located from (computed xor stored); any double error is
    detected and never looks like a single one. *)
Theorem C05_ecc_secded :
  exists locate : N -> bitpos,
  forall f, calculate_ecc f = stored_ecc f ->
    (forall p g, bitpos_ok p -> flipped p f g ->
       calculate_ecc g <> stored_ecc g /\
       locate (N.lxor (calculate_ecc g) (stored_ecc g)) = p) /\
    (forall p q g h, bitpos_ok p -> bitpos_ok q -> p <> q -> flipped p f g -> flipped q g h ->
       calculate_ecc h <> stored_ecc h /\
       forall r f' g', bitpos_ok r -> calculate_ecc f' = stored_ecc f' -> flipped r f' g' ->
         N.lxor (calculate_ecc g') (stored_ecc g') <> N.lxor (calculate_ecc h) (stored_ecc h)).
Proof.
  exists locate. intros f Hf. split.
  - intros p g Hp H. split; [eapply ecc_detects_single|eapply ecc_locates]; eassumption.
  - intros p q g h Hp Hq Hne Hg Hh.
    exact (ecc_detects_double p q f g h Hp Hq Hne Hf Hg Hh).
Qed.
Print Assumptions C05_ecc_secded.

(** Hence for every frame whose code was updated: one flipped bit, check bits included, is located, two
    are detected. *)
Corollary C05_updated_frames :
  exists locate : N -> bitpos,
  forall f, frame_ok f ->
    (forall p g, bitpos_ok p -> flipped p (update_ecc f) g ->
       locate (N.lxor (calculate_ecc g) (stored_ecc g)) = p) /\
    (forall p q g h, bitpos_ok p -> bitpos_ok q -> p <> q -> flipped p (update_ecc f) g -> flipped q g h ->
       calculate_ecc h <> stored_ecc h).
Proof.
  destruct C05_ecc_secded as (loc & H). exists loc. intros f F.
  destruct (C04_ecc_update_stable f F) as (_ & C & _). destruct (H _ C) as [A B]. split.
  - intros p g Hp G. exact (proj2 (A p g Hp G)).
  - intros p q g h Hp Hq N G G'. exact (proj1 (B p q g h Hp Hq N G G')).
Qed.
Print Assumptions C05_updated_frames.

(** A concrete consistent frame, one flipped bit of it. *)
Example C05_case :
  let f := update_ecc (repeat 0xDEADBEEF 101) in
  let g := list_update 7 (fun w => N.lxor w (2 ^ 31)) f in
  calculate_ecc f = stored_ecc f /\ locate (N.lxor (calculate_ecc g) (stored_ecc g)) = (7%nat, 31).
Proof. vm_compute. split; reflexivity. Qed.

(** ** C06 *)
Theorem C06_crc_linear :
  forall a1 a2 d1 d2 c1 c2,
    a1 < 2 ^ 5 -> a2 < 2 ^ 5 -> d1 < 2 ^ 32 -> d2 < 2 ^ 32 -> c1 < 2 ^ 32 -> c2 < 2 ^ 32 ->
    icap_crc (N.lxor a1 a2) (N.lxor d1 d2) (N.lxor c1 c2) =
    N.lxor (icap_crc a1 d1 c1) (icap_crc a2 d2 c2).
Proof. exact icap_crc_lin. Qed.
Print Assumptions C06_crc_linear.

Theorem C06_crc_bijective :
  forall a d, a < 2 ^ 5 -> d < 2 ^ 32 ->
    (forall c, icap_crc a d c < 2 ^ 32) /\
    (forall c1 c2, c1 < 2 ^ 32 -> c2 < 2 ^ 32 -> icap_crc a d c1 = icap_crc a d c2 -> c1 = c2) /\
    (forall y, y < 2 ^ 32 -> exists c, c < 2 ^ 32 /\ icap_crc a d c = y).
Proof.
  intros a d Ha Hd. split; [|split].
  - intros c. apply icap_crc_lt.
  - intros c1 c2. apply icap_crc_inj_prev; assumption.
  - intros y. apply icap_crc_surj; assumption.
Qed.
Print Assumptions C06_crc_bijective.

(** Two histories of register writes (address, data) that differ in exactly one write,
    either in its data (any number of bits) or in its register, end with different
    CRCs, whatever follows. *)
Theorem C06_crc_detects_one_corrupted_write :
  forall before w1 w2 after crc0,
    crc0 < 2 ^ 32 -> write_ok w1 -> write_ok w2 -> Forall write_ok after ->
    w1 <> w2 -> fst w1 = fst w2 \/ snd w1 = snd w2 ->
    crc_run (before ++ w1 :: after) crc0 <> crc_run (before ++ w2 :: after) crc0.
Proof. exact crc_run_detects. Qed.
Print Assumptions C06_crc_detects_one_corrupted_write.

Example C06_case :
  icap_crc 0x10 0 0 = 0x82F63B78 /\ icap_crc 2 0xFFFFFFFF 0 <> icap_crc 2 0xFFFFFFFE 0
  /\ write_ok (2, 0xFFFFFFFF).
Proof. vm_compute. repeat split; discriminate. Qed.
