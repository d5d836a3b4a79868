(** Property C73: big-endian spans. *)
From Verif Require Import Base BaseFacts BigEndian BigEndianSpec Reader.
From Coq Require Import ZifyBool ZifyN ZifyNat.

Lemma pow_256 n : 256 ^ n = 2 ^ (8 * n).
Proof. change 256 with (2 ^ 8). now rewrite <- N.pow_mul_r. Qed.

Lemma number_lt bs : bytes_ok bs -> number bs < 256 ^ N.of_nat (List.length bs).
Proof.
  induction bs as [|b r IH]; intros H; [reflexivity|]. inversion H; subst. cbn [number List.length].
  rewrite Nat2N.inj_succ, N.pow_succ_r'. specialize (IH H3). nia.
Qed.

Lemma lor_add a b n : b < 2 ^ n -> N.lor (N.shiftl a n) b = a * 2 ^ n + b.
Proof.
  intros L. rewrite N.shiftl_mul_pow2. symmetry.
  rewrite <- N.lxor_lor, <- N.add_nocarry_lxor; try reflexivity;
    (apply N.bits_inj; intros i; rewrite N.land_spec, N.bits_0; destruct (N.ltb_spec i n) as [H|H];
     [rewrite N.mul_pow2_bits_low by exact H; reflexivity|
      destruct (N.eq_dec b 0) as [->|NZ]; [rewrite N.bits_0; apply andb_false_r|];
      rewrite (N.bits_above_log2 b i); [apply andb_false_r|]; apply N.lt_le_trans with n; [apply N.log2_lt_pow2; lia|exact H]]).
Qed.

Lemma nth_error_firstn_lt {A} : forall n (l : list A) i, (i < n)%nat -> nth_error (firstn n l) i = nth_error l i.
Proof. induction n as [|n IH]; intros [|x l] [|i] L; cbn; try lia; try reflexivity. apply IH. lia. Qed.
Lemma nth_error_skipn_add {A} : forall n (l : list A) i, nth_error (skipn n l) i = nth_error l (n + i).
Proof. induction n as [|n IH]; intros [|x l] i; cbn; try reflexivity; [now destruct i|]. apply IH. Qed.

Section K.
  Context (k : nat).
  Lemma be_or_spec : forall n bs w, (n <= k)%nat -> (n <= List.length bs)%nat -> bytes_ok bs -> w < 256 ^ N.of_nat (k - n) ->
    be_or k n bs (w * 256 ^ N.of_nat n) = Ok (w * 256 ^ N.of_nat n + number (firstn n bs)).
  Proof.
    induction n as [|n IH]; intros bs w Lk Lb F Lw; cbn [be_or firstn number].
    - f_equal. lia.
    - destruct bs as [|b r]; cbn [List.length] in Lb; [lia|]. inversion F as [|? ? Fb Fr]; subst.
      assert (E : N.lor (w * 256 ^ N.of_nat (S n)) (N.shiftl b (8 * N.of_nat n)) mod 2 ^ (8 * N.of_nat k) =
        (w * 256 + b) * 256 ^ N.of_nat n).
      { rewrite <- pow_256, Nat2N.inj_succ, N.pow_succ_r'.
        replace (w * (256 * 256 ^ N.of_nat n)) with (N.shiftl (N.shiftl w 8) (8 * N.of_nat n)).
        2:{ rewrite !N.shiftl_mul_pow2, pow_256. change (2 ^ 8) with 256. lia. }
        rewrite <- N.shiftl_lor, lor_add by exact Fb. change (2 ^ 8) with 256.
        rewrite N.shiftl_mul_pow2, <- pow_256. apply N.mod_small.
        replace (N.of_nat k) with (N.of_nat (k - S n) + 1 + N.of_nat n) by lia. rewrite !N.pow_add_r.
        apply N.mul_lt_mono_pos_r; [apply N.neq_0_lt_0, N.pow_nonzero; discriminate|]. change (256 ^ 1) with 256. lia. }
      rewrite E, (IH r (w * 256 + b)); [|lia|lia|exact Fr|].
      + cbn [firstn number]. f_equal. rewrite firstn_length_le by lia. rewrite Nat2N.inj_succ, N.pow_succ_r'. lia.
      + replace (N.of_nat (k - n)) with (N.of_nat (k - S n) + 1) by lia. rewrite N.pow_add_r. change (256 ^ 1) with 256. lia.
  Qed.
  Lemma be_get_spec bs : (k <= List.length bs)%nat -> bytes_ok bs -> be_get k bs = Ok (number (firstn k bs)).
  Proof.
    intros L F. unfold be_get. pose proof (be_or_spec k bs 0 (le_n _) L F) as H.
    rewrite N.mul_0_l in H. apply H. rewrite Nat.sub_diag. reflexivity.
  Qed.
  Lemma be_or_short : forall n bs w, (List.length bs < n)%nat -> be_or k n bs w = UB.
  Proof.
    induction n as [|n IH]; intros [|b r] w L; cbn [be_or List.length] in *; try lia; [reflexivity|]. apply IH. lia.
  Qed.

  Lemma be_put_spec : forall n w bs, (n <= List.length bs)%nat -> be_put n w bs = Ok (bytes_of n w ++ skipn n bs).
  Proof.
    induction n as [|n IH]; intros w [|b r] L; cbn [be_put bytes_of skipn List.length app] in *; try lia; try reflexivity.
    rewrite IH by lia. cbn [obind]. f_equal. f_equal.
    change 0xFF with (N.ones 8). rewrite N.land_ones, N.shiftr_div_pow2, <- pow_256. reflexivity.
  Qed.
End K.

Lemma bytes_of_length k w : List.length (bytes_of k w) = k.
Proof. induction k; cbn [bytes_of List.length]; congruence. Qed.
Lemma bytes_of_ok k w : bytes_ok (bytes_of k w).
Proof. induction k; cbn [bytes_of]; constructor; [apply N.mod_lt; discriminate|exact IHk]. Qed.
Lemma number_bytes_of k w : number (bytes_of k w) = w mod 256 ^ N.of_nat k.
Proof.
  induction k as [|k IH]; cbn [bytes_of number].
  - now rewrite N.mod_1_r.
  - rewrite IH, bytes_of_length, Nat2N.inj_succ, N.pow_succ_r', (N.mul_comm 256).
    rewrite (N.mod_mul_r w (256 ^ N.of_nat k) 256); [lia|apply N.pow_nonzero; discriminate|discriminate].
Qed.

(** ** C73 *)

(** Reading: element [pos] is the big-endian number of its [k] bytes; asking for an element that is not
    wholly inside trips the assertion. *)
Theorem C73_read :
  forall k bs pos, (0 < k)%nat -> bytes_ok bs ->
  ((k * pos + k <= List.length bs)%nat -> be_at k bs pos = Ok (number (word_at k bs pos))) /\
  ((List.length bs < k * pos + k)%nat -> be_at k bs pos = Crash).
Proof.
  intros k bs pos K F. unfold be_at, be_size, word_at.
  assert (S : (pos < List.length bs / k)%nat <-> (k * pos + k <= List.length bs)%nat).
  { pose proof (Nat.div_mod (List.length bs) k ltac:(lia)). pose proof (Nat.mod_upper_bound (List.length bs) k ltac:(lia)). nia. }
  split; intros L; destruct (Nat.ltb_spec pos (List.length bs / k)) as [H|H]; try (exfalso; lia); [|reflexivity].
  rewrite (Nat.mul_comm pos k), be_get_spec; [reflexivity| |].
  - rewrite skipn_length. lia.
  - unfold bytes_ok in *. rewrite Forall_forall in *. intros x I. apply F.
    rewrite <- (firstn_skipn (k * pos) bs). apply in_or_app. now right.
Qed.
Print Assumptions C73_read.

(** Writing: element [pos] becomes the bytes of the word, everything else stays. *)
Theorem C73_write :
  forall k bs pos w, (0 < k)%nat ->
  ((k * pos + k <= List.length bs)%nat ->
     exists bs', be_store k bs pos w = Ok bs' /\ List.length bs' = List.length bs /\
       word_at k bs' pos = bytes_of k w /\
       forall i, (i < k * pos \/ k * pos + k <= i)%nat -> nth_error bs' i = nth_error bs i) /\
  ((List.length bs < k * pos + k)%nat -> be_store k bs pos w = Crash).
Proof.
  intros k bs pos w K. unfold be_store, be_size, word_at.
  assert (S : (pos < List.length bs / k)%nat <-> (k * pos + k <= List.length bs)%nat).
  { pose proof (Nat.div_mod (List.length bs) k ltac:(lia)). pose proof (Nat.mod_upper_bound (List.length bs) k ltac:(lia)). nia. }
  split; intros L; destruct (Nat.ltb_spec pos (List.length bs / k)) as [H|H]; try (exfalso; lia); [|reflexivity].
  rewrite (Nat.mul_comm pos k), be_put_spec by (rewrite skipn_length; lia). cbn [obind].
  eexists. split; [reflexivity|]. rewrite !app_length, bytes_of_length, !skipn_length, firstn_length_le by lia.
  split; [lia|]. split.
  - rewrite skipn_app, firstn_length_le, Nat.sub_diag by lia. rewrite (skipn_all2 (firstn _ _)) by (rewrite firstn_length; lia).
    cbn [app skipn]. rewrite firstn_app, bytes_of_length, Nat.sub_diag, firstn_all2 by (rewrite bytes_of_length; lia).
    cbn [firstn]. apply app_nil_r.
  - intros i [I|I].
    + rewrite nth_error_app1 by (rewrite firstn_length; lia). now rewrite nth_error_firstn_lt by lia.
    + rewrite nth_error_app2 by (rewrite firstn_length; lia). rewrite firstn_length_le by lia.
      rewrite nth_error_app2 by (rewrite bytes_of_length; lia). rewrite bytes_of_length.
      rewrite !nth_error_skipn_add. f_equal. lia.
Qed.
Print Assumptions C73_write.

(** Hence a written element is read back, and the others are unaffected. *)
Corollary C73_write_read :
  forall k bs pos w bs', (0 < k)%nat -> bytes_ok bs -> be_store k bs pos w = Ok bs' ->
  bytes_ok bs' /\ be_at k bs' pos = Ok (w mod 256 ^ N.of_nat k) /\ forall q, q <> pos -> be_at k bs' q = be_at k bs q.
Proof.
  intros k bs pos w bs' K F E. destruct (le_lt_dec (k * pos + k) (List.length bs)) as [L|L].
  2:{ rewrite (proj2 (C73_write k bs pos w K) L) in E. discriminate E. }
  destruct (proj1 (C73_write k bs pos w K) L) as (bs2 & E2 & Len & W & O).
  assert (bs2 = bs') as -> by congruence. clear E2.
  assert (F' : bytes_ok bs').
  { apply Forall_forall. intros b I. apply In_nth_error in I as (i & I).
    destruct (le_lt_dec (k * pos) i) as [A|A]; [destruct (le_lt_dec (k * pos + k) i) as [B|B]|].
    - rewrite O in I by lia. apply nth_error_In in I. now apply (proj1 (Forall_forall _ _) F).
    - assert (IB : In b (bytes_of k w)).
      { rewrite <- W. unfold word_at. apply nth_error_In with (i - k * pos)%nat. rewrite nth_error_firstn_lt by lia.
        rewrite nth_error_skipn_add. rewrite <- I. f_equal. lia. }
      now apply (proj1 (Forall_forall _ _) (bytes_of_ok k w)).
    - rewrite O in I by lia. apply nth_error_In in I. now apply (proj1 (Forall_forall _ _) F). }
  split; [exact F'|]. split.
  - rewrite (proj1 (C73_read k bs' pos K F')) by lia. now rewrite W, number_bytes_of.
  - intros q NQ. destruct (C73_read k bs' q K F') as [A B]. destruct (C73_read k bs q K F) as [A' B'].
    destruct (le_lt_dec (k * q + k) (List.length bs)) as [Lq|Lq]; [|rewrite B, B' by lia; reflexivity].
    rewrite A, A' by lia. f_equal. f_equal. unfold word_at.
    assert (EX : forall l1 l2 : list N, (forall i, nth_error l1 i = nth_error l2 i) -> l1 = l2).
    { clear. induction l1 as [|x l1 IH]; intros [|y l2] H; try reflexivity; try (specialize (H O); discriminate H).
      f_equal; [specialize (H O); cbn in H; congruence|]. apply IH. intros i. exact (H (S i)). }
    apply EX. intros i. destruct (le_lt_dec k i) as [G|G].
    + rewrite !(proj2 (nth_error_None _ _)) by (rewrite firstn_length; lia). reflexivity.
    + rewrite !nth_error_firstn_lt, !nth_error_skipn_add by lia. apply O. nia.
Qed.
Print Assumptions C73_write_read.

(** The size is the number of whole elements. *)
Theorem C73_size :
  forall k bs, (0 < k)%nat ->
  (k * be_size k bs <= List.length bs)%nat /\ (List.length bs < k * be_size k bs + k)%nat /\
  (be_empty k bs = true <-> (List.length bs < k)%nat).
Proof.
  intros k bs K. unfold be_empty, be_size.
  pose proof (Nat.div_mod (List.length bs) k ltac:(lia)). pose proof (Nat.mod_upper_bound (List.length bs) k ltac:(lia)).
  split; [lia|]. split; [lia|]. rewrite Nat.eqb_eq. split; intros; nia.
Qed.
Print Assumptions C73_size.

(** Iterating from begin to end: all the elements in order when the bytes are whole words; otherwise the
    last element is read past the end of the span. *)
Lemma be_iterate_spec k : (0 < k)%nat -> forall n bs fuel, bytes_ok bs -> List.length bs = (k * n)%nat -> (n <= fuel)%nat ->
  be_iterate k fuel bs = Ok (map (fun pos => number (word_at k bs pos)) (seq 0 n)).
Proof.
  intros K. induction n as [|n IH]; intros bs fuel F L Lf.
  - destruct bs; [|cbn [List.length] in L; lia]. destruct fuel; reflexivity.
  - destruct fuel as [|fuel]; [lia|]. destruct bs as [|b r] eqn:EB; [cbn [List.length] in L; lia|]. rewrite <- EB in *.
    assert (E : be_iterate k (S fuel) bs = obind (be_get k bs) (fun w => if Nat.leb k (List.length bs)
        then obind (be_iterate k fuel (skipn k bs)) (fun ws => Ok (w :: ws)) else Crash)) by (subst bs; reflexivity).
    rewrite E, be_get_spec by (auto; lia). cbn [obind].
    destruct (Nat.leb_spec k (List.length bs)) as [_|X]; [|lia].
    assert (FS : bytes_ok (skipn k bs)).
    { unfold bytes_ok in *. rewrite Forall_forall in *. intros x I. apply F. rewrite <- (firstn_skipn k bs). apply in_or_app. now right. }
    rewrite (IH (skipn k bs) fuel FS) by (rewrite ?skipn_length; lia). cbn [obind seq map]. f_equal. f_equal.
    + unfold word_at. rewrite Nat.mul_0_r. reflexivity.
    + rewrite <- seq_shift, map_map. apply map_ext. intros pos. unfold word_at. f_equal. f_equal.
      assert (SK : forall A a b (l : list A), skipn a (skipn b l) = skipn (b + a) l).
      { clear. intros A a b. induction b as [|b IHb]; intros [|x l]; cbn; try reflexivity; [now destruct a|apply IHb]. }
      rewrite SK. f_equal. lia.
Qed.
Lemma be_iterate_ragged k : (0 < k)%nat -> forall n bs fuel, bytes_ok bs -> (k * n < List.length bs)%nat /\ (List.length bs < k * n + k)%nat -> (n < fuel)%nat ->
  be_iterate k fuel bs = UB.
Proof.
  intros K. induction n as [|n IH]; intros bs fuel F L Lf;
    (destruct fuel as [|fuel]; [lia|]; destruct bs as [|b r] eqn:EB; [cbn [List.length] in L; lia|]; rewrite <- EB in *;
     assert (E : be_iterate k (S fuel) bs = obind (be_get k bs) (fun w => if Nat.leb k (List.length bs)
        then obind (be_iterate k fuel (skipn k bs)) (fun ws => Ok (w :: ws)) else Crash)) by (subst bs; reflexivity); rewrite E).
  - unfold be_get. rewrite be_or_short by lia. reflexivity.
  - rewrite be_get_spec by (auto; lia). cbn [obind].
    destruct (Nat.leb_spec k (List.length bs)) as [_|X]; [|lia].
    rewrite IH; [reflexivity| |rewrite skipn_length; lia|lia].
    unfold bytes_ok in *. rewrite Forall_forall in *. intros x I. apply F. rewrite <- (firstn_skipn k bs). apply in_or_app. now right.
Qed.

Theorem C73_iteration :
  forall k bs, (0 < k)%nat -> bytes_ok bs ->
  ((List.length bs mod k = 0)%nat ->
     be_all k bs = Ok (map (fun pos => number (word_at k bs pos)) (seq 0 (List.length bs / k)))) /\
  ((List.length bs mod k <> 0)%nat -> be_all k bs = UB).
Proof.
  intros k bs K F. pose proof (Nat.div_mod (List.length bs) k ltac:(lia)) as D. pose proof (Nat.mod_upper_bound (List.length bs) k ltac:(lia)).
  unfold be_all. split; intros M.
  - apply be_iterate_spec; auto; nia.
  - apply (be_iterate_ragged k K (List.length bs / k)); auto; nia.
Qed.
Print Assumptions C73_iteration.

(** The bytes of any words, iterated, give the words back. *)
Corollary C73_words_round_trip :
  forall k ws, (0 < k)%nat -> Forall (fun w => w < 256 ^ N.of_nat k) ws -> be_all k (flat_map (bytes_of k) ws) = Ok ws.
Proof.
  intros k ws K F.
  assert (L : forall ws, List.length (flat_map (bytes_of k) ws) = (k * List.length ws)%nat).
  { clear. induction ws as [|w ws IH]; cbn [flat_map List.length]; [lia|]. rewrite app_length, bytes_of_length, IH. lia. }
  assert (B : bytes_ok (flat_map (bytes_of k) ws)).
  { clear. induction ws as [|w ws IH]; cbn [flat_map]; [constructor|]. apply Forall_app. split; [apply bytes_of_ok|exact IH]. }
  rewrite (proj1 (C73_iteration k _ K B)) by (rewrite L, Nat.mul_comm, Nat.mod_mul; lia).
  rewrite L, (Nat.mul_comm k), Nat.div_mul by lia. f_equal. clear B.
  induction F as [|w ws Lw F IH]; [reflexivity|]. cbn [List.length seq map flat_map]. f_equal.
  - unfold word_at. rewrite Nat.mul_0_r. cbn [skipn].
    rewrite firstn_app, bytes_of_length, Nat.sub_diag, firstn_all2 by (rewrite bytes_of_length; lia). cbn [firstn].
    rewrite app_nil_r, number_bytes_of. now apply N.mod_small.
  - rewrite <- IH at 2. rewrite <- seq_shift, map_map. apply map_ext. intros pos. unfold word_at. f_equal. f_equal.
    rewrite skipn_app, bytes_of_length, (skipn_all2 (bytes_of k w)) by (rewrite bytes_of_length; nia). cbn [app]. f_equal. nia.
Qed.
Print Assumptions C73_words_round_trip.

(** The reader's conversion of the bytes after the sync word is this iteration, with four bytes. *)
Theorem C73_reader_uses_it :
  forall bs, bytes_ok bs -> be_words bs = be_all 4 bs.
Proof.
  assert (H : forall n bs fuel, (List.length bs <= n)%nat -> (List.length bs <= fuel)%nat -> bytes_ok bs -> be_words bs = be_iterate 4 fuel bs).
  { induction n as [|n IH]; intros bs fuel L Lf F.
    - destruct bs; [|cbn [List.length] in L; lia]. destruct fuel; reflexivity.
    - destruct bs as [|b0 [|b1 [|b2 [|b3 r]]]].
      + destruct fuel; reflexivity.
      + destruct fuel; [cbn in Lf; lia|reflexivity].
      + destruct fuel; [cbn in Lf; lia|reflexivity].
      + destruct fuel; [cbn in Lf; lia|reflexivity].
      + cbn [List.length] in L, Lf. destruct fuel as [|fuel]; [lia|]. cbn [be_words be_iterate].
        inversion F as [|? ? F0 T0]; subst. inversion T0 as [|? ? F1 T1]; subst. inversion T1 as [|? ? F2 T2]; subst. inversion T2 as [|? ? F3 T3]; subst.
        rewrite be_get_spec by (cbn [List.length]; auto; lia). cbn [obind Nat.leb List.length].
        cbn [skipn]. rewrite (IH r fuel) by (auto; lia). unfold be_word. cbn [obind].
        assert (EW : N.lor (N.lor (N.lor (N.shiftl b0 24) (N.shiftl b1 16)) (N.shiftl b2 8)) b3 = number (firstn 4 (b0 :: b1 :: b2 :: b3 :: r))).
        { cbn [firstn number List.length].
          replace (N.shiftl b0 24) with (N.shiftl (N.shiftl b0 8) 16) by (rewrite N.shiftl_shiftl; reflexivity).
          rewrite <- N.shiftl_lor, (lor_add b0 b1 8) by exact F1.
          replace (N.shiftl (b0 * 2 ^ 8 + b1) 16) with (N.shiftl (N.shiftl (b0 * 2 ^ 8 + b1) 8) 8) by (rewrite N.shiftl_shiftl; reflexivity).
          rewrite <- N.shiftl_lor, (lor_add _ b2 8) by exact F2. rewrite (lor_add _ b3 8) by exact F3.
          change (2 ^ 8) with 256. change (256 ^ N.of_nat 3) with 16777216. change (256 ^ N.of_nat 2) with 65536.
          change (256 ^ N.of_nat 1) with 256. change (256 ^ N.of_nat 0) with 1. lia. }
        rewrite EW. reflexivity. }
  intros bs F. exact (H _ bs _ (le_n _) (le_n _) F).
Qed.
Print Assumptions C73_reader_uses_it.

(** Examples: sixteen- and thirty-two-bit words. *)
Example C73_case :
  be_at 4 [0xAA; 0x99; 0x55; 0x66; 0x12; 0x34; 0x56; 0x78; 9] 1 = Ok 0x12345678 /\
  be_at 4 [0xAA; 0x99; 0x55; 0x66; 0x12; 0x34; 0x56; 0x78; 9] 2 = Crash /\
  be_store 2 [1; 2; 3; 4; 5] 1 0xABCDE = Ok [1; 2; 0xBC; 0xDE; 5] /\
  be_all 2 [1; 2; 3; 4] = Ok [0x102; 0x304] /\ be_all 4 [1; 2; 3; 4; 5] = UB.
Proof. repeat split. Qed.
