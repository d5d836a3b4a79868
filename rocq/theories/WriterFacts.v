(** Facts about Writer.v. *)
From Verif Require Import Base BitOps Frame Packet Writer Reader BaseFacts BitOpsFacts PacketFacts
  ContainerSpec.
From Coq Require Import ZifyBool ZifyN ZifyNat.

(** ** Iterators *)
Definition pi_rem (i : pkt_iter) : list N :=
  match pi_st i with
  | StHeader => packet_words (pi_pkt i)
  | StData => skipn (pi_pos i) (pk_data (pi_pkt i))
  | StEnd => []
  end.

Definition pi_live (i : pkt_iter) : Prop :=
  match pi_st i with
  | StHeader => pi_pos i = 0%nat
  | StData => (pi_pos i < length (pk_data (pi_pkt i)))%nat
  | StEnd => False
  end.

Definition hdr_len : nat := length writer_header.

Lemma skipn_cons_nth {A} (l : list A) n x : nth_error l n = Some x -> skipn n l = x :: skipn (S n) l.
Proof.
  revert n. induction l as [|y l IH]; intros [|n] H; cbn in H; try discriminate.
  - injection H as ->. reflexivity.
  - cbn [skipn]. rewrite (IH n H). reflexivity.
Qed.

Lemma skipn_none {A} (l : list A) n : nth_error l n = None -> skipn n l = [].
Proof. intros H. apply skipn_all2. apply nth_error_None. assumption. Qed.

(** One step of a live packet iterator: it delivers the head of the remainder and moves
    to the tail. *)
Lemma pi_step i : pi_live i ->
  exists w, pi_deref i = Ok w /\ pi_rem i = w :: pi_rem (pi_next i) /\
    pi_pkt (pi_next i) = pi_pkt i /\
    (if pi_eqb (pi_next i) (pi_end (pi_pkt i)) then pi_rem (pi_next i) = []
     else pi_live (pi_next i)).
Proof.
  destruct i as [st pos k]. unfold pi_live, pi_rem, pi_deref, pi_next, pi_eqb, pi_end.
  cbn [pi_st pi_pos pi_pkt]. destruct st.
  - intros ->. exists (packet_header k). split; [reflexivity|].
    destruct (pk_data k) as [|d ds] eqn:E; cbn [length Nat.eqb pi_st pi_pos pi_pkt pi_state_eqb andb].
    + unfold packet_words. rewrite E. repeat split.
    + unfold packet_words. rewrite E. cbn [skipn]. split; [reflexivity|]. split; [reflexivity|]. cbn [pi_state_eqb andb]. cbn. rewrite ?E. cbn. lia.
  - intros H. destruct (nth_error (pk_data k) pos) as [w|] eqn:E.
    + exists w. split; [reflexivity|]. rewrite (skipn_cons_nth _ _ _ E).
      destruct (Nat.eqb_spec (S pos) (length (pk_data k))) as [L|L];
        cbn [pi_st pi_pos pi_pkt pi_state_eqb andb].
      * rewrite L. rewrite skipn_all, Nat.eqb_refl. repeat split.
      * repeat split. lia.
    + apply nth_error_None in E. lia.
  - intros [].
Qed.

Lemma hdr_none : nth_error writer_header hdr_len = None.
Proof. reflexivity. Qed.

Lemma wi_body fuel ks : forall j k pi,
  nth_error ks j = Some k -> pi_pkt pi = k -> pi_live pi ->
  (length (pi_rem pi ++ packets_words (skipn (S j) ks)) + 1 <= fuel)%nat ->
  wi_words fuel ks {| wi_hdr := hdr_len; wi_pkt := j; wi_op := Some pi |} =
  Ok (pi_rem pi ++ packets_words (skipn (S j) ks)).
Proof.
  induction fuel as [|fuel IH]; intros j k pi Hj Hk Hl Hf; [lia|].
  destruct (pi_step pi Hl) as (w & D & R & P & N). rewrite Hk in N, P.
  cbn [wi_words]. unfold wi_eqb, wi_end. cbn [wi_hdr wi_pkt wi_op]. rewrite andb_false_r.
  unfold wi_deref. cbn [wi_hdr wi_op]. unfold hdr_len at 1. rewrite Nat.eqb_refl. cbn [negb].
  rewrite D. cbn [obind].
  unfold wi_next. cbn [wi_hdr wi_pkt wi_op]. unfold hdr_len at 1. rewrite Nat.eqb_refl. cbn [negb].
  rewrite Hj. rewrite R in Hf |- *. cbn [app length] in Hf |- *.
  destruct (pi_eqb (pi_next pi) (pi_end k)).
  - rewrite N in Hf |- *. cbn [app] in Hf |- *.
    destruct (nth_error ks (S j)) as [k'|] eqn:E.
    + cbn [obind]. rewrite (skipn_cons_nth _ _ _ E) in Hf |- *.
      change (packets_words (k' :: skipn (S (S j)) ks)) with
        (pi_rem (pi_begin k') ++ packets_words (skipn (S (S j)) ks)) in Hf |- *.
      rewrite (IH (S j) k' (pi_begin k') E eq_refl eq_refl) by lia. reflexivity.
    + cbn [obind]. rewrite (skipn_none _ _ E). cbn [packets_words flat_map].
      destruct fuel as [|fuel]; [cbn in Hf; lia|].
      cbn [wi_words]. unfold wi_eqb, wi_end. cbn [wi_hdr wi_pkt wi_op].
      assert (L : S j = length ks).
      { apply nth_error_None in E. assert (nth_error ks j <> None) as A by congruence.
        apply nth_error_Some in A. lia. }
      rewrite L, !Nat.eqb_refl. reflexivity.
  - cbn [obind]. rewrite (IH j k (pi_next pi) Hj P N) by lia. reflexivity.
Qed.

Lemma wi_words_hdr fuel ks h op : (h < hdr_len)%nat ->
  wi_words (S fuel) ks {| wi_hdr := h; wi_pkt := 0; wi_op := op |} =
  match nth_error writer_header h with
  | Some w =>
      obind (wi_words fuel ks
        (if Nat.eqb (S h) hdr_len
         then {| wi_hdr := hdr_len; wi_pkt := 0;
                 wi_op := match ks with [] => op | k :: _ => Some (pi_begin k) end |}
         else {| wi_hdr := S h; wi_pkt := 0; wi_op := op |})) (fun ws => Ok (w :: ws))
  | None => UB
  end.
Proof.
  intros H. cbn [wi_words]. unfold wi_eqb, wi_end. cbn [wi_hdr wi_pkt wi_op].
  fold hdr_len. replace (Nat.eqb h hdr_len) with false by (symmetry; apply Nat.eqb_neq; lia).
  cbn [andb]. unfold wi_deref. cbn [wi_hdr wi_op]. fold hdr_len.
  replace (Nat.eqb h hdr_len) with false by (symmetry; apply Nat.eqb_neq; lia). cbn [negb].
  destruct (nth_error writer_header h) as [w|] eqn:E; cbn [obind]; [|reflexivity].
  unfold wi_next. cbn [wi_hdr wi_pkt wi_op]. fold hdr_len.
  replace (Nat.eqb h hdr_len) with false by (symmetry; apply Nat.eqb_neq; lia). cbn [negb].
  destruct (Nat.eqb_spec (S h) hdr_len) as [L|L].
  - rewrite L. destruct ks; reflexivity.
  - reflexivity.
Qed.

Lemma writer_words_enough fuel ks :
  (hdr_len + length (packets_words ks) + 1 <= fuel)%nat ->
  writer_words fuel ks = Ok (writer_header ++ packets_words ks).
Proof.
  intros Hf. unfold writer_words, wi_begin.
  set (op := match ks with [] => None | k :: _ => Some (pi_begin k) end).
  assert (Tail : forall f, (length (packets_words ks) + 1 <= f)%nat ->
    wi_words f ks {| wi_hdr := hdr_len; wi_pkt := 0;
                     wi_op := match ks with [] => op | k :: _ => Some (pi_begin k) end |}
    = Ok (packets_words ks)).
  { intros f Hf'. destruct ks as [|k ks'].
    - destruct f as [|f]; [lia|]. reflexivity.
    - apply (wi_body f (k :: ks') 0 k (pi_begin k)); try reflexivity. exact Hf'. }
  assert (H : forall n h f, (h + n = hdr_len)%nat -> (0 < n)%nat ->
     (n + length (packets_words ks) + 1 <= f)%nat ->
     wi_words f ks {| wi_hdr := h; wi_pkt := 0; wi_op := op |} =
     Ok (skipn h writer_header ++ packets_words ks)).
  { induction n as [|n IH]; intros h f Hh Hn Hf'; [lia|].
    destruct f as [|f]; [lia|]. rewrite wi_words_hdr by lia.
    destruct (nth_error writer_header h) as [w|] eqn:E.
    - rewrite (skipn_cons_nth _ _ _ E).
      destruct (Nat.eqb_spec (S h) hdr_len) as [L|L].
      + rewrite Tail by lia. cbn [obind]. rewrite L. unfold hdr_len. rewrite skipn_all. reflexivity.
      + rewrite IH by lia. reflexivity.
    - apply nth_error_None in E. fold hdr_len in E. lia. }
  rewrite (H hdr_len 0%nat fuel); try reflexivity; unfold hdr_len in *; cbn in *; lia.
Qed.

(** A longer run gives the same answer. *)
Lemma wi_words_mono ks f : forall f' i ws, (f <= f')%nat -> wi_words f ks i = Ok ws -> wi_words f' ks i = Ok ws.
Proof.
  induction f as [|f IH]; intros f' i ws0 Hle H; [discriminate|].
  destruct f' as [|f']; [lia|]. cbn [wi_words] in *.
  destruct (wi_eqb i (wi_end ks)); [assumption|].
  destruct (wi_deref i); cbn [obind] in *; try discriminate.
  destruct (wi_next ks i) as [i'| | | |]; cbn [obind] in *; try discriminate.
  destruct (wi_words f ks i') as [ws1| | | |] eqn:E; cbn [obind] in H; try discriminate.
  rewrite (IH f' i' ws1) by (auto; lia). exact H.
Qed.

Lemma writer_words_mono f f' ks ws : (f <= f')%nat ->
  writer_words f ks = Ok ws -> writer_words f' ks = Ok ws.
Proof. apply wi_words_mono. Qed.

Lemma writer_words_sound fuel ks ws :
  writer_words fuel ks = Ok ws -> ws = writer_header ++ packets_words ks.
Proof.
  intros H.
  pose proof (writer_words_mono fuel (fuel + (hdr_len + length (packets_words ks) + 1))%nat _ ws ltac:(lia) H) as M.
  rewrite writer_words_enough in M by lia. congruence.
Qed.

(** ** Bytes *)
Lemma be_bytes_be32 w : w < 2 ^ 32 -> be_bytes w = be32 w.
Proof.
  intros H. unfold be_bytes, be32. change 0xFF with (N.ones 8).
  rewrite !N.land_ones, !N.shiftr_div_pow2. change (2 ^ 8) with 256.
  f_equal. apply N.mod_small. change (2 ^ 24) with 16777216. change (2 ^ 32) with (16777216 * 256) in H.
  apply N.div_lt_upper_bound; lia.
Qed.

Lemma be_bytes_length w : length (be_bytes w) = 4%nat.
Proof. reflexivity. Qed.

Lemma be_bytes_byte w : Forall (fun b => b < 256) (be_bytes w).
Proof.
  unfold be_bytes. change 0xFF with (N.ones 8).
  repeat constructor; rewrite N.land_ones; apply N.mod_lt; discriminate.
Qed.

Lemma be_word_bytes w rest : w < 2 ^ 32 -> be_word (be_bytes w ++ rest) = Ok w.
Proof.
  intros H. unfold be_bytes, be_word. cbn [app]. f_equal. change 0xFF with (N.ones 8).
  apply N.bits_inj; intros i. rewrite !N.lor_spec.
  assert (B : forall n k, N.testbit (N.shiftl (N.land (N.shiftr w n) (N.ones 8)) k) i =
     (k <=? i) && (i <? k + 8) && N.testbit w (i - k + n)).
  { intros n k. destruct (N.leb_spec k i) as [L|L].
    - rewrite N.shiftl_spec_high' by assumption. rewrite N.land_spec, N.shiftr_spec', testbit_ones.
      replace (i <? k + 8) with (i - k <? 8) by lia. cbn [andb]. apply andb_comm.
    - rewrite N.shiftl_spec_low by assumption. reflexivity. }
  rewrite !B. rewrite N.land_spec, testbit_ones.
  rewrite lt_pow2_bits in H.
  destruct (N.lt_ge_cases i 32) as [L|L].
  - assert (C : i < 8 \/ 8 <= i < 16 \/ 16 <= i < 24 \/ 24 <= i < 32) by lia.
    destruct C as [C|[C|[C|C]]].
    + replace (24 <=? i) with false by lia. replace (16 <=? i) with false by lia.
      replace (8 <=? i) with false by lia. replace (i <? 8) with true by lia.
      cbn. apply andb_true_r.
    + replace (24 <=? i) with false by lia. replace (16 <=? i) with false by lia.
      replace (8 <=? i) with true by lia. replace (i <? 8 + 8) with true by lia.
      replace (i <? 8) with false by lia. rewrite andb_false_r, orb_false_r. cbn [andb orb].
      replace (i - 8 + 8) with i by lia. reflexivity.
    + replace (24 <=? i) with false by lia. replace (16 <=? i) with true by lia.
      replace (8 <=? i) with true by lia. replace (i <? 16 + 8) with true by lia.
      replace (i <? 8 + 8) with false by lia.
      replace (i <? 8) with false by lia. rewrite andb_false_r, !orb_false_r. cbn [andb orb].
      replace (i - 16 + 16) with i by lia. rewrite ?andb_false_r, ?orb_false_r. reflexivity.
    + replace (24 <=? i) with true by lia. replace (16 <=? i) with true by lia.
      replace (8 <=? i) with true by lia. replace (i <? 24 + 8) with true by lia.
      replace (i <? 16 + 8) with false by lia. replace (i <? 8 + 8) with false by lia.
      replace (i <? 8) with false by lia. rewrite andb_false_r, !orb_false_r. cbn [andb orb].
      replace (i - 24 + 24) with i by lia. rewrite ?andb_false_r, ?orb_false_r. reflexivity.
  - rewrite (H i L). replace (i <? 24 + 8) with false by lia. replace (i <? 16 + 8) with false by lia.
    replace (i <? 8 + 8) with false by lia. rewrite !andb_false_r. reflexivity.
Qed.

Lemma be_words_bytes ws : Forall (fun w => w < 2 ^ 32) ws ->
  be_words (flat_map be_bytes ws) = Ok ws.
Proof.
  induction 1 as [|w ws Hw Hws IH]; [reflexivity|].
  cbn [flat_map]. pose proof (be_word_bytes w (flat_map be_bytes ws) Hw) as E.
  unfold be_bytes in E at 1 |- * at 1. cbn [app] in E |- *. cbn [be_words].
  rewrite E. cbn [obind]. rewrite IH. reflexivity.
Qed.

(** ** Streams *)
Lemma overwrite_end l bs : overwrite (length l) bs l = l ++ bs.
Proof.
  induction l as [|x l IH]; cbn [length overwrite app].
  - rewrite skipn_nil. apply app_nil_r.
  - rewrite IH. reflexivity.
Qed.

Lemma overwrite_mid a b c bs : length b = length bs ->
  overwrite (length a) bs (a ++ b ++ c) = a ++ bs ++ c.
Proof.
  intros H. induction a as [|x a IH]; cbn [length overwrite app].
  - rewrite <- H, skipn_app, Nat.sub_diag, skipn_all. reflexivity.
  - rewrite IH. reflexivity.
Qed.

(** A regular file positioned at its end. *)
Definition file_at_end (bs : list N) : stream :=
  {| st_kind := Seekable; st_bytes := bs; st_pos := length bs; st_fail := false |}.

Lemma st_write_end bs l : st_write bs (file_at_end l) = file_at_end (l ++ bs).
Proof.
  unfold st_write, file_at_end. cbn. rewrite overwrite_end. f_equal. rewrite app_length. lia.
Qed.

Lemma fold_write_end ws : forall l,
  fold_left (fun o w => st_write (be_bytes w) o) ws (file_at_end l) =
  file_at_end (l ++ flat_map be_bytes ws).
Proof.
  induction ws as [|w ws IH]; intros l; cbn [fold_left flat_map].
  - rewrite app_nil_r. reflexivity.
  - rewrite st_write_end, IH, app_assoc. reflexivity.
Qed.

Lemma flat_be_length ws : length (flat_map be_bytes ws) = (4 * length ws)%nat.
Proof. induction ws as [|w ws IH]; [reflexivity|]. cbn [flat_map length]. rewrite app_length, IH. cbn. lia. Qed.

(** The header written, without the length. *)
Definition raw_header (part_name source_name generator_name date time : text) : list N :=
  [0x0; 0x9; 0x0f; 0xf0; 0x0f; 0xf0; 0x0f; 0xf0; 0x0f; 0xf0; 0x00; 0x00; 0x01; 97]
  ++ tlv_field (source_name ++ tx ";Generator=" ++ generator_name)
  ++ [98] ++ tlv_field part_name
  ++ [99] ++ tlv_field date
  ++ [100] ++ tlv_field time
  ++ [101].

Lemma create_header_split part source gen date time :
  create_header part source gen date time = raw_header part source gen date time ++ [0; 0; 0; 0].
Proof. unfold create_header, raw_header. rewrite <- !app_assoc. reflexivity. Qed.

(** What ends up in a regular file. *)
Lemma write_bitstream_file fuel ks part source gen date time l :
  (hdr_len + length (packets_words ks) + 1 <= fuel)%nat ->
  exists s,
    write_bitstream fuel ks part source gen date time (file_at_end l) = Ok s /\
    st_fail s = false /\
    st_bytes s = l ++ raw_header part source gen date time
                 ++ be_bytes (u32 (4 * (N.of_nat hdr_len + len_N (packets_words ks))))
                 ++ flat_map be_bytes (writer_header ++ packets_words ks).
Proof.
  intros Hf. unfold write_bitstream. rewrite writer_words_enough by assumption. cbn [obind].
  rewrite st_write_end, fold_write_end. set (hdr := create_header part source gen date time).
  set (ws := writer_header ++ packets_words ks).
  assert (T1 : st_tellp (file_at_end (l ++ hdr)) = Z.of_nat (length (l ++ hdr))) by reflexivity.
  assert (T2 : st_tellp (file_at_end ((l ++ hdr) ++ flat_map be_bytes ws)) =
               Z.of_nat (length ((l ++ hdr) ++ flat_map be_bytes ws))) by reflexivity.
  rewrite T1, T2.
  assert (Hh : hdr = raw_header part source gen date time ++ [0; 0; 0; 0]) by apply create_header_split.
  set (raw := raw_header part source gen date time) in *.
  assert (Len : (Z.of_nat (length ((l ++ hdr) ++ flat_map be_bytes ws)) -
                 Z.of_nat (length (l ++ hdr)))%Z = Z.of_N (4 * len_N ws)).
  { rewrite (app_length (l ++ hdr)), flat_be_length. unfold len_N. lia. }
  rewrite Len.
  assert (Pos : (Z.of_nat (length (l ++ hdr)) - 4)%Z = Z.of_nat (length (l ++ raw))).
  { rewrite Hh, !app_length. cbn [length]. lia. }
  rewrite Pos.
  eexists. split; [reflexivity|].
  unfold st_seekp, file_at_end. cbn [st_fail st_kind].
  replace (Z.of_nat (length (l ++ raw)) <? 0)%Z with false by lia.
  unfold st_write. cbn [st_fail st_kind st_pos st_bytes].
  split; [reflexivity|]. rewrite Nat2Z.id.
  rewrite Hh. rewrite <- !app_assoc. rewrite (app_assoc l raw). rewrite overwrite_mid by reflexivity.
  rewrite <- !app_assoc. do 3 f_equal. f_equal.
  change (2 ^ 32)%Z with (Z.of_N (2 ^ 32)). rewrite <- N2Z.inj_mod, N2Z.id. unfold u32.
  f_equal. unfold len_N, ws. rewrite app_length. fold hdr_len. lia.
Qed.

Lemma tlv_field_short t : len_N t + 1 < 65536 -> tlv_field t = field t.
Proof.
  intros H. unfold tlv_field, field, be16. fold (len_N t). change (length_N t) with (len_N t).
  unfold u8. rewrite N.shiftr_div_pow2. change (2 ^ 8) with 256.
  rewrite (N.mod_small ((len_N t + 1) / 256)).
  - reflexivity.
  - apply N.div_lt_upper_bound; lia.
Qed.

Lemma raw_header_short part source gen date time :
  len_N (source ++ tx ";Generator=" ++ gen) + 1 < 65536 -> len_N part + 1 < 65536 ->
  len_N date + 1 < 65536 -> len_N time + 1 < 65536 ->
  raw_header part source gen date time = bit_header source gen part date time.
Proof.
  intros H1 H2 H3 H4. unfold raw_header, bit_header. rewrite !tlv_field_short by assumption.
  reflexivity.
Qed.

Lemma flat_be32 ws : Forall (fun w => w < 2 ^ 32) ws -> flat_map be_bytes ws = flat_map be32 ws.
Proof.
  induction 1 as [|w ws Hw Hws IH]; [reflexivity|]. cbn [flat_map].
  rewrite be_bytes_be32, IH by assumption. reflexivity.
Qed.

Definition packet_words_ok (k : packet) : Prop := Forall (fun w => w < 2 ^ 32) (pk_data k).

Lemma packets_words_ok ks : Forall packet_words_ok ks ->
  Forall (fun w => w < 2 ^ 32) (packets_words ks).
Proof.
  induction 1 as [|k ks Hk Hks IH]; [constructor|]. unfold packets_words in *. cbn [flat_map].
  apply Forall_app. split; [|assumption]. constructor; [apply packet_header_lt|assumption].
Qed.

Lemma writer_header_ok : Forall (fun w => w < 2 ^ 32) writer_header.
Proof. repeat constructor. Qed.

Lemma write_bitstream_bit_file fuel ks part source gen date time :
  (hdr_len + length (packets_words ks) + 1 <= fuel)%nat ->
  Forall packet_words_ok ks ->
  len_N (source ++ tx ";Generator=" ++ gen) + 1 < 65536 -> len_N part + 1 < 65536 ->
  len_N date + 1 < 65536 -> len_N time + 1 < 65536 ->
  4 * (13 + len_N (packets_words ks)) < 2 ^ 32 ->
  exists s,
    write_bitstream fuel ks part source gen date time (file_at_end []) = Ok s /\
    st_fail s = false /\
    st_bytes s = bit_file source gen part date time (sync_preamble ++ packets_words ks).
Proof.
  intros Hf Hw H1 H2 H3 H4 H5.
  destruct (write_bitstream_file fuel ks part source gen date time [] Hf) as (s & E & F & B).
  exists s. split; [assumption|]. split; [assumption|]. rewrite B. cbn [app].
  rewrite raw_header_short by assumption. unfold bit_file.
  change (N.of_nat hdr_len) with 13. unfold u32. rewrite (N.mod_small _ _ H5).
  rewrite be_bytes_be32 by assumption.
  rewrite flat_be32.
  - do 3 f_equal. unfold len_N. rewrite app_length. cbn [length sync_preamble app repeat]. lia.
  - apply Forall_app. split; [apply writer_header_ok|apply packets_words_ok; assumption].
Qed.
