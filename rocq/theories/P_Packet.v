(** Properties C14-C16, C20-C22: packets, word stream, container reading. *)
From Verif Require Import Base BitOps Frame Packet Writer Reader BaseFacts BitOpsFacts FrameFacts
  PacketFacts ContainerSpec WriterFacts ReaderFacts.
From Coq Require Import ZifyBool ZifyN ZifyNat.

(** ** C14 *)
(** The header word, as a number: type in bits 31:29, opcode 28:27, register 26:13, word
    count 10:0 (type 1) or 26:0 (type 2). *)
Theorem C14_header_layout :
  forall op addr data, op < 4 -> addr < 2 ^ 14 ->
    (len_N data < 2 ^ 11 ->
     packet_header {| pk_type := 1; pk_op := op; pk_addr := addr; pk_data := data |} =
     1 * 2 ^ 29 + op * 2 ^ 27 + addr * 2 ^ 13 + len_N data) /\
    (len_N data < 2 ^ 27 ->
     packet_header {| pk_type := 2; pk_op := op; pk_addr := addr; pk_data := data |} =
     2 * 2 ^ 29 + op * 2 ^ 27 + len_N data).
Proof.
  intros op addr data Ho Ha.
  assert (F0 : forall t, t < 8 -> bit_field_set 32 0 31 29 t = t * 2 ^ (28 + 1)).
  { intros t Ht. change 0 with (0 * 2 ^ (31 + 1)) at 1. rewrite field_set_fresh by lia.
    rewrite N.mod_small by exact Ht. reflexivity. }
  assert (F1 : forall t, bit_field_set 32 (t * 2 ^ (28 + 1)) 28 27 op = (t * 4 + op) * 2 ^ 27).
  { intros t. rewrite field_set_fresh by lia. rewrite (N.mod_small op) by exact Ho. reflexivity. }
  split; intros Hl; unfold packet_header; cbn [pk_type pk_op pk_addr pk_data]; change (length_N data) with (len_N data).
  - change (1 =? 0) with false. change (1 =? 1) with true. cbv iota zeta.
    rewrite F0, F1 by reflexivity. change (2 ^ 27) with (2 ^ (26 + 1)).
    rewrite field_set_fresh by lia. rewrite (N.mod_small addr) by exact Ha.
    change (2 ^ (26 - 13 + 1)) with (2 ^ 14).
    replace ((1 * 4 + op) * 2 ^ 14 + addr) with (1 * ((1 * 4 + op) * 2 ^ 14 + addr)) by lia.
    replace (1 * ((1 * 4 + op) * 2 ^ 14 + addr) * 2 ^ 13) with
      (4 * ((1 * 4 + op) * 2 ^ 14 + addr) * 2 ^ (10 + 1)) by (change (2 ^ (10 + 1)) with 2048; change (2 ^ 13) with 8192; lia).
    rewrite field_set_fresh by lia. rewrite (N.mod_small (len_N data)) by exact Hl.
    change (2 ^ (10 - 0 + 1)) with 2048. change (2 ^ 0) with 1. change (2 ^ 14) with 16384.
    change (2 ^ 13) with 8192. change (2 ^ 29) with 536870912. change (2 ^ (26 + 1)) with 134217728. lia.
  - change (2 =? 0) with false. change (2 =? 1) with false. change (2 =? 2) with true. cbv iota zeta.
    rewrite F0, F1 by reflexivity. change (2 ^ 27) with (2 ^ (26 + 1)) at 1.
    rewrite field_set_fresh by lia. rewrite (N.mod_small (len_N data)) by exact Hl.
    change (2 ^ (26 - 0 + 1)) with 134217728. change (2 ^ 0) with 1. change (2 ^ 27) with 134217728.
    change (2 ^ 29) with 536870912. lia.
Qed.
Print Assumptions C14_header_layout.

Theorem C14_type1_round_trip :
  forall op addr data rest prev, op < 4 -> addr < 2 ^ 14 -> len_N data < 2 ^ 11 ->
    let k := {| pk_type := 1; pk_op := op; pk_addr := addr; pk_data := data |} in
    init_with_words (packet_header k :: data ++ rest) prev = (rest, Some k).
Proof.
  intros op addr data rest prev Ho Ha Hl k. apply (packet_parse prev k rest).
  split; [assumption|]. right. left. repeat split; assumption.
Qed.
Print Assumptions C14_type1_round_trip.

(** A type 2 packet takes its register from the packet before it. *)
Theorem C14_type2_round_trip :
  forall op q data rest, op < 4 -> len_N data < 2 ^ 27 ->
    let k := {| pk_type := 2; pk_op := op; pk_addr := pk_addr q; pk_data := data |} in
    init_with_words (packet_header k :: data ++ rest) (Some q) = (rest, Some k).
Proof.
  intros op q data rest Ho Hl k. apply (packet_parse (Some q) k rest).
  split; [assumption|]. right. right. split; [reflexivity|]. split; [assumption|].
  exists q. split; reflexivity.
Qed.
Print Assumptions C14_type2_round_trip.

Example C14_case :
  init_with_words (packet_header (write1 regCMD 7) :: [7] ++ [0xFFFFFFFF]) None =
  ([0xFFFFFFFF], Some (write1 regCMD 7)).
Proof. vm_compute. reflexivity. Qed.

(** The bound on the word count is needed: 2048 words in a type 1 packet are announced as
    none. *)
Theorem C14_count_overflow_refuted :
  exists k rest, pk_type k = 1 /\ pk_op k < 4 /\ pk_addr k < 2 ^ 14 /\
    len_N (pk_data k) = 2 ^ 11 /\
    exists k' rest', init_with_words (packet_header k :: pk_data k ++ rest) None = (rest', Some k') /\
      pk_data k' = [] /\ pk_data k <> [].
Proof.
  exists {| pk_type := 1; pk_op := 2; pk_addr := 2; pk_data := repeat 0 (N.to_nat 2048) |}, [].
  repeat split. eexists. eexists. split; [vm_compute; reflexivity|]. split; [reflexivity|].
  vm_compute. discriminate.
Qed.
Print Assumptions C14_count_overflow_refuted.

(** ** C15 *)
(** One step, on any words and any previous packet: the remainder is a suffix; if a packet
    is returned its data are the words between its header word and the remainder; if none is
    returned the input is unchanged or strictly shorter. *)
Theorem C15_step_stays_inside :
  forall words prev rest pkt, init_with_words words prev = (rest, pkt) ->
    (exists used, words = used ++ rest) /\
    (forall k, pkt = Some k -> exists h, words = h :: pk_data k ++ rest) /\
    (pkt = None -> rest = words \/ (length rest < length words)%nat).
Proof. exact init_with_words_suffix. Qed.
Print Assumptions C15_step_stays_inside.

(** Iterating over any words ends without undefined behaviour, and the packets delivered
    come in order from disjoint pieces of the words. *)
Theorem C15_iteration_ends :
  forall words, exists ks, reader_packets words = Ok ks /\ covers words ks /\
    (fold_right (fun k n => S (length (pk_data k)) + n) 0 ks <= length words)%nat.
Proof.
  intros words. destruct (reader_packets_total words) as (ks & E & C). exists ks.
  split; [assumption|]. split; [assumption|]. clear E.
  induction C as [ws|skip h k ws ks C IH]; [cbn; lia|].
  cbn [fold_right]. rewrite app_length. cbn [length]. rewrite app_length. lia.
Qed.
Print Assumptions C15_iteration_ends.

Example C15_case :
  reader_packets [0xFFFFFFFF; 0x20000000; 0x40000005; 1; 2] = Ok [] /\
  reader_packets [0x20000000; 0x40000005; 1; 2] = Ok [nop_packet] /\
  reader_packets [0x40000001; 1; 0x20000000] = Ok [nop_packet].
Proof. vm_compute. repeat split. Qed.

(** ** C16 *)
Theorem C16_word_stream :
  forall ks, exists fuel0, forall fuel, (fuel0 <= fuel)%nat ->
    writer_words fuel ks =
    Ok (sync_preamble ++ flat_map (fun k => packet_header k :: pk_data k) ks).
Proof.
  intros ks. exists (hdr_len + length (packets_words ks) + 1)%nat. intros fuel Hf.
  apply writer_words_enough. assumption.
Qed.
Print Assumptions C16_word_stream.

(** Whatever the number of steps allowed, a finished run delivered exactly that. *)
Theorem C16_word_stream_unique :
  forall fuel ks ws, writer_words fuel ks = Ok ws ->
    ws = sync_preamble ++ flat_map (fun k => packet_header k :: pk_data k) ks.
Proof. exact writer_words_sound. Qed.
Print Assumptions C16_word_stream_unique.

Example C16_case : writer_words 20 [nop_packet; write1 regCMD 7] =
  Ok (sync_preamble ++ [0x20000000; 0x30008001; 7]).
Proof. vm_compute. reflexivity. Qed.
Example C16_case_empty : writer_words 20 [] = Ok sync_preamble.
Proof. vm_compute. reflexivity. Qed.

(** ** C20 *)
Definition sync_word : list N := [0xAA; 0x99; 0x55; 0x66].

(** Bytes [b0 b1 b2 b3] are the word [b0 * 2^24 + b1 * 2^16 + b2 * 2^8 + b3]. *)
Lemma be_word_value b0 b1 b2 b3 rest : b0 < 256 -> b1 < 256 -> b2 < 256 -> b3 < 256 ->
  exists w, be_word (b0 :: b1 :: b2 :: b3 :: rest) = Ok w /\ w < 2 ^ 32 /\ be32 w = [b0; b1; b2; b3].
Proof.
  intros H0 H1 H2 H3. set (w := b0 * 2 ^ 24 + b1 * 2 ^ 16 + b2 * 2 ^ 8 + b3).
  assert (L : w < 2 ^ 32).
  { unfold w. change (2 ^ 24) with 16777216. change (2 ^ 16) with 65536. change (2 ^ 8) with 256.
    change (2 ^ 32) with 4294967296. lia. }
  assert (E : be32 w = [b0; b1; b2; b3]).
  { unfold be32, w. change (2 ^ 24) with 16777216. change (2 ^ 16) with 65536. change (2 ^ 8) with 256.
    f_equal; [symmetry; apply (N.div_unique _ _ _ (b1 * 65536 + b2 * 256 + b3)); lia|].
    f_equal. { rewrite <- (N.div_unique _ 65536 (b0 * 256 + b1) (b2 * 256 + b3)) by lia.
               symmetry. apply (N.mod_unique _ _ b0); lia. }
    f_equal. { rewrite <- (N.div_unique _ 256 (b0 * 65536 + b1 * 256 + b2) b3) by lia.
               symmetry. apply (N.mod_unique _ _ (b0 * 256 + b1)); lia. }
    f_equal. symmetry. apply (N.mod_unique _ _ (b0 * 65536 + b1 * 256 + b2)); lia. }
  exists w. split; [|split; assumption].
  pose proof (be_word_bytes w rest L) as K. rewrite be_bytes_be32 in K by assumption.
  rewrite E in K. exact K.
Qed.

Lemma be_words_value : forall n bs, (length bs = 4 * n)%nat -> Forall (fun b => b < 256) bs ->
  exists ws, be_words bs = Ok ws /\ flat_map be32 ws = bs /\ Forall (fun w => w < 2 ^ 32) ws.
Proof.
  induction n as [|n IH]; intros bs H B.
  - destruct bs; [|discriminate]. exists []. repeat split. constructor.
  - destruct bs as [|b0 [|b1 [|b2 [|b3 bs]]]]; cbn [length] in H; try lia.
    inversion B as [|? ? B0 B']; subst. inversion B' as [|? ? B1 B'']; subst.
    inversion B'' as [|? ? B2 B3']; subst. inversion B3' as [|? ? B3 Bs]; subst.
    destruct (IH bs) as (ws & E & F & L); [lia|assumption|].
    destruct (be_word_value b0 b1 b2 b3 bs B0 B1 B2 B3) as (w & Ew & Lw & Fw).
    exists (w :: ws). cbn [be_words]. rewrite Ew. cbn [obind]. rewrite E. cbn [obind flat_map].
    rewrite Fw, F. repeat split. constructor; assumption.
Qed.

(** No sync word, no result. *)
Theorem C20_no_sync_word :
  forall bytes, init_with_bytes bytes = Ok None <->
    (forall pre rest, bytes <> pre ++ sync_word ++ rest).
Proof.
  intros bytes. unfold init_with_bytes. destruct (after_sync bytes) as [r|] eqn:E.
  - destruct (after_sync_some bytes r E) as (pre & -> & _). split.
    + destruct (be_words r); cbn; discriminate.
    + intros H. exfalso. apply (H pre r). reflexivity.
  - split; [|reflexivity]. intros _. apply after_sync_none. assumption.
Qed.
Print Assumptions C20_no_sync_word.

(** Decoding starts right after the first occurrence, whatever comes before, and gives the
    big-endian words of the rest. *)
Theorem C20_words_after_first_sync :
  forall pre rest n,
    (forall pre' rest', pre ++ sync_word ++ rest = pre' ++ sync_word ++ rest' ->
       (length pre <= length pre')%nat) ->
    Forall (fun b => b < 256) rest -> (length rest = 4 * n)%nat ->
    exists ws, init_with_bytes (pre ++ sync_word ++ rest) = Ok (Some ws) /\
      flat_map be32 ws = rest /\ Forall (fun w => w < 2 ^ 32) ws.
Proof.
  intros pre rest n Hfirst B L. destruct (be_words_value n rest L B) as (ws & E & F & W).
  exists ws. split; [|split; assumption]. unfold init_with_bytes.
  change sync_word with sync_bytes in *. rewrite after_sync_first by assumption.
  rewrite E. reflexivity.
Qed.
Print Assumptions C20_words_after_first_sync.

Example C20_case : init_with_bytes [1; 0xAA; 0xAA; 0x99; 0x55; 0x66; 0x20; 0; 0; 1] = Ok (Some [0x20000001]).
Proof. vm_compute. reflexivity. Qed.

(** ** C21 *)
(** The claim is false: every buffer whose tail after the sync word is not a whole number
    of words makes the reader read out of bounds. *)
Theorem C21_truncated_tail_refuted :
  forall pre rest,
    (forall pre' rest', pre ++ sync_word ++ rest = pre' ++ sync_word ++ rest' ->
       (length pre <= length pre')%nat) ->
    (length rest mod 4 <> 0)%nat ->
    init_with_bytes (pre ++ sync_word ++ rest) = UB.
Proof.
  intros pre rest Hfirst L. unfold init_with_bytes. change sync_word with sync_bytes in *.
  rewrite after_sync_first by assumption. rewrite (be_words_ub (S (length rest))) by (try assumption; lia).
  reflexivity.
Qed.
Print Assumptions C21_truncated_tail_refuted.

(** What does hold: with a whole number of words, reading is total. *)
Theorem C21_whole_words_safe :
  forall bytes, (forall rest pre, bytes = pre ++ sync_word ++ rest -> (length rest mod 4 = 0)%nat) ->
    exists r, init_with_bytes bytes = Ok r.
Proof.
  intros bytes H. unfold init_with_bytes. destruct (after_sync bytes) as [r|] eqn:E; [|eauto].
  destruct (after_sync_some bytes r E) as (pre & Eb & _).
  specialize (H r pre Eb). apply Nat.mod_divides in H; [|lia]. destruct H as (n & Hn).
  destruct (be_words_ok n r Hn) as (ws & Ew & _). rewrite Ew. cbn. eauto.
Qed.
Print Assumptions C21_whole_words_safe.

Example C21_case : init_with_bytes [0xAA; 0x99; 0x55; 0x66; 0x20] = UB.
Proof. vm_compute. reflexivity. Qed.

(** ** C22 *)
(** Write packets to a regular file, read the file back: the same packets.  Conditions:
    the packets fit their fields, the texts are ASCII and shorter than 43519 bytes (so that
    no sync word hides in the header), and the byte count fits 32 bits. *)
Theorem C22_packets_survive_the_file :
  forall ks part source generator date time,
    packets_fit None ks -> Forall (fun k => Forall (fun w => w < 2 ^ 32) (pk_data k)) ks ->
    ascii_text (source ++ tx ";Generator=" ++ generator) -> ascii_text part ->
    ascii_text date -> ascii_text time ->
    len_N (source ++ tx ";Generator=" ++ generator) + 1 < 0xAA00 -> len_N part + 1 < 0xAA00 ->
    len_N date + 1 < 0xAA00 -> len_N time + 1 < 0xAA00 ->
    4 * (13 + len_N (packets_words ks)) < 2 ^ 32 ->
    exists fuel0, forall fuel, (fuel0 <= fuel)%nat ->
      exists s ws,
        write_bitstream fuel ks part source generator date time (file_at_end []) = Ok s /\
        init_with_bytes (st_bytes s) = Ok (Some ws) /\
        reader_packets ws = Ok ks.
Proof.
  intros ks part source gen date time Hfit Hw A1 A2 A3 A4 L1 L2 L3 L4 H32.
  exists (hdr_len + length (packets_words ks) + 1)%nat. intros fuel Hf.
  destruct (write_bitstream_bit_file fuel ks part source gen date time)
    as (s & E & F & B); try assumption; try lia.
  exists s, (packets_words ks). split; [assumption|]. split.
  - rewrite B. apply bit_file_words; try assumption.
    + change (2 ^ 30) with 1073741824. change (2 ^ 32) with (4 * 1073741824) in H32. lia.
    + apply packets_words_ok. assumption.
  - apply reader_packets_fit. assumption.
Qed.
Print Assumptions C22_packets_survive_the_file.

Example C22_case : packets_fit None
  [nop_packet; write1 regFDRI 5;
   {| pk_type := 2; pk_op := opWrite; pk_addr := regFDRI; pk_data := [1; 2; 0xAA995566] |}].
Proof.
  cbn [packets_fit]. split; [|split; [|split; [|exact I]]].
  - split; [reflexivity|]. right. left. repeat split.
  - split; [reflexivity|]. right. left. repeat split.
  - split; [reflexivity|]. right. right. split; [reflexivity|]. split; [reflexivity|].
    exists (write1 regFDRI 5). split; reflexivity.
Qed.

(** The text conditions are needed: a part name with the bytes of the sync word makes the
    reader start inside the header. *)
Theorem C22_sync_in_name_refuted :
  exists part s ws k,
    write_bitstream 200 [nop_packet] part (tx "src") (tx "gen") (tx "d") (tx "t") (file_at_end []) = Ok s /\
    init_with_bytes (st_bytes s) = Ok (Some ws) /\
    reader_packets ws = Ok [k] /\ k <> nop_packet.
Proof.
  exists (map ascii_of_N [0xAA; 0x99; 0x55; 0x66]). eexists. eexists. eexists.
  split; [vm_compute; reflexivity|]. split; [vm_compute; reflexivity|].
  split; [vm_compute; reflexivity|]. discriminate.
Qed.
Print Assumptions C22_sync_in_name_refuted.
