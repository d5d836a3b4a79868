(** Properties C12, C13, C17-C19, C23-C29: payload, configuration program, container,
    whole encoder and decoder. *)
From Verif Require Import Base BitOps Frame Part Frames Packet Config Writer Reader Encode
  BaseFacts BitOpsFacts FrameFacts PartSpec PartFacts PartFromFacts FramesFacts PacketFacts
  ContainerSpec WriterFacts ReaderFacts ConfigSpec ConfigFacts EncodeSpec EncodeFacts P_Part P_Packet.
From Coq Require Import ZifyBool ZifyN ZifyNat.

(** The concrete case used below: the small device of P_Part.v and a design with two
    frames, one of them with all words equal to the sync word. *)
Definition small_design : list (N * list N) :=
  [(3, repeat 7 101); (address 1 true 0 0 5, repeat 0xAA995566 101)].

Example small_usable : usable_device small_part.
Proof.
  split; [apply small_part_fits|]. split; [eapply C09_regular_no_holes; [apply small_part_fits|apply small_part_regular]|].
  split; [apply C09_case|]. split; [reflexivity|]. apply Nat.leb_le. vm_compute. reflexivity.
Qed.

Lemma repeat_content w : w < 2 ^ 32 -> is_frame_content (repeat w 101).
Proof.
  intros H. split; [apply repeat_length|]. apply Forall_forall. intros x Hx.
  apply (repeat_spec 101) in Hx. subst. assumption.
Qed.

Lemma frame_address_dec dp a : existsb (N.eqb a) (device_frames dp) = true -> is_frame_address dp a.
Proof.
  intros H. apply existsb_exists in H. destruct H as (x & Hx & E). apply N.eqb_eq in E. subst.
  apply device_frames_spec. assumption.
Qed.

Example small_design_ok : design small_part small_design.
Proof.
  split.
  - apply NoDup_cons; [|apply NoDup_cons; [|constructor]]; vm_compute; intuition discriminate.
  - apply Forall_cons; [|apply Forall_cons; [|constructor]]; (split; [apply frame_address_dec; vm_compute; reflexivity|]);
      apply repeat_content; reflexivity.
Qed.

(** ** C12 *)
Theorem C12_payload_layout :
  forall p l fs, walk p 0 l -> map fst fs = l -> Forall (fun a => a < 2 ^ 26) l ->
    type2_data p fs = payload fs.
Proof. intros p l fs Hw Hk Hl. exact (payload_of_walk p 0 l Hw fs Hk Hl). Qed.
Print Assumptions C12_payload_layout.

Theorem C12_payload_length :
  forall fs, Forall (fun kv => length (snd kv) = 101%nat) fs ->
    len_N (payload fs) = 101 * (len_N fs + 2 * row_changes fs + 2).
Proof. exact payload_length. Qed.
Print Assumptions C12_payload_length.

(** For every design of a usable device, the payload emitted is laid out like this, over
    the design's frames completed with zero frames, in address order. *)
Theorem C12_emitted_payload :
  forall dp fd part source date time,
    usable_device dp -> design dp fd ->
    header_text part -> header_text source -> header_text date -> header_text time ->
    exists fuel s fs,
      encode fuel dp part source date time fd (file_at_end []) = Ok s /\
      st_bytes s = bit_file source (tx "fpga-assembler") part date time
        (sync_preamble ++ packets_words (configuration_package (payload fs) (part_from dp))) /\
      StronglySorted N.lt (map fst fs) /\
      (forall a, In a (map fst fs) <-> is_frame_address dp a) /\
      (forall a, content fs a = completed dp fd a) /\
      len_N (payload fs) = 101 * (len_N fs + 2 * row_changes fs + 2).
Proof.
  intros dp fd part source date time U D Hp Hs Hd Ht.
  destruct (encode_decode dp fd part source date time U D Hp Hs Hd Ht)
    as (fuel0 & fs & Hfind & Hc & Hsf & Hk & Hpay & Henc).
  destruct (Henc fuel0 (le_n _)) as (s & E & _ & B & _ & _).
  exists fuel0, s, fs. split; [assumption|]. split; [exact B|]. split; [exact Hsf|].
  split; [assumption|]. split.
  - intros a. rewrite <- Hfind. clear. induction fs as [|[k f] fs IH]; [reflexivity|].
    cbn [content bt_find]. rewrite IH. reflexivity.
  - apply C12_payload_length. eapply Forall_impl; [|exact Hc]. intros kv [H _]. exact H.
Qed.
Print Assumptions C12_emitted_payload.

(** ** C13 *)
Theorem C13_program :
  forall data p,
    register_writes (configuration_package data p) = series7_program (p_idcode p) data /\
    Forall (fun k => pk_op k = 2 \/ (pk_op k = 0 /\ pk_data k = [])) (configuration_package data p).
Proof.
  intros data p. split.
  - reflexivity.
  - unfold configuration_package. repeat (apply Forall_app; split);
      try (apply Forall_forall; intros x Hx; apply repeat_spec in Hx; subst; right; split; reflexivity);
      repeat (apply Forall_cons; [first [left; reflexivity|right; split; reflexivity]|]); apply Forall_nil.
Qed.
Print Assumptions C13_program.

(** The order of the essential steps, and the absence of a CRC check. *)
Theorem C13_order :
  forall data p,
    let ws := register_writes (configuration_package data p) in
    (exists a b c d e f g h,
       ws = a ++ [(4, [7])] ++ b ++ [(12, [p_idcode p])] ++ c ++ [(1, [0]); (4, [1]); (2, []); (2, data)]
            ++ d ++ [(4, [10])] ++ e ++ [(4, [3])] ++ f ++ [(4, [5])] ++ g ++ [(4, [7])] ++ h ++ [(4, [13])] /\
       Forall (fun w => fst w <> 2) (a ++ b ++ c ++ d ++ e ++ f ++ g ++ h)) /\
    Forall (fun w => fst w <> 0) ws.
Proof.
  intros data p ws. split.
  - exists [(17, [0]); (16, [0]); (4, [0])], [(19, [0]); (9, [0x02003fe5]); (14, [0])],
      [(4, [9]); (6, [0x401]); (5, [0x501]); (6, [0]); (24, [0])], [(4, [7])], [], [],
      [(1, [0x3be0000]); (6, [0x501]); (5, [0x501])], [].
    split; [reflexivity|]. repeat constructor; discriminate.
  - assert (E : ws = series7_program (p_idcode p) data) by reflexivity. rewrite E.
    unfold series7_program. repeat (apply Forall_cons; [cbn [fst]; discriminate|]). constructor.
Qed.
Print Assumptions C13_order.

(** The program word by word, with its NOPs. *)
Theorem C13_words :
  forall data p, len_N data < 2 ^ 27 ->
    flat_map (fun k => packet_header k :: pk_data k) (configuration_package data p) = series7_words (p_idcode p) data.
Proof.
  intros data p L. change (flat_map _ (configuration_package data p)) with (packets_words (configuration_package data p)).
  rewrite package_split, !packets_words_app.
  assert (B : packets_words (pkg_before p) = firstn 44 (series7_words (p_idcode p) [])) by reflexivity.
  assert (A : packets_words pkg_after = skipn 46 (series7_words 0 [])) by reflexivity.
  assert (D : packets_words [fdri1; fdri2 data] = 0x30004000 :: 0x50000000 + N.of_nat (length data) :: data).
  { change (packets_words [fdri1; fdri2 data]) with
      (0x30004000 :: packet_header {| pk_type := 2; pk_op := 2; pk_addr := 2; pk_data := data |} :: data ++ []). rewrite app_nil_r.
    rewrite (proj2 (C14_header_layout 2 2 data ltac:(reflexivity) ltac:(reflexivity)) L). reflexivity. }
  rewrite B, A, D. unfold series7_words. generalize (N.of_nat (length data)). intros n. reflexivity.
Qed.
Print Assumptions C13_words.

(** ** C17 *)
Theorem C17_container :
  forall ks part source generator date time,
    Forall (fun k => Forall (fun w => w < 2 ^ 32) (pk_data k)) ks ->
    len_N (source ++ tx ";Generator=" ++ generator) < 65535 -> len_N part < 65535 ->
    len_N date < 65535 -> len_N time < 65535 ->
    4 * (13 + len_N (flat_map (fun k => packet_header k :: pk_data k) ks)) < 2 ^ 32 ->
    exists fuel0, forall fuel, (fuel0 <= fuel)%nat ->
      exists s,
        write_bitstream fuel ks part source generator date time (file_at_end []) = Ok s /\
        st_fail s = false /\
        st_bytes s = bit_file source generator part date time
          (sync_preamble ++ flat_map (fun k => packet_header k :: pk_data k) ks).
Proof.
  intros ks part source gen date time Hw L1 L2 L3 L4 H32.
  exists (hdr_len + length (packets_words ks) + 1)%nat. intros fuel Hf.
  apply write_bitstream_bit_file; try assumption; lia.
Qed.
Print Assumptions C17_container.

Example C17_case :
  match write_bitstream 100 [write1 regCMD 7] (tx "xc7") (tx "a.fasm") (tx "g") (tx "d") (tx "t") (file_at_end []) with
  | Ok s => list_N_eqb (st_bytes s)
      (bit_file (tx "a.fasm") (tx "g") (tx "xc7") (tx "d") (tx "t") (sync_preamble ++ [0x30008001; 7]))
  | _ => false end = true.
Proof. vm_compute. reflexivity. Qed.

(** ** C18 *)
(** The claim is false: whenever the part name has 65535 bytes or more, the two length
    bytes in front of it do not state its length; the writer still succeeds. *)
Theorem C18_long_field_refuted :
  forall ks part source generator date time, 65535 <= len_N part ->
    exists fuel s pre x y post,
      write_bitstream fuel ks part source generator date time (file_at_end []) = Ok s /\
      st_bytes s = pre ++ [98; x; y] ++ bytes_of_text part ++ [0] ++ post /\
      x < 256 /\ y < 256 /\ x * 256 + y = (len_N part + 1) mod 65536 /\
      x * 256 + y <> len_N part + 1.
Proof.
  intros ks part source gen date time H.
  exists (hdr_len + length (packets_words ks) + 1)%nat.
  destruct (write_bitstream_file (hdr_len + length (packets_words ks) + 1) ks part source gen date time []
    (le_n _)) as (s & E & _ & B).
  set (n := len_N part + 1) in *.
  exists s. unfold raw_header in B.
  exists ([0x0; 0x9; 0x0f; 0xf0; 0x0f; 0xf0; 0x0f; 0xf0; 0x0f; 0xf0; 0x00; 0x00; 0x01; 97]
          ++ tlv_field (source ++ tx ";Generator=" ++ gen)), (u8 (N.shiftr n 8)), (u8 n).
  eexists. split; [exact E|]. split.
  - rewrite B. rewrite <- !app_assoc. cbn [app]. unfold tlv_field at 2.
    change (length_N part + 1) with n. rewrite <- !app_assoc. cbn [app]. reflexivity.
  - unfold u8. rewrite N.shiftr_div_pow2. change (2 ^ 8) with 256.
    assert (K : n / 256 mod 256 * 256 + n mod 256 = n mod 65536).
    { change 65536 with (256 * 256). rewrite N.mod_mul_r by discriminate. lia. }
    split; [apply N.mod_lt; discriminate|]. split; [apply N.mod_lt; discriminate|].
    split; [exact K|]. rewrite K. pose proof (N.mod_lt n 65536). lia.
Qed.
Print Assumptions C18_long_field_refuted.

(** ** C19 *)
(** The claim is false: on a pipe the encoder reports success, but the length field is 0
    whatever was written. *)
Definition pipe : stream := {| st_kind := Pipe; st_bytes := []; st_pos := 0; st_fail := false |}.

Lemma pipe_words ws : forall s, st_kind s = Pipe -> st_fail s = false ->
  let s' := fold_left (fun o w => st_write (be_bytes w) o) ws s in
  st_kind s' = Pipe /\ st_fail s' = false /\ st_bytes s' = st_bytes s ++ flat_map be_bytes ws.
Proof.
  induction ws as [|w ws IH]; intros s Hk Hf; cbn [fold_left flat_map].
  - rewrite app_nil_r. auto.
  - destruct (IH (st_write (be_bytes w) s)) as (A & B & C).
    + unfold st_write. rewrite Hf, Hk. reflexivity.
    + unfold st_write. rewrite Hf, Hk. reflexivity.
    + split; [assumption|]. split; [assumption|]. rewrite C. unfold st_write. rewrite Hf, Hk.
      cbn [st_bytes]. rewrite <- app_assoc. reflexivity.
Qed.

Theorem C19_pipe_refuted :
  forall ks part source generator date time,
    exists fuel s header,
      write_bitstream fuel ks part source generator date time pipe = Ok s /\
      st_bytes s = header ++ [101; 0; 0; 0; 0]
        ++ flat_map be_bytes (sync_preamble ++ packets_words ks) /\
      (52 <= length (flat_map be_bytes (sync_preamble ++ packets_words ks)))%nat.
Proof.
  intros ks part source gen date time.
  exists (hdr_len + length (packets_words ks) + 1)%nat. unfold write_bitstream.
  rewrite writer_words_enough by lia. cbn [obind].
  set (hdr := create_header part source gen date time).
  set (ws := writer_header ++ packets_words ks).
  assert (E0 : st_write hdr pipe = {| st_kind := Pipe; st_bytes := hdr; st_pos := length hdr; st_fail := false |})
    by reflexivity.
  rewrite E0. destruct (pipe_words ws {| st_kind := Pipe; st_bytes := hdr; st_pos := length hdr; st_fail := false |}
    eq_refl eq_refl) as (A & B & C).
  set (s1 := fold_left _ ws _) in *. clearbody s1. cbn [st_bytes] in C.
  eexists. eexists. split; [reflexivity|]. split.
  - unfold st_seekp. rewrite B, A. unfold st_write. cbn [st_fail st_bytes]. rewrite C.
    unfold hdr, ws. unfold create_header. change writer_header with sync_preamble.
    instantiate (1 := [0x0; 0x9; 0x0f; 0xf0; 0x0f; 0xf0; 0x0f; 0xf0; 0x0f; 0xf0; 0x00; 0x00; 0x01; 97]
      ++ tlv_field (source ++ tx ";Generator=" ++ gen) ++ [98] ++ tlv_field part
      ++ [99] ++ tlv_field date ++ [100] ++ tlv_field time).
    rewrite <- !app_assoc. reflexivity.
  - rewrite flat_be_length, app_length. cbn [length sync_preamble app repeat]. lia.
Qed.
Print Assumptions C19_pipe_refuted.

(** On a file opened for appending the length field also stays 0 and the length lands at
    the end. *)
Theorem C19_append_refuted :
  exists fuel s header data,
    write_bitstream fuel [nop_packet] (tx "p") (tx "s") (tx "g") (tx "d") (tx "t")
      {| st_kind := Append; st_bytes := []; st_pos := 0; st_fail := false |} = Ok s /\
    st_bytes s = header ++ [101; 0; 0; 0; 0] ++ data ++ [0; 0; 0; 56] /\ length data = 56%nat.
Proof.
  exists 100%nat. eexists.
  exists (removelast (raw_header (tx "p") (tx "s") (tx "g") (tx "d") (tx "t"))),
    (flat_map be_bytes (sync_preamble ++ packets_words [nop_packet])).
  split; [vm_compute; reflexivity|]. split; vm_compute; reflexivity.
Qed.
Print Assumptions C19_append_refuted.

(** ** C23 *)
(** Encoding a design and decoding the file gives the design completed with zero frames:
    every frame at its own address, every other frame of the device zero, nothing else. *)
Theorem C23_frames_survive :
  forall dp fd part source date time,
    usable_device dp -> design dp fd ->
    header_text part -> header_text source -> header_text date -> header_text time ->
    exists fuel0 fs,
      (forall a, bt_find a fs = completed dp fd a) /\
      forall fuel, (fuel0 <= fuel)%nat ->
        exists s, encode fuel dp part source date time fd (file_at_end []) = Ok s /\
          decode dp (st_bytes s) = Ok (Some fs).
Proof.
  intros dp fd part source date time U D Hp Hs Hd Ht.
  destruct (encode_decode dp fd part source date time U D Hp Hs Hd Ht)
    as (fuel0 & fs & Hfind & _ & _ & _ & _ & Henc).
  exists fuel0, fs. split; [assumption|]. intros fuel Hf.
  destruct (Henc fuel Hf) as (s & E & _ & _ & _ & Dc). eauto.
Qed.
Print Assumptions C23_frames_survive.

Lemma encode_mono dp fd part source date time out fuel fuel' s : (fuel <= fuel')%nat ->
  encode fuel dp part source date time fd out = Ok s ->
  encode fuel' dp part source date time fd out = Ok s.
Proof.
  intros L H. unfold encode in *. apply obind_Ok in H. destruct H as (fs & Ha & H).
  rewrite (add_missing_fuel_mono _ _ _ _ _ L Ha). cbn [obind].
  unfold write_bitstream in *. apply obind_Ok in H. destruct H as (ws & Hw & H).
  rewrite (writer_words_mono _ _ _ _ L Hw). exact H.
Qed.

(** The same for any finished run: a successful encode decodes to the completed design. *)
Theorem C23_any_run :
  forall dp fd part source date time fuel s,
    usable_device dp -> design dp fd ->
    header_text part -> header_text source -> header_text date -> header_text time ->
    encode fuel dp part source date time fd (file_at_end []) = Ok s ->
    exists fs, decode dp (st_bytes s) = Ok (Some fs) /\ forall a, bt_find a fs = completed dp fd a.
Proof.
  intros dp fd part source date time fuel s U D Hp Hs Hd Ht E.
  destruct (C23_frames_survive dp fd part source date time U D Hp Hs Hd Ht) as (fuel0 & fs & Hf & Henc).
  destruct (Henc (fuel0 + fuel)%nat) as (s' & E' & Dc); [lia|].
  apply (encode_mono _ _ _ _ _ _ _ _ (fuel0 + fuel)%nat) in E; [|lia].
  assert (s' = s) by congruence. subst s'. eauto.
Qed.
Print Assumptions C23_any_run.

(** ** C24 *)
Theorem C24_no_bit_lost :
  forall dp fd fd' part part' source source' date date' time time' fuel fuel' s s' a,
    usable_device dp -> design dp fd -> design dp fd' ->
    header_text part -> header_text source -> header_text date -> header_text time ->
    header_text part' -> header_text source' -> header_text date' -> header_text time' ->
    encode fuel dp part source date time fd (file_at_end []) = Ok s ->
    encode fuel' dp part' source' date' time' fd' (file_at_end []) = Ok s' ->
    completed dp fd a <> completed dp fd' a ->
    st_bytes s <> st_bytes s'.
Proof.
  intros dp fd fd' part part' source source' date date' time time' fuel fuel' s s' a U D D'
    Hp Hs Hd Ht Hp' Hs' Hd' Ht' E E' Hne Heq.
  destruct (C23_any_run dp fd part source date time fuel s U D Hp Hs Hd Ht E) as (fs & Dc & Hf).
  destruct (C23_any_run dp fd' part' source' date' time' fuel' s' U D' Hp' Hs' Hd' Ht' E') as (fs' & Dc' & Hf').
  rewrite Heq in Dc. apply Hne. rewrite <- Hf, <- Hf'. congruence.
Qed.
Print Assumptions C24_no_bit_lost.

Example C24_case : completed small_part small_design 3 <> completed small_part [] 3.
Proof. vm_compute. discriminate. Qed.

(** ** C25 *)
(** The claim is false: one frame at an address between two columns of the device moves
    the frames after it. *)
Definition tiny_part : db_part :=
  {| dp_idcode := 1; dp_bottom_rows := []; dp_top_rows := [[(BusCLBIOCLK, [2; 2])]]; dp_iobanks := [] |}.

Example tiny_usable : usable_device tiny_part.
Proof.
  assert (F : part_fits tiny_part) by (apply part_fitsb_sound; reflexivity).
  split; [exact F|]. split.
  - apply (C09_regular_no_holes tiny_part [BusCLBIOCLK]); [exact F|]. split; [discriminate|].
    intros [|] row; cbn; [intros []|]. intros [<-|[]]. split; [intros t; cbn; reflexivity|].
    intros t cols [E|[]]. injection E as <- <-. split; [discriminate|repeat constructor].
  - split; [apply frame_address_dec; reflexivity|]. split; [reflexivity|].
    apply Nat.leb_le. vm_compute. reflexivity.
Qed.

Theorem C25_foreign_frame_refuted :
  exists dp fd a f, usable_device dp /\ NoDup (map fst fd) /\
    Forall (fun kv => is_frame_content (snd kv)) fd /\
    is_frame_address dp a /\ content fd a = Some f /\
    exists fuel s fs,
      encode fuel dp (tx "p") (tx "s") (tx "d") (tx "t") fd (file_at_end []) = Ok s /\
      decode dp (st_bytes s) = Ok (Some fs) /\ bt_find a fs <> Some f.
Proof.
  exists tiny_part, [(5, repeat 1 101); (128, repeat 2 101)], 128, (repeat 2 101).
  split; [apply tiny_usable|].
  split; [apply NoDup_cons; [|apply NoDup_cons; [|constructor]]; vm_compute; intuition discriminate|].
  split; [apply Forall_cons; [|apply Forall_cons; [|constructor]]; apply repeat_content; reflexivity|].
  split; [apply frame_address_dec; reflexivity|]. split; [reflexivity|].
  exists 2000%nat. eexists. eexists. split; [vm_compute; reflexivity|].
  split; [vm_compute; reflexivity|]. vm_compute. discriminate.
Qed.
Print Assumptions C25_foreign_frame_refuted.

(** ** C26 *)
Theorem C26_foreign_device_rejected :
  forall p ks, init_with_packets p ks = None <->
    exists k d ds, In k ks /\ pk_op k = 2 /\ pk_addr k = 12 /\ pk_data k = d :: ds /\ d <> p_idcode p.
Proof.
  intros p ks. rewrite init_none, Exists_exists. unfold foreign_idcode. split.
  - intros (k & Hk & Ho & Ha & d & ds & Hd & Hne). exists k, d, ds. auto.
  - intros (k & d & ds & Hk & Ho & Ha & Hd & Hne). exists k. repeat split; eauto.
Qed.
Print Assumptions C26_foreign_device_rejected.

(** End to end: a bitstream made for one device is rejected by the decoder of another. *)
Theorem C26_other_device :
  forall dp dp' fd part source date time fuel s,
    usable_device dp -> design dp fd ->
    header_text part -> header_text source -> header_text date -> header_text time ->
    encode fuel dp part source date time fd (file_at_end []) = Ok s ->
    dp_idcode dp' <> dp_idcode dp ->
    decode dp' (st_bytes s) = Ok None.
Proof.
  intros dp dp' fd part source date time fuel s U D Hp Hs Hd Ht E Hne.
  destruct (encode_decode dp fd part source date time U D Hp Hs Hd Ht)
    as (fuel0 & fs & Hfind & _ & _ & _ & _ & Henc).
  destruct (Henc (fuel0 + fuel)%nat) as (s' & E' & _ & _ & (ws & _ & Hi & Hr) & _); [lia|].
  apply (encode_mono _ _ _ _ _ _ _ _ (fuel0 + fuel)%nat) in E; [|lia].
  assert (s' = s) by congruence. subst s'.
  unfold decode. rewrite Hi. cbn [obind]. rewrite Hr. cbn [obind]. f_equal.
  apply C26_foreign_device_rejected.
  exists (write1 regIDCODE (dp_idcode dp)), (dp_idcode dp), [].
  split; [|repeat split; cbn [part_from p_idcode]; congruence].
  rewrite package_split. apply in_or_app. left. unfold pkg_before. apply in_or_app. left.
  cbn [In part_from p_idcode]. do 11 right. left. reflexivity.
Qed.
Print Assumptions C26_other_device.

(** ** C27 *)
(** [reached p a b]: [b] is [a] or comes after it on the walk of the part. *)
Inductive reached (p : part) (a : N) : N -> Prop :=
| reached_refl : reached p a a
| reached_next b c : reached p a b -> part_next p b = Some c -> reached p a c.

(** A decoded frame: its words are 101 consecutive words of the data of one FDRI write,
    starting at a multiple of 101 (the last piece of a write may be shorter). *)
Definition from_fdri (ks : list packet) (f : list N) : Prop :=
  exists k n before after, In k ks /\ pk_op k = 2 /\ pk_addr k = 2 /\
    pk_data k = before ++ f ++ after /\ length before = (101 * n)%nat /\
    (length f = 101%nat \/ (after = [] /\ (0 < length f < 101)%nat)).

Definition far_start (ks : list packet) (d : N) : Prop :=
  d = 0 \/ exists k ds, In k ks /\ pk_op k = 2 /\ pk_addr k = 1 /\ pk_data k = d :: ds.

Lemma some_inj {A} (a b : A) : Some a = Some b -> a = b.
Proof. congruence. Qed.

Section Decoded.
  Variable p : part.
  Variable ks : list packet.
  Definition good_addr (a : N) : Prop := exists d, far_start ks d /\ reached p d a.
  Definition good_frames (fs : frame_map) : Prop :=
    bt_sorted fs /\ forall a f, bt_find a fs = Some f -> good_addr a /\ from_fdri ks f.
  Definition good_state (s : cfg_state) : Prop :=
    far_start ks (cs_far s) /\ good_addr (cs_cur s) /\ good_frames (cs_frames s).

  Lemma fdri_good k : In k ks -> pk_op k = 2 -> pk_addr k = 2 -> forall fuel n before data cur fs,
    pk_data k = before ++ data -> length before = (101 * n)%nat ->
    good_addr cur -> good_frames fs ->
    good_addr (fst (fdri_loop fuel p data cur fs)) /\ good_frames (snd (fdri_loop fuel p data cur fs)).
  Proof.
    intros Hk Ho Ha. induction fuel as [|fuel IH]; intros n before data cur fs Hd Hb Hc Hf;
      cbn [fdri_loop]; [split; assumption|].
    destruct data as [|w ws]; [split; assumption|]. set (data := w :: ws) in *.
    assert (Hset : good_frames (bt_set cur (firstn kWordsPerFrame data) fs)).
    { destruct Hf as [Hs Hf]. split; [apply bt_set_sorted; assumption|].
      intros a f. rewrite bt_find_set by assumption. destruct (N.eqb_spec a cur) as [->|Ne].
      - intros E0. assert (E : firstn kWordsPerFrame data = f) by congruence. clear E0.
        split; [assumption|].
        exists k, n, before, (skipn kWordsPerFrame data).
        split; [assumption|]. split; [assumption|]. split; [assumption|].
        split; [rewrite Hd, <- E, firstn_skipn; reflexivity|]. split; [assumption|].
        subst f. rewrite firstn_length. change kWordsPerFrame with 101%nat.
        destruct (Nat.le_gt_cases 101 (length data)) as [L|L].
        + left. lia.
        + right. split; [apply skipn_all2; lia|]. unfold data in *. cbn [length] in *. lia.
      - apply Hf. }
    destruct (part_next p cur) as [a'|] eqn:En; [|split; assumption].
    assert (Hc' : good_addr a').
    { destruct Hc as (d & Hd0 & Hr). exists d. split; [assumption|]. eapply reached_next; eassumption. }
    assert (Skip : forall m, m = 101%nat \/ m = 303%nat ->
      exists n' before', pk_data k = before' ++ skipn m data /\
        (skipn m data = [] \/ length before' = (101 * n')%nat)).
    { intros m Hm. exists (n + (if Nat.eqb m 101 then 1 else 3))%nat, (before ++ firstn m data).
      split; [rewrite Hd, <- app_assoc, firstn_skipn; reflexivity|].
      destruct (Nat.le_gt_cases m (length data)) as [L|L].
      - right. rewrite app_length, firstn_length, Hb. destruct Hm as [-> | ->]; cbn [Nat.eqb]; lia.
      - left. apply skipn_all2. lia. }
    match goal with |- context [skipn ?m data] => destruct (Skip m) as (n' & before' & E & [L|L]) end.
    - destruct (row_change cur a'); cbn; tauto.
    - rewrite L. destruct fuel; cbn [fdri_loop]; split; assumption.
    - eapply IH; eassumption.
  Qed.

  Lemma packet_good s s' k : In k ks -> good_state s -> cfg_packet p s k = Some s' -> good_state s'.
  Proof.
    intros Hk (Hfar & Hcur & Hfs). unfold cfg_packet.
    destruct (N.eqb_spec (pk_op k) opWrite) as [Ho|Ho]; cbn [negb];
      [|intros E; apply some_inj in E; subst s'; split; [|split]; assumption].
    destruct (pk_addr k =? regMASK); [destruct (pk_data k); intros E; apply some_inj in E; subst s'; split; [|split| |split]; assumption|].
    destruct (pk_addr k =? regCTL1); [destruct (pk_data k); intros E; apply some_inj in E; subst s'; split; [|split| |split]; assumption|].
    destruct (pk_addr k =? regCMD); [destruct (pk_data k); intros E; apply some_inj in E; subst s'; split; [|split| |split]; assumption|].
    destruct (pk_addr k =? regIDCODE).
    { destruct (pk_data k) as [|d ds]; [intros E; apply some_inj in E; subst s'; split; [|split]; assumption|].
      destruct (negb (d =? p_idcode p)); [discriminate|]. intros E; apply some_inj in E; subst s'; split; [|split]; assumption. }
    destruct (N.eqb_spec (pk_addr k) regFAR) as [Ha|_].
    { destruct (pk_data k) as [|d ds] eqn:Ed; intros E; apply some_inj in E; subst s'; [split; [|split]; assumption|].
      split; [|split; assumption]. cbn [cs_far]. right. exists k, ds. auto. }
    destruct (N.eqb_spec (pk_addr k) regFDRI) as [Ha|_]; [|intros E; apply some_inj in E; subst s'; split; [|split]; assumption].
    assert (Hc : good_addr (if cs_start s then cs_far s else cs_cur s)).
    { destruct (cs_start s); [|assumption]. exists (cs_far s). split; [assumption|constructor]. }
    pose proof (fdri_good k Hk Ho Ha (length (pk_data k)) 0 [] (pk_data k) _ (cs_frames s) eq_refl eq_refl Hc Hfs) as G.
    destruct (fdri_loop _ _ _ _ _) as [c f]. cbn [fst snd] in G. intros E; apply some_inj in E; subst s'.
    split; [assumption|]. exact G.
  Qed.

  Lemma packets_good l : incl l ks -> forall s s', good_state s -> cfg_packets p s l = Some s' -> good_state s'.
  Proof.
    induction l as [|k l IH]; intros Hi s s' G E; cbn [cfg_packets] in E; [congruence|].
    destruct (cfg_packet p s k) as [s1|] eqn:E1; [|discriminate].
    apply (IH (fun x H => Hi x (or_intror H)) s1 s'); [|assumption].
    apply (packet_good s s1 k); try assumption. apply Hi. left. reflexivity.
  Qed.
End Decoded.

Theorem C27_decoded_frames_come_from_fdri :
  forall p ks fs a f, init_with_packets p ks = Some fs -> bt_find a fs = Some f ->
    (exists d, far_start ks d /\ reached p d a) /\ from_fdri ks f.
Proof.
  intros p ks fs a f H Hf. unfold init_with_packets in H.
  destruct (cfg_packets p cfg_init ks) as [s|] eqn:E; [|discriminate]. injection H as <-.
  assert (G0 : good_state p ks cfg_init).
  { split; [left; reflexivity|]. split.
    - exists 0. split; [left; reflexivity|constructor].
    - split; [constructor|]. intros ? ? K. discriminate K. }
  destruct (packets_good p ks ks (incl_refl _) _ _ G0 E) as (_ & _ & _ & Hg). apply Hg. assumption.
Qed.
Print Assumptions C27_decoded_frames_come_from_fdri.

(** A short write yields a short frame, never foreign words. *)
Example C27_case :
  init_with_packets (part_from tiny_part)
    [write1 regCMD 1; write1 regFAR 1; {| pk_type := 1; pk_op := 2; pk_addr := 2; pk_data := repeat 9 103 |}]
  = Some [(1, repeat 9 101); (128, [9; 9])].
Proof. vm_compute. reflexivity. Qed.

(** ** C28 *)
Theorem C28_deterministic :
  forall fuel dp part source date time fd fd' out,
    NoDup (map fst fd) -> Forall (fun kv => fst kv < 2 ^ 32) fd -> Permutation fd fd' ->
    encode fuel dp part source date time fd out = encode fuel dp part source date time fd' out.
Proof.
  intros fuel dp part source date time fd fd' out ND B P. unfold encode.
  assert (E : convert_frames fd = convert_frames fd'); [|rewrite E; reflexivity].
  apply bt_ext; try apply convert_sorted. intros k. rewrite !convert_find.
  rewrite !map_u32_id.
  - apply content_perm; assumption.
  - rewrite Forall_forall in *. intros x Hx. apply B. eapply Permutation_in; [apply Permutation_sym, P|exact Hx].
  - assumption.
Qed.
Print Assumptions C28_deterministic.

(** Same content, same bytes: only the map matters. *)
Theorem C28_only_the_map_matters :
  forall fuel dp part source date time fd fd' out,
    Forall (fun kv => fst kv < 2 ^ 32) fd -> Forall (fun kv => fst kv < 2 ^ 32) fd' ->
    (forall a, content fd a = content fd' a) ->
    encode fuel dp part source date time fd out = encode fuel dp part source date time fd' out.
Proof.
  intros fuel dp part source date time fd fd' out B B' H. unfold encode.
  assert (E : convert_frames fd = convert_frames fd'); [|rewrite E; reflexivity].
  apply bt_ext; try apply convert_sorted. intros k. rewrite !convert_find.
  rewrite !map_u32_id by assumption. apply H.
Qed.
Print Assumptions C28_only_the_map_matters.

(** ** C29 *)
(** The claim is false: the encoder never computes the ECC; frames are emitted as given
    (C23), so a design without ECC bits yields a bitstream whose frames have a wrong ECC. *)
Theorem C29_ecc_refuted :
  exists fd fuel s fs a f,
    design small_part fd /\
    encode fuel small_part (tx "p") (tx "s") (tx "d") (tx "t") fd (file_at_end []) = Ok s /\
    decode small_part (st_bytes s) = Ok (Some fs) /\
    bt_find a fs = Some f /\ update_ecc f <> f.
Proof.
  assert (HT : forall t, (length t <= 3)%nat -> Forall (fun c => N_of_ascii c < 128) t -> header_text t).
  { intros t L A. split; [assumption|]. unfold len_N. lia. }
  destruct (C23_frames_survive small_part small_design (tx "p") (tx "s") (tx "d") (tx "t")
    small_usable small_design_ok) as (fuel & fs & Hf & Henc);
    try (apply HT; [cbn; lia|repeat constructor]).
  destruct (Henc fuel (le_n _)) as (s & E & Dc).
  exists small_design, fuel, s, fs, 3, (repeat 7 101).
  split; [apply small_design_ok|]. split; [assumption|]. split; [assumption|].
  split; [rewrite Hf; reflexivity|]. vm_compute. discriminate.
Qed.
Print Assumptions C29_ecc_refuted.
