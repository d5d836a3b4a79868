(** C18, C19, C21, C25, C29: what exactly happens where the natural expectation fails: long header
    fields, destinations that cannot be rewound, truncated buffers, frames outside the device,
    ECC. *)
From Verif Require Import Base BitOps Frame Part Frames Packet Config Writer Reader Encode
  BaseFacts BitOpsFacts FrameFacts PartSpec PartFacts PartFromFacts FramesFacts PacketFacts
  ContainerSpec WriterFacts ReaderFacts ConfigSpec ConfigFacts EncodeSpec EncodeFacts P_Part P_Packet P_Bitstream.
From Coq Require Import ZifyBool ZifyN ZifyNat.

(** ** C18 *)
(** A text field: two bytes that state the length plus one modulo 65536, the text, a NUL. *)
Definition wrapped_field (t : text) : list N :=
  [(len_N t + 1) / 256 mod 256; (len_N t + 1) mod 256] ++ bytes_of_text t ++ [0].
Lemma tlv_wrapped t : tlv_field t = wrapped_field t.
Proof. unfold tlv_field, wrapped_field, u8. rewrite N.shiftr_div_pow2. reflexivity. Qed.

(** The header has the same shape for texts of any length, and the writer always succeeds. *)
Theorem C18_header_layout :
  forall ks part source generator date time, exists fuel s rest,
    write_bitstream fuel ks part source generator date time (file_at_end []) = Ok s /\
    st_fail s = false /\
    st_bytes s = [0; 9; 15; 240; 15; 240; 15; 240; 15; 240; 0; 0; 1; 97]
      ++ wrapped_field (source ++ tx ";Generator=" ++ generator)
      ++ [98] ++ wrapped_field part ++ [99] ++ wrapped_field date ++ [100] ++ wrapped_field time
      ++ [101] ++ rest.
Proof.
  intros ks part source gen date time.
  exists (hdr_len + length (packets_words ks) + 1)%nat.
  destruct (write_bitstream_file (hdr_len + length (packets_words ks) + 1) ks part source gen date time []
    (le_n _)) as (s & E & F & B).
  exists s. eexists. split; [exact E|]. split; [exact F|]. rewrite B. unfold raw_header. rewrite !tlv_wrapped.
  rewrite <- !app_assoc. reflexivity.
Qed.
Print Assumptions C18_header_layout.

(** A reader that trusts the two bytes gets the text back exactly when it has at most 65534
    bytes; a longer text is silently given the length modulo 65536. *)
Definition stated_length (field : list N) : N :=
  match field with hi :: lo :: _ => hi * 256 + lo | _ => 0 end.
Theorem C18_length_correct_iff :
  forall t, stated_length (wrapped_field t) = (len_N t + 1) mod 65536 /\
    (stated_length (wrapped_field t) = len_N t + 1 <-> len_N t <= 65534).
Proof.
  intros t. unfold wrapped_field. cbn [app stated_length]. set (n := len_N t + 1).
  assert (K : n / 256 mod 256 * 256 + n mod 256 = n mod 65536).
  { change 65536 with (256 * 256). rewrite N.mod_mul_r by discriminate. lia. }
  rewrite K. split; [reflexivity|]. pose proof (N.mod_lt n 65536). split; intros H1.
  - assert (n < 65536) by (rewrite <- H1; apply H; discriminate). lia.
  - apply N.mod_small. lia.
Qed.
Print Assumptions C18_length_correct_iff.

(** ** C19 *)
(** The header up to and including the tag of the data length. *)
Definition header_bytes (part source generator date time : text) : list N :=
  [0; 9; 15; 240; 15; 240; 15; 240; 15; 240; 0; 0; 1; 97]
  ++ wrapped_field (source ++ tx ";Generator=" ++ generator)
  ++ [98] ++ wrapped_field part ++ [99] ++ wrapped_field date ++ [100] ++ wrapped_field time ++ [101].
Definition data_bytes (ks : list packet) : list N := flat_map be_bytes (sync_preamble ++ packets_words ks).
Definition data_length (ks : list packet) : N := (4 * (13 + len_N (packets_words ks))) mod 2 ^ 32.
Lemma header_bytes_raw part source gen date time : header_bytes part source gen date time = raw_header part source gen date time.
Proof. unfold header_bytes, raw_header. rewrite !tlv_wrapped. rewrite <- ?app_assoc. reflexivity. Qed.

(** What arrives, for every destination: a file position inside a regular file (the container
    overwrites what is there), a pipe (the length field stays 0), a file opened for appending (the
    length field stays 0 and the length lands after the data), and a stream that has already failed
    (nothing).  In all four cases the writer reports success. *)
Definition delivered (k : stream_kind) (pos : nat) (old hdr len data : list N) : list N :=
  match k with
  | Seekable => firstn pos old ++ hdr ++ len ++ data ++ skipn (pos + length (hdr ++ len ++ data)) old
  | Pipe => old ++ hdr ++ [0; 0; 0; 0] ++ data
  | Append => old ++ hdr ++ [0; 0; 0; 0] ++ data ++ len
  end.

Lemma skipn_skipn {A} n : forall m (l : list A), skipn n (skipn m l) = skipn (m + n) l.
Proof.
  induction m as [|m IH]; intros l; [reflexivity|]. destruct l as [|x l]; cbn [skipn Nat.add]; [apply skipn_nil|apply IH].
Qed.
Lemma overwrite_at bs : forall pos l, (pos <= length l)%nat ->
  overwrite pos bs l = firstn pos l ++ bs ++ skipn (pos + length bs) l.
Proof.
  induction pos as [|n IH]; intros l L; cbn [overwrite]; [reflexivity|].
  destruct l as [|x l]; [cbn in L; lia|]. cbn [firstn app Nat.add skipn]. rewrite IH by (cbn in L; lia). reflexivity.
Qed.
Lemma overwrite_run pre a b l : 
  overwrite (length (pre ++ a)) b (pre ++ a ++ l) = pre ++ (a ++ b) ++ skipn (length b) l.
Proof.
  rewrite overwrite_at by (rewrite !app_length; lia).
  rewrite (app_assoc pre), firstn_exact by reflexivity. rewrite skipn_app, skipn_all2 by lia.
  rewrite <- !app_assoc. do 3 f_equal. cbn [app]. f_equal. lia.
Qed.
Definition file_in (pre a l : list N) : stream :=
  {| st_kind := Seekable; st_bytes := pre ++ a ++ l; st_pos := length (pre ++ a); st_fail := false |}.
Lemma st_write_in pre a l b : st_write b (file_in pre a l) = file_in pre (a ++ b) (skipn (length b) l).
Proof.
  unfold st_write, file_in. cbn [st_fail st_kind st_bytes st_pos]. rewrite overwrite_run. f_equal. rewrite !app_length. lia.
Qed.
Lemma fold_write_in ws : forall pre a l,
  fold_left (fun o w => st_write (be_bytes w) o) ws (file_in pre a l) =
  file_in pre (a ++ flat_map be_bytes ws) (skipn (length (flat_map be_bytes ws)) l).
Proof.
  induction ws as [|w ws IH]; intros pre a l; cbn [fold_left flat_map].
  - rewrite app_nil_r. reflexivity.
  - rewrite st_write_in, IH. rewrite <- app_assoc, app_length. f_equal. apply skipn_skipn.
Qed.
Lemma append_words ws : forall l p,
  let s' := fold_left (fun o w => st_write (be_bytes w) o) ws {| st_kind := Append; st_bytes := l; st_pos := p; st_fail := false |} in
  st_kind s' = Append /\ st_fail s' = false /\ st_bytes s' = l ++ flat_map be_bytes ws /\ (p = length l -> st_pos s' = length (l ++ flat_map be_bytes ws)).
Proof.
  induction ws as [|w ws IH]; intros l p; cbn [fold_left flat_map].
  - rewrite app_nil_r. auto.
  - destruct (IH (l ++ be_bytes w) (length (l ++ be_bytes w))) as (A & B & C & D).
    unfold st_write at 2 4 6 8. cbn [st_fail st_kind st_bytes]. split; [exact A|]. split; [exact B|]. rewrite app_assoc. split; [exact C|]. intros _. apply D. reflexivity.
Qed.
Lemma failed_words ws : forall s, st_fail s = true -> fold_left (fun o w => st_write (be_bytes w) o) ws s = s.
Proof.
  induction ws as [|w ws IH]; intros s F; cbn [fold_left]; [reflexivity|].
  assert (E : st_write (be_bytes w) s = s) by (unfold st_write; now rewrite F). rewrite E. now apply IH.
Qed.

Theorem C19_every_destination :
  forall ks part source generator date time out,
    (st_pos out <= length (st_bytes out))%nat ->
    exists fuel0, forall fuel, (fuel0 <= fuel)%nat -> exists s,
      write_bitstream fuel ks part source generator date time out = Ok s /\
      st_bytes s =
        if st_fail out then st_bytes out
        else delivered (st_kind out) (st_pos out) (st_bytes out)
               (header_bytes part source generator date time)
               (be_bytes (data_length ks)) (data_bytes ks).
Proof.
  intros ks part source gen date time out LP. exists (hdr_len + length (packets_words ks) + 1)%nat.
  intros fuel Lf. unfold write_bitstream. rewrite writer_words_enough by lia. cbn [obind].
  set (hdr := create_header part source gen date time). set (ws := writer_header ++ packets_words ks).
  assert (Hh : hdr = header_bytes part source gen date time ++ [0; 0; 0; 0]) by (rewrite header_bytes_raw; apply create_header_split).
  set (raw := header_bytes part source gen date time) in *. clearbody raw. clearbody hdr.
  assert (LD : length (data_bytes ks) = (4 * (13 + length (packets_words ks)))%nat).
  { unfold data_bytes. rewrite flat_be_length, app_length. reflexivity. }
  assert (DW : flat_map be_bytes ws = data_bytes ks) by reflexivity. clearbody ws.
  assert (DL : forall n, Z.to_N ((Z.of_nat (n + length (data_bytes ks)) - Z.of_nat n) mod 2 ^ 32)%Z = data_length ks).
  { intros n. rewrite LD. replace (Z.of_nat _ - _)%Z with (Z.of_N (4 * (13 + len_N (packets_words ks)))) by (unfold len_N; lia).
    unfold data_length. change (2 ^ 32)%Z with (Z.of_N (2 ^ 32)). rewrite <- N2Z.inj_mod by discriminate. apply N2Z.id. }
  destruct (st_fail out) eqn:F.
  { eexists. split; [reflexivity|]. assert (E : st_write hdr out = out) by (unfold st_write; now rewrite F). rewrite E, failed_words by exact F.
    unfold st_seekp. rewrite F. unfold st_write. rewrite F. reflexivity. }
  destruct (st_kind out) eqn:K; cbn [delivered].
  - (* regular file *)
    set (pre := firstn (st_pos out) (st_bytes out)). set (l := skipn (st_pos out) (st_bytes out)).
    assert (EO : out = file_in pre [] l).
    { destruct out as [k b p f]. cbn in K, F, LP. subst k f. unfold file_in, pre, l. cbn [st_pos st_bytes app].
      rewrite firstn_skipn, app_nil_r, firstn_length_le by exact LP. reflexivity. }
    rewrite EO, st_write_in, fold_write_in, DW.
    eexists. split; [reflexivity|].
    unfold st_tellp, st_seekp. cbn [file_in st_fail st_kind st_pos].
    set (P := (Z.of_nat (length (pre ++ [] ++ hdr)) - 4)%Z).
    assert (EP : P = Z.of_nat (length (pre ++ raw))) by (unfold P; rewrite Hh; cbn [app]; rewrite !app_length; cbn [length]; lia).
    rewrite EP. replace (Z.of_nat (length (pre ++ raw)) <? 0)%Z with false by lia. rewrite Nat2Z.id.
    unfold file_in. cbn [st_bytes].
    unfold st_write. cbn [st_fail st_kind st_pos st_bytes].
    replace (Z.of_nat (length (pre ++ ([] ++ hdr) ++ data_bytes ks)))%Z with (Z.of_nat (length (pre ++ [] ++ hdr) + length (data_bytes ks)))
      by (cbn [app]; rewrite !app_length; lia).
    rewrite DL. rewrite Hh. cbn [app]. rewrite <- !app_assoc. cbn [app].
    rewrite (overwrite_run pre raw (be_bytes (data_length ks)) (0 :: 0 :: 0 :: 0 :: data_bytes ks ++ _)).
    cbn [be_bytes length skipn]. rewrite <- ?app_assoc. cbn [app].
    unfold l. rewrite !skipn_skipn. unfold pre at 4. rewrite firstn_skipn.
    assert (LPre : length (pre ++ []) = st_pos out) by (rewrite app_nil_r; apply firstn_length_le; exact LP).
    rewrite LPre. do 5 f_equal. rewrite !app_length. cbn [length be_bytes]. lia.
  - (* pipe *)
    assert (E0 : st_write hdr out = {| st_kind := Pipe; st_bytes := st_bytes out ++ hdr; st_pos := st_pos out + length hdr; st_fail := false |})
      by (unfold st_write; rewrite F, K; reflexivity).
    rewrite E0. destruct (pipe_words ws {| st_kind := Pipe; st_bytes := st_bytes out ++ hdr; st_pos := st_pos out + length hdr; st_fail := false |} eq_refl eq_refl) as (A & B & C).
    set (s1 := fold_left _ ws _) in *. clearbody s1. cbn [st_bytes] in C.
    eexists. split; [reflexivity|]. unfold st_seekp. rewrite B, A. unfold st_write. cbn [st_fail st_bytes]. rewrite C, DW, Hh.
    rewrite <- !app_assoc. reflexivity.
  - (* append *)
    assert (E0 : st_write hdr out = {| st_kind := Append; st_bytes := st_bytes out ++ hdr; st_pos := length (st_bytes out ++ hdr); st_fail := false |})
      by (unfold st_write; rewrite F, K; reflexivity).
    rewrite E0. destruct (append_words ws (st_bytes out ++ hdr) (length (st_bytes out ++ hdr))) as (A & B & C & D).
    set (s1 := fold_left _ ws _) in *. clearbody s1. specialize (D eq_refl).
    eexists. split; [reflexivity|]. unfold st_tellp. rewrite B, A. cbn [st_fail st_kind st_pos]. rewrite D, app_length, DW, DL.
    unfold st_seekp. rewrite B, A.
    replace (Z.of_nat (length (st_bytes out ++ hdr)) - 4 <? 0)%Z with false by (rewrite Hh, !app_length; cbn [length]; lia).
    unfold st_write. cbn [st_fail st_kind st_bytes]. rewrite C, DW, Hh. rewrite <- !app_assoc. reflexivity.
Qed.
Print Assumptions C19_every_destination.

(** So a length field that states the data length is delivered exactly by the destinations that can
    be rewound. *)
Example C19_case :
  let at5 := {| st_kind := Seekable; st_bytes := [1;2;3;4;5;6;7;8]; st_pos := 5; st_fail := false |} in
  match write_bitstream 100 [nop_packet] (tx "p") (tx "s") (tx "g") (tx "d") (tx "t") at5 with
  | Ok s => list_N_eqb (firstn 7 (st_bytes s)) [1;2;3;4;5;0;9]
  | _ => false end = true.
Proof. vm_compute. reflexivity. Qed.

(** ** C21 *)
(** Reading is safe exactly when there is no sync word or the bytes after the first one are whole
    words; otherwise the reader reads out of bounds. *)
Definition whole_words_after_first_sync (bytes : list N) : Prop :=
  forall pre rest, bytes = pre ++ sync_word ++ rest ->
    (forall pre' rest', bytes = pre' ++ sync_word ++ rest' -> (length pre <= length pre')%nat) ->
    (length rest mod 4 = 0)%nat.
Theorem C21_safe_exactly :
  forall bytes,
    (whole_words_after_first_sync bytes -> exists r, init_with_bytes bytes = Ok r) /\
    (~ whole_words_after_first_sync bytes -> init_with_bytes bytes = UB).
Proof.
  intros bytes. unfold init_with_bytes. destruct (after_sync bytes) as [r|] eqn:E.
  - destruct (after_sync_some bytes r E) as (pre & Eb & Hmin).
    assert (Same : forall p' r', bytes = p' ++ sync_word ++ r' ->
              (forall pre' rest', bytes = pre' ++ sync_word ++ rest' -> (length p' <= length pre')%nat) -> r' = r).
    { intros p' r' E' M'. pose proof (M' _ _ Eb) as L1. rewrite E' in E. change sync_word with sync_bytes in E.
      rewrite (after_sync_first p' r') in E; [congruence|]. intros pre' rest' K. apply M' with rest'. rewrite E'. exact K. }
    split.
    + intros H. destruct (Nat.eq_dec (length r mod 4) 0) as [Z|Z].
      * apply Nat.mod_divides in Z; [|lia]. destruct Z as (n & Hn). destruct (be_words_ok n r Hn) as (ws & Ew & _). rewrite Ew. cbn. eauto.
      * exfalso. apply Z. apply (H pre r Eb). intros pre' rest' K. exact (Hmin _ _ K).
    + intros H. rewrite (be_words_ub (S (length r))); [reflexivity|lia|]. intros Z. apply H. intros p' r' E' M'. rewrite (Same _ _ E' M'). exact Z.
  - split; [eauto|]. intros H. exfalso. apply H. intros pre rest Eb _. exfalso. exact (after_sync_none _ E pre rest Eb).
Qed.
Print Assumptions C21_safe_exactly.

(** ** C25 *)
(** Any set of frames: distinct 32-bit addresses, not necessarily of the device. *)
Definition frame_set (dp : db_part) (fd : list (N * list N)) : Prop :=
  NoDup (map fst fd) /\
  Forall (fun kv => fst kv < 2 ^ 32 /\ is_frame_content (snd kv)) fd /\
  (length (device_frames dp) + length fd <= N.to_nat 440000)%nat.

Lemma bt_sorted_NoDup {V} (m : btmap V) : bt_sorted m -> NoDup (map fst m).
Proof.
  intros S. unfold bt_sorted, bt_keys in S. induction S as [|x l S IH H]; constructor; [|exact IH].
  intros I. rewrite Forall_forall in H. specialize (H _ I). lia.
Qed.
Lemma type2_frame_length p (kv : N * frame) : length (snd kv) = 101%nat -> (101 <= length (type2_frame p kv) <= 303)%nat.
Proof.
  intros L. unfold type2_frame. rewrite app_length. change (@length N (snd kv)) with (@length N (@snd N frame kv)). rewrite L.
  destruct (part_next p (fst kv)); [destruct (row_change _ _)|]; cbn [length]; rewrite ?zero_separator_length; lia.
Qed.
Lemma type2_frames_length p (g : list (N * frame)) : Forall (fun kv => length (snd kv) = 101%nat) g ->
  (101 * length g <= length (flat_map (type2_frame p) g) <= 303 * length g)%nat.
Proof.
  induction 1 as [|kv g Hk Hg IH]; [cbn; lia|]. cbn [flat_map length]. rewrite app_length.
  pose proof (type2_frame_length p kv Hk). lia.
Qed.
Lemma type2_frames_words p (g : list (N * frame)) : Forall (fun kv => Forall (fun w => w < 2 ^ 32) (snd kv)) g ->
  Forall (fun w => w < 2 ^ 32) (flat_map (type2_frame p) g).
Proof.
  assert (Z : Forall (fun w => w < 2 ^ 32) zero_separator).
  { apply Forall_forall. intros w Hw. apply repeat_spec in Hw. subst. reflexivity. }
  induction 1 as [|kv g Hk Hg IH]; [constructor|]. cbn [flat_map]. apply Forall_app. split; [|exact IH].
  unfold type2_frame. apply Forall_app. split; [exact Hk|]. match goal with |- context [part_next p ?x] => destruct (part_next p x) as [a'|]; [destruct (row_change x a'); [exact Z|]|] end; constructor.
Qed.

(** Encoding any frame set, and what the decoder gets to see. *)
Lemma encode_any dp fd part source date time :
  usable_device dp -> frame_set dp fd ->
  header_text part -> header_text source -> header_text date -> header_text time ->
  exists fuel0 l fs,
    walk (part_from dp) 0 l /\ StronglySorted N.lt l /\ (forall a, In a l <-> is_frame_address dp a) /\
    (forall a, bt_find a fs = completed dp fd a) /\ bt_sorted fs /\
    Forall (fun kv => is_frame_content (snd kv)) fs /\
    forall fuel, (fuel0 <= fuel)%nat ->
      exists s, encode fuel dp part source date time fd (file_at_end []) = Ok s /\
        decode dp (st_bytes s) =
          Ok (Some (snd (fdri_loop (length (type2_data (part_from dp) fs)) (part_from dp) (type2_data (part_from dp) fs) 0 []))).
Proof.
  intros (PF & NH & F0 & Hid & _) (ND & Hfd & Hlen) Hp Hs Hd Ht.
  destruct (device_walk dp PF NH F0) as (l & Hw & Hsl & Hl).
  assert (Hkeys : Forall (fun kv : N * frame => fst kv < 2 ^ 32) fd) by (eapply Forall_impl; [|exact Hfd]; intros kv [A _]; exact A).
  pose proof (walk_add_missing _ _ _ Hw (length l) (convert_frames fd) (le_n _)) as Hadd.
  set (fs := fold_left fill1 l (convert_frames fd)) in *.
  assert (Hfs : forall fuel, (length l <= fuel)%nat -> add_missing_frames fuel (part_from dp) (convert_frames fd) = Ok fs).
  { intros fuel Hf. eapply add_missing_fuel_mono; [exact Hf|exact Hadd]. }
  destruct (add_missing_spec (length l) (part_from dp) (convert_frames fd) fs (convert_sorted fd) Hadd) as (l' & Hw' & Hsf & Hfind).
  assert (l' = l) by (eapply walk_fun; eassumption). subst l'.
  assert (Hmem : forall a, existsb (N.eqb a) (device_frames dp) = existsb (N.eqb a) l).
  { intros a. apply eq_true_iff_eq. rewrite !existsb_exists. split; intros (x & Hx & E); exists x; split; try assumption.
    - apply Hl, device_frames_spec, Hx.
    - apply device_frames_spec, Hl, Hx. }
  assert (Hfind' : forall a, bt_find a fs = completed dp fd a).
  { intros a. unfold completed. rewrite Hfind, convert_find, map_u32_id, Hmem by assumption. reflexivity. }
  clearbody fs. clear Hfind Hadd.
  assert (Hc : Forall (fun kv : N * frame => is_frame_content (snd kv)) fs).
  { apply Forall_forall. intros [a f] Hin. cbn [snd]. pose proof (bt_In_find _ _ _ Hsf Hin) as E. rewrite Hfind' in E. unfold completed in E.
    destruct (content fd a) as [g|] eqn:C.
    - injection E as <-. apply content_In in C. rewrite Forall_forall in Hfd. apply (Hfd _ C).
    - destruct (existsb (N.eqb a) (device_frames dp)); [|discriminate].
      assert (f = repeat 0 101) as -> by congruence. apply repeat_content. reflexivity. }
  assert (Hcl : Forall (fun kv : N * frame => length (snd kv) = 101%nat) fs).
  { eapply Forall_impl; [|exact Hc]. intros kv [H _]. exact H. }
  assert (Hn : (length fs <= N.to_nat 440000)%nat).
  { rewrite <- (map_length fst). etransitivity; [apply (NoDup_incl_length (l' := device_frames dp ++ map fst fd) (bt_sorted_NoDup fs Hsf))|rewrite app_length, map_length; lia].
    intros a Ia. apply bt_find_key in Ia. rewrite Hfind' in Ia. unfold completed in Ia. apply in_or_app.
    destruct (content fd a) eqn:C; [right; apply content_key; congruence|].
    destruct (existsb (N.eqb a) (device_frames dp)) eqn:X; [|exfalso; now apply Ia]. left. apply existsb_exists in X as (x & Hx & E). apply N.eqb_eq in E. now subst. }
  set (data := type2_data (part_from dp) fs).
  assert (Hpl : len_N data < 2 ^ 27).
  { unfold data, type2_data, len_N. rewrite app_length, zero_separator_length. pose proof (type2_frames_length (part_from dp) fs Hcl).
    change (2 ^ 27) with 134217728. lia. }
  assert (Hcw : Forall (fun w => w < 2 ^ 32) data).
  { unfold data, type2_data. apply Forall_app. split.
    - apply type2_frames_words. eapply Forall_impl; [|exact Hc]. intros kv [_ H]. exact H.
    - apply Forall_forall. intros w Hw0. apply repeat_spec in Hw0. subst. reflexivity. }
  set (ks := configuration_package data (part_from dp)).
  assert (Hwl : len_N (packets_words ks) = len_N data + 570) by apply package_words_length.
  assert (Hwo : Forall packet_words_ok ks) by (apply package_words_ok; assumption).
  assert (Hfit : packets_fit None ks) by (apply package_fits; exact Hpl).
  exists (length l + (hdr_len + length (packets_words ks) + 1))%nat, l, fs.
  do 6 (split; [assumption|]).
  intros fuel Hf. unfold encode. rewrite Hfs by lia. cbn [obind]. fold data. fold ks.
  destruct (gen_text source Hs) as [As Ls]. destruct Hp as [Ap Lp], Hd as [Ad Ld], Ht as [At Lt].
  change (2 ^ 27) with 134217728 in Hpl.
  assert (H32 : 4 * (13 + len_N (packets_words ks)) < 2 ^ 32) by (rewrite Hwl; change (2 ^ 32) with 4294967296; lia).
  assert (H30 : 13 + len_N (packets_words ks) < 2 ^ 30) by (rewrite Hwl; change (2 ^ 30) with 1073741824; lia).
  destruct (write_bitstream_bit_file fuel ks part source kGeneratorName date time) as (s & E & F & B); try assumption; try lia.
  exists s. split; [exact E|].
  assert (HI : init_with_bytes (st_bytes s) = Ok (Some (packets_words ks))).
  { rewrite B. apply bit_file_words; try assumption; try lia. apply packets_words_ok. assumption. }
  pose proof (reader_packets_fit ks Hfit) as HR.
  unfold decode. rewrite HI. cbn [obind]. rewrite HR. cbn [obind]. unfold ks. rewrite decode_program. reflexivity.
Qed.

(** The reader over data that starts with the frames of the first part [l1] of the walk. *)
Lemma fdri_prefix p a l : walk p a l -> forall l1 n l2 fs fuel acc tail,
  l = l1 ++ n :: l2 -> map fst fs = l1 -> StronglySorted N.lt l ->
  Forall (fun kv : N * frame => length (snd kv) = kWordsPerFrame) fs ->
  Forall (fun x => x < a) (bt_keys acc) -> (length fs <= fuel)%nat ->
  walk p n (n :: l2) /\
  fdri_loop fuel p (flat_map (type2_frame p) fs ++ tail) a acc = fdri_loop (fuel - length fs) p tail n (acc ++ fs).
Proof.
  induction 1 as [a E|a a' l E H IH]; intros l1 n l2 fs fuel acc tail El Hk Hs Hw Hacc Hf.
  - destruct l1 as [|b l1]; [|destruct l1; discriminate]. cbn [app] in El. injection El as <- <-. destruct fs; [|discriminate].
    rewrite app_nil_r, Nat.sub_0_r. split; [now constructor|reflexivity].
  - destruct l1 as [|b l1]; cbn [app] in El.
    + injection El as <- <-. destruct fs; [|discriminate]. rewrite app_nil_r, Nat.sub_0_r. split; [econstructor; eassumption|reflexivity].
    + injection El as -> El. destruct fs as [|[k w] fs]; [discriminate|]. cbn [map fst] in Hk. injection Hk as -> Hk.
      destruct fuel as [|fuel]; [cbn in Hf; lia|]. inversion Hw as [|? ? Hw1 Hw2]; subst.
      cbn [snd] in Hw1. apply StronglySorted_inv in Hs. destruct Hs as [Hs Hlt].
      cbn [fdri_loop flat_map length Nat.sub]. set (rest := flat_map (type2_frame p) fs) in *.
      unfold type2_frame. cbn [fst snd]. rewrite E. rewrite <- !app_assoc.
      match goal with |- context [match ?x with [] => _ | _ :: _ => _ end] => destruct x as [|d ds] eqn:D end.
      { apply (f_equal (@length N)) in D. rewrite app_length, Hw1 in D. discriminate. }
      rewrite <- D. clear D d ds. rewrite (firstn_exact w) by assumption. rewrite bt_set_max by assumption.
      assert (La : b < a'). { rewrite Forall_forall in Hlt. apply Hlt. inversion H; left; reflexivity. }
      assert (Hacc' : Forall (fun x => x < a') (bt_keys (acc ++ [(b, w)]))).
      { unfold bt_keys. rewrite map_app. apply Forall_app. split.
        - eapply Forall_impl; [|exact Hacc]. cbn. intros. lia.
        - repeat constructor. cbn. assumption. }
      assert (Sk : skipn (if row_change b a' then (kWordsPerFrame + 2 * kWordsPerFrame)%nat else kWordsPerFrame)
          (w ++ (if row_change b a' then zero_separator else []) ++ rest ++ tail) = rest ++ tail).
      { destruct (row_change b a').
        - rewrite (app_assoc w). apply skipn_exact. rewrite app_length, Hw1. reflexivity.
        - apply skipn_exact. assumption. }
      rewrite Sk. subst rest. destruct (IH (map fst fs) n l2 fs fuel (acc ++ [(b, w)]) tail) as [W L]; try assumption; try reflexivity.
      { cbn in Hf. lia. }
      split; [exact W|]. etransitivity; [exact L|]. rewrite <- app_assoc. reflexivity.
Qed.

(** Reading on only touches addresses of the rest of the walk. *)
Lemma fdri_loop_keeps p a l : walk p a l -> forall fuel data acc k, bt_sorted acc -> ~ In k l ->
  bt_find k (snd (fdri_loop fuel p data a acc)) = bt_find k acc.
Proof.
  induction 1 as [a E|a a' l E H IH]; intros fuel data acc k S NI; (destruct fuel as [|fuel]; cbn [fdri_loop]; [reflexivity|]);
    (destruct data as [|d ds]; [reflexivity|]); rewrite E; cbn [snd].
  - rewrite bt_find_set by exact S. destruct (N.eqb_spec k a) as [->|_]; [exfalso; apply NI; now left|reflexivity].
  - rewrite IH; [|now apply bt_set_sorted|intros I; apply NI; now right].
    rewrite bt_find_set by exact S. destruct (N.eqb_spec k a) as [->|_]; [exfalso; apply NI; now left|reflexivity].
Qed.

(** The data read for the device address [n]. *)
Lemma decoded_at p l l1 n l2 (fs A B : list (N * frame)) k f :
  walk p 0 l -> StronglySorted N.lt l -> l = l1 ++ n :: l2 -> fs = A ++ (k, f) :: B -> map fst A = l1 ->
  Forall (fun kv : N * frame => length (snd kv) = kWordsPerFrame) fs ->
  bt_find n (snd (fdri_loop (length (type2_data p fs)) p (type2_data p fs) 0 [])) = Some f.
Proof.
  intros W S El Ef Ek C.
  assert (CA : Forall (fun kv : N * frame => length (snd kv) = kWordsPerFrame) A /\ length f = kWordsPerFrame).
  { rewrite Ef in C. apply Forall_app in C as [CA CB]. inversion CB; subst. auto. }
  destruct CA as [CA Cf].
  set (tail := snd (k, f) ++ match part_next p k with Some a' => if row_change k a' then zero_separator else [] | None => [] end ++ flat_map (type2_frame p) B ++ zero_separator).
  assert (ED : type2_data p fs = flat_map (type2_frame p) A ++ tail).
  { unfold type2_data. rewrite Ef, flat_map_app. cbn [flat_map]. rewrite <- !app_assoc. f_equal. unfold type2_frame at 1, tail. cbn [fst snd].
    rewrite <- !app_assoc. reflexivity. }
  assert (LA : (length A < length (type2_data p fs))%nat).
  { rewrite ED, app_length. pose proof (type2_frames_length p A CA). unfold tail. cbn [snd]. rewrite app_length.
    change (@length N f) with (@length N (f : list N)) in Cf. change kWordsPerFrame with 101%nat in Cf. lia. }
  destruct (fdri_prefix p 0 l W l1 n l2 A (length (type2_data p fs)) [] tail El Ek S CA (Forall_nil _) ltac:(lia)) as [Wn L].
  rewrite ED at 2. rewrite L. cbn [app]. destruct (length (type2_data p fs) - length A)%nat as [|fuel] eqn:Ef2; [lia|].
  assert (F1 : firstn kWordsPerFrame tail = f) by (unfold tail; cbn [snd]; now apply firstn_exact).
  assert (T0 : tail <> []) by (intros T; apply (f_equal (@length N)) in T; unfold tail in T; cbn [snd] in T; rewrite app_length in T; change (@length N f) with (@length N (f : list N)) in Cf; rewrite Cf in T; discriminate).
  clearbody tail.
  cbn [fdri_loop]. destruct tail as [|d ds] eqn:T.
  { now destruct T0. }
  rewrite F1. clear T.
  assert (SA : bt_sorted A /\ Forall (fun x => x < n) (bt_keys A)).
  { unfold bt_sorted, bt_keys. rewrite Ek, El in *. clear - S. induction l1 as [|x l1 IH]; cbn [app] in S; [split; constructor|].
    apply StronglySorted_inv in S as [S F]. destruct (IH S) as [I1 I2]. split; constructor; auto.
    - eapply Forall_forall. intros y Iy. rewrite Forall_forall in F. apply F. apply in_or_app. now left.
    - rewrite Forall_forall in F. apply F. apply in_or_app. right. now left. }
  destruct SA as [SA _].
  assert (N2 : ~ In n l2).
  { rewrite El in S. clear - S. induction l1 as [|x l1 IH]; cbn [app] in S; [|apply IH; now apply StronglySorted_inv in S].
    apply StronglySorted_inv in S as [_ F]. intros I. rewrite Forall_forall in F. specialize (F _ I). lia. }
  assert (X : bt_find n (bt_set n f A) = Some f) by (rewrite bt_find_set, N.eqb_refl by exact SA; reflexivity).
  inversion Wn as [? En|? a' ? En Wn']; subst; rewrite En; cbn [snd]; [exact X|].
  rewrite (fdri_loop_keeps p a' l2 Wn'); [exact X|now apply bt_set_sorted|exact N2].
Qed.

Lemma bt_split {V} (m : btmap V) k v : bt_sorted m -> bt_find k m = Some v ->
  exists A B, m = A ++ (k, v) :: B /\ bt_sorted A /\ forall x, In x (map fst A) <-> In x (map fst m) /\ x < k.
Proof.
  unfold bt_sorted, bt_keys. induction m as [|[k' v'] m IH]; intros S F; [discriminate|]. cbn [bt_find] in F. cbn [map fst] in S.
  apply StronglySorted_inv in S as [S L]. rewrite Forall_forall in L. destruct (N.eqb_spec k k') as [->|Ne].
  - injection F as ->. exists [], m. split; [reflexivity|]. split; [constructor|]. intros x. cbn [map fst In]. split; [intros []|].
    intros [[E|I] H]; [lia|]. specialize (L _ I). lia.
  - destruct (IH S F) as (A & B & -> & SA & HA). exists ((k', v') :: A), B. split; [reflexivity|].
    assert (Lk : k' < k). { apply L. rewrite map_app. apply in_or_app. right. now left. }
    split.
    + cbn [map fst]. constructor; [exact SA|]. apply Forall_forall. intros x Ix. apply L. apply HA in Ix. tauto.
    + intros x. cbn [map fst In]. rewrite HA. cbn [map fst]. split.
      * intros [<-|[I H]]; auto.
      * intros [[<-|I] H]; auto.
Qed.
Lemma sorted_split l n : StronglySorted N.lt l -> In n l ->
  exists l1 l2, l = l1 ++ n :: l2 /\ StronglySorted N.lt l1 /\ forall x, In x l1 <-> In x l /\ x < n.
Proof.
  induction 1 as [|y l S IH L]; intros I; [destruct I|]. rewrite Forall_forall in L. destruct (N.eq_dec y n) as [->|Ne].
  - exists [], l. split; [reflexivity|]. split; [constructor|]. intros x. cbn [In]. split; [intros []|]. intros [[E|J] H]; [lia|]. specialize (L _ J). lia.
  - destruct I as [E|I]; [congruence|]. destruct (IH I) as (l1 & l2 & -> & S1 & H1). exists (y :: l1), l2. split; [reflexivity|].
    assert (Ly : y < n) by (apply L, in_or_app; right; now left). split.
    + constructor; [exact S1|]. apply Forall_forall. intros x Ix. apply L. apply H1 in Ix. tauto.
    + intros x. cbn [In]. rewrite H1. split; [intros [<-|[J H]]; auto|intros [[<-|J] H]; auto].
Qed.

(** Frames outside the device are accepted.  Below the least of them every frame of the device
    decodes to its own content; the frame of the device right above it decodes to the content of the
    foreign frame instead of its own; nothing is ever decoded at an address that is not of the
    device. *)
Theorem C25_foreign_frames :
  forall dp fd part source date time,
    usable_device dp -> frame_set dp fd ->
    header_text part -> header_text source -> header_text date -> header_text time ->
    let foreign x := In x (map fst fd) /\ ~ is_frame_address dp x in
    exists fuel0 fs,
      (forall fuel, (fuel0 <= fuel)%nat -> exists s,
         encode fuel dp part source date time fd (file_at_end []) = Ok s /\
         decode dp (st_bytes s) = Ok (Some fs)) /\
      (forall a, ~ is_frame_address dp a -> bt_find a fs = None) /\
      (forall a, is_frame_address dp a -> (forall x, foreign x -> a < x) ->
         bt_find a fs = completed dp fd a) /\
      (forall x f n, foreign x -> (forall y, foreign y -> x <= y) -> content fd x = Some f ->
         is_frame_address dp n -> x < n -> (forall a, is_frame_address dp a -> x < a -> n <= a) ->
         bt_find n fs = Some f).
Proof.
  intros dp fd part source date time U D Hp Hs Hd Ht foreign.
  destruct (encode_any dp fd part source date time U D Hp Hs Hd Ht) as (fuel0 & l & fm & W & S & Hl & Hf & Sf & Hc & Henc).
  set (fs := snd (fdri_loop (length (type2_data (part_from dp) fm)) (part_from dp) (type2_data (part_from dp) fm) 0 [])) in *.
  assert (Hcl : Forall (fun kv : N * frame => length (snd kv) = kWordsPerFrame) fm) by (eapply Forall_impl; [|exact Hc]; intros kv [H _]; exact H).
  assert (Hkey : forall a, In a (map fst fm) <-> In a (map fst fd) \/ is_frame_address dp a).
  { intros a. rewrite <- (bt_find_key a fm) by assumption. rewrite Hf. unfold completed. rewrite <- content_key.
    destruct (content fd a); [split; [left|]; discriminate|]. rewrite <- device_frames_spec. destruct (existsb (N.eqb a) (device_frames dp)) eqn:X.
    - split; [|discriminate]. intros _. right. apply existsb_exists in X as (x & Hx & E). apply N.eqb_eq in E. now subst.
    - split; [congruence|]. intros [C|C]; [congruence|]. exfalso. rewrite (proj2 (existsb_exists _ _)) in X; [discriminate|]. exists a. split; [exact C|apply N.eqb_refl]. }
  exists fuel0, fs. split; [exact Henc|]. split; [|split].
  - intros a Na. unfold fs. rewrite (fdri_loop_keeps _ _ _ W); [reflexivity|constructor|]. rewrite Hl. exact Na.
  - intros a Da Fa. assert (Ia : In a l) by now apply Hl. destruct (sorted_split l a S Ia) as (l1 & l2 & El & S1 & H1).
    assert (exists f, bt_find a fm = Some f) as (f & Ef).
    { destruct (bt_find a fm) as [f|] eqn:E; [eauto|]. exfalso. apply (proj2 (bt_find_key a fm)); [apply Hkey; now right|exact E]. }
    destruct (bt_split fm a f Sf Ef) as (A & B & EA & SA & HA). rewrite <- Hf, Ef.
    apply (decoded_at _ l l1 a l2 fm A B a f W S El EA); [|exact Hcl].
    apply frames_keys_walk; [exact S1|exact SA|]. intros k. unfold bt_keys. rewrite HA, H1, Hkey, Hl.
    split; [|tauto]. intros [[I|I] L]; [|tauto]. split; [|exact L].
    destruct (in_dec N.eq_dec k l) as [J|J]; [now apply Hl|]. exfalso. assert (a < k) by (apply Fa; split; [exact I|now rewrite <- Hl]). lia.
  - intros x f n [Ix Nx] Mx Cx Dn Ln Mn. assert (In_ : In n l) by now apply Hl. destruct (sorted_split l n S In_) as (l1 & l2 & El & S1 & H1).
    assert (Ef : bt_find x fm = Some f) by (rewrite Hf; unfold completed; now rewrite Cx).
    destruct (bt_split fm x f Sf Ef) as (A & B & EA & SA & HA).
    apply (decoded_at _ l l1 n l2 fm A B x f W S El EA); [|exact Hcl].
    apply frames_keys_walk; [exact S1|exact SA|]. intros k. unfold bt_keys. rewrite HA, H1, Hkey, Hl. split.
    + intros [[I|I] L]; [|split; [exact I|lia]]. destruct (in_dec N.eq_dec k l) as [J|J]; [apply Hl in J; split; [exact J|lia]|].
      exfalso. assert (x <= k) by (apply Mx; split; [exact I|now rewrite <- Hl]). lia.
    + intros [I L]. split; [now right|]. destruct (N.lt_total k x) as [K|[K|K]]; [exact K|subst; contradiction|].
      specialize (Mn k I K). lia.
Qed.
Print Assumptions C25_foreign_frames.

Example C25_case :
  frame_set tiny_part [(5, repeat 1 101); (128, repeat 2 101)] /\
  ~ is_frame_address tiny_part 5 /\ is_frame_address tiny_part 128.
Proof.
  split; [|split].
  - split; [apply NoDup_cons; [|apply NoDup_cons; [|constructor]]; vm_compute; intuition discriminate|]. split.
    + repeat apply Forall_cons; try apply Forall_nil; (split; [reflexivity|apply repeat_content; reflexivity]).
    + apply Nat.leb_le. vm_compute. reflexivity.
  - rewrite <- device_frames_spec. vm_compute. intuition discriminate.
  - apply frame_address_dec; reflexivity.
Qed.

(** ** C29 *)
(** The encoder never computes an ECC: a frame that comes out of the bitstream has a valid ECC
    exactly when it was not in the design (a zero frame is valid) or had a valid one already. *)
Theorem C29_ecc_exactly :
  forall dp fd part source date time fuel s,
    usable_device dp -> design dp fd ->
    header_text part -> header_text source -> header_text date -> header_text time ->
    encode fuel dp part source date time fd (file_at_end []) = Ok s ->
    exists fs, decode dp (st_bytes s) = Ok (Some fs) /\
      forall a f, bt_find a fs = Some f ->
        (update_ecc f = f <-> match content fd a with Some g => update_ecc g = g | None => True end).
Proof.
  intros dp fd part source date time fuel s U D Hp Hs Hd Ht E.
  destruct (C23_any_run dp fd part source date time fuel s U D Hp Hs Hd Ht E) as (fs & Dc & Hf).
  exists fs. split; [exact Dc|]. intros a f Ef. rewrite Hf in Ef. unfold completed in Ef.
  destruct (content fd a) as [g|]; [injection Ef as ->; reflexivity|].
  destruct (existsb (N.eqb a) (device_frames dp)); [|discriminate]. assert (f = repeat 0 101) as -> by congruence.
  split; [constructor|]. intros _. vm_compute. reflexivity.
Qed.
Print Assumptions C29_ecc_exactly.
