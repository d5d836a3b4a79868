(** C99: the templates of the library for the three architectures. *)
From Verif Require Import Base BitOps Frame Part Frames Packet Config Writer Reader Encode BaseFacts BitOpsFacts FrameFacts PartSpec PartFacts PartFromFacts
  FramesFacts PacketFacts ConfigSpec ConfigFacts ContainerSpec WriterFacts ReaderFacts EncodeSpec EncodeFacts ArchSpec Arch ArchFacts P_Part P_Packet P_Bitstream.
From Coq Require Import Lia ZifyBool ZifyN ZifyNat Permutation.

(** ** The 7-series instance is the one of the other files *)
Lemma fdri_series7 fuel : forall p data cur fs, fdri_of 101 fuel p data cur fs = fdri_loop fuel p data cur fs.
Proof. induction fuel as [|fuel IH]; intros p data cur fs; [reflexivity|]. cbn [fdri_of fdri_loop]. destruct data as [|d ds]; [reflexivity|]. destruct (part_next p cur); [apply IH|reflexivity]. Qed.
Lemma packet_series7 p s k : packet_of 101 p s k = cfg_packet p s k.
Proof.
  unfold packet_of. destruct (pk_op k =? opWrite) eqn:E; [|reflexivity]. destruct (pk_addr k =? regFDRI) eqn:F; [|reflexivity]. cbn [andb].
  apply N.eqb_eq in F. unfold cfg_packet. rewrite E, F, fdri_series7. reflexivity.
Qed.
Lemma words_series7 fuel ks : forall i, words_of writer_header fuel ks i = wi_words fuel ks i.
Proof. induction fuel as [|fuel IH]; intros i; [reflexivity|]. cbn [words_of wi_words]. change (end_of writer_header ks) with (wi_end ks). destruct (wi_eqb i (wi_end ks)); [reflexivity|].
  change (deref_of writer_header i) with (wi_deref i). destruct (wi_deref i); [|reflexivity..]. cbn [obind]. change (next_of writer_header ks i) with (wi_next ks i).
  destruct (wi_next ks i); [|reflexivity..]. cbn [obind]. rewrite IH. reflexivity. Qed.
Theorem C99_series7 :
  (forall fuel p fs, add_missing_arch Series7 fuel p fs = add_missing_frames fuel p fs) /\
  (forall p fs, type2_data_arch Series7 p fs = type2_data p fs) /\
  (forall p ks, init_with_packets_arch Series7 p ks = init_with_packets p ks) /\
  (forall fuel ks part source gen date time out, write_bitstream_arch Series7 fuel ks part source gen date time out = write_bitstream fuel ks part source gen date time out).
Proof.
  split; [|split; [|split]].
  - intros fuel p. unfold add_missing_arch, add_missing_frames. generalize 0. induction fuel as [|fuel IH]; intros a fs; [reflexivity|].
    cbn [missing_from add_missing_from words_count]. destruct (part_next p a); [apply IH|reflexivity].
  - intros p fs. reflexivity.
  - intros p ks. unfold init_with_packets_arch, init_of, init_with_packets. cbn [words_count]. generalize cfg_init. induction ks as [|k ks IH]; intros s; [reflexivity|].
    cbn [packets_of cfg_packets]. rewrite packet_series7. destruct (cfg_packet p s k); [apply IH|reflexivity].
  - intros. unfold write_bitstream_arch, write_of, write_bitstream, writer_words. change (header_of Series7) with writer_header. rewrite words_series7. reflexivity.
Qed.
Print Assumptions C99_series7.

(** ** The file *)
Lemma words_pos ar : (0 < words_count ar)%nat.
Proof. destruct ar; cbn; lia. Qed.
Lemma header_preamble ar : header_of ar = preamble_of ar.
Proof. destruct ar; reflexivity. Qed.
Lemma preamble_bytes ar ws : exists q, Forall (fun b => b <> 0xAA) q /\ flat_map be32 (preamble_of ar ++ ws) = 0xFF :: q ++ sync_bytes ++ flat_map be32 ws.
Proof.
  rewrite flat_map_app.
  exists (repeat 0xFF (4 * dummy_words ar - 1) ++ [0; 0; 0; 0xBB; 0x11; 0x22; 0x00; 0x44] ++ repeat 0xFF 8). split.
  - apply Forall_app. split; [apply Forall_forall; intros x Hx; apply repeat_spec in Hx; subst; discriminate|]. repeat constructor; discriminate.
  - destruct ar; reflexivity.
Qed.
Lemma preamble_length ar : (List.length (preamble_of ar) <= 21)%nat.
Proof. destruct ar; cbn; lia. Qed.
Lemma preamble_words ar : Forall (fun w => w < 2 ^ 32) (preamble_of ar).
Proof. destruct ar; repeat constructor. Qed.

Lemma arch_file_read ar source gen part date time ws :
  ascii_text (source ++ tx ";Generator=" ++ gen) -> ascii_text part -> ascii_text date -> ascii_text time ->
  len_N (source ++ tx ";Generator=" ++ gen) + 1 < 0xAA00 -> len_N part + 1 < 0xAA00 -> len_N date + 1 < 0xAA00 -> len_N time + 1 < 0xAA00 ->
  21 + len_N ws < 2 ^ 30 -> Forall (fun w => w < 2 ^ 32) ws ->
  init_with_bytes (bit_file source gen part date time (preamble_of ar ++ ws)) = Ok (Some ws).
Proof.
  intros A1 A2 A3 A4 L1 L2 L3 L4 Hn Hws. unfold init_with_bytes.
  assert (S : after_sync (bit_file source gen part date time (preamble_of ar ++ ws)) = Some (flat_map be32 ws)).
  { unfold bit_file, bit_header. rewrite <- !app_assoc.
    rewrite sync_skip_list by (repeat constructor; discriminate).
    change ([97] ++ ?l) with (97 :: l). rewrite sync_skip by discriminate. rewrite sync_skip_field by assumption.
    change ([98] ++ ?l) with (98 :: l). rewrite sync_skip by discriminate. rewrite sync_skip_field by assumption.
    change ([99] ++ ?l) with (99 :: l). rewrite sync_skip by discriminate. rewrite sync_skip_field by assumption.
    change ([100] ++ ?l) with (100 :: l). rewrite sync_skip by discriminate. rewrite sync_skip_field by assumption.
    change ([101] ++ ?l) with (101 :: l). rewrite sync_skip by discriminate.
    destruct (preamble_bytes ar ws) as (q & Q & ->).
    rewrite sync_skip_length.
    - rewrite sync_skip_list by exact Q. reflexivity.
    - unfold len_N in *. rewrite app_length. pose proof (preamble_length ar). lia. }
  rewrite S, be_words_be32 by assumption. reflexivity.
Qed.

(** ** Completed frame sets *)
Lemma arch_completed_frames ar dp fd : part_fits dp -> no_holes dp -> is_frame_address dp 0 -> arch_design ar dp fd ->
  exists l fs, walk (part_from dp) 0 l /\ map fst fs = l /\ StronglySorted N.lt l /\ (forall a, In a l <-> is_frame_address dp a) /\
    (forall fuel, (length l <= fuel)%nat -> add_missing_arch ar fuel (part_from dp) (convert_frames fd) = Ok fs) /\
    (forall a, bt_find a fs = arch_completed ar dp fd a) /\ Forall (fun kv : N * frame => arch_frame ar (snd kv)) fs.
Proof.
  intros PF NH F0 (ND & Hfd). destruct (device_walk dp PF NH F0) as (l & Hw & Hs & Hl).
  assert (Hkeys : Forall (fun kv : N * frame => fst kv < 2 ^ 32) fd).
  { eapply Forall_impl; [|exact Hfd]. intros kv [Ha _]. apply (is_frame_address_lt dp _ PF) in Ha. eapply N.lt_trans; [exact Ha|reflexivity]. }
  assert (Hadd : forall fuel, (length l <= fuel)%nat -> add_missing_arch ar fuel (part_from dp) (convert_frames fd) = Ok (fold_left (fill_of (words_count ar)) l (convert_frames fd))).
  { intros fuel Hf. apply (walk_missing _ (words_pos ar)); assumption. }
  pose proof (fun k => fold_fill_of_find (words_count ar) l (convert_frames fd) k (convert_sorted fd)) as Hfind.
  pose proof (fold_fill_of_sorted (words_count ar) l (convert_frames fd) (convert_sorted fd)) as Hsf.
  set (fs := fold_left (fill_of (words_count ar)) l (convert_frames fd)) in *. clearbody fs.
  assert (Mem : forall a, existsb (N.eqb a) l = existsb (N.eqb a) (device_frames dp)).
  { intros a. apply eq_true_iff_eq. rewrite !existsb_exists. split; intros (x & Hx & E); exists x; split; try assumption.
    - apply device_frames_spec, Hl, Hx.
    - apply Hl, device_frames_spec, Hx. }
  assert (Hfind' : forall a, bt_find a fs = arch_completed ar dp fd a).
  { intros a. rewrite Hfind, convert_find, map_u32_id by assumption. unfold arch_completed. rewrite Mem. destruct (content fd a); [reflexivity|].
    destruct (existsb (N.eqb a) (device_frames dp)); destruct ar; reflexivity. }
  exists l, fs. split; [assumption|]. split; [|split; [assumption|split; [assumption|split; [assumption|split; [assumption|]]]]].
  - apply frames_keys_walk; try assumption. intros k. rewrite <- bt_find_key, Hfind'. unfold arch_completed. destruct (content fd k) as [f|] eqn:E.
    + split; [|discriminate]. intros _. apply Hl. apply content_In in E. rewrite Forall_forall in Hfd. apply (Hfd _ E).
    + rewrite Hl, <- device_frames_spec. destruct (existsb (N.eqb k) (device_frames dp)) eqn:X.
      * split; [|discriminate]. intros _. apply existsb_exists in X. destruct X as (x & Hx & Ex). apply N.eqb_eq in Ex. congruence.
      * split; [intros Q; exfalso; apply Q; reflexivity|]. intros Y. assert (Z : existsb (N.eqb k) (device_frames dp) = true) by (apply existsb_exists; exists k; split; [exact Y|apply N.eqb_refl]). congruence.
  - apply Forall_forall. intros [a f] Hin. cbn [snd]. pose proof (bt_In_find _ _ _ Hsf Hin) as E. rewrite Hfind' in E. unfold arch_completed in E.
    destruct (content fd a) as [g|] eqn:C.
    + assert (g = f) as <- by congruence. apply content_In in C. rewrite Forall_forall in Hfd. apply (Hfd _ C).
    + destruct (existsb (N.eqb a) (device_frames dp)); [|discriminate]. assert (f = repeat 0 (frame_words ar)) as -> by congruence. split; [apply repeat_length|].
      apply Forall_forall. intros w Hw0. apply (repeat_spec (frame_words ar)) in Hw0. subst. reflexivity.
Qed.

(** The payload: frames in order, two zero frames of the architecture between rows and at the end. *)
Theorem C99_payload :
  forall ar dp fd fuel fs, part_fits dp -> no_holes dp -> is_frame_address dp 0 -> arch_design ar dp fd ->
  add_missing_arch ar fuel (part_from dp) (convert_frames fd) = Ok fs ->
  (forall a, bt_find a fs = arch_completed ar dp fd a) /\ type2_data_arch ar (part_from dp) fs = payload_of (frame_words ar) fs.
Proof.
  intros ar dp fd fuel fs PF NH F0 D H. destruct (arch_completed_frames ar dp fd PF NH F0 D) as (l & fs' & Hw & Hk & Hs & Hl & Hadd & Hf & Hc).
  assert (fs' = fs) as ->.
  { unfold add_missing_arch in *. pose proof (missing_fuel_mono (words_count ar) (words_pos ar) fuel (fuel + List.length l)%nat _ _ _ ltac:(lia) H) as H1.
    specialize (Hadd (fuel + List.length l)%nat ltac:(lia)). congruence. }
  split; [exact Hf|]. unfold type2_data_arch. replace (words_count ar) with (frame_words ar) by (destruct ar; reflexivity).
  apply (data_of_walk (frame_words ar) _ _ _ Hw); [exact Hk|]. apply Forall_forall. intros x Hx. apply (is_frame_address_lt dp x PF). apply Hl. exact Hx.
Qed.
Print Assumptions C99_payload.

(** ** Any program that loads the payload *)
(** Packets that do not touch the frames: no write of FDRI (2), and no IDCODE (12) but that of the device. *)
Definition harmless (idcode : N) (k : packet) : Prop :=
  pk_op k = 2 -> pk_addr k <> 2 /\ (pk_addr k = 12 -> match pk_data k with [] => True | d :: _ => d = idcode end).
(** Set FAR to 0, command WCFG, write the payload to FDRI by a type 2 packet. *)
Definition load_frames (data : list N) : list packet :=
  [{| pk_type := 1; pk_op := 2; pk_addr := 1; pk_data := [0] |}; {| pk_type := 1; pk_op := 2; pk_addr := 4; pk_data := [1] |};
   {| pk_type := 1; pk_op := 2; pk_addr := 2; pk_data := [] |}; {| pk_type := 2; pk_op := 2; pk_addr := 2; pk_data := data |}].

Lemma harmless_keeps w p s k : harmless (p_idcode p) k -> exists s', packet_of w p s k = Some s' /\ cs_frames s' = cs_frames s.
Proof.
  intros H. unfold packet_of. destruct (N.eqb_spec (pk_op k) opWrite) as [O|O].
  - destruct (H O) as [A B]. destruct (N.eqb_spec (pk_addr k) regFDRI) as [F|F]; [contradiction|]. cbn [andb]. unfold cfg_packet.
    apply N.eqb_eq in O. rewrite O. cbn [negb]. apply N.eqb_neq in F. rewrite F.
    destruct (pk_addr k =? regMASK); [destruct (pk_data k); eexists; split; reflexivity|].
    destruct (pk_addr k =? regCTL1); [destruct (pk_data k); eexists; split; reflexivity|].
    destruct (pk_addr k =? regCMD); [destruct (pk_data k); eexists; split; reflexivity|].
    destruct (N.eqb_spec (pk_addr k) regIDCODE) as [J|J].
    + specialize (B J). destruct (pk_data k); [eexists; split; reflexivity|]. subst. rewrite N.eqb_refl. eexists; split; reflexivity.
    + destruct (pk_addr k =? regFAR); [destruct (pk_data k); eexists; split; reflexivity|]. eexists; split; reflexivity.
  - apply N.eqb_neq in O. cbn [andb]. unfold cfg_packet. rewrite O. eexists; split; reflexivity.
Qed.
Lemma harmless_all w p ks : Forall (harmless (p_idcode p)) ks -> forall s, exists s', packets_of w p s ks = Some s' /\ cs_frames s' = cs_frames s.
Proof.
  induction 1 as [|k ks Hk Hks IH]; intros s; [exists s; split; reflexivity|]. cbn [packets_of]. destruct (harmless_keeps w p s k Hk) as (s1 & -> & E1).
  destruct (IH s1) as (s2 & E2 & E3). exists s2. split; [exact E2|congruence].
Qed.
Lemma packets_of_app w p ks ks' : forall s, packets_of w p s (ks ++ ks') = match packets_of w p s ks with None => None | Some s' => packets_of w p s' ks' end.
Proof. induction ks as [|k ks IH]; intros s; cbn [app packets_of]; [reflexivity|]. destruct (packet_of w p s k); [apply IH|reflexivity]. Qed.

Lemma load_decodes w p before after data : Forall (harmless (p_idcode p)) before -> Forall (harmless (p_idcode p)) after ->
  init_of w p (before ++ load_frames data ++ after) = Some (snd (fdri_of w (List.length data) p data 0 [])).
Proof.
  intros Hb Ha. unfold init_of. rewrite packets_of_app. destruct (harmless_all w p before Hb cfg_init) as (s & -> & E). rewrite packets_of_app.
  assert (L : packets_of w p s (load_frames data) =
    let '(cur, fs) := fdri_of w (List.length data) p data 0 (cs_frames s) in
    Some {| cs_cmd := 1; cs_far := 0; cs_mask := cs_mask s; cs_ctl1 := cs_ctl1 s; cs_start := false; cs_cur := cur; cs_frames := fs |}).
  { unfold load_frames. cbn [packets_of]. unfold packet_of at 1. cbn [pk_op pk_addr pk_data]. change ((2 =? opWrite) && (1 =? regFDRI)) with false. cbv iota.
    unfold cfg_packet at 1. cbn [pk_op pk_addr pk_data]. change (negb (2 =? opWrite)) with false. change (1 =? regMASK) with false. change (1 =? regCTL1) with false.
    change (1 =? regCMD) with false. change (1 =? regIDCODE) with false. change (1 =? regFAR) with true. cbv iota.
    unfold packet_of at 1. cbn [pk_op pk_addr pk_data]. change ((2 =? opWrite) && (4 =? regFDRI)) with false. cbv iota.
    unfold cfg_packet at 1. cbn [pk_op pk_addr pk_data]. change (negb (2 =? opWrite)) with false. change (4 =? regMASK) with false. change (4 =? regCTL1) with false.
    change (4 =? regCMD) with true. cbv iota. change (1 =? 1) with true. cbv iota. cbn [cs_cmd cs_far cs_mask cs_ctl1 cs_start cs_cur cs_frames].
    unfold packet_of at 1. cbn [pk_op pk_addr pk_data]. change ((2 =? opWrite) && (2 =? regFDRI)) with true. cbv iota. cbn [cs_cmd cs_far cs_mask cs_ctl1 cs_start cs_cur cs_frames List.length fdri_of].
    unfold packet_of. cbn [pk_op pk_addr pk_data]. change ((2 =? opWrite) && (2 =? regFDRI)) with true. cbv iota. cbn [cs_cmd cs_far cs_mask cs_ctl1 cs_start cs_cur cs_frames].
    destruct (fdri_of w (List.length data) p data 0 (cs_frames s)) as [cur fs]. reflexivity. }
  rewrite L, E. cbn [cfg_init cs_frames]. destruct (fdri_of w (List.length data) p data 0 []) as [cur fs].
  match goal with |- context [packets_of w p ?x after] => destruct (harmless_all w p after Ha x) as (s2 & -> & E2) end. rewrite E2. reflexivity.
Qed.

Lemma payload_of_words w fs : Forall (fun kv : N * list N => Forall (fun x => x < 2 ^ 32) (snd kv)) fs -> Forall (fun x => x < 2 ^ 32) (payload_of w fs).
Proof.
  assert (Z : Forall (fun x => x < 2 ^ 32) (repeat 0 (w * 2))) by (apply Forall_forall; intros x Hx; apply repeat_spec in Hx; subst; reflexivity).
  induction 1 as [|[a x] fs Hw Hfs IH]; [exact Z|]. cbn [payload_of]. apply Forall_app. split; [exact Hw|]. apply Forall_app. split; [|exact IH].
  destruct fs as [|[a' w'] fs]; [constructor|]. destruct (device_row a =? device_row a'); [constructor|exact Z].
Qed.
Lemma payload_of_length w fs : Forall (fun kv : N * list N => length (snd kv) = w) fs -> (List.length (payload_of w fs) <= w * (3 * List.length fs + 2))%nat.
Proof.
  induction 1 as [|[a x] fs Hw Hfs IH]; [cbn [payload_of List.length]; rewrite repeat_length; lia|]. cbn [snd] in Hw. cbn [payload_of List.length]. rewrite !app_length, Hw.
  assert (B : (List.length match fs with [] => [] | (a', _) :: _ => if (device_row a =? device_row a')%N then [] else repeat 0%N (w * 2) end <= 2 * w)%nat).
  { destruct fs as [|[a' w'] fs]; [cbn; lia|]. destruct (device_row a =? device_row a'); [cbn; lia|rewrite repeat_length; lia]. }
  nia.
Qed.

Definition c99_texts (source gen part date time : text) : Prop := header_text (source ++ tx ";Generator=" ++ gen) /\ header_text part /\ header_text date /\ header_text time.

(** For each architecture: complete the frames of a design, wrap the payload in any program of type 1 packets around it, write the file; the
    reader delivers the same packets and the decoder the completed design. *)
Theorem C99_frames_survive :
  forall ar dp fd before after source gen part date time,
  part_fits dp -> no_holes dp -> is_frame_address dp 0 -> (List.length (device_frames dp) <= N.to_nat 360000)%nat -> arch_design ar dp fd ->
  Forall plain (before ++ after) -> Forall (harmless (dp_idcode dp)) (before ++ after) -> Forall (fun k => Forall (fun w => w < 2 ^ 32) (pk_data k)) (before ++ after) ->
  len_N (packets_words (before ++ after)) < 2 ^ 28 -> c99_texts source gen part date time ->
  exists fs fuel0, (forall a, bt_find a fs = arch_completed ar dp fd a) /\
    let ks := before ++ load_frames (payload_of (frame_words ar) fs) ++ after in
    forall fuel, (fuel0 <= fuel)%nat ->
      add_missing_arch ar fuel (part_from dp) (convert_frames fd) = Ok fs /\
      type2_data_arch ar (part_from dp) fs = payload_of (frame_words ar) fs /\
      exists s ws, write_bitstream_arch ar fuel ks part source gen date time (file_at_end []) = Ok s /\
        st_bytes s = bit_file source gen part date time (preamble_of ar ++ flat_map (fun k => packet_header k :: pk_data k) ks) /\
        init_with_bytes (st_bytes s) = Ok (Some ws) /\ reader_packets ws = Ok ks /\ init_with_packets_arch ar (part_from dp) ks = Some fs.
Proof.
  intros ar dp fd before after source gen part date time PF NH F0 Hlen D HP HH HW HL ((A1 & L1) & (A2 & L2) & (A3 & L3) & (A4 & L4)).
  destruct (arch_completed_frames ar dp fd PF NH F0 D) as (l & fs & Hw & Hk & Hs & Hl & Hadd & Hf & Hc).
  assert (Cl : Forall (fun kv : N * frame => length (snd kv) = frame_words ar) fs) by (eapply Forall_impl; [|exact Hc]; intros kv [H _]; exact H).
  assert (Cw : Forall (fun w => w < 2 ^ 32) (payload_of (frame_words ar) fs)) by (apply payload_of_words; eapply Forall_impl; [|exact Hc]; intros kv [_ H]; exact H).
  assert (Nf : (List.length fs <= N.to_nat 360000)%nat).
  { eapply Nat.le_trans; [|exact Hlen]. rewrite <- (map_length fst fs), Hk. apply NoDup_incl_length.
    - clear - Hs. induction Hs as [|x l Hl' IH Hx]; constructor; [|assumption]. intros Hin. rewrite Forall_forall in Hx. specialize (Hx _ Hin). lia.
    - intros x Hx. apply device_frames_spec, Hl, Hx. }
  assert (Pl : len_N (payload_of (frame_words ar) fs) < 2 ^ 27).
  { pose proof (payload_of_length _ fs Cl) as P. unfold len_N. change (2 ^ 27) with 134217728.
    assert (W : (frame_words ar <= 123)%nat) by (destruct ar; cbn; lia).
    assert (P' : (List.length (payload_of (frame_words ar) fs) <= 123 * (3 * List.length fs + 2))%nat) by (eapply Nat.le_trans; [exact P|apply Nat.mul_le_mono_r; exact W]). clear P Hlen. lia. }
  pose proof (proj2 (C99_payload ar dp fd (List.length l) fs PF NH F0 D (Hadd _ (le_n _)))) as Ty.
  remember (payload_of (frame_words ar) fs) as data eqn:Ed.
  apply Forall_app in HP. destruct HP as [Pb Pa]. apply Forall_app in HH. destruct HH as [Hb Ha]. apply Forall_app in HW. destruct HW as [Wb Wa].
  set (ks := before ++ load_frames data ++ after).
  assert (Hwl : len_N (packets_words ks) = len_N (packets_words (before ++ after)) + len_N data + 6).
  { unfold ks, len_N. rewrite !packets_words_app, !app_length. change (packets_words (load_frames data)) with
      ([packet_header {| pk_type := 1; pk_op := 2; pk_addr := 1; pk_data := [0] |}; 0; packet_header {| pk_type := 1; pk_op := 2; pk_addr := 4; pk_data := [1] |}; 1;
        packet_header {| pk_type := 1; pk_op := 2; pk_addr := 2; pk_data := [] |}] ++ packet_header {| pk_type := 2; pk_op := 2; pk_addr := 2; pk_data := data |} :: data ++ []).
    rewrite !app_length. cbn [List.length]. rewrite !app_length. cbn [List.length]. lia. }
  assert (Hwo : Forall packet_words_ok ks).
  { unfold ks. apply Forall_app. split; [exact Wb|]. apply Forall_app. split; [|exact Wa]. unfold load_frames, packet_words_ok.
    constructor; [repeat constructor|]. constructor; [repeat constructor|]. constructor; [repeat constructor|]. constructor; [exact Cw|]. constructor. }
  assert (Hfit : packets_fit None ks).
  { unfold ks. apply plain_fit_app; [exact Pb|]. intros prev. unfold load_frames. cbn [app packets_fit].
    split; [apply plain_fits; repeat split|]. split; [apply plain_fits; repeat split|]. split; [apply plain_fits; repeat split|]. split.
    - split; [reflexivity|]. right. right. split; [reflexivity|]. split; [exact Pl|]. eexists. split; reflexivity.
    - rewrite <- (app_nil_r after). apply plain_fit_app; [exact Pa|]. intros q. exact I. }
  change (2 ^ 27) with 134217728 in Pl. change (2 ^ 28) with 268435456 in HL.
  exists fs, (List.length l + (List.length (header_of ar) + List.length (packets_words ks) + 1))%nat. split; [exact Hf|]. cbv zeta. rewrite <- Ed. fold ks.
  intros fuel Hfu. split; [apply Hadd; lia|]. split; [exact Ty|].
  destruct (write_of_file (header_of ar) ltac:(destruct ar; discriminate) fuel ks part source gen date time [] ltac:(lia)) as (s & E & _ & B).
  assert (B' : st_bytes s = bit_file source gen part date time (preamble_of ar ++ packets_words ks)).
  { rewrite B. cbn [app]. rewrite raw_header_short by (unfold len_N in *; lia). unfold bit_file. f_equal.
    assert (H32 : 4 * (N.of_nat (List.length (header_of ar)) + len_N (packets_words ks)) < 2 ^ 32).
    { rewrite Hwl. change (2 ^ 32) with 4294967296. rewrite header_preamble. pose proof (preamble_length ar). clear - HL Pl H. lia. }
    unfold u32. rewrite (N.mod_small _ _ H32). rewrite be_bytes_be32 by exact H32. rewrite header_preamble in *. f_equal.
    - f_equal. unfold len_N. rewrite app_length. lia.
    - apply flat_be32. apply Forall_app. split; [apply preamble_words|]. apply packets_words_ok. exact Hwo. }
  exists s, (packets_words ks). split; [exact E|]. split; [exact B'|]. split; [|split].
  - rewrite B'. apply arch_file_read; try assumption; try (unfold len_N in *; lia).
    apply packets_words_ok. exact Hwo.
  - apply reader_packets_fit. exact Hfit.
  - unfold init_with_packets_arch, ks. rewrite load_decodes by assumption. f_equal. rewrite <- Ty. unfold type2_data_arch, packet_data_of.
    rewrite (fdri_of_walk _ (words_pos ar) _ _ _ Hw fs _ []); try assumption; try reflexivity.
    + constructor.
    + rewrite app_length.
      assert (G : forall g : list (N * frame), Forall (fun kv : N * frame => length (snd kv) = frame_words ar) g ->
        (length g <= length (flat_map (frame_data_of (words_count ar) (part_from dp)) g))%nat).
      { induction 1 as [|kv g Hkv Hg IH]; [cbn; lia|]. cbn [flat_map length]. rewrite app_length. unfold frame_data_of at 1. rewrite app_length.
        rewrite Hkv. pose proof (words_pos ar). replace (words_count ar) with (frame_words ar) in * by (destruct ar; reflexivity). lia. }
      specialize (G fs Cl). lia.
Qed.
Print Assumptions C99_frames_survive.

(** ** Cases *)
(** A design of two frames for each architecture, one of them full of sync words. *)
Definition arch_small_design (ar : arch) : list (N * list N) :=
  [(3, repeat 7 (frame_words ar)); (address 1 true 0 0 5, repeat 0xAA995566 (frame_words ar))].
Example C99_case_design : forall ar, arch_design ar small_part (arch_small_design ar).
Proof.
  assert (C : forall ar w, w < 2 ^ 32 -> arch_frame ar (repeat w (frame_words ar))).
  { intros ar w H. split; [apply repeat_length|]. apply Forall_forall. intros x Hx. apply (repeat_spec (frame_words ar)) in Hx. subst. exact H. }
  intros ar. split.
  - apply NoDup_cons; [|apply NoDup_cons; [|constructor]]; vm_compute; intuition discriminate.
  - apply Forall_cons; [|apply Forall_cons; [|constructor]]; (split; [apply frame_address_dec; vm_compute; reflexivity|]); apply C; reflexivity.
Qed.
Example C99_case : forall ar, exists fs fuel0, bt_find 3 fs = Some (repeat 7 (frame_words ar)) /\ bt_find 4 fs = Some (repeat 0 (frame_words ar)) /\
  forall fuel, (fuel0 <= fuel)%nat ->
  exists s ws ks, write_bitstream_arch ar fuel ks (tx "part") (tx "source") (tx "gen") (tx "date") (tx "time") (file_at_end []) = Ok s /\
    init_with_bytes (st_bytes s) = Ok (Some ws) /\ reader_packets ws = Ok ks /\ init_with_packets_arch ar (part_from small_part) ks = Some fs.
Proof.
  intros ar. destruct small_usable as (PF & NH & F0 & _ & _).
  destruct (C99_frames_survive ar small_part (arch_small_design ar) [nop_packet; write1 12 (dp_idcode small_part)] [nop_packet] (tx "source") (tx "gen") (tx "part") (tx "date") (tx "time"))
    as (fs & fuel0 & Hf & H); try assumption.
  - apply Nat.leb_le. vm_compute. reflexivity.
  - apply C99_case_design.
  - repeat constructor.
  - constructor; [intros Q; discriminate Q|]. constructor; [intros _; split; [discriminate|reflexivity]|]. constructor; [intros Q; discriminate Q|constructor].
  - repeat constructor.
  - reflexivity.
  - split; [|split; [|split]]; (split; [repeat constructor|vm_compute; reflexivity]).
  - exists fs, fuel0. split; [rewrite Hf; reflexivity|]. split; [rewrite Hf; unfold arch_completed; change (content (arch_small_design ar) 4) with (@None (list N));
      assert (E : existsb (N.eqb 4) (device_frames small_part) = true) by (vm_compute; reflexivity); rewrite E; reflexivity|].
    intros fuel Hfu. destruct (H fuel Hfu) as (_ & _ & s & ws & A & _ & B & C & D). exists s, ws. eexists. split; [exact A|]. split; [exact B|]. split; [exact C|exact D].
Qed.
