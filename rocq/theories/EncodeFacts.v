(** Facts about Encode.v: the whole encoder and the round trip. *)
From Verif Require Import Base BitOps Frame Part Frames Packet Config Writer Reader Encode
  BaseFacts BitOpsFacts FrameFacts PartSpec PartFacts PartFromFacts FramesFacts PacketFacts
  ContainerSpec WriterFacts ReaderFacts ConfigSpec ConfigFacts EncodeSpec.
From Coq Require Import ZifyBool ZifyN ZifyNat.

(** ** Device frames *)
Lemma count_up_In n x : In x (count_up n) <-> x < N.of_nat n.
Proof.
  induction n as [|n IH]; cbn [count_up].
  - split; [intros []|lia].
  - rewrite in_app_iff, IH. cbn [In]. lia.
Qed.

Lemma enum_In {A} (l : list A) : forall i k x, In (k, x) (enum i l) <->
  i <= k /\ nth_error l (N.to_nat (k - i)) = Some x.
Proof.
  induction l as [|y l IH]; intros i k x; cbn [enum].
  - split; [intros []|]. intros [_ H]. destruct (N.to_nat (k - i)); discriminate.
  - cbn [In]. rewrite IH. split.
    + intros [E|[L H]].
      * injection E as <- <-. rewrite N.sub_diag. split; [lia|reflexivity].
      * split; [lia|]. replace (N.to_nat (k - i)) with (S (N.to_nat (k - (i + 1)))) by lia. exact H.
    + intros [L H]. destruct (N.eq_dec i k) as [->|Ne].
      * rewrite N.sub_diag in H. cbn in H. injection H as ->. left. reflexivity.
      * right. split; [lia|]. replace (N.to_nat (k - i)) with (S (N.to_nat (k - (i + 1)))) in H by lia.
        exact H.
Qed.

Lemma device_frames_spec dp a : In a (device_frames dp) <-> is_frame_address dp a.
Proof.
  assert (H : forall b, In a (half_frames b (half dp b)) <->
     exists t r c m, has_frame dp t b r c m /\ a = address (bus_block t) b r c m).
  { intros b. unfold half_frames. rewrite in_flat_map. split.
    - intros ([r row] & Hr & H). cbn [fst snd] in H. apply in_flat_map in H.
      destruct H as ([t cols] & Hb & H). cbn [fst snd] in H. apply in_flat_map in H.
      destruct H as ([c n] & Hc & H). cbn [fst snd] in H. apply in_map_iff in H.
      destruct H as (m & <- & Hm). apply count_up_In in Hm.
      apply enum_In in Hr. apply enum_In in Hc. rewrite N.sub_0_r in Hr, Hc.
      exists t, r, c, m. split; [|reflexivity]. exists row, cols, n.
      repeat split; try tauto. lia.
    - intros (t & r & c & m & (row & cols & n & H1 & H2 & H3 & H4) & ->).
      exists (r, row). split; [apply enum_In; rewrite N.sub_0_r; split; [lia|assumption]|].
      cbn [fst snd]. apply in_flat_map. exists (t, cols). split; [assumption|].
      cbn [fst snd]. apply in_flat_map. exists (c, n).
      split; [apply enum_In; rewrite N.sub_0_r; split; [lia|assumption]|].
      cbn [fst snd]. apply in_map_iff. exists m. split; [reflexivity|]. apply count_up_In. lia. }
  unfold device_frames. rewrite in_app_iff.
  change (dp_top_rows dp) with (half dp false). change (dp_bottom_rows dp) with (half dp true).
  rewrite !H. unfold is_frame_address. split.
  - intros [(t & r & c & m & K)|(t & r & c & m & K)]; [exists t, false|exists t, true]; eauto.
  - intros (t & [|] & r & c & m & K); [right|left]; eauto.
Qed.

(** ** Converting the frames *)
Lemma convert_sorted_acc fd : forall m, bt_sorted m ->
  bt_sorted (fold_left (fun m (kv : N * frame) => bt_insert (u32 (fst kv)) (snd kv) m) fd m).
Proof. induction fd as [|kv fd IH]; intros m H; [assumption|]. apply IH, bt_insert_sorted, H. Qed.

Lemma convert_find_acc fd : forall m k, bt_sorted m ->
  bt_find k (fold_left (fun m (kv : N * frame) => bt_insert (u32 (fst kv)) (snd kv) m) fd m) =
  match bt_find k m with
  | Some f => Some f
  | None => content (map (fun kv => (u32 (fst kv), snd kv)) fd) k
  end.
Proof.
  induction fd as [|[a f] fd IH]; intros m k S; cbn [fold_left map content fst snd].
  - destruct (bt_find k m); reflexivity.
  - rewrite IH by (apply bt_insert_sorted; assumption).
    rewrite bt_find_insert by assumption.
    destruct (N.eqb_spec k (u32 a)) as [->|Ne].
    + destruct (bt_find (u32 a) m); reflexivity.
    + destruct (bt_find k m); reflexivity.
Qed.

Lemma convert_sorted fd : bt_sorted (convert_frames fd).
Proof. apply convert_sorted_acc. constructor. Qed.

Lemma convert_find fd k : bt_find k (convert_frames fd) =
  content (map (fun kv => (u32 (fst kv), snd kv)) fd) k.
Proof. unfold convert_frames. rewrite convert_find_acc by constructor. reflexivity. Qed.

Lemma map_u32_id fd : Forall (fun kv : N * frame => fst kv < 2 ^ 32) fd ->
  map (fun kv => (u32 (fst kv), snd kv)) fd = fd.
Proof.
  induction 1 as [|[k f] fd H Hfd IH]; [reflexivity|]. cbn [map fst snd] in *.
  unfold u32 at 1. rewrite N.mod_small by assumption. rewrite IH. reflexivity.
Qed.

Lemma content_In fd a f : content fd a = Some f -> In (a, f) fd.
Proof.
  induction fd as [|[k g] fd IH]; cbn [content]; [discriminate|].
  destruct (N.eqb_spec a k) as [->|]; intros H; [injection H as ->; left; reflexivity|right; auto].
Qed.

Lemma content_key fd a : content fd a <> None <-> In a (map fst fd).
Proof.
  induction fd as [|[k g] fd IH]; cbn [content map fst In]; [split; [congruence|intros []]|].
  destruct (N.eqb_spec a k) as [->|Ne].
  - split; [left; reflexivity|discriminate].
  - rewrite IH. split; [auto|]. intros [E|H]; [congruence|assumption].
Qed.

Lemma In_content fd a f : NoDup (map fst fd) -> In (a, f) fd -> content fd a = Some f.
Proof.
  induction fd as [|[k g] fd IH]; intros ND H; [destruct H|]. cbn [map fst] in ND.
  inversion ND as [|? ? Hn ND']; subst. cbn [content]. destruct H as [E|H].
  - injection E as <- <-. rewrite N.eqb_refl. reflexivity.
  - destruct (N.eqb_spec a k) as [->|]; [|apply IH; assumption].
    exfalso. apply Hn. apply (in_map fst) in H. exact H.
Qed.

Lemma content_perm fd fd' a : NoDup (map fst fd) -> Permutation fd fd' -> content fd a = content fd' a.
Proof.
  intros ND P. assert (ND' : NoDup (map fst fd')) by (eapply Permutation_NoDup; [apply Permutation_map; exact P|exact ND]).
  destruct (content fd a) as [f|] eqn:E.
  - symmetry. apply In_content; [assumption|]. eapply Permutation_in; [exact P|]. apply content_In, E.
  - destruct (content fd' a) as [f|] eqn:E'; [|reflexivity].
    apply content_In in E'. eapply Permutation_in in E'; [|apply Permutation_sym, P].
    apply (In_content _ _ _ ND) in E'. congruence.
Qed.

(** ** The package *)
Definition plain (k : packet) : Prop :=
  pk_type k = 1 /\ pk_op k < 4 /\ pk_addr k < 2 ^ 14 /\ length_N (pk_data k) < 2 ^ 11.

Lemma plain_fits k prev : plain k -> packet_fits prev k.
Proof. intros (A & B & C & D). split; [assumption|]. right. left. repeat split; assumption. Qed.

Lemma plain_fit_app ks rest : Forall plain ks -> (forall prev, packets_fit prev rest) ->
  forall prev, packets_fit prev (ks ++ rest).
Proof.
  induction 1 as [|k ks Hk Hks IH]; intros H prev; [apply H|].
  cbn [app packets_fit]. split; [apply plain_fits; assumption|]. apply IH, H.
Qed.

Lemma plain_nop : plain nop_packet.
Proof. repeat split. Qed.
Lemma plain_write r v : r < 2 ^ 14 -> plain (write1 r v).
Proof. intros H. repeat split. assumption. Qed.
Lemma plain_nops n : Forall plain (repeat nop_packet n).
Proof. apply Forall_forall. intros x Hx. apply repeat_spec in Hx. subst. apply plain_nop. Qed.

(** The package cut around the frame data. *)
Definition pkg_before (p : part) : list packet :=
  [ nop_packet; write1 regTIMER 0x0; write1 regWBSTAR 0x0; write1 regCMD cmdNOP; nop_packet;
    write1 regCMD cmdRCRC; nop_packet; nop_packet; write1 regUNKNOWN 0x0; write1 regCOR0 cor0_value;
    write1 regCOR1 0x0; write1 regIDCODE (p_idcode p); write1 regCMD cmdSWITCH; nop_packet;
    write1 regMASK 0x401; write1 regCTL0 0x501; write1 regMASK 0x0; write1 regCTL1 0x0 ]
  ++ repeat nop_packet 8 ++ [ write1 regFAR 0x0; write1 regCMD cmdWCFG; nop_packet ].
Definition pkg_after : list packet :=
  [ write1 regCMD cmdRCRC; nop_packet; nop_packet; write1 regCMD cmdGRESTORE; nop_packet;
    write1 regCMD cmdLFRM ]
  ++ repeat nop_packet 100
  ++ [ write1 regCMD cmdSTART; nop_packet; write1 regFAR 0x3be0000; write1 regMASK 0x501;
       write1 regCTL0 0x501; write1 regCMD cmdRCRC; nop_packet; nop_packet; write1 regCMD cmdDESYNC ]
  ++ repeat nop_packet 400.
Definition fdri1 : packet := {| pk_type := 1; pk_op := opWrite; pk_addr := regFDRI; pk_data := [] |}.
Definition fdri2 (data : list N) : packet :=
  {| pk_type := 2; pk_op := opWrite; pk_addr := regFDRI; pk_data := data |}.

Lemma package_split data p :
  configuration_package data p = pkg_before p ++ [fdri1; fdri2 data] ++ pkg_after.
Proof. reflexivity. Qed.

Ltac plain_list := repeat (apply Forall_cons;
  [first [exact plain_nop | apply plain_write; reflexivity]|]); try apply Forall_nil.

Lemma before_plain p : Forall plain (pkg_before p).
Proof.
  unfold pkg_before. apply Forall_app. split; [plain_list|]. apply Forall_app.
  split; [apply plain_nops|plain_list].
Qed.

Lemma after_plain : Forall plain pkg_after.
Proof.
  unfold pkg_after. apply Forall_app. split; [plain_list|]. apply Forall_app.
  split; [apply plain_nops|]. apply Forall_app. split; [plain_list|apply plain_nops].
Qed.

Lemma package_fits data p : length_N data < 2 ^ 27 -> packets_fit None (configuration_package data p).
Proof.
  intros H. rewrite package_split. apply plain_fit_app; [apply before_plain|]. intros prev.
  cbn [app packets_fit]. split; [|split].
  - apply plain_fits. repeat split.
  - split; [reflexivity|]. right. right. cbn [pk_type pk_data fdri2].
    split; [reflexivity|]. split; [assumption|]. exists fdri1. split; reflexivity.
  - rewrite <- (app_nil_r pkg_after). apply plain_fit_app; [apply after_plain|]. intros; exact I.
Qed.

Lemma words_ok_write r v : v < 2 ^ 32 -> packet_words_ok (write1 r v).
Proof. intros H. repeat constructor. assumption. Qed.
Lemma words_ok_nop : packet_words_ok nop_packet.
Proof. constructor. Qed.
Lemma words_ok_nops n : Forall packet_words_ok (repeat nop_packet n).
Proof. apply Forall_forall. intros x Hx. apply repeat_spec in Hx. subst. constructor. Qed.

Lemma package_words_ok data p : p_idcode p < 2 ^ 32 -> Forall (fun w => w < 2 ^ 32) data ->
  Forall packet_words_ok (configuration_package data p).
Proof.
  intros Hi Hd. rewrite package_split.
  apply Forall_app; split; [|apply Forall_app; split].
  - unfold pkg_before. apply Forall_app. split; [|apply Forall_app; split; [apply words_ok_nops|]];
      repeat (apply Forall_cons; [first [exact words_ok_nop|apply words_ok_write; first [assumption|reflexivity]]|]);
      apply Forall_nil.
  - apply Forall_cons; [constructor|]. apply Forall_cons; [exact Hd|]. apply Forall_nil.
  - unfold pkg_after. apply Forall_app. split; [|apply Forall_app; split; [apply words_ok_nops|
      apply Forall_app; split; [|apply words_ok_nops]]];
      repeat (apply Forall_cons; [first [exact words_ok_nop|apply words_ok_write; reflexivity]|]);
      apply Forall_nil.
Qed.

Lemma packets_words_length ks : length (packets_words ks) =
  fold_right Nat.add 0%nat (map (fun k => S (length (pk_data k))) ks).
Proof.
  induction ks as [|k ks IH]; [reflexivity|]. unfold packets_words in *. cbn [flat_map map fold_right].
  rewrite app_length, IH. reflexivity.
Qed.

Lemma packets_words_app a b : packets_words (a ++ b) = packets_words a ++ packets_words b.
Proof. apply flat_map_app. Qed.

Lemma package_words_length data p :
  len_N (packets_words (configuration_package data p)) = len_N data + 570.
Proof.
  unfold len_N. rewrite package_split, !packets_words_app, !app_length.
  assert (B : length (packets_words (pkg_before p)) = 44%nat) by (rewrite packets_words_length; reflexivity).
  assert (A : length (packets_words pkg_after) = 524%nat) by (rewrite packets_words_length; reflexivity).
  rewrite A, B. rewrite (packets_words_length [fdri1; fdri2 data]). cbn. lia.
Qed.

(** ** Completed frame sets *)
Lemma frames_keys_walk {V} l (fs : btmap V) : StronglySorted N.lt l -> bt_sorted fs ->
  (forall k, In k (bt_keys fs) <-> In k l) -> map fst fs = l.
Proof.
  intros Hl Hf H. unfold bt_sorted, bt_keys in *.
  revert H. set (m := map fst fs) in *. clearbody m. clear fs.
  revert l Hl. induction Hf as [|x m Hm IH Hx]; intros l Hl H.
  - destruct l as [|y l]; [reflexivity|]. exfalso. apply (H y). left. reflexivity.
  - destruct l as [|y l].
    + exfalso. apply (H x). left. reflexivity.
    + apply StronglySorted_inv in Hl. destruct Hl as [Hl Hy].
      rewrite Forall_forall in Hx, Hy.
      assert (x = y).
      { assert (A : In x (y :: l)) by (apply H; left; reflexivity).
        assert (B : In y (x :: m)) by (apply H; left; reflexivity).
        destruct A as [A|A]; [auto|]. destruct B as [B|B]; [auto|].
        specialize (Hx _ B). specialize (Hy _ A). lia. }
      subst y. f_equal. apply IH; [assumption|]. intros k. split; intros Hk.
      * assert (A : In k (x :: l)) by (apply H; right; assumption). destruct A as [<-|A]; [|assumption].
        specialize (Hx _ Hk). lia.
      * assert (A : In k (x :: m)) by (apply H; right; assumption). destruct A as [<-|A]; [|assumption].
        specialize (Hy _ Hk). lia.
Qed.

(** The frames that end up in the payload, for a design of a usable device. *)
Lemma completed_frames dp fd : usable_device dp -> design dp fd ->
  exists l fs, walk (part_from dp) 0 l /\ map fst fs = l /\ StronglySorted N.lt l /\
    (forall a, In a l <-> is_frame_address dp a) /\
    (forall fuel, (length l <= fuel)%nat ->
       add_missing_frames fuel (part_from dp) (convert_frames fd) = Ok fs) /\
    bt_sorted fs /\
    (forall a, bt_find a fs = match content fd a with
                              | Some f => Some f
                              | None => if existsb (N.eqb a) l then Some (repeat 0 101) else None
                              end) /\
    Forall (fun kv : N * frame => is_frame_content (snd kv)) fs.
Proof.
  intros (PF & NH & F0 & Hid & Hlen) (ND & Hfd).
  destruct (device_walk dp PF NH F0) as (l & Hw & Hs & Hl).
  assert (Hkeys : Forall (fun kv : N * frame => fst kv < 2 ^ 32) fd).
  { eapply Forall_impl; [|exact Hfd]. intros kv [Ha _].
    apply (is_frame_address_lt dp _ PF) in Ha. eapply N.lt_trans; [exact Ha|reflexivity]. }
  pose proof (walk_add_missing _ _ _ Hw (length l) (convert_frames fd) (le_n _)) as Hadd.
  set (fs := fold_left fill1 l (convert_frames fd)) in *.
  assert (Hfs : forall fuel, (length l <= fuel)%nat ->
       add_missing_frames fuel (part_from dp) (convert_frames fd) = Ok fs).
  { intros fuel Hf. eapply add_missing_fuel_mono; [exact Hf|exact Hadd]. }
  destruct (add_missing_spec (length l) (part_from dp) (convert_frames fd) fs (convert_sorted fd))
    as (l' & Hw' & Hsf & Hfind).
  { exact Hadd. }
  assert (l' = l) by (eapply walk_fun; eassumption). subst l'.
  assert (Hfind' : forall a, bt_find a fs = match content fd a with
                              | Some f => Some f
                              | None => if existsb (N.eqb a) l then Some (repeat 0 101) else None
                              end).
  { intros a. rewrite Hfind, convert_find, map_u32_id by assumption. reflexivity. }
  clearbody fs.
  assert (Ex : forall a, existsb (N.eqb a) l = true <-> In a l).
  { intros a. rewrite existsb_exists. split.
    - intros (x & Hx & E). apply N.eqb_eq in E. congruence.
    - intros Ha. exists a. split; [assumption|apply N.eqb_refl]. }
  exists l, fs. split; [assumption|]. split; [|split; [assumption|split; [assumption|split; [assumption|split; [assumption|split; [assumption|]]]]]].
  - apply frames_keys_walk; try assumption. intros k. rewrite <- bt_find_key, Hfind'.
    destruct (content fd k) as [f|] eqn:E.
    + split; [|discriminate]. intros _. apply Hl. apply content_In in E.
      rewrite Forall_forall in Hfd. apply (Hfd _ E).
    + rewrite <- Ex. destruct (existsb (N.eqb k) l); split; congruence.
  - apply Forall_forall. intros [a f] Hin. cbn [snd].
    pose proof (bt_In_find _ _ _ Hsf Hin) as E. rewrite Hfind' in E.
    destruct (content fd a) as [g|] eqn:C.
    + injection E as <-. apply content_In in C. rewrite Forall_forall in Hfd. apply (Hfd _ C).
    + destruct (existsb (N.eqb a) l); [|discriminate].
      assert (f = repeat 0 101) as -> by congruence. split; [reflexivity|].
      apply Forall_forall. intros w Hw0. apply (repeat_spec 101) in Hw0. subst. reflexivity.
Qed.

Lemma row_changes_le fs : row_changes fs <= len_N fs.
Proof.
  induction fs as [|[a w] fs IH]; [reflexivity|]. cbn [row_changes]. unfold len_N in *. cbn [length].
  destruct fs as [|[a' w'] fs]; [lia|]. destruct (device_row a =? device_row a'); lia.
Qed.

Lemma payload_words fs : Forall (fun kv : N * list N => Forall (fun w => w < 2 ^ 32) (snd kv)) fs ->
  Forall (fun w => w < 2 ^ 32) (payload fs).
Proof.
  assert (Z : Forall (fun w => w < 2 ^ 32) two_zero_frames).
  { apply Forall_forall. intros w Hw. apply repeat_spec in Hw. subst. reflexivity. }
  induction 1 as [|[a w] fs Hw Hfs IH]; [exact Z|]. cbn [payload].
  apply Forall_app. split; [exact Hw|]. apply Forall_app. split; [|exact IH].
  destruct fs as [|[a' w'] fs]; [constructor|]. destruct (device_row a =? device_row a'); [constructor|exact Z].
Qed.

(** Text fields of a container that the sync search skips. *)
Definition header_text (t : text) : Prop := ascii_text t /\ len_N t < 40000.

Lemma gen_text source : header_text source ->
  ascii_text (source ++ tx ";Generator=" ++ kGeneratorName) /\
  len_N (source ++ tx ";Generator=" ++ kGeneratorName) + 1 < 0xAA00.
Proof.
  intros [A L]. split.
  - apply Forall_app. split; [assumption|]. repeat constructor.
  - unfold len_N in *. rewrite app_length.
    change (length (tx ";Generator=" ++ kGeneratorName)) with 25%nat. lia.
Qed.

(** The whole encoder on a regular file, and the decoder on its output. *)
Lemma encode_decode dp fd part source date time :
  usable_device dp -> design dp fd ->
  header_text part -> header_text source -> header_text date -> header_text time ->
  exists fuel0 fs,
    (forall a, bt_find a fs = completed dp fd a) /\
    Forall (fun kv => is_frame_content (snd kv)) fs /\
    bt_sorted fs /\
    (forall a, In a (map fst fs) <-> is_frame_address dp a) /\
    payload fs = type2_data (part_from dp) fs /\
    forall fuel, (fuel0 <= fuel)%nat ->
      exists s, encode fuel dp part source date time fd (file_at_end []) = Ok s /\
        st_fail s = false /\
        st_bytes s = bit_file source kGeneratorName part date time
          (sync_preamble ++ packets_words (configuration_package (payload fs) (part_from dp))) /\
        (exists ws, ws = packets_words (configuration_package (payload fs) (part_from dp)) /\
           init_with_bytes (st_bytes s) = Ok (Some ws) /\
           reader_packets ws = Ok (configuration_package (payload fs) (part_from dp))) /\
        decode dp (st_bytes s) = Ok (Some fs).
Proof.
  intros U D Hp Hs Hd Ht. destruct (completed_frames dp fd U D)
    as (l & fs & Hw & Hk & Hsl & Hl & Hadd & Hsf & Hfind & Hc).
  destruct U as (PF & NH & F0 & Hid & Hlen).
  assert (Hlt : Forall (fun x => x < 2 ^ 26) l).
  { apply Forall_forall. intros x Hx. apply (is_frame_address_lt dp x PF). apply Hl. assumption. }
  assert (Hpay : type2_data (part_from dp) fs = payload fs) by (apply (payload_of_walk _ _ _ Hw); assumption).
  assert (Hcl : Forall (fun kv : N * list N => length (snd kv) = 101%nat) fs).
  { eapply Forall_impl; [|exact Hc]. intros kv [H _]. exact H. }
  assert (Hcw : Forall (fun w => w < 2 ^ 32) (payload fs)).
  { apply payload_words. eapply Forall_impl; [|exact Hc]. intros kv [_ H]. exact H. }
  assert (Hn : len_N fs <= 400000).
  { unfold len_N. assert (L : (length l <= length (device_frames dp))%nat).
    { apply NoDup_incl_length.
      - clear - Hsl. induction Hsl as [|x l Hl' IH Hx]; constructor; [|assumption].
        intros Hin. rewrite Forall_forall in Hx. specialize (Hx _ Hin). lia.
      - intros x Hx. apply device_frames_spec, Hl, Hx. }
    rewrite <- Hk, map_length in L. lia. }
  assert (Hpl : len_N (payload fs) < 2 ^ 27).
  { pose proof (payload_length fs Hcl) as P. pose proof (row_changes_le fs) as R.
    change (2 ^ 27) with 134217728. unfold len_N, frame in *. lia. }
  set (ks := configuration_package (payload fs) (part_from dp)).
  assert (Hwl : len_N (packets_words ks) = len_N (payload fs) + 570) by apply package_words_length.
  assert (Hwo : Forall packet_words_ok ks) by (apply package_words_ok; assumption).
  assert (Hfit : packets_fit None ks) by (apply package_fits; exact Hpl).
  assert (Hmem : forall a, existsb (N.eqb a) (device_frames dp) = existsb (N.eqb a) l).
  { intros a. apply eq_true_iff_eq. rewrite !existsb_exists.
    split; intros (x & Hx & E); exists x; split; try assumption.
    - apply Hl, device_frames_spec, Hx.
    - apply device_frames_spec, Hl, Hx. }
  exists (length l + (hdr_len + length (packets_words ks) + 1))%nat, fs.
  split; [intros a; unfold completed; rewrite Hmem; apply Hfind|]. split; [exact Hc|]. split; [assumption|].
  split; [intros a; change (map fst fs) with (map (@fst N frame) fs); rewrite Hk; apply Hl|]. split; [symmetry; assumption|].
  intros fuel Hf. unfold encode. rewrite Hadd by lia. cbn [obind]. rewrite Hpay. fold ks.
  destruct (gen_text source Hs) as [As Ls].
  destruct Hp as [Ap Lp], Hd as [Ad Ld], Ht as [At Lt].
  change (2 ^ 27) with 134217728 in Hpl.
  assert (H32 : 4 * (13 + len_N (packets_words ks)) < 2 ^ 32).
  { rewrite Hwl. change (2 ^ 32) with 4294967296. lia. }
  assert (H30 : 13 + len_N (packets_words ks) < 2 ^ 30).
  { rewrite Hwl. change (2 ^ 30) with 1073741824. lia. }
  destruct (write_bitstream_bit_file fuel ks part source kGeneratorName date time)
    as (s & E & F & B); try assumption; try lia.
  exists s. split; [exact E|]. split; [assumption|]. split; [assumption|].
  assert (HI : init_with_bytes (st_bytes s) = Ok (Some (packets_words ks))).
  { rewrite B. apply bit_file_words; try assumption; try lia. apply packets_words_ok. assumption. }
  pose proof (reader_packets_fit ks Hfit) as HR.
  split; [exists (packets_words ks); split; [reflexivity|split; assumption]|].
  unfold decode. rewrite HI. cbn [obind]. rewrite HR. cbn [obind]. unfold ks.
  rewrite decode_program. do 2 f_equal. rewrite <- Hpay. unfold type2_data.
  rewrite (fdri_walk _ _ _ Hw fs _ []); try assumption.
  - reflexivity.
  - constructor.
  - rewrite app_length.
    assert (G : forall g : list (N * frame), Forall (fun kv : N * list N => length (snd kv) = 101%nat) g ->
       (length g <= length (flat_map (type2_frame (part_from dp)) g))%nat).
    { induction 1 as [|kv g Hkv Hg IH]; [cbn; lia|]. cbn [flat_map length]. rewrite app_length.
      unfold type2_frame at 1. rewrite app_length.
      change (length (snd kv)) with (@length N (@snd N frame kv)) in Hkv. rewrite Hkv. lia. }
    specialize (G fs Hcl). lia.
Qed.
