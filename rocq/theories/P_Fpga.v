(** Properties C105-C107: what a device does with the file of a successful run (the device is FpgaSpec.v). *)
From Verif Require Import Base BaseFacts Absl Part PartSpec Frame Frames Fasm FasmSpec
  DbText DbJson Database Packet Config Writer WriterFacts ConfigSpec ConfigFacts ContainerSpec Reader ReaderFacts Encode EncodeSpec EncodeFacts
  Assembler AsmSpec LookupFacts AsmWhole DbSpec JsonSpec LoadSpec P_Database4 P_Main P_Main2 EndSpec AsmExample P_EndToEnd SameSpec SameFacts P_Repro
  P_Equiv PlaceSpec PlaceFacts P_Place CutFacts P_Cut.
From Verif Require FpgaFacts FpgaFacts2 FpgaFacts3 FpgaFacts4.
From Verif Require Import FpgaSpec.
Import FpgaFacts FpgaFacts2 FpgaFacts3 FpgaFacts4.
From Coq Require Import Lia ZifyBool ZifyN ZifyNat.

(** A device of the kind that the database describes. *)
Definition device_for (p : db_part) (dk : device_kind) : Prop :=
  dk_idcode dk mod 2 ^ 28 = dp_idcode p mod 2 ^ 28 /\ all_frames p (dk_frames dk).
(** Bit [i] of word [w] of frame [a] is set in the configuration memory. *)
Definition bit_set (d : device) (a w i : N) : Prop := exists x, nth_error (memory d a) (N.to_nat w) = Some x /\ N.testbit x i = true.

(** ** Chunks *)
Lemma pads_is b (rest : list (N * list N)) : pads b (map fst rest) =
  match rest with (a', _) :: _ => if device_row b =? device_row a' then 0%nat else 2%nat | [] => 2%nat end.
Proof. unfold pads, same_row. destruct rest as [|[a' w] rest]; reflexivity. Qed.
Lemma room_payload fs : Forall (fun kv : N * list N => List.length (snd kv) = 101%nat) fs -> fs <> [] -> room (map fst fs) = List.length (payload fs).
Proof.
  induction fs as [|[a ws] fs IH]; intros F NE; [contradiction|]. inversion F as [|? ? Fw F']; subst. cbn [snd] in Fw. cbn [map fst room payload].
  rewrite pads_is, !app_length, Fw. destruct fs as [|[a' w'] fs].
  - reflexivity.
  - rewrite (IH F' ltac:(discriminate)). destruct (device_row a =? device_row a'); cbn [List.length]; [lia|]. change (List.length two_zero_frames) with 202%nat. lia.
Qed.
Lemma chunks_payload fs : Forall (fun kv : N * list N => List.length (snd kv) = 101%nat) fs -> chunks (map fst fs) (payload fs) = fs.
Proof.
  induction fs as [|[a ws] fs IH]; intros F; [reflexivity|]. inversion F as [|? ? Fw F']; subst. cbn [snd] in Fw. cbn [map fst chunks payload].
  rewrite pads_is. rewrite firstn_app, Fw, Nat.sub_diag, firstn_all2 by lia. cbn [firstn]. rewrite app_nil_r. f_equal.
  destruct fs as [|[a' w'] fs]; [reflexivity|]. etransitivity; [|exact (IH F')]. f_equal.
  destruct (device_row a =? device_row a').
  - cbn [app]. rewrite skipn_app, Fw, skipn_all2 by lia. reflexivity.
  - rewrite app_assoc, skipn_app, skipn_all2; rewrite app_length, Fw; change (List.length two_zero_frames) with 202%nat; [|lia]. reflexivity.
Qed.
Lemma skipn_more {X} n m (l : list X) : skipn n (skipn m l) = skipn (m + n) l.
Proof. revert l. induction m as [|m IH]; intros l; [reflexivity|]. destruct l as [|x l]; [now rewrite !skipn_nil|]. cbn [skipn Nat.add]. apply IH. Qed.
Lemma chunk_at l1 : forall a ws l2 data, In (a, firstn 101 (skipn (N.to_nat (101 * N.of_nat (List.length l1) + 202 * row_changes (l1 ++ [(a, ws)]))) data))
  (chunks (map fst (l1 ++ (a, ws) :: l2)) data).
Proof.
  induction l1 as [|[b v] l1 IH]; intros a ws l2 data.
  - cbn [app map fst chunks List.length row_changes]. left. reflexivity.
  - cbn [app map fst chunks List.length row_changes]. right. rewrite pads_is.
    assert (X : exists b' v' t t', l1 ++ (a, ws) :: l2 = (b', v') :: t /\ l1 ++ [(a, ws)] = (b', v') :: t').
    { destruct l1 as [|[b' v'] l1]; cbn [app]; eauto 8. }
    destruct X as (b' & v' & t & t' & X1 & X2).
    specialize (IH a ws l2 (skipn (101 + 101 * (if device_row b =? device_row b' then 0 else 2)) data)). rewrite skipn_more in IH. rewrite X1 in *. rewrite X2 in *.
    match goal with H : In (_, firstn 101 (skipn ?x data)) _ |- In (_, firstn 101 (skipn ?y data)) _ => replace y with x; [exact H|] end.
    destruct (device_row b =? device_row b'); lia.
Qed.
Lemma chunks_keys l : forall data, map fst (chunks l data) = l.
Proof. induction l as [|a l IH]; intros data; [reflexivity|]. cbn [chunks map fst]. now rewrite IH. Qed.

Lemma written_out fs a : forall m, ~ In a (map fst fs) -> written fs m a = m a.
Proof.
  induction fs as [|[b v] fs IH]; intros m H; [reflexivity|]. cbn [map fst] in H. unfold written. cbn [fold_left]. fold (written fs). rewrite IH; [|intros I; apply H; now right].
  cbn [fst]. destruct (N.eqb_spec a b) as [->|]; [|reflexivity]. contradiction H. now left.
Qed.
Lemma written_in fs a ws : forall m, NoDup (map fst fs) -> In (a, ws) fs -> written fs m a = ws.
Proof.
  induction fs as [|[b v] fs IH]; intros m ND H; [contradiction|]. cbn [map fst] in ND. inversion ND as [|? ? Nb Nd]; subst.
  unfold written. cbn [fold_left]. fold (written fs). destruct H as [E|H].
  - injection E as -> ->. rewrite written_out by exact Nb. cbn [fst snd]. now rewrite N.eqb_refl.
  - now apply IH.
Qed.
Lemma sorted_nodup (l : list N) : StronglySorted N.lt l -> NoDup l.
Proof. intros S. induction S as [|y l S IH Fy]; constructor; [|exact IH]. intros H. rewrite Forall_forall in Fy. specialize (Fy _ H). lia. Qed.
Lemma masked_twice c : masked (masked c 0x401 0x501) 0x501 0x501 = N.lor c 0x501.
Proof.
  unfold masked. apply N.bits_inj. intros i. rewrite !N.lor_spec, !N.ldiff_spec, !N.lor_spec, !N.land_spec, !N.ldiff_spec.
  destruct (N.lt_ge_cases i 11) as [L|L].
  - assert (I : In i [0;1;2;3;4;5;6;7;8;9;10]) by (cbn [In]; lia). cbn [In] in I. repeat (destruct I as [<-|I]; [destruct (N.testbit c _); reflexivity|]). contradiction.
  - assert (Z : forall n, n < 2 ^ 11 -> N.testbit n i = false).
    { intros n Hn. destruct n as [|q]; [reflexivity|]. apply N.bits_above_log2. apply N.log2_lt_pow2 in Hn; lia. }
    rewrite !(Z 0x501), !(Z 0x401) by reflexivity. destruct (N.testbit c i); reflexivity.
Qed.
Lemma masked_none c : masked c 0 0 = c.
Proof. unfold masked. rewrite N.ldiff_0_r, N.land_0_r, N.lor_0_r. reflexivity. Qed.

(** ** The run and its device *)
Record setting (p : db_part) (date time : text) (fs : list (N * list N)) : Prop := {
  st_d : stamp date; st_t : stamp time; st_id : dp_idcode p < 2 ^ 32;
  st_w : Forall (fun w => w < 2 ^ 32) (payload fs); st_l : N.of_nat (List.length (payload fs)) < 2 ^ 27;
  st_s : StronglySorted N.lt (map fst fs); st_f : forall a, In a (map fst fs) <-> is_frame_address p a;
  st_c : Forall (fun kv => is_frame_content (snd kv)) fs;
  st_0 : exists l, map fst fs = 0 :: l
}.
Lemma run_setting fuel ord c root input g p pins feats s : run_succeeds fuel ord c root input g p pins feats s ->
  exists fs, setting p (c_date c) (c_time c) fs /\
    (forall a w i, (exists ws x, In (a, ws) fs /\ nth_error ws (N.to_nat w) = Some x /\ N.testbit x i = true) <-> asks_for (c_env c) root g p pins feats a w i) /\
    st_bytes s = data_file (dp_idcode p) (c_date c) (c_time c) (payload fs) /\ decode p (st_bytes s) = Ok (Some fs).
Proof.
  intros R. destruct (run_decodes _ _ _ _ _ _ _ _ _ _ R) as (fs & S & F & C & B & E & D). exists fs.
  destruct R as [_ _ [[Ad Ld'] Ld] [[At Lt'] Lt] _ _ _ _ _ _ _ CD _ _ _].
  destruct (cd_device _ _ _ _ CD) as (PF & NH & F0 & Hid & Hlen). split; [|auto]. constructor; auto.
  - split; [exact Ad|]. unfold len_N. rewrite Ld. reflexivity.
  - split; [exact At|]. unfold len_N. rewrite Lt. reflexivity.
  - apply payload_words. eapply Forall_impl; [|exact C]. intros kv [_ H]. exact H.
  - rewrite (PlaceFacts.payload_length _ (contents_len _ C)).
    assert (L : (List.length fs <= List.length (device_frames p))%nat).
    { rewrite <- (map_length fst fs). apply NoDup_incl_length; [now apply sorted_nodup|]. intros x Hx. apply device_frames_spec, F, Hx. }
    pose proof (row_changes_le fs) as Rc. change (2 ^ 27) with 134217728. unfold frame in *. unfold len_N in *. lia.
  - apply F in F0. destruct (map fst fs) as [|a l] eqn:M; [contradiction|]. exists l. f_equal. destruct F0 as [->|F0]; [reflexivity|].
    inversion S as [|? ? S' Fa]; subst. rewrite Forall_forall in Fa. specialize (Fa _ F0). lia.
Qed.
Lemma device_frames_are p dk date time fs : setting p date time fs -> device_for p dk -> dk_frames dk = map fst fs.
Proof. intros ST [_ [S A]]. apply sorted_keys_eq; [exact S|apply (st_s _ _ _ _ ST)|]. intros x. rewrite A. symmetry. apply (st_f _ _ _ _ ST). Qed.

(** What the device does with any frame data of the right length. *)
Lemma device_reads p dk date time fs data d : setting p date time fs -> device_for p dk -> blank d ->
  List.length data = List.length (payload fs) -> Forall (fun w => w < 2 ^ 32) data ->
  exists r c mm, receive dk (data_file (dp_idcode p) date time data) d = set_recent r (configured c mm (wake d)) /\
    forall a, mm a = written (chunks (map fst fs) data) (memory d) a.
Proof.
  intros ST DF B L Fw. pose proof (device_frames_are _ _ _ _ _ ST DF) as FE. destruct ST as [Sd St Sid Sw Sl Ss Sf Sc (l & E0)]. destruct DF as [Id _].
  rewrite E0 in *. apply device_whole; auto.
  - now rewrite L.
  - rewrite L, <- room_payload, E0; [reflexivity|now apply contents_len|]. intros ->. discriminate E0.
Qed.

Theorem C105_device_configured :
  forall fuel ord c root input g p pins feats s, run_succeeds fuel ord c root input g p pins feats s ->
  forall dk d, device_for p dk -> blank d ->
  let d' := receive dk (st_bytes s) d in
  running d' = true /\ failed d' = false /\ awake d' = false /\
  (forall a, is_frame_address p a -> is_frame_content (memory d' a) /\
     forall w i, bit_set d' a w i <-> asks_for (c_env c) root g p pins feats a w i) /\
  (forall a, ~ is_frame_address p a -> memory d' a = memory d a) /\
  ctl0 d' = N.lor (ctl0 d) 0x501 /\ ctl1 d' = ctl1 d /\ cor0 d' = 0x02003fe5.
Proof.
  intros fuel ord c root input g p pins feats s R dk d DF B. destruct (run_setting _ _ _ _ _ _ _ _ _ _ R) as (fs & ST & Bits & E & _). cbv zeta. rewrite E.
  destruct (device_reads p dk _ _ fs (payload fs) d ST DF B eq_refl (st_w _ _ _ _ ST)) as (r & k & mm & RE & M).
  rewrite chunks_payload in M by (apply contents_len, (st_c _ _ _ _ ST)). rewrite RE.
  pose proof B as B'. destruct B' as (_ & _ & _ & Fl & _).
  assert (ND : NoDup (map fst fs)) by (apply sorted_nodup, (st_s _ _ _ _ ST)).
  split; [reflexivity|]. split; [exact Fl|]. split; [reflexivity|]. split; [|split; [|split; [|split; [|reflexivity]]]].
  - intros a A. apply (st_f _ _ _ _ ST) in A. apply in_map_iff in A as ([a' ws] & X & In1). cbn [fst] in X. subst a'.
    assert (Ma : mm a = ws) by (rewrite M; now apply written_in). split.
    + cbn [memory set_recent configured set_running set_awake set_last_register set_command set_checksum set_ctl0 set_mask set_far set_pad set_frame_buffer set_start set_interconnect set_memory]. rewrite Ma. pose proof (st_c _ _ _ _ ST) as C. rewrite Forall_forall in C. exact (C _ In1).
    + intros w i. rewrite <- Bits. unfold bit_set. change (memory (set_recent r (configured k mm (wake d))) a) with (mm a). rewrite Ma. split.
      * intros (x & X1 & X2). exists ws, x. auto.
      * intros (ws' & x & I' & X1 & X2). assert (ws' = ws) as -> by (rewrite <- (written_in fs a ws' (memory d) ND I'), <- Ma; symmetry; apply M). eauto.
  - intros a A. change (mm a = memory d a). rewrite M. apply written_out. intros I'. apply A. now apply (st_f _ _ _ _ ST).
  - apply (masked_twice (ctl0 d)).
  - apply (masked_none (ctl1 d)).
Qed.
Print Assumptions C105_device_configured.

(** Another kind of device: whatever part of the file it gets, it stays as it is. *)
Theorem C105_other_device :
  forall fuel ord c root input g p pins feats s, run_succeeds fuel ord c root input g p pins feats s ->
  forall dk d, dk_idcode dk mod 2 ^ 28 <> dp_idcode p mod 2 ^ 28 -> blank d ->
  forall n, let d' := receive dk (firstn n (st_bytes s)) d in running d' = false /\ forall a, memory d' a = memory d a.
Proof.
  intros fuel ord c root input g p pins feats s R dk d Ne B n. destruct (run_setting _ _ _ _ _ _ _ _ _ _ R) as (fs & ST & _ & E & _). cbv zeta. rewrite E.
  destruct ST as [Sd St Sid Sw Sl Ss Sf Sc _].
  destruct (device_other dk (dp_idcode p) (c_date c) (c_time c) (payload fs) d n Sd St Sid Sl Sw B) as [R1 R2]; [congruence|].
  split; [exact R1|]. intros a. now rewrite R2.
Qed.
Print Assumptions C105_other_device.

(** The device holds what the repository's own reader reads from the file. *)
Theorem C105_same_as_reader :
  forall fuel ord c root input g p pins feats s, run_succeeds fuel ord c root input g p pins feats s ->
  forall dk d, device_for p dk -> blank d ->
  exists fs, decode p (st_bytes s) = Ok (Some fs) /\ map fst fs = dk_frames dk /\
    forall a ws, In (a, ws) fs -> memory (receive dk (st_bytes s) d) a = ws.
Proof.
  intros fuel ord c root input g p pins feats s R dk d DF B. destruct (run_setting _ _ _ _ _ _ _ _ _ _ R) as (fs & ST & _ & E & D). exists fs.
  split; [exact D|]. split; [symmetry; eapply device_frames_are; eauto|]. intros a ws I'. rewrite E.
  destruct (device_reads p dk _ _ fs (payload fs) d ST DF B eq_refl (st_w _ _ _ _ ST)) as (r & k & mm & RE & M).
  rewrite chunks_payload in M by (apply contents_len, (st_c _ _ _ _ ST)). rewrite RE. change (mm a = ws). rewrite M. apply written_in; [|exact I'].
  apply sorted_nodup, (st_s _ _ _ _ ST).
Qed.
Print Assumptions C105_same_as_reader.

(** ** A transfer that stops *)
Lemma stored_at l1 : forall a ws l2 data j, NoDup (map fst (l1 ++ (a, ws) :: l2)) ->
  let k := N.to_nat (101 * N.of_nat (List.length l1) + 202 * row_changes (l1 ++ [(a, ws)])) in
  ((k + 101 <= j)%nat -> In (a, firstn 101 (skipn k data)) (stored (map fst (l1 ++ (a, ws) :: l2)) data j)) /\
  ((j < k + 101)%nat -> ~ In a (map fst (stored (map fst (l1 ++ (a, ws) :: l2)) data j))).
Proof.
  induction l1 as [|[b v] l1 IH]; intros a ws l2 data j ND; cbv zeta.
  - cbn [app map fst stored List.length row_changes]. change (N.to_nat (101 * N.of_nat 0 + 202 * (0 + 0))) with 0%nat. split; intros L.
    + replace (101 <=? j)%nat with true by (symmetry; apply Nat.leb_le; lia). left. reflexivity.
    + replace (101 <=? j)%nat with false by (symmetry; apply Nat.leb_gt; lia). intros [].
  - cbn [app map fst] in ND. inversion ND as [|? ? Nb Nd]; subst.
    assert (X : exists b' v' t t', l1 ++ (a, ws) :: l2 = (b', v') :: t /\ l1 ++ [(a, ws)] = (b', v') :: t').
    { destruct l1 as [|[b' v'] l1]; cbn [app]; eauto 8. }
    destruct X as (b' & v' & t & t' & X1 & X2).
    set (s := (101 + 101 * (if (device_row b =? device_row b')%N then 0 else 2))%nat).
    specialize (IH a ws l2 (skipn s data) (j - s)%nat Nd). cbv zeta in IH. rewrite skipn_more in IH.
    set (k' := N.to_nat (101 * N.of_nat (List.length l1) + 202 * row_changes (l1 ++ [(a, ws)]))) in *.
    assert (K : N.to_nat (101 * N.of_nat (List.length ((b, v) :: l1)) + 202 * row_changes (((b, v) :: l1) ++ [(a, ws)])) = (s + k')%nat).
    { cbn [app List.length row_changes]. unfold k', s. rewrite X2. destruct (device_row b =? device_row b'); lia. }
    rewrite K. cbn [app map fst stored]. rewrite pads_is, X1. rewrite X1 in IH.
    change (101 + 101 * (if (device_row b =? device_row b')%N then 0 else 2))%nat with s. destruct IH as [I1 I2]. split; intros L.
    + assert (101 <= s)%nat by (unfold s; lia). replace (101 <=? j)%nat with true by (symmetry; apply Nat.leb_le; lia). right. apply I1. lia.
    + destruct (101 <=? j)%nat eqn:Q; [|intros []]. cbn [map fst]. intros [E|I'].
      * apply Nb. rewrite E, map_app. apply in_or_app. right. now left.
      * revert I'. apply I2. assert (101 <= s)%nat by (unfold s; lia). lia.
Qed.

(** The transfer stops after [n] bytes: a frame is stored, as a whole, when its last byte has arrived, and the device starts when the
    command DESYNC has, 1600 bytes before the end. *)
Theorem C106_transfer_stops :
  forall fuel ord c root input g p pins feats s, run_succeeds fuel ord c root input g p pins feats s ->
  forall dk d, device_for p dk -> blank d ->
  forall n, let d' := receive dk (firstn n (st_bytes s)) d in let full := receive dk (st_bytes s) d in
  (forall a k, is_frame_address p a -> frame_place p a k -> memory d' a = if 328 + 4 * (k + 101) <=? N.of_nat n then memory full a else memory d a) /\
  (forall a, ~ is_frame_address p a -> memory d' a = memory d a) /\
  (running d' = true <-> (List.length (st_bytes s) <= n + 1600)%nat).
Proof.
  intros fuel ord c root input g p pins feats s R dk d DF B n. destruct (run_setting _ _ _ _ _ _ _ _ _ _ R) as (fs & ST & _ & E & _). cbv zeta.
  destruct R as [_ _ [_ Ld] [_ Lt] _ _ _ _ _ _ _ _ _ _ _].
  destruct (device_reads p dk _ _ fs (payload fs) d ST DF B eq_refl (st_w _ _ _ _ ST)) as (r & c0 & mm & RE & M).
  pose proof (device_frames_are _ _ _ _ _ ST DF) as FE.
  assert (CL := contents_len _ (st_c _ _ _ _ ST)). rewrite (chunks_payload _ CL) in M.
  assert (SZ : List.length (st_bytes s) = (144 + 4 * List.length (program_words (dp_idcode p) (payload fs)) + 1600)%nat).
  { rewrite E, program_len. change (data_file (dp_idcode p) (c_date c) (c_time c) (payload fs)) with (the_file p (c_date c) (c_time c) fs).
    pose proof (file_length p _ _ fs Ld Lt). lia. }
  rewrite SZ. rewrite E. clear SZ.
  assert (PX : let d' := receive dk (firstn n (data_file (dp_idcode p) (c_date c) (c_time c) (payload fs))) d in
    (forall a, memory d' a = written (stored (map fst fs) (payload fs) (Nat.min (List.length (payload fs)) ((n - 328) / 4))) (memory d) a) /\
    (running d' = true <-> (144 + 4 * List.length (program_words (dp_idcode p) (payload fs)) <= n)%nat)).
  { destruct ST as [Sd St Sid Sw Sl Ss Sf Sc (l & E0)]. destruct DF as [Id _]. rewrite E0 in *.
    assert (RP : List.length (payload fs) = room (0 :: l)) by (rewrite <- room_payload, E0; [reflexivity|exact CL|]; intros ->; discriminate E0).
    exact (device_exact dk (dp_idcode p) (c_date c) (c_time c) (payload fs) l d Sd St Ld Lt Sid Sw Sl B FE Ss RP (eq_sym Id) n). }
  cbv zeta in PX. destruct PX as [PM PR].
  rewrite RE. change (memory (set_recent r (configured c0 mm (wake d)))) with mm. set (d' := receive dk (firstn n _) d) in *. clearbody d'. clear RE E.
  assert (ND : NoDup (map fst fs)) by (apply sorted_nodup, (st_s _ _ _ _ ST)).
  assert (NS : forall j, NoDup (map fst (stored (map fst fs) (payload fs) j)) /\ forall x, In x (map fst (stored (map fst fs) (payload fs) j)) -> In x (map fst fs)).
  { clear - ND. generalize (payload fs) as data. induction (map fst fs) as [|x l IH]; intros data j; [split; [constructor|intros x []]|]. cbn [stored].
    destruct (101 <=? j)%nat; [|split; [constructor|intros y []]]. inversion ND as [|? ? Nx Nl]; subst. cbn [map fst].
    destruct (IH Nl (skipn (101 + 101 * pads x l) data) (j - (101 + 101 * pads x l))%nat) as [I1 I2]. split.
    - constructor; [intros Q; apply Nx; now apply I2|exact I1].
    - intros y [<-|Q]; [now left|right; now apply I2]. }
  split; [|split].
  - intros a k Ha K. apply (st_f _ _ _ _ ST) in Ha. apply in_map_iff in Ha as ([a' ws] & X & I'). cbn [fst] in X. subst a'.
    assert (Ma : mm a = ws) by (rewrite M; now apply written_in).
    apply in_split in I' as (l1 & l2 & E).
    assert (K' : k = 101 * N.of_nat (List.length l1) + 202 * row_changes (l1 ++ [(a, ws)])).
    { apply (place_unique p a); [exact K|]. apply (place_of p (c_date c) (c_time c) fs Ld Lt (st_s _ _ _ _ ST) (st_f _ _ _ _ ST) l1 a ws l2 E). }
    destruct (payload_at l1 a ws l2) as (pre & post & P1 & P2).
    { rewrite E in CL. apply Forall_app in CL as [C _]. exact C. }
    assert (Lw : List.length ws = 101%nat).
    { rewrite E in CL. apply Forall_app in CL as [_ C]. inversion C as [|? ? Q _]; subst. exact Q. }
    rewrite <- E in P1. rewrite <- K' in P2.
    assert (Lp : (N.to_nat k + 101 <= List.length (payload fs))%nat) by (rewrite P1, !app_length, Lw; lia).
    assert (Fk : firstn 101 (skipn (N.to_nat k) (payload fs)) = ws).
    { rewrite P1. replace (N.to_nat k) with (List.length pre) by lia. rewrite skipn_app, skipn_all, Nat.sub_diag. cbn [skipn app]. rewrite firstn_app, Lw, firstn_all2 by lia. rewrite Nat.sub_diag. cbn [firstn]. apply app_nil_r. }
    set (j := Nat.min (List.length (payload fs)) ((n - 328) / 4)) in *.
    destruct (stored_at l1 a ws l2 (payload fs) j) as [S1 S2]; [rewrite <- E; exact ND|]. cbv zeta in S1, S2. rewrite <- K', <- E in S1, S2. rewrite Fk in S1. rewrite PM, Ma.
    assert (J : (N.to_nat k + 101 <= j)%nat <-> 328 + 4 * (k + 101) <= N.of_nat n).
    { unfold j. split; intros Q.
      - assert (Q' : (N.to_nat k + 101 <= (n - 328) / 4)%nat) by lia. pose proof (Nat.mul_div_le (n - 328) 4 ltac:(discriminate)). lia.
      - assert (Q' : (N.to_nat k + 101 <= (n - 328) / 4)%nat) by (apply Nat.div_le_lower_bound; lia). lia. }
    destruct (N.leb_spec (328 + 4 * (k + 101)) (N.of_nat n)) as [Q|Q].
    + apply written_in; [apply NS|]. apply S1. now apply J.
    + apply written_out. apply S2. destruct (Nat.lt_ge_cases j (N.to_nat k + 101)) as [Z|Z]; [exact Z|]. apply J in Z. lia.
  - intros a A. rewrite PM. apply written_out. intros I'. apply NS in I'. apply A. now apply (st_f _ _ _ _ ST).
  - rewrite PR. lia.
Qed.
Print Assumptions C106_transfer_stops.

(** A device that has started has the whole design. *)
Corollary C106_started_complete :
  forall fuel ord c root input g p pins feats s, run_succeeds fuel ord c root input g p pins feats s ->
  forall dk d, device_for p dk -> blank d ->
  forall n, let d' := receive dk (firstn n (st_bytes s)) d in running d' = true ->
  forall a w i, is_frame_address p a -> bit_set d' a w i <-> asks_for (c_env c) root g p pins feats a w i.
Proof.
  intros fuel ord c root input g p pins feats s R dk d DF B n d' Rn a w i Ha. unfold d' in *. clear d'.
  destruct (C106_transfer_stops _ _ _ _ _ _ _ _ _ _ R dk d DF B n) as (T1 & _ & T3). cbv zeta in T1, T3. apply T3 in Rn. clear T3.
  destruct (C105_device_configured _ _ _ _ _ _ _ _ _ _ R dk d DF B) as (_ & _ & _ & H & _). cbv zeta in H. destruct (H a Ha) as [_ Hb]. rewrite <- Hb.
  destruct DF as [Did FL]. destruct (C90_place_exists p _ FL a Ha) as (k & K & _). unfold bit_set. rewrite (T1 a k Ha K).
  assert (Q : 328 + 4 * (k + 101) <= N.of_nat n).
  { destruct (run_setting _ _ _ _ _ _ _ _ _ _ R) as (fs & ST & _ & E & _). destruct R as [_ _ [_ Ld] [_ Lt] _ _ _ _ _ _ _ _ _ _ _].
    rewrite E in Rn. change (data_file (dp_idcode p) (c_date c) (c_time c) (payload fs)) with (the_file p (c_date c) (c_time c) fs) in Rn. pose proof (file_length p _ _ fs Ld Lt) as SZ.
    assert (Lp : k + 101 <= N.of_nat (List.length (payload fs))).
    { apply (st_f _ _ _ _ ST) in Ha. apply in_map_iff in Ha as ([a' ws] & X & I'). cbn [fst] in X. subst a'. apply in_split in I' as (l1 & l2 & E').
      assert (CL := contents_len _ (st_c _ _ _ _ ST)).
      rewrite (place_unique p a _ _ K (place_of p (c_date c) (c_time c) fs Ld Lt (st_s _ _ _ _ ST) (st_f _ _ _ _ ST) l1 a ws l2 E')).
      rewrite E' in CL. apply Forall_app in CL as [C1 C2]. destruct (payload_at l1 a ws l2 C1) as (pre & post & P1 & P2). inversion C2 as [|? ? Lw _]; subst. cbn [snd] in Lw.
      rewrite P1, !app_length, Lw. lia. }
    lia. }
  apply N.leb_le in Q. rewrite Q. reflexivity.
Qed.
Print Assumptions C106_started_complete.
