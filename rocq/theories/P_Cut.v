(** Property C92: a file that was cut off is read back as all of the frames or as none of them, or not at all. *)
From Verif Require Import Base BaseFacts Absl Part PartSpec Frame Frames Fasm FasmSpec
  DbText DbJson Database Packet Config Writer WriterFacts ConfigSpec ConfigFacts ContainerSpec Reader ReaderFacts Encode EncodeSpec EncodeFacts
  Assembler AsmSpec LookupFacts AsmWhole DbSpec JsonSpec LoadSpec P_Database4 P_Main P_Main2 EndSpec AsmExample P_EndToEnd SameSpec SameFacts P_Repro
  P_Equiv PlaceSpec PlaceFacts P_Place CutFacts.
From Coq Require Import Lia.

Lemma run_decodes fuel ord c root input g p pins feats s : run_succeeds fuel ord c root input g p pins feats s ->
  exists fs, StronglySorted N.lt (map fst fs) /\ (forall a, In a (map fst fs) <-> is_frame_address p a) /\
    Forall (fun kv => is_frame_content (snd kv)) fs /\
    (forall a w i, (exists ws x, In (a, ws) fs /\ nth_error ws (N.to_nat w) = Some x /\ N.testbit x i = true) <->
       asks_for (c_env c) root g p pins feats a w i) /\
    st_bytes s = the_file p (c_date c) (c_time c) fs /\ decode p (st_bytes s) = Ok (Some fs).
Proof.
  intros R. destruct (run_file _ _ _ _ _ _ _ _ _ _ R) as (fs & A1 & A2 & A3 & A4 & E).
  destruct R as [G ES [HD _] [HT _] SF SW ER EI SL T DS CD DB OP H].
  destruct (C71_exit_zero_for_any_reading fuel ord c s root input g p pins G ES HD HT SF SW H ER EI SL DS CD DB)
    as (pud & fe & fs' & PD & TF & CF & PR & D).
  assert (fe = feats) as -> by (eapply text_features_fun; eauto).
  exists fs'. destruct CF as (B1 & B2 & B3 & B4). split; [exact B1|]. split; [exact B2|]. split; [exact B3|]. split; [|split; [exact PR|exact D]].
  intros a w i. rewrite B4. split.
  - intros (f & I & S). exists pud, f. auto.
  - intros (q & f & Q & I & S). assert (q = pud) as -> by (eapply pudcb_unique; eauto). eauto.
Qed.

(** The first [n] bytes of the file of a successful run.  There is no sync word in the first 143; after it the reader takes words, and reads
    past the end of its buffer when it is left with one, two or three bytes; the frames are delivered by one packet, as soon as it is complete. *)
Theorem C92_cut_file :
  forall fuel ord c root input g p pins feats s, run_succeeds fuel ord c root input g p pins feats s ->
  forall fl rl, all_frames p fl -> all_rows p rl ->
  exists fs, decode p (st_bytes s) = Ok (Some fs) /\ map fst fs = fl /\
    (forall a w i, (exists ws x, In (a, ws) fs /\ nth_error ws (N.to_nat w) = Some x /\ N.testbit x i = true) <->
       asks_for (c_env c) root g p pins feats a w i) /\
    forall n, (n <= List.length (st_bytes s))%nat ->
      ((n < 144)%nat -> decode p (firstn n (st_bytes s)) = Ok None) /\
      ((144 <= n)%nat -> (n mod 4 <> 0)%nat -> decode p (firstn n (st_bytes s)) = UB) /\
      ((144 <= n)%nat -> (n mod 4 = 0)%nat -> N.of_nat n < 328 + 4 * (101 * N.of_nat (List.length fl) + 202 * N.of_nat (List.length rl)) ->
         decode p (firstn n (st_bytes s)) = Ok (Some [])) /\
      ((n mod 4 = 0)%nat -> 328 + 4 * (101 * N.of_nat (List.length fl) + 202 * N.of_nat (List.length rl)) <= N.of_nat n ->
         decode p (firstn n (st_bytes s)) = Ok (Some fs)).
Proof.
  intros fuel ord c root input g p pins feats s R fl rl FL RL.
  destruct (run_decodes _ _ _ _ _ _ _ _ _ _ R) as (fs & S & F & C & B & E & D). exists fs. split; [exact D|].
  assert (M : map fst fs = fl) by (destruct FL as [F1 F2]; apply sorted_keys_eq; auto; intros x; rewrite F, F2; reflexivity).
  split; [exact M|]. split; [exact B|].
  pose proof (C90_size _ _ _ _ _ _ _ _ _ _ R fl rl FL RL) as SZ.
  destruct R as [_ _ [[Ad Ld'] Ld] [[At Lt'] Lt] _ _ _ _ _ _ _ CD _ _ _].
  assert (PL : N.of_nat (List.length (payload fs)) = 101 * N.of_nat (List.length fl) + 202 * N.of_nat (List.length rl)).
  { rewrite E, (file_length p _ _ fs Ld Lt) in SZ. lia. }
  destruct (cd_device _ _ _ _ CD) as (PF & NH & F0 & Hid & Hlen).
  assert (LP : len_N (payload fs) < 2 ^ 27).
  { unfold len_N. rewrite (PlaceFacts.payload_length _ (contents_len _ C)).
    assert (L : (List.length fs <= List.length (device_frames p))%nat).
    { rewrite <- (map_length fst fs). apply NoDup_incl_length.
      - clear - S. induction S as [|x l Hl' IH Hx]; constructor; [|assumption]. intros Hin. rewrite Forall_forall in Hx. specialize (Hx _ Hin). lia.
      - intros x Hx. apply device_frames_spec, F, Hx. }
    pose proof (row_changes_le fs) as Rc. change (2 ^ 27) with 134217728. unfold frame in *. unfold len_N in *. lia. }
  assert (FW : Forall (fun w => w < 2 ^ 32) (series7_words (dp_idcode p) (payload fs))).
  { change (dp_idcode p) with (p_idcode (part_from p)). rewrite <- (P_Bitstream.C13_words (payload fs) (part_from p) LP). change (flat_map _ (configuration_package (payload fs) (part_from p))) with (PacketFacts.packets_words (configuration_package (payload fs) (part_from p))).
    apply packets_words_ok, package_words_ok; [exact Hid|].
    apply payload_words. eapply Forall_impl; [|exact C]. intros kv [_ H]. exact H. }
  assert (HL : List.length (bit_header (tx "fpga-source") (tx "fpga-assembler") (tx "fasm") (c_date c) (c_time c)) = 88%nat).
  { rewrite header_split, !app_length, !bytes_len, Ld, Lt. reflexivity. }
  intros n Ln.
  pose proof (cut_file p (tx "fpga-source") (tx "fpga-assembler") (tx "fasm") (c_date c) (c_time c) fs n) as X. rewrite HL in X. cbv zeta in X.
  change (88 + 56)%nat with 144%nat in X. rewrite E in D, Ln |- *. unfold the_file in *.
  specialize (X ltac:(repeat constructor) ltac:(repeat constructor) Ad At eq_refl eq_refl ltac:(unfold len_N; rewrite Ld; reflexivity) ltac:(unfold len_N; rewrite Lt; reflexivity) LP FW D Ln).
  rewrite X. clear X D SZ E.
  assert (M4 : (144 <= n)%nat -> ((n - 144) mod 4 = n mod 4)%nat).
  { intros H. replace n with (n - 144 + 36 * 4)%nat at 2 by lia. rewrite Nat.mod_add by discriminate. reflexivity. }
  split; [|split; [|split]].
  - intros H. apply Nat.ltb_lt in H. now rewrite H.
  - intros H Q. pose proof (M4 H) as Y. apply Nat.ltb_ge in H. rewrite H, Y. apply Nat.eqb_neq in Q. rewrite Q. reflexivity.
  - intros H Q L. pose proof (M4 H) as Y. apply Nat.ltb_ge in H. rewrite H, Y. apply Nat.eqb_eq in Q. rewrite Q. cbn [negb].
    replace (n <? 144 + 4 * (46 + List.length (payload fs)))%nat with true by (symmetry; apply Nat.ltb_lt; lia). reflexivity.
  - intros Q L. assert (H : (144 <= n)%nat) by lia. pose proof (M4 H) as Y. apply Nat.ltb_ge in H. rewrite H, Y. apply Nat.eqb_eq in Q. rewrite Q. cbn [negb].
    replace (n <? 144 + 4 * (46 + List.length (payload fs)))%nat with false by (symmetry; apply Nat.ltb_ge; lia). reflexivity.
Qed.
Print Assumptions C92_cut_file.

Lemma sorted_set (l : list N) : exists r, StronglySorted N.lt r /\ forall x, In x r <-> In x l.
Proof.
  induction l as [|a l (r & S & H)]; [exists []; split; [constructor|reflexivity]|].
  exists (bt_keys (bt_set a tt (map (fun x => (x, tt)) r))). assert (K : bt_keys (map (fun x => (x, tt)) r) = r) by (unfold bt_keys; rewrite map_map, map_id; reflexivity). split.
  - apply bt_set_sorted. unfold bt_sorted. rewrite K. exact S.
  - intros x. rewrite bt_keys_set, K. cbn [In]. rewrite H. clear. split; (intros [->|Q]; [now left|now right]).
Qed.
(** So a cut file is never read back as another configuration. *)
Corollary C92_all_or_nothing :
  forall fuel ord c root input g p pins feats s, run_succeeds fuel ord c root input g p pins feats s ->
  exists fs, decode p (st_bytes s) = Ok (Some fs) /\
    forall n fs', decode p (firstn n (st_bytes s)) = Ok (Some fs') -> fs' = [] \/ fs' = fs.
Proof.
  intros fuel ord c root input g p pins feats s R.
  destruct (run_decodes _ _ _ _ _ _ _ _ _ _ R) as (fs0 & S & F & _).
  assert (FL : all_frames p (map fst fs0)) by now split.
  assert (RL : exists rl, all_rows p rl).
  { destruct (sorted_set (map device_row (map fst fs0))) as (rl & R1 & R2). exists rl. split; [exact R1|]. intros r. rewrite R2, in_map_iff. split.
    - intros (x & <- & I). exists x. split; [now apply F|reflexivity].
    - intros (x & I & <-). exists x. split; [reflexivity|now apply F]. }
  destruct RL as (rl & RL). destruct (C92_cut_file _ _ _ _ _ _ _ _ _ _ R _ _ FL RL) as (fs & D & _ & _ & X). exists fs. split; [exact D|].
  intros n fs' H. destruct (Nat.le_gt_cases n (List.length (st_bytes s))) as [L|L].
  - destruct (X n L) as (X1 & X2 & X3 & X4). destruct (Nat.lt_ge_cases n 144) as [Q|Q]; [rewrite (X1 Q) in H; discriminate H|].
    destruct (Nat.eq_dec (n mod 4) 0) as [Z|Z]; [|rewrite (X2 Q Z) in H; discriminate H].
    destruct (N.lt_ge_cases (N.of_nat n) (328 + 4 * (101 * N.of_nat (List.length (map fst fs0)) + 202 * N.of_nat (List.length rl)))) as [Y|Y].
    + rewrite (X3 Q Z Y) in H. left. congruence.
    + rewrite (X4 Z Y) in H. right. congruence.
  - rewrite firstn_all2 in H by lia. right. congruence.
Qed.
Print Assumptions C92_all_or_nothing.

(** Reading any file safely: not so, one byte after the sync word is enough. *)
Theorem C92_every_cut_is_safe_refuted :
  ~ (forall fuel ord c root input g p pins feats s, run_succeeds fuel ord c root input g p pins feats s ->
     forall n, exists r, decode p (firstn n (st_bytes s)) = Ok r).
Proof.
  intros H. destruct (run_shape demo_input) as (s & R); [vm_compute; reflexivity..|].
  destruct (demo_run _ _ R) as (pins & feats & RS). destruct (H _ _ _ _ _ _ _ _ _ _ RS 145%nat) as (r & E).
  destruct (C92_cut_file _ _ _ _ _ _ _ _ _ _ RS _ _ demo_frames demo_rows) as (fs & _ & _ & _ & X).
  pose proof (C90_size _ _ _ _ _ _ _ _ _ _ RS _ _ demo_frames demo_rows) as L.
  destruct (X 145%nat) as (_ & X2 & _); [cbn [List.length] in L; lia|]. rewrite X2 in E; [discriminate E|lia|discriminate].
Qed.
Print Assumptions C92_every_cut_is_safe_refuted.

(** The demo file has 5252 bytes, its frames end at byte 3156. *)
Example C92_case : exists pins feats s fs,
  run_succeeds 3000 ex_orders (demo_command demo_input) (tx "db") demo_input (tl_grid demo_db) (tl_part demo_db) pins feats s /\
  decode (tl_part demo_db) (st_bytes s) = Ok (Some fs) /\ List.length fs = 5%nat /\
  decode (tl_part demo_db) (firstn 143 (st_bytes s)) = Ok None /\
  decode (tl_part demo_db) (firstn 3152 (st_bytes s)) = Ok (Some []) /\
  decode (tl_part demo_db) (firstn 3153 (st_bytes s)) = UB /\
  decode (tl_part demo_db) (firstn 3156 (st_bytes s)) = Ok (Some fs).
Proof.
  destruct (run_shape demo_input) as (s & R); [vm_compute; reflexivity..|].
  destruct (demo_run _ _ R) as (pins & feats & RS).
  destruct (C92_cut_file _ _ _ _ _ _ _ _ _ _ RS _ _ demo_frames demo_rows) as (fs & D & M & _ & X).
  pose proof (C90_size _ _ _ _ _ _ _ _ _ _ RS _ _ demo_frames demo_rows) as L. cbn [List.length] in L, X.
  exists pins, feats, s, fs. split; [exact RS|]. split; [exact D|]. split; [rewrite <- (map_length fst), M; reflexivity|].
  clear R RS D M. split; [apply (X 143%nat); lia|]. split; [apply (X 3152%nat); try lia; reflexivity|]. split; [apply (X 3153%nat); try lia; discriminate|].
  apply (X 3156%nat); try lia; reflexivity.
Qed.
