(** Properties C93 (a run that is interrupted) and C94 (a device that is full). *)
From Verif Require Import Base BaseFacts Absl Part PartSpec Frame Frames Fasm FasmSpec
  DbText DbJson Database Packet PacketFacts Config Writer WriterFacts ConfigSpec ConfigFacts ContainerSpec Reader ReaderFacts Encode EncodeSpec EncodeFacts
  Assembler AsmSpec LookupFacts AsmWhole DbSpec JsonSpec LoadSpec P_Database4 P_Main P_Main2 EndSpec AsmExample P_EndToEnd SameSpec SameFacts P_Repro
  P_Equiv PlaceSpec PlaceFacts P_Place CutFacts P_Cut NoErrFacts Device DeviceSpec DeviceFacts.
From Coq Require Import Lia.

(** ** C93 *)
(** With unlimited room this is the program of Assembler.v. *)
Theorem C93_same_run : forall fuel sm ord c,
  omap (fun r => (fst r, d_stream (snd r))) (device_program None fuel sm ord c) = main_program fuel sm ord c.
Proof.
  intros fuel sm ord c. unfold device_program, main_program. destruct (2 <? List.length (c_args c))%nat; [reflexivity|].
  destruct (db_path c) as [root|]; [|reflexivity].
  destruct (match root with [] => true | _ => negb (e_exists (c_env c) root) end); [reflexivity|].
  destruct (c_part c) as [|pc pr] eqn:EP; [reflexivity|]. rewrite <- EP.
  destruct (parse_database (c_env c) (o_load ord) root (c_part c)) as [tls| | | |]; try reflexivity.
  destruct (input_text c) as [input|]; [|reflexivity]. destruct (assemble_frames sm ord tls input) as [fr| | | |]; try reflexivity.
  pose proof (device_encode_none fuel (tl_part tls) (tx "fasm") (tx "fpga-source") (c_date c) (c_time c) fr {| d_stream := c_stdout c; d_ops := []; d_room := None |} eq_refl) as E.
  cbn [d_stream] in E. rewrite <- E.
  destruct (device_encode fuel (tl_part tls) (tx "fasm") (tx "fpga-source") (c_date c) (c_time c) fr {| d_stream := c_stdout c; d_ops := []; d_room := None |}); reflexivity.
Qed.
Print Assumptions C93_same_run.

Lemma be_bytes_small n : Forall (fun b => b < 256) (be_bytes n).
Proof.
  unfold be_bytes. assert (H : forall x, N.land x 0xFF < 256) by (intros x; change 0xFF with (N.ones 8); rewrite N.land_ones; apply N.mod_lt; discriminate).
  repeat constructor; apply H.
Qed.
Lemma be_bytes_value n : n < 2 ^ 32 -> fold_left (fun n b => 256 * n + b) (be_bytes n) 0 = n.
Proof.
  intros H. unfold be_bytes. change 0xFF with (N.ones 8). rewrite !N.land_ones, !N.shiftr_div_pow2. cbn [fold_left].
  change (2 ^ 8) with 256. change (2 ^ 16) with 65536. change (2 ^ 24) with 16777216. change (2 ^ 32) with 4294967296 in H. lia.
Qed.
Lemma digits_inj a b : List.length a = 4%nat -> List.length b = 4%nat -> Forall (fun x => x < 256) a -> Forall (fun x => x < 256) b ->
  fold_left (fun n x => 256 * n + x) a 0 = fold_left (fun n x => 256 * n + x) b 0 -> a = b.
Proof.
  intros La Lb Fa Fb E. destruct a as [|a1 [|a2 [|a3 [|a4 [|? ?]]]]]; try discriminate La. destruct b as [|b1 [|b2 [|b3 [|b4 [|? ?]]]]]; try discriminate Lb.
  repeat match goal with H : Forall _ (_ :: _) |- _ => inversion H; clear H; subst end. cbn [fold_left] in E.
  assert (a1 = b1) by lia. assert (a2 = b2) by lia. assert (a3 = b3) by lia. assert (a4 = b4) by lia. congruence.
Qed.
Lemma length_field_mid raw l4 data : List.length raw = 88%nat -> List.length l4 = 4%nat ->
  length_field (raw ++ l4 ++ data) = fold_left (fun n b => 256 * n + b) l4 0.
Proof.
  intros R L. unfold length_field. rewrite skipn_app, skipn_all2 by lia. rewrite R. cbn [Nat.sub skipn app]. rewrite firstn_app, firstn_all2 by lia.
  replace (4 - List.length l4)%nat with 0%nat by lia. cbn [firstn]. now rewrite app_nil_r.
Qed.
Lemma length_field_prefix raw data k : List.length raw = 88%nat -> length_field (firstn k (raw ++ [0; 0; 0; 0] ++ data)) = 0.
Proof.
  intros R. unfold length_field. rewrite skipn_firstn_comm, skipn_app, skipn_all2 by lia. rewrite R. cbn [Nat.sub skipn app]. rewrite firstn_firstn.
  destruct (Nat.min 4 (k - 88)) as [|[|[|[|[|n]]]]] eqn:M; try reflexivity. exfalso. lia.
Qed.
Lemma len4_agree (raw l4 l4' data : list N) k j : List.length raw = 88%nat -> List.length l4 = 4%nat -> List.length l4' = 4%nat -> (j < 88 \/ 92 <= j)%nat -> (j < k)%nat ->
  nth_error (firstn k (raw ++ l4 ++ data)) j = nth_error (raw ++ l4' ++ data) j.
Proof.
  intros R L L' J K. assert (F : forall (l : list N), nth_error (firstn k l) j = nth_error l j).
  { clear - K. revert j K. induction k as [|k IH]; intros j K l; [lia|]. destruct l as [|x l]; [now destruct j|]. destruct j as [|j]; [reflexivity|]. cbn. apply IH. lia. }
  rewrite F. destruct J as [J|J].
  - rewrite !nth_error_app1 by lia. reflexivity.
  - rewrite !nth_error_app2 by lia. rewrite L, L'. reflexivity.
Qed.

(** A run that will end with status 0, writing to a new file, is stopped at some point: [pre] is what the file has seen.  The file then agrees
    with the complete one outside the four bytes of the length; the length is 0 unless everything else is there; and once the length is
    the one of the complete file, the file is complete. *)
Theorem C93_interrupted :
  forall fuel sm ord c d, c_stdout c = file_at_end [] -> List.length (c_date c) = 10%nat -> List.length (c_time c) = 8%nat ->
  device_program None fuel sm ord c = Ok (0, d) ->
  forall pre post, d_ops d = pre ++ post ->
  let f := file_after pre in
  let full := st_bytes (d_stream d) in
  (post = [] -> f = full) /\
  (List.length f <= List.length full)%nat /\
  (forall j, (j < 88 \/ 92 <= j)%nat -> (j < List.length f)%nat -> nth_error f j = nth_error full j) /\
  length_field full = N.of_nat (List.length full - 92) mod 2 ^ 32 /\
  (length_field f <> 0 -> same_but_length f full) /\
  (length_field f <> 0 -> length_field f = N.of_nat (List.length f - 92) mod 2 ^ 32 -> f = full).
Proof.
  intros fuel sm ord c d ES Ld Lt H pre post O f full.
  destruct (device_program_file None fuel sm ord c d ES H) as (ws & E & Ops & _). cbv zeta in E, Ops. fold full in E.
  pose proof (raw_header_88 _ _ Ld Lt) as R. set (raw := raw_header (tx "fasm") (tx "fpga-source") kGeneratorName (c_date c) (c_time c)) in *. clearbody raw.
  set (data := flat_map be_bytes ws) in *. set (len := be_bytes (N.of_nat (List.length data) mod 2 ^ 32)) in *.
  assert (L4 : List.length len = 4%nat) by reflexivity.
  assert (LF : List.length full = (92 + List.length data)%nat) by (rewrite E, !app_length, R, L4; lia).
  assert (FF : length_field full = N.of_nat (List.length data) mod 2 ^ 32).
  { rewrite E, length_field_mid by assumption. unfold len. apply be_bytes_value. apply N.mod_lt; discriminate. }
  assert (SM : forall l4, List.length l4 = 4%nat -> same_but_length (raw ++ l4 ++ data) full).
  { intros l4 Q. split; [rewrite E, !app_length; lia|]. intros j J. rewrite E. destruct J as [J|J].
    - rewrite !nth_error_app1 by lia. reflexivity.
    - rewrite !nth_error_app2 by lia. rewrite Q, L4. reflexivity. }
  rewrite Ops in O. fold full. replace (List.length full - 92)%nat with (List.length data) by lia.
  destruct (points raw data len pre post L4 O) as [(k & Lk & F & NP)|(j & Lj & F & Lst)]; fold f in F.
  - assert (Lf : List.length f = k) by (rewrite F, firstn_length; lia).
    assert (Z : length_field f = 0) by (rewrite F; now apply length_field_prefix).
    split; [|split; [|split; [|split; [exact FF|split; intros X; contradiction]]]].
    + intros X. contradiction.
    + rewrite Lf, LF. rewrite !app_length, R in Lk. cbn [List.length] in Lk. lia.
    + intros i J Q. rewrite F, E. apply len4_agree; try assumption; try reflexivity; lia.
  - set (l4 := firstn j len ++ repeat 0 (4 - j)) in *. assert (Q4 : List.length l4 = 4%nat) by (unfold l4; rewrite app_length, firstn_length, repeat_length; lia).
    pose proof (SM l4 Q4) as S. rewrite <- F in S.
    split; [|split; [|split; [|split; [exact FF|split]]]].
    + intros P. specialize (Lst P). subst j. unfold l4 in F. rewrite F, E. cbn [Nat.sub repeat]. rewrite app_nil_r. rewrite firstn_all2 by lia. reflexivity.
    + destruct S as [S _]. lia.
    + intros i J Q. apply S, J.
    + intros _. exact S.
    + intros _ Q. destruct S as [S _]. rewrite S, LF in Q. replace (92 + List.length data - 92)%nat with (List.length data) in Q by lia.
      rewrite F, E. f_equal. f_equal. apply digits_inj; try assumption.
      * unfold l4. apply Forall_app. split; [|apply Forall_forall; intros x I; apply repeat_spec in I; subst x; reflexivity].
        pose proof (be_bytes_small (N.of_nat (List.length data) mod 2 ^ 32)) as B. fold len in B. rewrite <- (firstn_skipn j len) in B. apply Forall_app in B. exact (proj1 B).
      * apply be_bytes_small.
      * rewrite F, length_field_mid in Q by assumption. rewrite Q. unfold len. rewrite be_bytes_value by (apply N.mod_lt; discriminate). reflexivity.
Qed.
Print Assumptions C93_interrupted.

Lemma interrupted_shape fuel sm ord c d pre post : c_stdout c = file_at_end [] -> device_program None fuel sm ord c = Ok (0, d) -> d_ops d = pre ++ post ->
  exists b3 b2 b1 b0 len data, let raw := raw_header (tx "fasm") (tx "fpga-source") kGeneratorName (c_date c) (c_time c) in
    let f := file_after pre in
    f = firstn (List.length f) (raw ++ [b3; b2; b1; b0] ++ data) /\ st_bytes (d_stream d) = raw ++ len ++ data /\ List.length len = 4%nat /\
    (b0 = 0 \/ nth_error len 3 = Some b0).
Proof.
  intros ES H O. destruct (device_program_file None fuel sm ord c d ES H) as (ws & E & Ops & _). cbv zeta in E, Ops.
  set (raw := raw_header (tx "fasm") (tx "fpga-source") kGeneratorName (c_date c) (c_time c)) in *. clearbody raw.
  set (data := flat_map be_bytes ws) in *. set (len := be_bytes (N.of_nat (List.length data) mod 2 ^ 32)) in *. clearbody data.
  assert (L4 : List.length len = 4%nat) by reflexivity. clearbody len. rewrite Ops in O.
  destruct (points raw data len pre post L4 O) as [(k & Lk & F & _)|(j & Lj & F & _)].
  - exists 0, 0, 0, 0, len, data. cbv zeta. split; [|split; [exact E|split; [exact L4|now left]]].
    assert (Lf : List.length (file_after pre) = k) by (rewrite F, firstn_length; lia). rewrite Lf. exact F.
  - destruct len as [|l3 [|l2 [|l1 [|l0 [|? ?]]]]]; try discriminate L4.
    assert (X : exists b3 b2 b1 b0, firstn j [l3; l2; l1; l0] ++ repeat 0 (4 - j) = [b3; b2; b1; b0] /\ (b0 = 0 \/ b0 = l0)).
    { destruct j as [|[|[|[|[|j]]]]]; try lia; cbn [firstn repeat Nat.sub app]; do 4 eexists; (split; [reflexivity|]); auto. }
    destruct X as (b3 & b2 & b1 & b0 & X & Y). exists b3, b2, b1, b0, [l3; l2; l1; l0], data. cbv zeta.
    split; [|split; [exact E|split; [reflexivity|]]].
    + rewrite firstn_all2; rewrite F, X; [reflexivity|lia].
    + destruct Y as [->| ->]; [now left|now right].
Qed.

Lemma sync_skip_four b3 b2 b1 b0 l : b0 mod 4 = 0 -> after_sync (b3 :: b2 :: b1 :: b0 :: 0xFF :: l) = after_sync l.
Proof.
  intros H. assert (B : b0 <> 0xAA /\ b0 <> 0x99 /\ b0 <> 0x55 /\ b0 <> 0x66) by (repeat split; intros ->; discriminate H).
  clear H. destruct B as (B1 & B2 & B3 & B4).
  assert (S3 : after_sync (b3 :: b2 :: b1 :: b0 :: 0xFF :: l) = after_sync (b2 :: b1 :: b0 :: 0xFF :: l)).
  { remember (b2 :: b1 :: b0 :: 255 :: l) as k. cbn [after_sync].
    destruct (list_N_eqb (firstn 4 (b3 :: k)) sync_bytes) eqn:E; [|reflexivity].
    apply list_N_eqb_eq in E. subst k. cbn [firstn sync_bytes] in E. injection E. intros. congruence. }
  assert (S2 : after_sync (b2 :: b1 :: b0 :: 0xFF :: l) = after_sync (b1 :: b0 :: 0xFF :: l)).
  { remember (b1 :: b0 :: 255 :: l) as k. cbn [after_sync].
    destruct (list_N_eqb (firstn 4 (b2 :: k)) sync_bytes) eqn:E; [|reflexivity].
    apply list_N_eqb_eq in E. subst k. cbn [firstn sync_bytes] in E. injection E. intros. congruence. }
  rewrite S3, S2. rewrite sync_skip2 by assumption. rewrite sync_skip by assumption.
  apply sync_skip. discriminate.
Qed.
Lemma after_any_length source gen part date time b3 b2 b1 b0 ws :
  ascii_text (source ++ tx ";Generator=" ++ gen) -> ascii_text part -> ascii_text date -> ascii_text time ->
  len_N (source ++ tx ";Generator=" ++ gen) + 1 < 0xAA00 -> len_N part + 1 < 0xAA00 ->
  len_N date + 1 < 0xAA00 -> len_N time + 1 < 0xAA00 -> b0 mod 4 = 0 ->
  after_sync (bit_header source gen part date time ++ [b3; b2; b1; b0] ++ flat_map be32 (sync_preamble ++ ws)) = Some (flat_map be32 ws).
Proof.
  intros A1 A2 A3 A4 L1 L2 L3 L4 Hn. unfold bit_header. rewrite <- !app_assoc.
  rewrite sync_skip_list by (repeat constructor; discriminate).
  change ([97] ++ ?l) with (97 :: l). rewrite sync_skip by discriminate.
  rewrite sync_skip_field by assumption.
  change ([98] ++ ?l) with (98 :: l). rewrite sync_skip by discriminate.
  rewrite sync_skip_field by assumption.
  change ([99] ++ ?l) with (99 :: l). rewrite sync_skip by discriminate.
  rewrite sync_skip_field by assumption.
  change ([100] ++ ?l) with (100 :: l). rewrite sync_skip by discriminate.
  rewrite sync_skip_field by assumption.
  change ([101] ++ ?l) with (101 :: l). rewrite sync_skip by discriminate.
  rewrite flat_be32_sync. cbn [app]. rewrite sync_skip_four by exact Hn.
  change (repeat 255 31) with (repeat 255 31). rewrite <- app_assoc.
  rewrite sync_skip_list by (apply Forall_forall; intros x I; apply repeat_spec in I; subst x; discriminate).
  change (after_sync (sync_bytes ++ flat_map be32 ws) = Some (flat_map be32 ws)). reflexivity.
Qed.

(** What the reader of the library makes of an interrupted file: the same as of the complete file cut at that size (C92), so all of the
    frames or none. *)
Theorem C93_interrupted_decodes :
  forall fuel ord c root input g p pins feats s, run_succeeds fuel ord c root input g p pins feats s ->
  exists d, device_program None fuel Iso ord c = Ok (0, d) /\ d_stream d = s /\
  forall pre post, d_ops d = pre ++ post ->
    decode p (file_after pre) = decode p (firstn (List.length (file_after pre)) (st_bytes s)).
Proof.
  intros fuel ord c root input g p pins feats s R.
  pose proof (C93_same_run fuel Iso ord c) as SR. rewrite (rs_exit _ _ _ _ _ _ _ _ _ _ R) in SR.
  destruct (device_program None fuel Iso ord c) as [[n d]| | | |] eqn:H; try discriminate SR. change (Ok (n, d_stream d) = Ok (0, s)) in SR.
  assert (n = 0 /\ d_stream d = s) as [-> SD] by (split; congruence). clear SR. exists d. split; [reflexivity|]. split; [exact SD|]. intros pre post O.
  destruct (interrupted_shape fuel Iso ord c d pre post (rs_stdout _ _ _ _ _ _ _ _ _ _ R) H O) as (b3 & b2 & b1 & b0 & len & data & F & E & L4 & B).
  destruct (run_file _ _ _ _ _ _ _ _ _ _ R) as (fs & _ & _ & _ & _ & E2).
  destruct R as [_ _ [[Ad Ld'] Ld] [[At Lt'] Lt] _ _ _ _ _ _ _ CD _ _ _].
  assert (RH : raw_header (tx "fasm") (tx "fpga-source") kGeneratorName (c_date c) (c_time c) = bit_header (tx "fpga-source") kGeneratorName (tx "fasm") (c_date c) (c_time c)).
  { apply raw_header_short; [reflexivity|reflexivity|unfold len_N; rewrite Ld; reflexivity|unfold len_N; rewrite Lt; reflexivity]. }
  rewrite RH in F, E.
  rewrite SD in E. rewrite E in E2. unfold the_file, bit_file in E2. change (tx "fpga-assembler") with kGeneratorName in E2.
  apply app_inv_head in E2. set (ws := series7_words (dp_idcode p) (payload fs)) in *. clearbody ws.
  assert (X : len = be32 (4 * len_N (sync_preamble ++ ws)) /\ data = flat_map be32 (sync_preamble ++ ws)).
  { remember (be32 (4 * len_N (sync_preamble ++ ws))) as q. assert (Lq : List.length q = 4%nat) by (rewrite Heqq; reflexivity). clear Heqq.
    remember (flat_map be32 (sync_preamble ++ ws)) as t. clear Heqt. clear - E2 L4 Lq.
    destruct len as [|l3 [|l2 [|l1 [|l0 [|? ?]]]]]; try discriminate L4. destruct q as [|q3 [|q2 [|q1 [|q0 [|? ?]]]]]; try discriminate Lq.
    cbn [app] in E2. injection E2 as -> -> -> -> ->. now split. }
  destruct X as [XL XD].
  assert (Q : b0 mod 4 = 0).
  { destruct B as [->|B]; [reflexivity|]. rewrite XL in B. cbn [be32 nth_error] in B. set (m := len_N (sync_preamble ++ ws)) in *. clearbody m.
    assert (b0 = (4 * m) mod 256) as -> by congruence. clear. lia. }
  assert (A1 : ascii_text (tx "fpga-source" ++ tx ";Generator=" ++ kGeneratorName)) by (repeat constructor).
  assert (A2 : ascii_text (tx "fasm")) by (repeat constructor).
  assert (D1 : len_N (c_date c) + 1 < 0xAA00) by (unfold len_N; rewrite Ld; reflexivity). assert (D2 : len_N (c_time c) + 1 < 0xAA00) by (unfold len_N; rewrite Lt; reflexivity).
  pose proof (after_any_length (tx "fpga-source") kGeneratorName (tx "fasm") (c_date c) (c_time c) b3 b2 b1 b0 ws A1 A2 Ad At eq_refl eq_refl D1 D2 Q) as S1.
  assert (X2 : exists l3 l2 l1 l0, len = [l3; l2; l1; l0] /\ l0 mod 4 = 0).
  { rewrite XL. unfold be32. do 4 eexists. split; [reflexivity|]. set (m := len_N (sync_preamble ++ ws)). clearbody m. clear. lia. }
  destruct X2 as (l3 & l2 & l1 & l0 & EL & Q'). rewrite EL in E.
  pose proof (after_any_length (tx "fpga-source") kGeneratorName (tx "fasm") (c_date c) (c_time c) l3 l2 l1 l0 ws A1 A2 Ad At eq_refl eq_refl D1 D2 Q') as S2.
  rewrite <- XD in S1, S2. rewrite <- E in S2. 
  set (n := List.length (file_after pre)) in *. clearbody n. rewrite F. unfold decode, init_with_bytes.
  rewrite (sync_cut _ _ n S1), (sync_cut _ _ n S2). rewrite E. rewrite !app_length. reflexivity.
Qed.
Print Assumptions C93_interrupted_decodes.

(** A case: the demo run, stopped in the middle of the length: all 5252 bytes are there, the length is neither 0 nor that of the file. *)
Lemma demo_runs : exists s, runs demo_input s.
Proof. apply run_shape; vm_compute; reflexivity. Qed.
Lemma demo_length s : runs demo_input s -> N.of_nat (List.length (st_bytes s)) = 5252.
Proof.
  intros R. destruct (demo_run _ _ R) as (pins & feats & RS).
  pose proof (C90_size _ _ _ _ _ _ _ _ _ _ RS _ _ demo_frames demo_rows) as L. rewrite L. reflexivity.
Qed.
Lemma demo_device : exists d s, runs demo_input s /\ device_program None 3000 Iso ex_orders (demo_command demo_input) = Ok (0, d) /\ d_stream d = s.
Proof.
  destruct demo_runs as (s & R).
  pose proof (C93_same_run 3000 Iso ex_orders (demo_command demo_input)) as SR. pose proof R as (_ & _ & E). rewrite E in SR.
  destruct (device_program None 3000 Iso ex_orders (demo_command demo_input)) as [[n d]| | | |]; try discriminate SR.
  change (Ok (n, d_stream d) = Ok (0, s)) in SR. assert (n = 0 /\ d_stream d = s) as [-> SD] by (split; congruence).
  exists d, s. auto.
Qed.
Lemma three_of_four raw data len : List.length len = 4%nat ->
  file_after (map PutByte (raw ++ [0; 0; 0; 0] ++ data) ++ SetPos (List.length raw) :: map PutByte (firstn 3 len)) = raw ++ (firstn 3 len ++ [0]) ++ data.
Proof.
  intros L4. unfold file_after. rewrite fold_left_app. pose proof (file_puts (raw ++ [0; 0; 0; 0] ++ data) []) as F. cbn [List.length] in F. rewrite F.
  cbn [app fold_left file_step fst]. change (raw ++ 0 :: 0 :: 0 :: 0 :: data) with (raw ++ [0; 0; 0] ++ [0] ++ data).
  rewrite (file_over (firstn 3 len) raw [0; 0; 0]) by (rewrite firstn_length, L4; reflexivity). cbn [fst]. rewrite <- !app_assoc. reflexivity.
Qed.
Example C93_case : exists d pre post, device_program None 3000 Iso ex_orders (demo_command demo_input) = Ok (0, d) /\
  d_ops d = pre ++ post /\ List.length post = 1%nat /\ N.of_nat (List.length (d_ops d)) = 5257 /\
  N.of_nat (List.length (st_bytes (d_stream d))) = 5252 /\ length_field (st_bytes (d_stream d)) = 5160 /\
  N.of_nat (List.length (file_after pre)) = 5252 /\ length_field (file_after pre) = 5120.
Proof.
  destruct demo_device as (d & s & RN & E & S). pose proof (demo_length s RN) as L. rewrite <- S in L. exists d.
  destruct (device_program_file None 3000%nat Iso ex_orders (demo_command demo_input) d eq_refl E) as (ws & F & O & _). cbv zeta in F, O.
  pose proof (raw_header_88 (c_date (demo_command demo_input)) (c_time (demo_command demo_input)) eq_refl eq_refl) as R.
  set (raw := raw_header _ _ _ _ _) in *. clearbody raw. set (data := flat_map be_bytes ws) in *. clearbody data.
  set (st := st_bytes (d_stream d)) in *. clearbody st. set (ops := d_ops d) in *. clearbody ops. clear RN S.
  assert (D : N.of_nat (List.length data) = 5160) by (rewrite F in L; rewrite !app_length, R in L; change (List.length (be_bytes _)) with 4%nat in L; clear - L; lia).
  rewrite D in *. change (5160 mod 2 ^ 32) with 5160 in *.
  assert (B : be_bytes 5160 = [0; 0; 20; 40]) by reflexivity. rewrite B in *.
  exists (map PutByte (raw ++ [0; 0; 0; 0] ++ data) ++ SetPos (List.length raw) :: map PutByte (firstn 3 [0; 0; 20; 40])), [PutByte 40].
  split; [exact E|]. clear E. split; [rewrite O, <- app_assoc; reflexivity|]. split; [reflexivity|]. split.
  { rewrite O, app_length, map_length, !app_length, R. cbn [List.length map]. clear - D. lia. }
  split; [exact L|]. rewrite three_of_four by reflexivity. rewrite F, !app_length, R. rewrite !length_field_mid by (exact R || reflexivity).
  split; [reflexivity|]. split; [|reflexivity]. cbn [List.length firstn app]. clear - D. lia.
Qed.

(** ** C94 *)
(** The run is the same with any room on the device, including its status; the file is complete if it fits and a prefix with length 0 if not. *)
Theorem C94_full_device :
  forall fuel sm ord c d, c_stdout c = file_at_end [] -> List.length (c_date c) = 10%nat -> List.length (c_time c) = 8%nat ->
  device_program None fuel sm ord c = Ok (0, d) ->
  forall r, exists d', device_program (Some r) fuel sm ord c = Ok (0, d') /\
    let full := st_bytes (d_stream d) in
    let f := st_bytes (d_stream d') in
    ((List.length full <= r)%nat -> f = full) /\
    ((r < List.length full)%nat -> List.length f = r /\ length_field f = 0 /\
       forall j, (j < 88 \/ 92 <= j)%nat -> (j < r)%nat -> nth_error f j = nth_error full j).
Proof.
  intros fuel sm ord c d ES Ld Lt H r. destruct (device_program_file (Some r) fuel sm ord c d ES H) as (ws & E & _ & d' & H' & E'). cbv zeta in E, E'.
  exists d'. split; [exact H'|]. cbv zeta. rewrite E, E'. clear H H' E E'.
  pose proof (raw_header_88 _ _ Ld Lt) as R. set (raw := raw_header (tx "fasm") (tx "fpga-source") kGeneratorName (c_date c) (c_time c)) in *. clearbody raw.
  set (data := flat_map be_bytes ws) in *. set (len := be_bytes (N.of_nat (List.length data) mod 2 ^ 32)) in *.
  assert (L4 : List.length len = 4%nat) by reflexivity. clearbody len data.
  assert (LF : List.length (raw ++ len ++ data) = (92 + List.length data)%nat) by (rewrite !app_length, R, L4; lia).
  assert (LZ : List.length (raw ++ [0; 0; 0; 0] ++ data) = (92 + List.length data)%nat) by (rewrite !app_length, R; cbn [List.length]; lia).
  rewrite LF, LZ. split; intros Q.
  - destruct (Nat.ltb_spec r (92 + List.length data)) as [B|B]; [lia|reflexivity].
  - destruct (Nat.ltb_spec r (92 + List.length data)) as [B|B]; [|lia].
    split; [rewrite firstn_length, LZ; lia|]. split; [now apply length_field_prefix|].
    intros j J K. now apply len4_agree.
Qed.
Print Assumptions C94_full_device.

(** The same for an output that cannot be repositioned - a pipe, or a file opened for appending: when there is room for [r] bytes, exactly the
    first [r] bytes arrive, and the status is 0 all the same. *)
Section Unseekable.
  Variable r : nat.
  Definition short_of (F D : device) : Prop :=
    d_room F = None /\ d_room D = Some r /\ st_kind (d_stream F) <> Seekable /\
    ((d_stream D = d_stream F /\ (List.length (st_bytes (d_stream F)) <= r)%nat) \/
     (st_fail (d_stream D) = true /\ List.length (st_bytes (d_stream D)) = r /\ st_bytes (d_stream D) = firstn r (st_bytes (d_stream F)))).
  Lemma written_kind b s : st_kind (st_write b s) = st_kind s.
  Proof. unfold st_write. destruct (st_fail s); [reflexivity|]. now destruct (st_kind s). Qed.
  Lemma written_end b s : st_kind s <> Seekable -> st_fail s = false -> st_bytes (st_write b s) = st_bytes s ++ b /\ st_fail (st_write b s) = false.
  Proof. intros K F. unfold st_write. rewrite F. destruct (st_kind s); [contradiction| |]; auto. Qed.
  Lemma short_put F D b : short_of F D -> short_of (d_put F b) (d_put D b).
  Proof.
    intros (RF & RD & K & [(E & L)|(X & L & P)]).
    - unfold d_put. rewrite RF, RD, E. destruct (st_fail (d_stream F)) eqn:FF.
      + split; [exact RF|]. split; [exact RD|]. split; [exact K|]. left. auto.
      + unfold has_room at 1. destruct (written_end [b] _ K FF) as [W1 W2].
        split; [reflexivity|]. split; [destruct (has_room _ _); reflexivity|]. cbn [d_stream]. split; [rewrite written_kind; exact K|].
        assert (HR : has_room (Some r) (d_stream F) = (List.length (st_bytes (d_stream F)) <? r)%nat) by (unfold has_room; destruct (st_kind (d_stream F)); [contradiction| |]; reflexivity).
        rewrite HR. destruct (Nat.ltb_spec (List.length (st_bytes (d_stream F))) r) as [Q|Q]; cbn [d_stream].
        * left. split; [reflexivity|]. rewrite W1, app_length. cbn [List.length]. lia.
        * right. cbn [set_bad st_fail st_bytes]. assert (List.length (st_bytes (d_stream F)) = r) as LR by lia. split; [reflexivity|]. split; [exact LR|].
          rewrite W1, firstn_app, LR, Nat.sub_diag, firstn_all2 by lia. cbn [firstn]. now rewrite app_nil_r.
    - unfold d_put. rewrite RF, X. unfold has_room. split; [destruct (st_fail (d_stream F)); [exact RF|reflexivity]|]. split; [exact RD|].
      destruct (st_fail (d_stream F)) eqn:FF; cbn [d_stream]; [split; [exact K|right; auto]|].
      destruct (written_end [b] _ K FF) as [W1 W2]. split; [rewrite written_kind; exact K|]. right. split; [exact X|]. split; [exact L|].
      rewrite W1, firstn_app, <- P. assert (LF : (r <= List.length (st_bytes (d_stream F)))%nat).
      { rewrite P, firstn_length in L. lia. }
      replace (r - List.length (st_bytes (d_stream F)))%nat with 0%nat by lia. cbn [firstn]. now rewrite app_nil_r.
  Qed.
  Lemma short_write bs : forall F D, short_of F D -> short_of (d_write bs F) (d_write bs D).
  Proof. induction bs as [|b bs IH]; intros F D R; [exact R|]. cbn [d_write fold_left]. apply IH. now apply short_put. Qed.
  Lemma short_words ws : forall F D, short_of F D -> short_of (fold_left (fun o w => d_write (be_bytes w) o) ws F) (fold_left (fun o w => d_write (be_bytes w) o) ws D).
  Proof. induction ws as [|w ws IH]; intros F D R; [exact R|]. cbn [fold_left]. apply IH. now apply short_write. Qed.
  (** Once there is no room nothing more arrives, whatever is sent. *)
  Lemma failed_write bs D : st_fail (d_stream D) = true -> d_write bs D = D.
  Proof. intros X. induction bs as [|b bs IH]; [reflexivity|]. cbn [d_write fold_left]. unfold d_put at 2. rewrite X. exact IH. Qed.
  Lemma failed_seekp pos D : st_fail (d_stream D) = true -> d_stream (d_seekp pos D) = d_stream D.
  Proof. intros X. unfold d_seekp, st_seekp. cbn [d_stream]. now rewrite X. Qed.
  Lemma seekp_same pos s : st_kind (st_seekp pos s) = st_kind s /\ st_bytes (st_seekp pos s) = st_bytes s.
  Proof. unfold st_seekp. destruct (st_fail s); [auto|]. destruct (st_kind s); try destruct (pos <? 0)%Z; auto. Qed.
  Lemma grown_kind bs : forall F, st_kind (d_stream F) <> Seekable -> d_room F = None ->
    st_kind (d_stream (d_write bs F)) <> Seekable /\ d_room (d_write bs F) = None /\ exists x, st_bytes (d_stream (d_write bs F)) = st_bytes (d_stream F) ++ x.
  Proof.
    induction bs as [|b bs IH]; intros F K R; cbn [d_write fold_left].
    - split; [exact K|]. split; [exact R|]. exists []. now rewrite app_nil_r.
    - assert (Q : st_kind (d_stream (d_put F b)) <> Seekable /\ d_room (d_put F b) = None /\ exists x, st_bytes (d_stream (d_put F b)) = st_bytes (d_stream F) ++ x).
      { unfold d_put. rewrite R. destruct (st_fail (d_stream F)) eqn:FF; [split; [exact K|split; [exact R|exists []; now rewrite app_nil_r]]|].
        cbn [has_room d_stream d_room]. rewrite written_kind. split; [exact K|]. split; [reflexivity|]. exists [b]. now apply written_end. }
      destruct Q as (K1 & R1 & x & E1). destruct (IH _ K1 R1) as (K2 & R2 & y & E2). split; [exact K2|]. split; [exact R2|].
      exists (x ++ y). unfold d_write in E2. rewrite E2, E1. now rewrite app_assoc.
  Qed.

  Lemma short_bitstream fuel ks a1 a2 a3 a4 a5 F D F' : short_of F D -> device_bitstream fuel ks a1 a2 a3 a4 a5 F = Ok F' ->
    exists D', device_bitstream fuel ks a1 a2 a3 a4 a5 D = Ok D' /\ st_bytes (d_stream D') = firstn r (st_bytes (d_stream F')).
  Proof.
    intros R H. unfold device_bitstream in *. cbv zeta in *. destruct (writer_words fuel ks) as [ws| | | |]; try discriminate H. cbn [obind] in *.
    pose proof (short_write (create_header a1 a2 a3 a4 a5) _ _ R) as R1.
    set (F1 := d_write (create_header a1 a2 a3 a4 a5) F) in *. set (D1 := d_write (create_header a1 a2 a3 a4 a5) D) in *.
    pose proof (short_words ws _ _ R1) as R2.
    set (F2 := fold_left _ ws F1) in *. set (D2 := fold_left _ ws D1) in *.
    eexists. split; [reflexivity|].
    assert (HF : F' = d_write (be_bytes (Z.to_N ((st_tellp (d_stream F2) - st_tellp (d_stream F1)) mod 2 ^ 32)%Z)) (d_seekp (st_tellp (d_stream F1) - 4) F2)) by congruence. clear H.
    destruct R2 as (RF & RD & K & [(E & L)|(X & L & P)]).
    - (* nothing was lost before the length: then the positions are the same too *)
      assert (S1 : d_stream D1 = d_stream F1 \/ st_fail (d_stream D2) = true).
      { destruct R1 as (_ & _ & _ & [(E1 & _)|(X1 & _)]); [now left|right].
        unfold D2. clear - X1. revert X1. generalize D1 as d. induction ws as [|w ws IH]; intros d X1; [exact X1|]. cbn [fold_left]. apply IH. now rewrite failed_write. }
      destruct S1 as [S1|S1].
      + rewrite E, S1. rewrite HF. set (n := be_bytes _). set (pos := (_ - 4)%Z).
        assert (R3 : short_of (d_seekp pos F2) (d_seekp pos D2)).
        { split; [exact RF|]. split; [exact RD|]. cbn [d_seekp d_stream]. rewrite E. destruct (seekp_same pos (d_stream F2)) as [Q1 Q2]. split; [rewrite Q1; exact K|].
          left. split; [reflexivity|]. rewrite Q2. exact L. }
        destruct (short_write n _ _ R3) as (_ & _ & _ & [(E4 & L4)|(_ & _ & P4)]); [|exact P4].
        rewrite E4. symmetry. apply firstn_all2. exact L4.
      + rewrite failed_write by (rewrite failed_seekp; exact S1). rewrite failed_seekp by exact S1. rewrite HF.
        assert (FS : st_fail (d_stream F2) = true) by (rewrite <- E; exact S1).
        rewrite failed_write by (rewrite failed_seekp; exact FS). rewrite failed_seekp by exact FS. rewrite E. symmetry. apply firstn_all2. exact L.
    - rewrite failed_write by (rewrite failed_seekp; exact X). rewrite failed_seekp by exact X. rewrite HF.
      set (n := be_bytes _). set (pos := (_ - 4)%Z). destruct (seekp_same pos (d_stream F2)) as [Q1 Q2].
      destruct (grown_kind n (d_seekp pos F2)) as (_ & _ & x & E4); [cbn [d_seekp d_stream]; rewrite Q1; exact K|exact RF|].
      rewrite E4. cbn [d_seekp d_stream]. rewrite Q2, firstn_app, <- P.
      assert (LF : (r <= List.length (st_bytes (d_stream F2)))%nat) by (rewrite P, firstn_length in L; lia).
      replace (r - List.length (st_bytes (d_stream F2)))%nat with 0%nat by lia. cbn [firstn]. now rewrite app_nil_r.
  Qed.
End Unseekable.

Theorem C94_full_pipe :
  forall fuel sm ord c d, st_kind (c_stdout c) <> Seekable -> device_program None fuel sm ord c = Ok (0, d) ->
  forall r, (List.length (st_bytes (c_stdout c)) <= r)%nat ->
  exists d', device_program (Some r) fuel sm ord c = Ok (0, d') /\ st_bytes (d_stream d') = firstn r (st_bytes (d_stream d)).
Proof.
  intros fuel sm ord c d K H r L. unfold device_program in *.
  destruct (2 <? List.length (c_args c))%nat; [discriminate H|]. destruct (db_path c) as [root|]; [|discriminate H].
  destruct (match root with [] => true | _ => negb (e_exists (c_env c) root) end); [discriminate H|].
  destruct (c_part c) as [|pc pr] eqn:EPT; [discriminate H|]. rewrite <- EPT in *.
  destruct (parse_database (c_env c) (o_load ord) root (c_part c)) as [tls| | | |]; try discriminate H.
  destruct (input_text c) as [input|]; [|discriminate H]. destruct (assemble_frames sm ord tls input) as [fr| | | |]; try discriminate H.
  unfold device_encode in *. cbv zeta in *. destruct (add_missing_frames fuel (part_from (tl_part tls)) (convert_frames fr)) as [fs| | | |]; try discriminate H. cbn [obind] in *.
  destruct (device_bitstream _ _ _ _ _ _ _ {| d_stream := c_stdout c; d_ops := []; d_room := None |}) as [q| | | |] eqn:EB; try discriminate H.
  assert (SO : short_of r {| d_stream := c_stdout c; d_ops := []; d_room := None |} {| d_stream := c_stdout c; d_ops := []; d_room := Some r |}).
  { split; [reflexivity|]. split; [reflexivity|]. split; [exact K|]. left. split; [reflexivity|exact L]. }
  destruct (short_bitstream r _ _ _ _ _ _ _ _ _ _ SO EB) as (D' & E' & P).
  rewrite E'. exists D'. split; [reflexivity|]. assert (q = d) as <- by congruence. exact P.
Qed.
Print Assumptions C94_full_pipe.

(** A run that ends with another status has not touched the device, however much room there is. *)
Theorem C94_failed_run_writes_nothing :
  forall room fuel sm ord c n d, device_program room fuel sm ord c = Ok (n, d) -> n <> 0 -> n = 1 /\ d_stream d = c_stdout c /\ d_ops d = [].
Proof.
  intros room fuel sm ord c n d H Z. unfold device_program in H.
  assert (F : Ok (1, {| d_stream := c_stdout c; d_ops := []; d_room := room |}) = Ok (n, d) -> n = 1 /\ d_stream d = c_stdout c /\ d_ops d = []).
  { intros X. assert (n = 1 /\ d = {| d_stream := c_stdout c; d_ops := []; d_room := room |}) as [-> ->] by (split; congruence). auto. }
  destruct (2 <? List.length (c_args c))%nat; [exact (F H)|]. destruct (db_path c) as [root|]; [|exact (F H)].
  destruct (match root with [] => true | _ => negb (e_exists (c_env c) root) end); [exact (F H)|].
  destruct (c_part c) as [|pc pr] eqn:EPT; [exact (F H)|]. rewrite <- EPT in H.
  destruct (parse_database (c_env c) (o_load ord) root (c_part c)) as [tls| | | |]; try discriminate H; [|exact (F H)].
  destruct (input_text c) as [input|]; [|exact (F H)]. destruct (assemble_frames sm ord tls input) as [fr| | | |]; try discriminate H; [|exact (F H)].
  destruct (device_encode _ _ _ _ _ _ _ _) as [q| | | |]; try discriminate H; [|exact (F H)].
  exfalso. apply Z. congruence.
Qed.
Print Assumptions C94_failed_run_writes_nothing.

(** So status 0 does not say that the bitstream is on the device. *)
Theorem C94_status_zero_means_complete_refuted :
  ~ (forall r fuel sm ord c d, c_stdout c = file_at_end [] -> device_program (Some r) fuel sm ord c = Ok (0, d) ->
       main_program fuel sm ord c = Ok (0, d_stream d)).
Proof.
  intros W. destruct demo_device as (d & s & RN & E & S). pose proof RN as (_ & _ & M).
  destruct (C94_full_device 3000 Iso ex_orders (demo_command demo_input) d eq_refl eq_refl eq_refl E 1000) as (d' & E' & _ & Q). cbv zeta in Q.
  specialize (W 1000%nat 3000%nat Iso ex_orders (demo_command demo_input) d' eq_refl E'). rewrite M in W.
  assert (SS : s = d_stream d') by congruence. rewrite SS in S. rewrite S in Q.
  pose proof (demo_length _ RN) as L. rewrite SS in L. clear - Q L. destruct Q as [Q _]; [lia|]. rewrite Q in L. discriminate L.
Qed.
Print Assumptions C94_status_zero_means_complete_refuted.

(** A pipe that takes 1000 bytes. *)
Definition pipe_out : stream := {| st_kind := Pipe; st_bytes := []; st_pos := 0; st_fail := false |}.
Definition to_pipe (c : command) : command := {| c_args := c_args c; c_db_flag := c_db_flag c; c_db_env := c_db_env c; c_part := c_part c;
  c_stdin := c_stdin c; c_open := c_open c; c_env := c_env c; c_date := c_date c; c_time := c_time c; c_stdout := pipe_out |}.
Example C94_case_pipe : exists d d', device_program None 3000 Iso ex_orders (to_pipe (demo_command demo_input)) = Ok (0, d) /\
  device_program (Some 1000%nat) 3000 Iso ex_orders (to_pipe (demo_command demo_input)) = Ok (0, d') /\
  N.of_nat (List.length (st_bytes (d_stream d))) = 5252 /\ st_bytes (d_stream d') = firstn 1000 (st_bytes (d_stream d)).
Proof.
  pose proof (C93_same_run 3000 Iso ex_orders (to_pipe (demo_command demo_input))) as SR.
  assert (X : match main_program 3000 Iso ex_orders (to_pipe (demo_command demo_input)) with Ok (n, s) => (n =? 0) && (N.of_nat (List.length (st_bytes s)) =? 5252) | _ => false end = true) by (vm_compute; reflexivity).
  destruct (main_program 3000 Iso ex_orders (to_pipe (demo_command demo_input))) as [[n s]| | | |]; try discriminate X.
  apply andb_true_iff in X as [X1 X2]. apply N.eqb_eq in X1, X2.
  destruct (device_program None 3000 Iso ex_orders (to_pipe (demo_command demo_input))) as [[m d]| | | |] eqn:E; try discriminate SR.
  change (Ok (m, d_stream d) = Ok (n, s)) in SR. assert (m = 0 /\ d_stream d = s) as [-> SD] by (split; congruence).
  destruct (C94_full_pipe 3000 Iso ex_orders (to_pipe (demo_command demo_input)) d) with (r := 1000%nat) as (d' & E' & P).
  - discriminate.
  - exact E.
  - apply Nat.le_0_l.
  - exists d, d'. split; [reflexivity|]. split; [exact E'|]. split; [rewrite SD; exact X2|exact P].
Qed.

(** A case: the demo run on a device with room for 1000 bytes. *)
Example C94_case : exists d', device_program (Some 1000%nat) 3000 Iso ex_orders (demo_command demo_input) = Ok (0, d') /\
  List.length (st_bytes (d_stream d')) = 1000%nat /\ length_field (st_bytes (d_stream d')) = 0.
Proof.
  destruct demo_device as (d & s & RN & E & S).
  destruct (C94_full_device 3000 Iso ex_orders (demo_command demo_input) d eq_refl eq_refl eq_refl E 1000) as (d' & E' & _ & Q). cbv zeta in Q.
  pose proof (demo_length _ RN) as L. rewrite <- S in L. destruct Q as (Q1 & Q2 & _); [clear - L; lia|]. exists d'. auto.
Qed.
