(** Property C107: the device takes any frame data; a damaged file is not noticed. *)
From Verif Require Import Base BaseFacts Absl Part PartSpec Frame Frames Fasm FasmSpec
  DbText DbJson Database Packet Config Writer WriterFacts ConfigSpec ConfigFacts ContainerSpec Reader ReaderFacts Encode EncodeSpec EncodeFacts
  Assembler AsmSpec LookupFacts AsmWhole DbSpec JsonSpec LoadSpec P_Database4 P_Main P_Main2 EndSpec AsmExample P_EndToEnd SameSpec SameFacts P_Repro
  P_Equiv PlaceSpec PlaceFacts P_Place CutFacts P_Cut.
From Verif Require FpgaFacts FpgaFacts2 FpgaFacts3.
From Verif Require Import FpgaSpec P_Fpga.
Import FpgaFacts FpgaFacts2 FpgaFacts3.
From Coq Require Import Lia ZifyBool ZifyN ZifyNat.

Lemma nth_ext_eq {X} (l : list X) : forall l', (forall j, nth_error l j = nth_error l' j) -> l = l'.
Proof.
  induction l as [|x l IH]; intros [|y l'] H; [reflexivity|specialize (H 0%nat); discriminate H|specialize (H 0%nat); discriminate H|].
  pose proof (H 0%nat) as H0. cbn in H0. injection H0 as ->. f_equal. apply IH. intros j. exact (H (S j)).
Qed.
Lemma words_of_bytes n : forall bs, List.length bs = (4 * n)%nat -> Forall (fun b => b < 256) bs ->
  exists ws, List.length ws = n /\ flat_map be32 ws = bs /\ Forall (fun w => w < 2 ^ 32) ws.
Proof.
  induction n as [|n IH]; intros bs L F.
  - destruct bs; [|discriminate L]. exists []. auto.
  - destruct bs as [|b3 [|b2 [|b1 [|b0 bs]]]]; cbn [List.length] in L; try lia. repeat match goal with H : Forall _ (_ :: _) |- _ => inversion H; clear H; subst end.
    destruct (IH bs) as (ws & E1 & E2 & E3); [lia|assumption|].
    exists (b3 * 2 ^ 24 + b2 * 2 ^ 16 + b1 * 2 ^ 8 + b0 :: ws). split; [cbn [List.length]; lia|]. cbn [flat_map]. rewrite E2. split.
    + unfold be32. cbn [app]. change (2 ^ 24) with 16777216. change (2 ^ 16) with 65536. change (2 ^ 8) with 256. f_equal; [lia|]. f_equal; [lia|]. f_equal; [lia|]. f_equal; lia.
    + constructor; [|exact E3]. change (2 ^ 24) with 16777216. change (2 ^ 16) with 65536. change (2 ^ 8) with 256. change (2 ^ 32) with 4294967296. lia.
Qed.
Lemma data_file_split p date time fs data : List.length data = List.length (payload fs) ->
  data_file (dp_idcode p) date time data = file_head p date time fs ++ flat_map be32 data ++ flat_map be32 words_tail.
Proof.
  intros L. unfold data_file, file_head, bit_file. rewrite header_split, words_split. rewrite L. rewrite <- !app_assoc. do 5 f_equal.
  f_equal; [|now rewrite <- !flat_map_app]. f_equal. unfold len_N. rewrite !app_length, words_tail_len, L.
  pose proof (words_head_len (dp_idcode p) (N.of_nat (List.length (payload fs)))) as W. rewrite app_length in W. lia.
Qed.

Section Accept.
  Context (p : db_part) (date time : text) (fs : list (N * list N)).
  Hypothesis ST : setting p date time fs.
  Hypothesis Ld : List.length date = 10%nat.
  Hypothesis Lt : List.length time = 8%nat.
  Lemma accept bs' : List.length bs' = List.length (the_file p date time fs) -> Forall (fun b => b < 256) bs' ->
    (forall j, N.of_nat j < 328 \/ 328 + 4 * N.of_nat (List.length (payload fs)) <= N.of_nat j -> nth_error bs' j = nth_error (the_file p date time fs) j) ->
    exists data, List.length data = List.length (payload fs) /\ Forall (fun w => w < 2 ^ 32) data /\ bs' = data_file (dp_idcode p) date time data.
  Proof.
    intros L F Out. pose proof (file_split p date time fs Ld Lt) as FS. pose proof (file_head_len p date time fs Ld Lt) as HL.
    set (n := List.length (payload fs)) in *. set (h := file_head p date time fs) in *.
    assert (LT : List.length (the_file p date time fs) = (328 + 4 * n + 4 * 524)%nat).
    { rewrite FS, !app_length, !words_length, HL, words_tail_len. fold n. lia. }
    set (m := firstn (4 * n) (skipn 328 bs')).
    assert (Lm : List.length m = (4 * n)%nat) by (unfold m; rewrite firstn_length, skipn_length; lia).
    assert (Fm : Forall (fun b => b < 256) m).
    { unfold m. rewrite <- (firstn_skipn 328 bs') in F. apply Forall_app in F as [_ F]. rewrite <- (firstn_skipn (4 * n) (skipn 328 bs')) in F. now apply Forall_app in F as [F _]. }
    destruct (words_of_bytes n m Lm Fm) as (data & D1 & D2 & D3). exists data. split; [exact D1|]. split; [exact D3|].
    rewrite (data_file_split p date time fs data D1). fold h. rewrite D2. apply nth_ext_eq. intros j.
    destruct (Nat.lt_ge_cases j 328) as [C|C].
    - rewrite nth_error_app1 by lia. rewrite Out by (left; lia). rewrite FS. now rewrite nth_error_app1 by lia.
    - destruct (Nat.lt_ge_cases j (328 + 4 * n)) as [C'|C'].
      + rewrite nth_error_app2 by lia. rewrite nth_error_app1 by lia. rewrite HL.
        assert (X : bs' = firstn 328 bs' ++ m ++ skipn (4 * n) (skipn 328 bs')) by (unfold m; rewrite firstn_skipn, firstn_skipn; reflexivity).
        assert (L1 : List.length (firstn 328 bs') = 328%nat) by (rewrite firstn_length; lia).
        rewrite X at 1. rewrite nth_error_app2 by lia. rewrite nth_error_app1 by lia. rewrite L1. reflexivity.
      + rewrite Out by (right; lia). rewrite FS. fold h. rewrite !(nth_error_app2 h) by lia. rewrite !nth_error_app2; rewrite ?words_length; try lia. f_equal. fold n. lia.
  Qed.
  Lemma accepted_bit dk d data a k w i : device_for p dk -> blank d -> List.length data = List.length (payload fs) -> Forall (fun w => w < 2 ^ 32) data ->
    is_frame_address p a -> frame_place p a k -> w < 101 -> i < 32 ->
    running (receive dk (data_file (dp_idcode p) date time data) d) = true /\ failed (receive dk (data_file (dp_idcode p) date time data) d) = false /\
    exists b, nth_error (data_file (dp_idcode p) date time data) (N.to_nat (byte_place k w i)) = Some b /\
      (bit_set (receive dk (data_file (dp_idcode p) date time data) d) a w i <-> N.testbit b (i mod 8) = true).
  Proof.
    intros DF B L Fw Ha K W Hi. destruct (device_reads p dk date time fs data d ST DF B L Fw) as (r & c & mm & RE & M). rewrite RE.
    split; [reflexivity|]. split; [exact (proj1 (proj2 (proj2 (proj2 B))))|].
    apply (st_f _ _ _ _ ST) in Ha. apply in_map_iff in Ha as ([a' ws] & X & I'). cbn [fst] in X. subst a'.
    apply in_split in I' as (l1 & l2 & E).
    assert (K' : k = 101 * N.of_nat (List.length l1) + 202 * row_changes (l1 ++ [(a, ws)])).
    { apply (place_unique p a); [exact K|]. apply (place_of p date time fs Ld Lt (st_s _ _ _ _ ST) (st_f _ _ _ _ ST) l1 a ws l2 E). }
    pose proof (chunk_at l1 a ws l2 data) as CA. rewrite <- E, <- K' in CA.
    assert (Ma : mm a = firstn 101 (skipn (N.to_nat k) data)).
    { rewrite M. apply written_in; [|exact CA]. rewrite chunks_keys. apply sorted_nodup, (st_s _ _ _ _ ST). }
    assert (Lk : (N.to_nat k + 101 <= List.length data)%nat).
    { destruct (payload_at l1 a ws l2) as (pre & post & P1 & P2).
      { apply contents_len. pose proof (st_c _ _ _ _ ST) as C. rewrite E in C. apply Forall_app in C as [C _]. exact C. }
      rewrite L, E, P1, !app_length. assert (List.length ws = 101%nat).
      { pose proof (st_c _ _ _ _ ST) as C. rewrite E in C. apply Forall_app in C as [_ C]. inversion C as [|? ? [Q _] _]; subst. exact Q. }
      lia. }
    assert (Nx : nth_error (mm a) (N.to_nat w) = nth_error data (N.to_nat (k + w))).
    { rewrite Ma. rewrite <- (firstn_skipn (N.to_nat k) data) at 2. rewrite nth_error_app2; rewrite firstn_length; [|lia].
      replace (N.to_nat (k + w) - Nat.min (N.to_nat k) (List.length data))%nat with (N.to_nat w) by lia.
      rewrite <- (firstn_skipn 101 (skipn (N.to_nat k) data)) at 2. rewrite nth_error_app1; [reflexivity|]. rewrite firstn_length, skipn_length. lia. }
    destruct (nth_error data (N.to_nat (k + w))) as [x|] eqn:Ex; [|apply nth_error_None in Ex; lia].
    assert (Hx : x < 2 ^ 32) by (rewrite Forall_forall in Fw; apply Fw; eapply nth_error_In; eauto).
    destruct (be32_bit x i Hx Hi) as (b & B1 & B2). exists b. split.
    - rewrite (data_file_split p date time fs data L). assert (J : (N.to_nat (3 - i / 8) < 4)%nat) by lia.
      assert (Pos : N.to_nat (byte_place k w i) = (328 + (4 * N.to_nat (k + w) + N.to_nat (3 - i / 8)))%nat) by (unfold byte_place; lia).
      rewrite Pos. rewrite nth_error_app2; rewrite (file_head_len p date time fs Ld Lt); [|lia]. rewrite nth_error_app1 by (rewrite words_length; lia).
      replace (328 + (4 * N.to_nat (k + w) + N.to_nat (3 - i / 8)) - 328)%nat with (4 * N.to_nat (k + w) + N.to_nat (3 - i / 8))%nat by lia.
      rewrite (nth_words _ _ _ _ Ex J). exact B1.
    - rewrite B2. unfold bit_set. change (memory (set_recent r (configured c mm (wake d))) a) with (mm a). rewrite Nx. split; [intros (y & Y & T); congruence|eauto].
  Qed.
End Accept.

(** Whatever stands in the place of the frames (and of the zero frames between rows) is loaded, and the device starts. *)
Theorem C107_any_frame_data :
  forall fuel ord c root input g p pins feats s, run_succeeds fuel ord c root input g p pins feats s ->
  forall dk d, device_for p dk -> blank d ->
  forall fl rl, all_frames p fl -> all_rows p rl ->
  forall bs', List.length bs' = List.length (st_bytes s) -> Forall (fun b => b < 256) bs' ->
  (forall j, N.of_nat j < 328 \/ 328 + 4 * (101 * N.of_nat (List.length fl) + 202 * N.of_nat (List.length rl)) <= N.of_nat j ->
     nth_error bs' j = nth_error (st_bytes s) j) ->
  let d' := receive dk bs' d in
  running d' = true /\ failed d' = false /\
  forall a k w i, is_frame_address p a -> frame_place p a k -> w < 101 -> i < 32 ->
    exists b, nth_error bs' (N.to_nat (byte_place k w i)) = Some b /\ (bit_set d' a w i <-> N.testbit b (i mod 8) = true).
Proof.
  intros fuel ord c root input g p pins feats s R dk d DF B fl rl FL RL bs' L F Out.
  destruct (run_setting _ _ _ _ _ _ _ _ _ _ R) as (fs & ST & _ & E & _).
  pose proof (C90_size _ _ _ _ _ _ _ _ _ _ R fl rl FL RL) as SZ.
  destruct R as [_ _ [_ Ld] [_ Lt] _ _ _ _ _ _ _ _ _ _ _]. change (data_file (dp_idcode p) (c_date c) (c_time c) (payload fs)) with (the_file p (c_date c) (c_time c) fs) in E.
  rewrite E in *. rewrite (file_length p _ _ fs Ld Lt) in SZ.
  destruct (accept p (c_date c) (c_time c) fs Ld Lt bs' L F) as (data & D1 & D2 & ->).
  { intros j Hj. apply Out. lia. }
  cbv zeta. destruct (device_reads p dk _ _ fs data d ST DF B D1 D2) as (r & c0 & mm & RE & M). split; [rewrite RE; reflexivity|].
  split; [rewrite RE; exact (proj1 (proj2 (proj2 (proj2 B))))|]. intros a k w i Ha K W Hi.
  destruct (accepted_bit p (c_date c) (c_time c) fs ST Ld Lt dk d data a k w i DF B D1 D2 Ha K W Hi) as (_ & _ & H). exact H.
Qed.
Print Assumptions C107_any_frame_data.

Lemma all_rows_exist p fl : all_frames p fl -> exists rl, all_rows p rl.
Proof.
  intros [S A]. destruct (sorted_set (map device_row fl)) as (rl & R1 & R2). exists rl. split; [exact R1|]. intros r. rewrite R2, in_map_iff. split.
  - intros (x & <- & I'). exists x. split; [now apply A|reflexivity].
  - intros (x & I' & <-). exists x. split; [reflexivity|now apply A].
Qed.
Lemma lxor_bit b i q : N.testbit (N.lxor b (2 ^ i)) q = if q =? i then negb (N.testbit b q) else N.testbit b q.
Proof. rewrite N.lxor_spec, N.pow2_bits_eqb, (N.eqb_sym i q). destruct (q =? i); [apply xorb_true_r|apply xorb_false_r]. Qed.

(** One flipped bit of one frame: the device starts, with that bit, and no other, wrong. *)
Theorem C107_flipped_bit :
  forall fuel ord c root input g p pins feats s, run_succeeds fuel ord c root input g p pins feats s ->
  forall dk d, device_for p dk -> blank d ->
  forall a w i k, is_frame_address p a -> w < 101 -> i < 32 -> frame_place p a k ->
  forall bs' b, List.length bs' = List.length (st_bytes s) ->
  nth_error (st_bytes s) (N.to_nat (byte_place k w i)) = Some b ->
  nth_error bs' (N.to_nat (byte_place k w i)) = Some (N.lxor b (2 ^ (i mod 8))) ->
  (forall j, j <> N.to_nat (byte_place k w i) -> nth_error bs' j = nth_error (st_bytes s) j) ->
  let d' := receive dk bs' d in
  running d' = true /\ failed d' = false /\
  (bit_set d' a w i <-> ~ asks_for (c_env c) root g p pins feats a w i) /\
  forall a' w' i', is_frame_address p a' -> w' < 101 -> i' < 32 -> (a', w', i') <> (a, w, i) ->
    (bit_set d' a' w' i' <-> asks_for (c_env c) root g p pins feats a' w' i').
Proof.
  intros fuel ord c root input g p pins feats s R dk d DF B a w i k Ha W Hi K bs' b L Eb Eb' Out.
  pose proof DF as [_ FL]. destruct (all_rows_exist p _ FL) as (rl & RL).
  assert (Sm : Forall (fun b => b < 256) (st_bytes s)).
  { destruct (run_setting _ _ _ _ _ _ _ _ _ _ R) as (fs & ST & _ & E & _). destruct R as [_ _ [[Ad _] Ld] [[At _] Lt] _ _ _ _ _ _ _ _ _ _ _]. rewrite E.
    assert (WB : forall ws, Forall (fun w => w < 2 ^ 32) ws -> Forall (fun b => b < 256) (flat_map be32 ws)).
    { intros ws Fw. induction Fw as [|x ws X Fw IH]; [constructor|]. cbn [flat_map]. apply Forall_app. split; [|exact IH]. unfold be32.
      change (2 ^ 24) with 16777216. change (2 ^ 16) with 65536. change (2 ^ 8) with 256. change (2 ^ 32) with 4294967296 in X. repeat constructor; clear - X; lia. }
    unfold data_file, bit_file. apply Forall_app. split; [|apply Forall_app; split].
    - rewrite header_split. unfold len_N. rewrite Ld, Lt. apply Forall_app. split; [repeat constructor|]. apply Forall_app.
      split; [apply ascii_bytes in Ad; eapply Forall_impl; [|exact Ad]; cbn; intros; lia|]. apply Forall_app. split; [repeat constructor|]. apply Forall_app.
      split; [apply ascii_bytes in At; eapply Forall_impl; [|exact At]; cbn; intros; lia|]. repeat constructor.
    - unfold len_N. pose proof (st_l _ _ _ _ ST) as Hl. rewrite words_split, !app_length, words_tail_len.
      pose proof (words_head_len (dp_idcode p) (N.of_nat (List.length (payload fs)))) as Wl. rewrite app_length in Wl.
      change (2 ^ 27) with 134217728 in Hl. set (q := N.of_nat _). assert (Q : 4 * q < 4294967296) by (unfold q; lia). clearbody q. unfold be32.
      change (2 ^ 24) with 16777216. change (2 ^ 16) with 65536. change (2 ^ 8) with 256. repeat constructor; clear - Q; lia.
    - apply WB. apply Forall_app. split; [repeat constructor|]. rewrite program_split. apply Forall_app.
      split; [apply program_ok; [exact (st_id _ _ _ _ ST)|exact (st_w _ _ _ _ ST)|exact (st_l _ _ _ _ ST)]|].
      unfold nops. apply Forall_forall. intros x X. apply repeat_spec in X. subst x. reflexivity. }
  assert (Hb : b < 256) by (rewrite Forall_forall in Sm; apply Sm; eapply nth_error_In; eauto).
  assert (Hb' : N.lxor b (2 ^ (i mod 8)) < 256).
  { assert (M8 : i mod 8 < 8) by (apply N.mod_lt; discriminate).
    assert (Z : forall q, 8 <= q -> N.testbit (N.lxor b (2 ^ (i mod 8))) q = false).
    { intros q Hq. rewrite lxor_bit. replace (q =? i mod 8) with false by (symmetry; apply N.eqb_neq; lia).
      destruct b as [|z]; [reflexivity|]. apply N.bits_above_log2. change 256 with (2 ^ 8) in Hb. apply N.log2_lt_pow2 in Hb; lia. }
    remember (N.lxor b (2 ^ (i mod 8))) as y. destruct (N.lt_ge_cases y 256) as [C|C]; [exact C|exfalso].
    assert (T : N.testbit y (N.log2 y) = true) by (apply N.bit_log2; lia). rewrite Z in T; [discriminate T|]. change 8 with (N.log2 256). now apply N.log2_le_mono. }
  assert (Fb : Forall (fun b => b < 256) bs').
  { apply Forall_forall. intros y Y. apply In_nth_error in Y as (j & Y). destruct (Nat.eq_dec j (N.to_nat (byte_place k w i))) as [->|NE].
    - congruence.
    - rewrite Out in Y by exact NE. rewrite Forall_forall in Sm. apply Sm. eapply nth_error_In; eauto. }
  assert (Pl : 328 <= byte_place k w i < 328 + 4 * (101 * N.of_nat (List.length (dk_frames dk)) + 202 * N.of_nat (List.length rl))).
  { pose proof FL as [F1 F2]. pose proof RL as [R1 R2]. destruct K as (f & r & [K1 K2] & [K3 K4] & ->).
    assert (X : (List.length (f ++ [a]) <= List.length (dk_frames dk))%nat).
    { apply NoDup_incl_length.
      - apply Permutation.Permutation_NoDup with (a :: f); [apply Permutation.Permutation_cons_append|]. constructor; [intros H; apply K2 in H as [_ H]; lia|now apply sorted_nodup].
      - intros x H. apply F2. apply in_app_iff in H as [H|[<-|[]]]; [now apply K2 in H as [H _]|exact Ha]. }
    assert (Y : (List.length r <= List.length rl)%nat).
    { apply sorted_incl_le; [exact K3|]. intros x H. apply R2. apply K4 in H as [_ H]. exact H. }
    rewrite app_length in X. cbn [List.length] in X. unfold byte_place. assert (3 - i / 8 <= 3) by lia. lia. }
  destruct (C107_any_frame_data _ _ _ _ _ _ _ _ _ _ R dk d DF B _ _ FL RL bs' L Fb) as (H1 & H2 & H3).
  { intros j Hj. apply Out. lia. }
  cbv zeta. split; [exact H1|]. split; [exact H2|]. split.
  - destruct (H3 a k w i Ha K W Hi) as (b' & E' & T). assert (b' = N.lxor b (2 ^ (i mod 8))) as -> by congruence. rewrite T, lxor_bit, N.eqb_refl.
    destruct (C90_bit_places _ _ _ _ _ _ _ _ _ _ R a w i k Ha W Hi K) as (b0 & E0 & T0). assert (b0 = b) as -> by congruence. rewrite <- T0.
    destruct (N.testbit b (i mod 8)); cbn [negb]; split; congruence.
  - intros a' w' i' Ha' W' Hi' NE. destruct (C90_place_exists p _ FL a' Ha') as (k' & K' & _).
    destruct (H3 a' k' w' i' Ha' K' W' Hi') as (b' & E' & T). rewrite T.
    destruct (C90_bit_places _ _ _ _ _ _ _ _ _ _ R a' w' i' k' Ha' W' Hi' K') as (b0 & E0 & T0). rewrite <- T0.
    destruct (Nat.eq_dec (N.to_nat (byte_place k' w' i')) (N.to_nat (byte_place k w i))) as [Q|Q].
    + rewrite Q in E', E0. assert (b' = N.lxor b (2 ^ (i mod 8))) as -> by congruence. assert (b0 = b) as -> by congruence. rewrite lxor_bit.
      destruct (N.eqb_spec (i' mod 8) (i mod 8)) as [Q8|Q8]; [|reflexivity]. exfalso. apply NE.
      destruct (proj2 (C90_places_differ p a' k' a k Ha' K' K) w' i' w i Ha W' W Hi' Hi) as (-> & -> & ->); [lia|exact Q8|reflexivity].
    + rewrite Out in E' by exact Q. assert (b' = b0) as -> by congruence. reflexivity.
Qed.
Print Assumptions C107_flipped_bit.

(** ** A case: the demo text on a device full of ones; the checksum function does not matter. *)
Definition demo_kind (id : N) : device_kind :=
  {| dk_idcode := id; dk_frames := [0; 1; 2; 0x80; 0x81]; dk_checksum := fun c r w => (c + r + w) mod 2 ^ 32 |}.
Definition demo_device : device :=
  {| memory := fun _ => repeat 0xFFFFFFFF 101; recent := []; awake := false; packet := None; last_register := 3; far := Some 7; pad := 1; frame_buffer := [5];
     command := 13; mask := 0xFF; ctl0 := 2; ctl1 := 3; cor0 := 4; checksum := 5; id_ok := false; failed := false; interconnect := false; start := false; running := false |}.
Lemma demo_blank : blank demo_device. Proof. repeat split. Qed.
Lemma demo_device_for : device_for (tl_part demo_db) (demo_kind (dp_idcode (tl_part demo_db))).
Proof. split; [reflexivity|exact demo_frames]. Qed.

(** Nothing in the file lets the device find damage: it is not so that a device that starts has the design that was asked for. *)
Theorem C107_damage_detected_refuted :
  ~ (forall fuel ord c root input g p pins feats s, run_succeeds fuel ord c root input g p pins feats s ->
     forall dk d, device_for p dk -> blank d ->
     forall bs', List.length bs' = List.length (st_bytes s) -> running (receive dk bs' d) = true ->
     forall a w i, is_frame_address p a -> bit_set (receive dk bs' d) a w i <-> asks_for (c_env c) root g p pins feats a w i).
Proof.
  intros H. destruct C90_case as (pins & feats & s & b & RS & Sz & Bp & Eb & Tb & Yes & No).
  set (bs' := firstn 1967 (st_bytes s) ++ [N.lxor b (2 ^ (4 mod 8))] ++ skipn 1968 (st_bytes s)).
  assert (Lb : (1967 < List.length (st_bytes s))%nat) by (apply nth_error_Some; congruence).
  assert (L : List.length bs' = List.length (st_bytes s)).
  { unfold bs'. rewrite !app_length, firstn_length, skipn_length. change (List.length [N.lxor b (2 ^ (4 mod 8))]) with 1%nat. lia. }
  assert (A81 : is_frame_address (tl_part demo_db) 0x81) by (apply demo_frames; cbn; tauto).
  destruct (C107_flipped_bit _ _ _ _ _ _ _ _ _ _ RS _ _ demo_device_for demo_blank 0x81 5 4 404 A81 eq_refl eq_refl demo_place bs' b L) as (R & _ & F & _).
  - rewrite Bp. exact Eb.
  - rewrite Bp. change (N.to_nat 1967) with 1967%nat. unfold bs'. rewrite nth_error_app2; rewrite firstn_length; [|lia]. replace (1967 - Nat.min 1967 (List.length (st_bytes s)))%nat with 0%nat by lia. reflexivity.
  - rewrite Bp. change (N.to_nat 1967) with 1967%nat. intros j NE. unfold bs'. clear - NE Lb. destruct (Nat.lt_ge_cases j 1967) as [C|C].
    + rewrite nth_error_app1 by (rewrite firstn_length; lia). rewrite <- (firstn_skipn 1967 (st_bytes s)) at 2. rewrite nth_error_app1 by (rewrite firstn_length; lia). reflexivity.
    + rewrite nth_error_app2; rewrite firstn_length; [|lia]. replace (Nat.min 1967 (List.length (st_bytes s))) with 1967%nat by lia.
      rewrite nth_error_app2 by (cbn [List.length]; lia). cbn [List.length].
      rewrite <- (firstn_skipn 1968 (st_bytes s)) at 2. rewrite nth_error_app2; rewrite firstn_length; [|lia]. f_equal. lia.
  - cbv zeta in R, F. apply F; [|exact Yes]. apply (H _ _ _ _ _ _ _ _ _ _ RS _ _ demo_device_for demo_blank bs' L R 0x81 5 4 A81). exact Yes.
Qed.
Print Assumptions C107_damage_detected_refuted.

Example C105_case : exists pins feats s,
  run_succeeds 3000 ex_orders (demo_command demo_input) (tx "db") demo_input (tl_grid demo_db) (tl_part demo_db) pins feats s /\
  let d' := receive (demo_kind (dp_idcode (tl_part demo_db))) (st_bytes s) demo_device in
  running d' = true /\ bit_set d' 0x81 5 4 /\ ~ bit_set d' 0x81 5 5 /\ ctl0 d' = 0x503 /\ memory d' 3 = repeat 0xFFFFFFFF 101 /\
  let e' := receive (demo_kind (dp_idcode (tl_part demo_db) + 1)) (st_bytes s) demo_device in running e' = false /\ bit_set e' 0x81 5 5.
Proof.
  destruct C90_case as (pins & feats & s & b & RS & Sz & _ & Eb & Tb & Yes & No). exists pins, feats, s. split; [exact RS|]. cbv zeta.
  destruct (C105_device_configured _ _ _ _ _ _ _ _ _ _ RS _ _ demo_device_for demo_blank) as (H1 & H2 & H3 & H4 & H5 & H6 & H7 & H8). cbv zeta in *.
  destruct demo_frames as [_ DFr].
  assert (A81 : is_frame_address (tl_part demo_db) 0x81) by (apply DFr; cbn; tauto).
  split; [exact H1|]. split; [apply H4; [exact A81|exact Yes]|]. split; [intros Q; apply No; now apply H4|]. split; [rewrite H6; reflexivity|].
  split; [apply H5; intros Q; apply DFr in Q; cbn in Q; lia|].
  assert (Ne : dk_idcode (demo_kind (dp_idcode (tl_part demo_db) + 1)) mod 2 ^ 28 <> dp_idcode (tl_part demo_db) mod 2 ^ 28).
  { rewrite demo_part. vm_compute. discriminate. }
  destruct (C105_other_device _ _ _ _ _ _ _ _ _ _ RS _ demo_device Ne demo_blank (List.length (st_bytes s))) as [Q1 Q2]. rewrite firstn_all in Q1, Q2.
  split; [exact Q1|]. unfold bit_set. rewrite Q2. exists 0xFFFFFFFF. split; reflexivity.
Qed.

(** After 2347 bytes all but the last byte of frame 0x81 has arrived, after 2348 all of it; the device starts with byte 3652 of 5252. *)
Example C106_case : exists pins feats s,
  run_succeeds 3000 ex_orders (demo_command demo_input) (tx "db") demo_input (tl_grid demo_db) (tl_part demo_db) pins feats s /\
  let after n := receive (demo_kind (dp_idcode (tl_part demo_db))) (firstn n (st_bytes s)) demo_device in
  memory (after 2347%nat) 0x81 = repeat 0xFFFFFFFF 101 /\ bit_set (after 2348%nat) 0x81 5 4 /\ ~ bit_set (after 2348%nat) 0x81 5 5 /\
  running (after 3651%nat) <> true /\ running (after 3652%nat) = true.
Proof.
  destruct C90_case as (pins & feats & s & b & RS & Sz & _ & Eb & Tb & Yes & No). exists pins, feats, s. split; [exact RS|]. cbv zeta.
  assert (Sz' : List.length (st_bytes s) = N.to_nat 5252) by lia.
  destruct (C105_device_configured _ _ _ _ _ _ _ _ _ _ RS _ _ demo_device_for demo_blank) as (_ & _ & _ & H4 & _). cbv zeta in *.
  assert (A81 : is_frame_address (tl_part demo_db) 0x81) by (apply demo_frames; cbn; tauto). destruct (H4 _ A81) as [_ Hb].
  pose proof (C106_transfer_stops _ _ _ _ _ _ _ _ _ _ RS _ _ demo_device_for demo_blank) as T. cbv zeta in T.
  split; [|split; [|split; [|split]]].
  - destruct (T 2347%nat) as (T1 & _). rewrite (T1 _ _ A81 demo_place). reflexivity.
  - destruct (T 2348%nat) as (T1 & _). unfold bit_set. rewrite (T1 _ _ A81 demo_place). change (328 + 4 * (404 + 101) <=? N.of_nat 2348) with true. cbv iota. apply Hb. exact Yes.
  - destruct (T 2348%nat) as (T1 & _). unfold bit_set. rewrite (T1 _ _ A81 demo_place). change (328 + 4 * (404 + 101) <=? N.of_nat 2348) with true. cbv iota. intros Q. apply No, Hb. exact Q.
  - destruct (T 3651%nat) as (_ & _ & T3). rewrite T3, Sz'. clear. lia.
  - destruct (T 3652%nat) as (_ & _ & T3). rewrite T3, Sz'. clear. lia.
Qed.
