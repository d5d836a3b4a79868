(** Property C90: every bit of the device has its place in the file; the rest of the file is the same for all designs. *)
From Verif Require Import Base BaseFacts Absl Part PartSpec Frame Frames Fasm FasmSpec
  DbText DbJson Database Packet Writer WriterFacts ConfigSpec ContainerSpec Reader Encode EncodeSpec EncodeFacts
  Assembler AsmSpec LookupFacts AsmWhole DbSpec JsonSpec LoadSpec P_Database4 P_Main P_Main2 EndSpec AsmExample P_EndToEnd SameSpec SameFacts P_Repro
  P_Equiv PlaceSpec PlaceFacts.
From Coq Require Import Lia.

(** A run of the program that succeeds: [c] is the command, [root] the database directory it selects, [input] the text it reads; the files
    of the database give grid [g], device [p] and pins [pins]; the text has the features [feats]; [s] is the standard output. *)
Record run_succeeds (fuel : nat) (ord : orders) (c : command) (root input : text) (g : tilegrid) (p : db_part) (pins : list package_pin)
    (feats : list fasm_feature) (s : stream) : Prop := {
  rs_orders : good_orders ord;
  rs_stdout : c_stdout c = file_at_end [];
  rs_date : header_text (c_date c) /\ List.length (c_date c) = 10%nat;
  rs_time : header_text (c_time c) /\ List.length (c_time c) = 8%nat;
  rs_files : sound_files (c_env c);
  rs_walk : forall root, sound_walk (c_env c) root;
  rs_root : db_path c = Some root;
  rs_input : input_text c = Some input;
  rs_short : short_lines input;
  rs_features : text_features Iso input feats;
  rs_says : database_says (c_env c) root (c_part c) g p pins;
  rs_consistent : consistent_description (c_env c) root g p;
  rs_banks : distinct_banks p;
  rs_pudcb : one_pudcb g;
  rs_exit : main_program fuel Iso ord c = Ok (0, s)
}.

Lemma run_file fuel ord c root input g p pins feats s : run_succeeds fuel ord c root input g p pins feats s ->
  exists fs, StronglySorted N.lt (map fst fs) /\ (forall a, In a (map fst fs) <-> is_frame_address p a) /\
    Forall (fun kv => is_frame_content (snd kv)) fs /\
    (forall a w i, (exists ws x, In (a, ws) fs /\ nth_error ws (N.to_nat w) = Some x /\ N.testbit x i = true) <->
       asks_for (c_env c) root g p pins feats a w i) /\
    st_bytes s = the_file p (c_date c) (c_time c) fs.
Proof.
  intros [G ES [HD _] [HT _] SF SW ER EI SL T DS CD DB OP H].
  destruct (C71_exit_zero_for_any_reading fuel ord c s root input g p pins G ES HD HT SF SW H ER EI SL DS CD DB)
    as (pud & fe & fs & PD & TF & CF & PR & _).
  assert (fe = feats) as -> by (eapply text_features_fun; eauto).
  destruct CF as (A1 & A2 & A3 & A4). exists fs. split; [exact A1|]. split; [exact A2|]. split; [exact A3|]. split.
  - intros a w i. rewrite A4. split.
    + intros (f & I & S). exists pud, f. auto.
    + intros (q & f & Q & I & S). assert (q = pud) as -> by (eapply pudcb_unique; eauto). eauto.
  - exact PR.
Qed.

(** Bit [i] of word [w] of frame [a] is in the byte that its place says, and is set exactly when the design asks for it. *)
Theorem C90_bit_places :
  forall fuel ord c root input g p pins feats s, run_succeeds fuel ord c root input g p pins feats s ->
  forall a w i k, is_frame_address p a -> w < 101 -> i < 32 -> frame_place p a k ->
  exists b, nth_error (st_bytes s) (N.to_nat (byte_place k w i)) = Some b /\
    (N.testbit b (i mod 8) = true <-> asks_for (c_env c) root g p pins feats a w i).
Proof.
  intros fuel ord c root input g p pins feats s R a w i k A W Hi K.
  destruct (run_file _ _ _ _ _ _ _ _ _ _ R) as (fs & S & F & C & B & E). destruct R as [_ _ [_ Ld] [_ Lt] _ _ _ _ _ _ _ _ _ _ _].
  pose proof A as A0. apply F in A0. apply in_map_iff in A0 as ([a' ws] & X & I). cbn [fst] in X. subst a'.
  assert (Lw : List.length ws = 101%nat) by (rewrite Forall_forall in C; apply (C _ I)).
  destruct (nth_error ws (N.to_nat w)) as [x|] eqn:Ew; [|apply nth_error_None in Ew; lia].
  destruct (file_bit p (c_date c) (c_time c) fs Ld Lt S F C a ws _ x i I Ew Hi) as (k' & b & K' & N1 & T).
  rewrite N2Nat.id in N1. rewrite (place_unique _ _ _ _ K K'). exists b. split; [rewrite E; exact N1|]. rewrite T. rewrite <- B. split.
  - intros Y. exists ws, x. auto.
  - intros (ws' & x' & I' & E' & T'). assert (ws' = ws) as ->; [|congruence].
    assert (ND : NoDup (map fst fs)).
    { clear - S. induction S as [|y l S IH Fy]; constructor; [|exact IH]. intros H. rewrite Forall_forall in Fy. specialize (Fy _ H). lia. }
    clear - I I' ND. induction fs as [|[b v] fs IH]; [contradiction|]. cbn [map fst] in ND. inversion ND as [|? ? Nb Nd]; subst.
    destruct I as [Q|I], I' as [Q'|I'].
    + congruence.
    + injection Q as -> ->. contradiction Nb. now apply (in_map fst) in I'.
    + injection Q' as -> ->. contradiction Nb. now apply (in_map fst) in I.
    + auto.
Qed.
Print Assumptions C90_bit_places.

(** Every frame of a device has one place. *)
Theorem C90_place_exists :
  forall p l, all_frames p l -> forall a, is_frame_address p a -> exists k, frame_place p a k /\ forall k', frame_place p a k' -> k' = k.
Proof.
  intros p l [S A] a Ha. apply A in Ha. apply in_split in Ha as (l1 & l2 & ->).
  pose (fs := map (fun x : N => (x, repeat 0 101)) (l1 ++ a :: l2)).
  assert (M : map fst fs = l1 ++ a :: l2) by (unfold fs; rewrite map_map; cbn [fst]; apply map_id).
  exists (101 * N.of_nat (List.length (map (fun x : N => (x, repeat 0 101)) l1)) + 202 * row_changes (map (fun x : N => (x, repeat 0 101)) l1 ++ [(a, repeat 0 101)])).
  assert (K : frame_place p a (101 * N.of_nat (List.length (map (fun x : N => (x, repeat 0 101)) l1)) + 202 * row_changes (map (fun x : N => (x, repeat 0 101)) l1 ++ [(a, repeat 0 101)]))).
  { apply (place_of p (tx "2024/10/01") (tx "12:00:00") fs eq_refl eq_refl) with (l2 := map (fun x : N => (x, repeat 0 101)) l2).
    - now rewrite M.
    - intros x. rewrite M. apply A.
    - unfold fs. rewrite map_app. reflexivity. }
  split; [exact K|]. intros k' K'. eapply place_unique; eauto.
Qed.
Print Assumptions C90_place_exists.

Lemma sorted_incl_le (l l' : list N) : StronglySorted N.lt l -> incl l l' -> (List.length l <= List.length l')%nat.
Proof.
  intros S I. apply NoDup_incl_length; [|exact I].
  induction S as [|y l S IH Fy]; constructor; [|apply IH; intros z Z; apply I; now right]. intros H. rewrite Forall_forall in Fy. specialize (Fy _ H). lia.
Qed.
(** Frames in address order are at least 101 words apart, so different bits have different places. *)
Theorem C90_places_differ :
  forall p a k a' k', is_frame_address p a -> frame_place p a k -> frame_place p a' k' ->
  (a < a' -> k + 101 <= k') /\
  forall w i w' i', is_frame_address p a' -> w < 101 -> w' < 101 -> i < 32 -> i' < 32 ->
    byte_place k w i = byte_place k' w' i' -> i mod 8 = i' mod 8 -> a = a' /\ w = w' /\ i = i'.
Proof.
  assert (Ap : forall p a k a' k', is_frame_address p a -> frame_place p a k -> frame_place p a' k' -> a < a' -> k + 101 <= k').
  { intros p a k a' k' A (f & r & [F1 F2] & [R1 R2] & ->) (f' & r' & [F1' F2'] & [R1' R2'] & ->) Lt.
    assert (X : (List.length (f ++ [a]) <= List.length f')%nat).
    { apply NoDup_incl_length.
      - apply Permutation.Permutation_NoDup with (a :: f); [apply Permutation.Permutation_cons_append|]. constructor.
        + intros H. apply F2 in H as [_ H]. lia.
        + clear - F1. induction F1 as [|y l S IH Fy]; constructor; [|exact IH]. intros H. rewrite Forall_forall in Fy. specialize (Fy _ H). lia.
      - intros x H. apply in_app_iff in H as [H|[<-|[]]]; apply F2'; [apply F2 in H as [H L]; split; [exact H|lia]|now split]. }
    assert (Y : (List.length r <= List.length r')%nat).
    { apply sorted_incl_le; [exact R1|]. intros x H. apply R2'. apply R2 in H as [L H]. split; [|exact H].
      pose proof (row_le a a'). lia. }
    rewrite app_length in X. cbn [List.length] in X. lia. }
  intros p a k a' k' A K K'. split; [apply (Ap p a k a' k' A K K')|]. intros w i w' i' A' W W' Hi Hi' E M.
  unfold byte_place in E. pose proof (N.div_mod i 8 ltac:(discriminate)) as D. pose proof (N.div_mod i' 8 ltac:(discriminate)) as D'.
  assert (Q : i / 8 < 4) by lia. assert (Q' : i' / 8 < 4) by lia.
  assert (KW : k + w = k' + w') by lia. assert (II : i / 8 = i' / 8) by lia.
  assert (AA : a = a').
  { destruct (N.lt_trichotomy a a') as [L|[L|L]]; [|exact L|].
    - pose proof (Ap p a k a' k' A K K' L). lia.
    - pose proof (Ap p a' k' a k A' K' K L). lia. }
  subst a'. pose proof (place_unique _ _ _ _ K K'). split; [reflexivity|]. split; [lia|]. rewrite D, D', II, M. reflexivity.
Qed.
Print Assumptions C90_places_differ.

(** The size of the file: it depends on the device alone. *)
Theorem C90_size :
  forall fuel ord c root input g p pins feats s, run_succeeds fuel ord c root input g p pins feats s ->
  forall fl rl, all_frames p fl -> all_rows p rl ->
  N.of_nat (List.length (st_bytes s)) = 328 + 4 * (101 * N.of_nat (List.length fl) + 202 * N.of_nat (List.length rl) + 524).
Proof.
  intros fuel ord c root input g p pins feats s R fl rl [F1 F2] [R1 R2].
  destruct (run_file _ _ _ _ _ _ _ _ _ _ R) as (fs & S & F & C & B & E).
  destruct R as [_ _ [_ Ld] [_ Lt] _ _ _ _ _ _ _ CD _ _ _].
  rewrite E, (file_length p _ _ fs Ld Lt), (payload_length _ (contents_len _ C)).
  assert (M : map fst fs = fl) by (apply sorted_keys_eq; auto; intros x; rewrite F, F2; reflexivity).
  assert (L : List.length fs = List.length fl) by (rewrite <- M; symmetry; apply map_length). rewrite L, row_changes_len, M.
  assert (Z : exists l a, fl = l ++ [a]).
  { destruct (cd_device _ _ _ _ CD) as (_ & _ & Z & _). apply F2 in Z. destruct (exists_last (l := fl)) as (l & a & Q); [intros ->; contradiction|]. eauto. }
  destruct Z as (l & a & ->). destruct (changes_spec l a F1) as [C1 C2].
  assert (RL : rl = changes (l ++ [a]) ++ [device_row a]).
  { apply sorted_keys_eq; [exact R1| |].
    - assert (X : Forall (fun r => r < device_row a) (changes (l ++ [a]))) by (apply Forall_forall; intros r H; now apply C2 in H).
      clear - C1 X. induction C1 as [|y t S IH Fy]; cbn [app]; [repeat constructor|]. inversion X as [|? ? Xy X']; subst. constructor; [auto|].
      apply Forall_app. split; [exact Fy|]. repeat constructor. exact Xy.
    - intros r. rewrite R2, in_app_iff, C2. split.
      + intros (x & H & <-). apply F2 in H. apply in_app_iff in H as [H|[->|[]]]; [|right; now left].
        assert (x < a).
        { clear - F1 H. induction l as [|y l IH]; [contradiction|]. cbn [app] in F1. inversion F1 as [|? ? S' Fy]; subst.
          destruct H as [->|H]; [|auto]. rewrite Forall_forall in Fy. apply Fy. apply in_or_app. right. now left. }
        pose proof (row_le x a). destruct (N.eq_dec (device_row x) (device_row a)) as [Q|Q]; [right; left; now rewrite Q|left; split; [lia|]; exists x; auto].
      + intros [(_ & x & H & <-)|[<-|[]]]; [exists x|exists a]; (split; [apply F2; apply in_or_app|reflexivity]); [now left|right; now left]. }
  rewrite RL, !app_length. cbn [List.length]. lia.
Qed.
Print Assumptions C90_size.

(** Two runs on the same database and part: a byte on which the files differ is in the date, in the time, or is the place of a bit that one
    design asks for and the other does not. *)
Theorem C90_rest_constant :
  forall fuel ord c root input feats s fuel' ord' c' input' feats' s' g p pins,
  run_succeeds fuel ord c root input g p pins feats s -> run_succeeds fuel' ord' c' root input' g p pins feats' s' ->
  List.length (st_bytes s) = List.length (st_bytes s') /\
  forall j, nth_error (st_bytes s) j <> nth_error (st_bytes s') j ->
    ((64 <= j < 74)%nat /\ c_date c <> c_date c') \/
    ((78 <= j < 86)%nat /\ c_time c <> c_time c') \/
    exists a w i k, is_frame_address p a /\ w < 101 /\ i < 32 /\ frame_place p a k /\ j = N.to_nat (byte_place k w i) /\
      ~ (asks_for (c_env c) root g p pins feats a w i <-> asks_for (c_env c') root g p pins feats' a w i).
Proof.
  intros fuel ord c root input feats s fuel' ord' c' input' feats' s' g p pins R R'.
  destruct (run_file _ _ _ _ _ _ _ _ _ _ R) as (fs & S & F & C & B & E).
  destruct (run_file _ _ _ _ _ _ _ _ _ _ R') as (fs' & S' & F' & C' & B' & E').
  destruct R as [_ _ [_ Ld] [_ Lt] _ _ _ _ _ _ _ _ _ _ _]. destruct R' as [_ _ [_ Ld'] [_ Lt'] _ _ _ _ _ _ _ _ _ _ _].
  assert (K : map fst fs = map fst fs') by (apply sorted_keys_eq; auto; intros x; rewrite F, F'; reflexivity).
  rewrite E, E'. split.
  - pose proof (file_length p _ _ fs Ld Lt) as X. pose proof (file_length p _ _ fs' Ld' Lt') as X'.
    rewrite (payload_length _ (contents_len _ C)), row_changes_len in X. rewrite (payload_length _ (contents_len _ C')), row_changes_len, <- K in X'.
    apply (f_equal (@List.length N)) in K. rewrite !map_length in K. lia.
  - intros j D. destruct (file_differ p (c_date c) (c_time c) fs (c_date c') (c_time c') fs' j Ld Lt Ld' Lt' S F C S' F' C' D)
      as [[J Q]|[[J Q]|(a & ws & ws' & w & x & x' & i & k & I & I' & N1 & N2 & W & Hi & NE & KP & J)]].
    + left. split; [exact J|]. intros X. rewrite X in Q. contradiction.
    + right. left. split; [exact J|]. intros X. rewrite X in Q. contradiction.
    + right. right. exists a, (N.of_nat w), i, k. split; [apply F; now apply (in_map fst) in I|]. split; [lia|]. split; [exact Hi|]. split; [exact KP|].
      split; [exact J|]. rewrite <- B, <- B'. rewrite Nat2N.id. intros Q. apply NE.
      assert (U : forall (fs : list (N * list N)) v v', NoDup (map fst fs) -> In (a, v) fs -> In (a, v') fs -> v = v').
      { clear. intros fs v v' ND H H'. induction fs as [|[b u] fs IH]; [contradiction|]. cbn [map fst] in ND. inversion ND as [|? ? Nb Nd]; subst.
        destruct H as [Q|H], H' as [Q'|H'].
        - congruence.
        - injection Q as -> ->. contradiction Nb. now apply (in_map fst) in H'.
        - injection Q' as -> ->. contradiction Nb. now apply (in_map fst) in H.
        - auto. }
      assert (ND : forall l : list N, StronglySorted N.lt l -> NoDup l).
      { clear. intros l S. induction S as [|y l S IH Fy]; constructor; [|exact IH]. intros H. rewrite Forall_forall in Fy. specialize (Fy _ H). lia. }
      apply ND in S. apply ND in S'.
      destruct (N.testbit x i) eqn:T, (N.testbit x' i) eqn:T'; try reflexivity; exfalso.
      * destruct (proj1 Q) as (v & y & Iv & Ey & Ty); [exists ws, x; auto|]. assert (v = ws') as -> by (eapply (U fs'); eauto). congruence.
      * destruct (proj2 Q) as (v & y & Iv & Ey & Ty); [exists ws', x'; auto|]. assert (v = ws) as -> by (eapply (U fs); eauto). congruence.
Qed.
Print Assumptions C90_rest_constant.

(** ** A case: the runs of C81's cases; the device has five frames in one row, a second device has two rows. *)
Lemma demo_run input s : runs input s -> exists pins feats,
  run_succeeds 3000 ex_orders (demo_command input) (tx "db") input (tl_grid demo_db) (tl_part demo_db) pins feats s.
Proof.
  intros (SL & (feats & T) & E). destruct C71_case_database as (pins & DS & CD). exists pins, feats. constructor.
  - exact ex_orders_good.
  - reflexivity.
  - split; [split; [repeat constructor|reflexivity]|reflexivity].
  - split; [split; [repeat constructor|reflexivity]|reflexivity].
  - exact demo_sound_files.
  - exact demo_sound_walk.
  - reflexivity.
  - reflexivity.
  - exact SL.
  - exact T.
  - exact DS.
  - exact CD.
  - rewrite demo_part; repeat constructor; cbn; tauto.
  - exact demo_one_pudcb.
  - exact E.
Qed.

Lemma demo_frames : all_frames (tl_part demo_db) [0; 1; 2; 0x80; 0x81].
Proof.
  split; [repeat constructor|]. intros x. rewrite demo_part, <- device_frames_spec. set (l := device_frames _). vm_compute in l. subst l. reflexivity.
Qed.
Lemma demo_rows : all_rows (tl_part demo_db) [0].
Proof.
  split; [repeat constructor|]. destruct demo_frames as [_ F]. intros r. split.
  - intros [<-|[]]. exists 0. split; [apply F; now left|reflexivity].
  - intros (x & H & <-). apply F in H. cbn in H. repeat (destruct H as [<-|H]; [now left|]). contradiction.
Qed.
Lemma demo_place : frame_place (tl_part demo_db) 0x81 404.
Proof.
  exists [0; 1; 2; 0x80], []. destruct demo_frames as [_ F]. split; [|split; [|reflexivity]].
  - split; [repeat constructor|]. intros x. rewrite <- F. cbn [In]. split; [|lia].
    intros [<-|[<-|[<-|[<-|[]]]]]; (split; [tauto|reflexivity]).
  - split; [constructor|]. intros r. split; [intros []|]. intros [H _]. change (device_row 0x81) with 0 in H. lia.
Qed.
(** In the file for the demo text, bit 4 of word 5 of frame 0x81 (IN of the PUDC_B pin's tile) is in byte 1967, and set. *)
Example C90_case : exists pins feats s b,
  run_succeeds 3000 ex_orders (demo_command demo_input) (tx "db") demo_input (tl_grid demo_db) (tl_part demo_db) pins feats s /\
  N.of_nat (List.length (st_bytes s)) = 5252 /\
  byte_place 404 5 4 = 1967 /\ nth_error (st_bytes s) 1967 = Some b /\ N.testbit b 4 = true /\
  asks_for demo_env (tx "db") (tl_grid demo_db) (tl_part demo_db) pins feats 0x81 5 4 /\
  ~ asks_for demo_env (tx "db") (tl_grid demo_db) (tl_part demo_db) pins feats 0x81 5 5.
Proof.
  destruct (run_shape demo_input) as (s & R); [vm_compute; reflexivity..|].
  destruct (demo_run _ _ R) as (pins & feats & RS). destruct R as (_ & _ & R).
  assert (X : match main_program 3000 Iso ex_orders (demo_command demo_input) with
     | Ok (_, s) => match nth_error (st_bytes s) 1967 with Some b => N.testbit b 4 && negb (N.testbit b 5) | None => false end
     | _ => false end = true) by (vm_compute; reflexivity).
  rewrite R in X. clear R. destruct (nth_error (st_bytes s) 1967) as [b|] eqn:E; [|discriminate X]. apply andb_true_iff in X as [X Y].
  exists pins, feats, s, b. split; [exact RS|]. split.
  - pose proof (C90_size _ _ _ _ _ _ _ _ _ _ RS _ _ demo_frames demo_rows) as L. rewrite L. reflexivity.
  - split; [reflexivity|]. split; [exact E|]. split; [exact X|].
    assert (A : is_frame_address (tl_part demo_db) 0x81) by (apply demo_frames; cbn; tauto).
    split.
    + destruct (C90_bit_places _ _ _ _ _ _ _ _ _ _ RS 0x81 5 4 404 A eq_refl eq_refl demo_place) as (b' & E' & T).
      change (N.to_nat (byte_place 404 5 4)) with 1967%nat in E'. assert (b' = b) as -> by congruence. apply T. exact X.
    + destruct (C90_bit_places _ _ _ _ _ _ _ _ _ _ RS 0x81 5 5 404 A eq_refl eq_refl demo_place) as (b' & E' & T).
      change (N.to_nat (byte_place 404 5 5)) with 1967%nat in E'. assert (b' = b) as -> by congruence. intros Q. apply T in Q.
      change (5 mod 8) with 5 in Q. rewrite Q in Y. discriminate Y.
Qed.
(** A device with a frame in each half: the bottom frame comes after the frame and the two zero frames of the top row. *)
Example C90_case_rows :
  let p := {| dp_idcode := 1; dp_bottom_rows := [[(BusCLBIOCLK, [1])]]; dp_top_rows := [[(BusCLBIOCLK, [1])]]; dp_iobanks := [] |} in
  is_frame_address p 0x400000 /\ frame_place p 0x400000 303.
Proof.
  intros p. assert (F : forall x, is_frame_address p x <-> In x [0; 0x400000]).
  { intros x. rewrite <- device_frames_spec. set (l := device_frames p). vm_compute in l. subst l. reflexivity. }
  split; [apply F; cbn; tauto|]. exists [0], [0]. split; [|split; [|reflexivity]].
  - split; [repeat constructor|]. intros x. rewrite F. cbn [In]. split; [intros [<-|[]]; split; [tauto|reflexivity]|]. lia.
  - split; [repeat constructor|]. intros r. change (device_row 0x400000) with 32. split.
    + intros [<-|[]]. split; [reflexivity|]. exists 0. split; [apply F; now left|reflexivity].
    + intros (L & x & H & <-). apply F in H. destruct H as [<-|[<-|[]]]; [now left|]. exfalso. change (device_row 0x400000) with 32 in L. lia.
Qed.
