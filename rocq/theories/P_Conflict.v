(** Property C113: the features read back from the file; contradictions are not noticed. *)
From Verif Require Import Base BaseFacts Absl Part PartSpec Frame Frames Fasm FasmSpec
  DbText DbJson Database Packet Writer WriterFacts ConfigSpec ContainerSpec Reader Encode EncodeSpec EncodeFacts
  Assembler AsmSpec LookupFacts AsmWhole DbSpec DbFacts JsonSpec LoadSpec LoadFacts P_Database4 P_Main P_Main2 EndSpec AsmExample P_EndToEnd SameSpec SameFacts P_Repro
  P_Equiv P_Place P_Cut MapFacts EndFacts P_Local ResultSpec P_Result OpensSpec P_LoadLog GrowthSpec P_Growth ConflictSpec.
From Coq Require Import Lia.

Lemma wants_true e root g f a w i : wants e root g f true a w i <-> sets_bit e root g f a w i.
Proof. split; intros H; exact H. Qed.

(** A successful run, read back: every bit a feature of the design wants to be 1 is 1; one it wants to be 0 is 0 unless another feature wants it
    to be 1. *)
Theorem C113_features_in_the_file :
  forall fuel ord c root input g p pins feats s, run_succeeds fuel ord c root input g p pins feats s ->
  forall pud, pudcb_default g pud ->
  exists fs, decode p (st_bytes s) = Ok (Some fs) /\
    forall f, in_design g p pins (pud ++ feats) f -> forall a w i,
      (wants (c_env c) root g f true a w i -> frames_have fs a w i) /\
      (wants (c_env c) root g f false a w i ->
         (frames_have fs a w i <-> exists f', in_design g p pins (pud ++ feats) f' /\ wants (c_env c) root g f' true a w i)).
Proof.
  intros fuel ord c root input g p pins feats s R pud PD.
  destruct (run_decodes _ _ _ _ _ _ _ _ _ _ R) as (fs & A1 & A2 & A3 & A4 & A5 & A6). exists fs. split; [exact A6|].
  intros f I a w i. split.
  - intros W. apply A4. exists pud, f. auto.
  - intros _. unfold frames_have. rewrite A4. split.
    + intros (q & f' & Q & I' & S). assert (q = pud) as -> by (eapply pudcb_unique; eauto using (rs_pudcb _ _ _ _ _ _ _ _ _ _ R)). exists f'. auto.
    + intros (f' & I' & S). exists pud, f'. auto.
Qed.
Print Assumptions C113_features_in_the_file.

(** So a design without contradictions reads back feature by feature; and only such a design does. *)
Theorem C113_satisfied_exactly_without_contradiction :
  forall fuel ord c root input g p pins feats s, run_succeeds fuel ord c root input g p pins feats s ->
  forall pud, pudcb_default g pud ->
  exists fs, decode p (st_bytes s) = Ok (Some fs) /\
    ((forall f, in_design g p pins (pud ++ feats) f -> satisfied (c_env c) root g fs f) <->
     ~ contradiction (c_env c) root g (in_design g p pins (pud ++ feats))).
Proof.
  intros fuel ord c root input g p pins feats s R pud PD.
  destruct (C113_features_in_the_file _ _ _ _ _ _ _ _ _ _ R pud PD) as (fs & D & H). exists fs. split; [exact D|]. split.
  - intros ST (f & f' & a & w & i & I & I' & W & W'). apply (proj1 (H f I a w i)) in W. apply (ST f' I' false a w i W') in W. discriminate W.
  - intros NC f I v a w i W. destruct (H f I a w i) as [H1 H2]. destruct v.
    + split; [reflexivity|]. intros _. exact (H1 W).
    + split; [|discriminate]. intros B. exfalso. apply (H2 W) in B as (f' & I' & W'). apply NC. exists f', f, a, w, i. auto.
Qed.
Print Assumptions C113_satisfied_exactly_without_contradiction.

(** ** The demonstration database with one file changed *)
Definition edited_env (d c : text) : environment := with_file (d ++ tx ".db") c demo_env.
Definition edited_tls (d c : text) : outcome tiles := parse_database (edited_env d c) document_order (tx "db") (tx "xc7a35t").
Definition edited_db (d c : text) : tiles := match edited_tls d c with Ok t => t | _ => ex_db end.
Lemma edited_run d c input : N.of_nat (List.length c) < 2 ^ 32 - 1 -> full_lines c ->
  match edited_tls d c with Ok _ => true | _ => false end = true ->
  tl_grid (edited_db d c) = tl_grid demo_db -> tl_part (edited_db d c) = tl_part demo_db -> sound_check (edited_db d c) = true ->
  forallb (fun l => N.of_nat (List.length l) <? 2 ^ 24 - 1) (getlines input) = true ->
  match main_program 3000 Iso ex_orders (with_env (edited_env d c) (demo_command input)) with Ok (0, _) => true | _ => false end = true ->
  exists s pins feats, run_succeeds 3000 ex_orders (with_env (edited_env d c) (demo_command input)) (tx "db") input (tl_grid demo_db) (tl_part demo_db) pins feats s /\
    edited_tls d c = Ok (edited_db d c) /\ sound_files (edited_env d c).
Proof.
  intros LN FL PO EG EP SC SL RN.
  assert (PA : edited_tls d c = Ok (edited_db d c)).
  { unfold edited_db in *. destruct (edited_tls d c); first [reflexivity|discriminate PO]. }
  assert (SF : sound_files (edited_env d c)) by (apply sound_with_file; auto using demo_sound_files).
  assert (SW : forall root, sound_walk (edited_env d c) root) by (intros root; exact (demo_sound_walk root)).
  destruct C71_case_database as (pins & DS & _).
  assert (DS' : database_says (edited_env d c) (tx "db") (tx "xc7a35t") (tl_grid demo_db) (tl_part demo_db) pins) by (apply says_with_file; exact DS).
  assert (CD : consistent_description (edited_env d c) (tx "db") (tl_grid demo_db) (tl_part demo_db)).
  { assert (SD : sound_database (edited_db d c)) by (apply sound_check_ok; [rewrite EP; exact demo_usable|exact SC]).
    destruct SD as [A B C D E]. rewrite EG, EP in *. constructor; try assumption. intros tile rest k bus b l sb En I.
    rewrite <- EG in En. apply (entry_same _ _ _ _ _ SF (SW _) PA) in En. eauto. }
  assert (DB : distinct_banks (tl_part demo_db)) by (rewrite demo_part; repeat constructor; cbn; tauto).
  assert (SH : short_lines input).
  { unfold short_lines. intros line I. rewrite forallb_forall in SL. specialize (SL _ I). now apply N.ltb_lt. }
  destruct (main_program 3000 Iso ex_orders (with_env (edited_env d c) (demo_command input))) as [[n s]| | | |] eqn:E; try discriminate RN.
  destruct n; [|discriminate RN].
  assert (HT : header_text (c_date (demo_command input)) /\ header_text (c_time (demo_command input))) by (split; (split; [repeat constructor|reflexivity])).
  destruct (C71_exit_zero_for_any_reading 3000 ex_orders (with_env (edited_env d c) (demo_command input)) s (tx "db") input _ _ pins ex_orders_good eq_refl
     (proj1 HT) (proj2 HT) SF SW E eq_refl eq_refl SH DS' CD DB) as (pud & feats & fs & _ & T & _).
  exists s, pins, feats. split; [|split; [exact PA|exact SF]]. constructor.
  - exact ex_orders_good.
  - reflexivity.
  - split; [exact (proj1 HT)|reflexivity].
  - split; [exact (proj2 HT)|reflexivity].
  - exact SF.
  - exact SW.
  - reflexivity.
  - reflexivity.
  - exact SH.
  - exact T.
  - exact DS'.
  - exact CD.
  - exact DB.
  - exact demo_one_pudcb.
  - exact E.
Qed.

(** ** A design without contradictions: the demonstration design.  Only one bit is ever wanted to be 0, bit 14 of word 4 of frame 2; no feature of the
    database wants it to be 1. *)
Definition entries_check (P : segment_bit -> N -> Z -> bool) (tls : tiles) : bool :=
  forallb (fun q : text * tile =>
    forallb (fun r : bus_type * bits_block =>
      match tl_bits tls (t_type (snd q)) with
      | Ok (Some d) => forallb (fun x : bus_type * segbits =>
          forallb (fun e : tile_feature * list segment_bit =>
             forallb (fun sb => P sb ((bb_base (snd r) + sb_column sb) mod 2 ^ 32) ((32 * bb_offset (snd r) + Z.of_N (sb_bit sb)) mod 2 ^ 32)%Z) (snd e)) (snd x)) (td_bits d)
      | _ => true
      end) (t_bits (snd q))) (tl_grid tls).
Lemma entries_check_ok P f v a w i : entries_check P demo_db = true -> wants demo_env (tx "db") (tl_grid demo_db) f v a w i ->
  exists sb, sb_set sb = v /\ P sb a (Z.of_N (32 * w + i)) = true /\ i < 32.
Proof.
  intros H (tl & rest & k & bus & b & l & sb & _ & _ & L & I & SB & (LA & LI & LZ)).
  apply (entry_same _ _ _ _ _ demo_sound_files (demo_sound_walk _) demo_db_parsed) in L.
  destruct L as (t & ty & seen & d & segs & M & S & B & _ & _ & MB & MS & ML).
  assert (NA : forallb (fun q : text * tile => no_alias (snd q)) (tl_grid demo_db) = true) by (vm_compute; reflexivity).
  unfold entries_check in H. rewrite forallb_forall in H, NA. apply maps_to_In in M. specialize (H _ M). specialize (NA _ M). cbn [snd] in *.
  apply maps_to_In in MB. apply maps_to_In in MS. apply maps_to_In in ML.
  unfold no_alias in NA. rewrite forallb_forall in NA. rewrite forallb_forall in H. specialize (H _ MB). cbn [fst snd] in H.
  assert (ty = t_type t) as ->.
  { destruct S as [_|bus' b' al f' I' E' R']; [reflexivity|]. specialize (NA _ I'). cbn [snd] in NA. rewrite E' in NA. discriminate NA. }
  specialize (NA _ MB). cbn [snd] in NA. unfold first_word in LZ. destruct (bb_alias b); [discriminate NA|].
  rewrite B in H. rewrite forallb_forall in H. specialize (H _ MS). cbn [snd] in H. rewrite forallb_forall in H. specialize (H _ ML). cbn [snd] in H.
  rewrite forallb_forall in H. specialize (H _ I). rewrite <- LZ, <- LA in H. exists sb. auto.
Qed.
Example C113_case : exists pins feats s pud,
  run_succeeds 3000 ex_orders (demo_command demo_input) (tx "db") demo_input (tl_grid demo_db) (tl_part demo_db) pins feats s /\
  pudcb_default (tl_grid demo_db) pud /\
  ~ contradiction demo_env (tx "db") (tl_grid demo_db) (in_design (tl_grid demo_db) (tl_part demo_db) pins (pud ++ feats)).
Proof.
  destruct C81_case as (s & _ & _ & R & _). destruct (demo_run _ _ R) as (pins & feats & RS). destruct demo_pudcb as (pud & PD).
  exists pins, feats, s, pud. split; [exact RS|]. split; [exact PD|]. clear.
  intros (f & f' & a & w & i & _ & _ & W & W').
  assert (C : entries_check (fun sb a z => if sb_set sb then negb ((a =? 2) && (z =? 142)%Z) else (a =? 2) && (z =? 142)%Z) demo_db = true) by (vm_compute; reflexivity).
  destruct (entries_check_ok _ _ _ _ _ _ C W) as (sb & S & P & _). destruct (entries_check_ok _ _ _ _ _ _ C W') as (sb' & S' & P' & _).
  rewrite S in P. rewrite S' in P'. rewrite P' in P. discriminate P.
Qed.

(** ** A contradiction that nobody notices: the segment bits of the second bit of INIT want the bit of the first one to be 0.  The run with both ends with
    status 0; the claim that a run that succeeds has no contradictions is false. *)
Definition clash_bits : text := unlines [tx "CLBLL_L.SLICEL_X0.ALUT.INIT[00] 02_15"; tx "CLBLL_L.SLICEL_X0.ALUT.INIT[01] 01_15 !02_15"].
Definition clash_input : text := unlines [tx "CLBLL_L_X2Y1.SLICEL_X0.ALUT.INIT[1:0] = 2'b11"].
Definition clash_db : text := tx "db/segbits_clbll_l".

(** A sufficient test for a wanted bit, on tiles without aliases. *)
Definition wants_check (tls : tiles) (tl rest ty : text) (k : N) (bus : bus_type) (v : bool) (a w i : N) : bool :=
  (i <? 32) && match hm_find text_eqb tl (tl_grid tls) with
  | Some t => no_alias t && text_eqb (t_type t) ty &&
      match tl_bits tls ty, hm_find bus_eqb bus (t_bits t) with
      | Ok (Some d), Some b =>
          negb (hm_contains text_eqb (dotted tl rest) (td_pips d)) && negb (hm_contains text_eqb (dotted ty rest) (td_pips d)) &&
          match hm_find bus_eqb bus (td_bits d) with
          | Some segs => match hm_find tf_eqb (dotted ty rest, k) segs with
             | Some l => existsb (fun sb => Bool.eqb (sb_set sb) v && ((bb_base b + sb_column sb) mod 2 ^ 32 =? a) &&
                            ((32 * bb_offset b + Z.of_N (sb_bit sb)) mod 2 ^ 32 =? Z.of_N (32 * w + i))%Z) l
             | None => false end
          | None => false end
      | _, _ => false end
  | None => false end.
Lemma wants_check_ok e root part dord tls tl rest ty k bus v a w i f :
  sound_files e -> sound_walk e root -> parse_database e dord root part = Ok tls ->
  wants_check tls tl rest ty k bus v a w i = true -> first_dot (ff_name f) tl rest -> enables f k ->
  wants e root (tl_grid tls) f v a w i.
Proof.
  intros SF SW PA H F En. unfold wants_check in H. apply andb_true_iff in H as [HI H].
  destruct (hm_find text_eqb tl (tl_grid tls)) as [t|] eqn:Et; [|discriminate H]. apply andb_true_iff in H as [H H3]. apply andb_true_iff in H as [H1 H2].
  destruct (tl_bits tls ty) as [[d|]| | | |] eqn:Ed; try discriminate H3.
  destruct (hm_find bus_eqb bus (t_bits t)) as [b|] eqn:Eb; [|discriminate H3]. apply andb_true_iff in H3 as [H3 H5]. apply andb_true_iff in H3 as [H3 H4].
  destruct (hm_find bus_eqb bus (td_bits d)) as [segs|] eqn:Es; [|discriminate H5].
  destruct (hm_find tf_eqb (dotted ty rest, k) segs) as [l|] eqn:El; [|discriminate H5].
  apply existsb_exists in H5 as (sb & I & H5). apply andb_true_iff in H5 as [H5 H7]. apply andb_true_iff in H5 as [H5 H6].
  apply N.ltb_lt in HI. apply text_eqb_eq in H2. apply negb_true_iff in H3, H4. apply (hm_contains_not _ text_eqb_eq) in H3, H4.
  apply Bool.eqb_prop in H5. apply N.eqb_eq in H6. apply Z.eqb_eq in H7.
  apply (hm_find_maps _ text_eqb_eq) in Et. apply (hm_find_maps _ bus_eqb_eq) in Eb, Es. apply (hm_find_maps _ tf_eqb_eq) in El.
  unfold no_alias in H1. rewrite forallb_forall in H1.
  exists tl, rest, k, bus, b, l, sb. split; [exact F|]. split; [exact En|]. split; [|split; [exact I|split; [exact H5|]]].
  - apply (entry_same _ _ _ _ _ SF SW PA). exists t, ty, rest, d, segs. split; [exact Et|]. split.
    + rewrite <- H2. apply seen_plain. intros bus' b' I'. specialize (H1 _ I'). cbn [snd] in H1. destruct (bb_alias b'); [discriminate H1|reflexivity].
    + auto 10.
  - split; [now symmetry|]. split; [exact HI|]. rewrite <- H7. unfold first_word.
    apply maps_to_In in Eb. specialize (H1 _ Eb). cbn [snd] in H1. destruct (bb_alias b); [discriminate H1|reflexivity].
Qed.

Definition clash_feature : fasm_feature := {| ff_name := tx "CLBLL_L_X2Y1.SLICEL_X0.ALUT.INIT"; ff_start := 0; ff_width := 2; ff_bits := 3 |}.
Lemma clash_feats feats : text_features Iso clash_input feats -> In clash_feature feats.
Proof.
  intros T. assert (E : flat_map line_features (map line_calls (getlines clash_input)) = [clash_feature]) by (vm_compute; reflexivity).
  assert (T' : text_features Iso clash_input [clash_feature]) by (rewrite <- E; apply features_compute; vm_compute; reflexivity).
  rewrite (text_features_fun _ _ _ _ T T'). now left.
Qed.
Lemma clash_run : exists s pins feats pud,
  run_succeeds 3000 ex_orders (with_env (edited_env clash_db clash_bits) (demo_command clash_input)) (tx "db") clash_input (tl_grid demo_db) (tl_part demo_db) pins feats s /\
  pudcb_default (tl_grid demo_db) pud /\
  contradiction (edited_env clash_db clash_bits) (tx "db") (tl_grid demo_db) (in_design (tl_grid demo_db) (tl_part demo_db) pins (pud ++ feats)).
Proof.
  assert (EG : tl_grid (edited_db clash_db clash_bits) = tl_grid demo_db) by (vm_compute; reflexivity).
  destruct (edited_run clash_db clash_bits clash_input) as (s & pins & feats & RS & PA & SF).
  - vm_compute. reflexivity.
  - apply unlines_full. vm_compute. reflexivity.
  - vm_compute. reflexivity.
  - exact EG.
  - vm_compute. reflexivity.
  - vm_compute. reflexivity.
  - vm_compute. reflexivity.
  - vm_compute. reflexivity.
  - destruct demo_pudcb as (pud & PD). exists s, pins, feats, pud. split; [exact RS|]. split; [exact PD|].
    pose proof (clash_feats _ (rs_features _ _ _ _ _ _ _ _ _ _ RS)) as I.
    assert (ID : in_design (tl_grid demo_db) (tl_part demo_db) pins (pud ++ feats) clash_feature) by (left; apply in_or_app; now right).
    exists clash_feature, clash_feature, 2, 4, 15. split; [exact ID|]. split; [exact ID|].
    assert (FD : first_dot (ff_name clash_feature) (tx "CLBLL_L_X2Y1") (tx "SLICEL_X0.ALUT.INIT")).
    { split; [reflexivity|]. intros H. repeat (destruct H as [H|H]; [discriminate H|]). contradiction. }
    rewrite <- EG. split.
    + apply (wants_check_ok _ _ (tx "xc7a35t") document_order _ (tx "CLBLL_L_X2Y1") (tx "SLICEL_X0.ALUT.INIT") (tx "CLBLL_L") 0 BusCLBIOCLK);
        [exact SF|intros ? E; exact (demo_sound_walk _ _ E)|exact PA|vm_compute; reflexivity|exact FD|exists 0; repeat split].
    + apply (wants_check_ok _ _ (tx "xc7a35t") document_order _ (tx "CLBLL_L_X2Y1") (tx "SLICEL_X0.ALUT.INIT") (tx "CLBLL_L") 1 BusCLBIOCLK);
        [exact SF|intros ? E; exact (demo_sound_walk _ _ E)|exact PA|vm_compute; reflexivity|exact FD|exists 1; repeat split].
Qed.
Theorem C113_contradictions_are_noticed_refuted :
  ~ (forall fuel ord c root input g p pins feats s pud, run_succeeds fuel ord c root input g p pins feats s -> pudcb_default g pud ->
     ~ contradiction (c_env c) root g (in_design g p pins (pud ++ feats))).
Proof. intros F. destruct clash_run as (s & pins & feats & pud & RS & PD & C). exact (F _ _ _ _ _ _ _ _ _ _ _ RS PD C). Qed.
Print Assumptions C113_contradictions_are_noticed_refuted.
