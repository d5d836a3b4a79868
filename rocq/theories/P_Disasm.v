(** Property C115: assembling what is read back from a bitstream. *)
From Verif Require Import Base BaseFacts Absl Part PartSpec Frame Frames Fasm FasmSpec FasmFacts FasmShape FasmFile FasmSafe
  DbText DbJson Database Packet Writer WriterFacts ConfigSpec ContainerSpec Reader Encode EncodeSpec EncodeFacts
  Assembler AsmSpec LookupFacts AsmLines AsmItems AsmWhole DbSpec DbFacts JsonSpec LoadSpec LoadFacts P_Database4 P_Main P_Main2 EndSpec AsmExample P_EndToEnd SameSpec SameFacts P_Repro
  P_Equiv P_Place MapFacts EndFacts P_Local ResultSpec P_Result P_Cut P_Input OpensSpec P_LoadLog P_Growth SpellSpec P_Spelling ConflictSpec P_Conflict DisasmSpec.
From Verif Require StepdownFacts.
From Coq Require Import Lia.

Lemma enables_small f k : enables f k -> k < 2 ^ 32.
Proof. intros (j & _ & _ & ->). apply N.mod_lt. discriminate. Qed.
(** What a feature wants, its bits want one by one. *)
Lemma wants_bits e root g f v a w i :
  wants e root g f v a w i <-> exists k, enables f k /\ wants e root g (bit_feature (ff_name f) k) v a w i.
Proof.
  split.
  - intros (tile & rest & k & bus & b & l & sb & F & En & R). exists k. split; [exact En|].
    exists tile, rest, k, bus, b, l, sb. split; [exact F|]. split; [|exact R]. apply enables_bit; [eapply enables_small; eauto|reflexivity].
  - intros (k & En & tile & rest & k' & bus & b & l & sb & F & En' & R). cbn [bit_feature ff_name] in F.
    apply enables_bit in En'; [|eapply enables_small; eauto]. subst k'. exists tile, rest, k, bus, b, l, sb. auto.
Qed.
Lemma satisfied_bit e root g fs f k : satisfied e root g fs f -> enables f k -> satisfied e root g fs (bit_feature (ff_name f) k).
Proof. intros S En v a w i W. apply S. apply wants_bits. eauto. Qed.
Lemma wants_known e root g name k v a w i : k < 2 ^ 32 -> wants e root g (bit_feature name k) v a w i -> known e root g name k.
Proof.
  intros K (tile & rest & k' & bus & b & l & sb & F & En & L & _). cbn [bit_feature ff_name] in F. apply enables_bit in En; [|exact K]. subst k'.
  exists tile, rest. split; [exact F|]. right. eauto.
Qed.

Section Reading.
  Context (e : environment) (root : text) (g : tilegrid) (p : db_part) (pins : list package_pin) (fs : list (N * list N)).
  Context (pud feats feats' : list fasm_feature).
  Hypothesis FR : forall a w i, frames_have fs a w i <-> exists f, in_design g p pins (pud ++ feats) f /\ sets_bit e root g f a w i.
  Hypothesis IF : inside_frames e root g.
  Hypothesis ST : forall f, in_design g p pins (pud ++ feats) f -> satisfied e root g fs f.
  Hypothesis CV : forall f, in_design g p pins (pud ++ feats) f -> covered e root g f.
  Hypothesis PK : package_covers g p pins (pud ++ feats).
  Hypothesis RD : reading_of e root g fs feats'.
  Hypothesis NO : no_other_stepdown p pins (pud ++ feats) feats'.
  Hypothesis SU : sites_still_used p pins (pud ++ feats) (pud ++ feats').
  Hypothesis TI : forall f, In f feats' -> tiled (ff_name f).

  Lemma one_bank tile b b' : bank_of_tile p pins tile b -> bank_of_tile p pins tile b' -> b = b'.
  Proof.
    intros H H'. apply bank_of_tile_spec in H as (bs & E). apply bank_of_tile_spec in H' as (bs' & E'). rewrite E in E'. now injection E'.
  Qed.
  Lemma steps_back bank tag : bank_steps_down p pins (pud ++ feats') bank tag -> bank_steps_down p pins (pud ++ feats) bank tag.
  Proof.
    intros (f & tile & site & I & U & C & B). apply in_app_iff in I as [I|I].
    - exists f, tile, site. split; [apply in_app_iff; now left|auto].
    - destruct (NO f tile site tag I U C) as (bank' & B' & S). now rewrite (one_bank _ _ _ B B').
  Qed.
  Lemma implied_back name : implied g p pins (pud ++ feats') name -> implied g p pins (pud ++ feats) name.
  Proof.
    intros [bank tag tile t s fn label B IB C M Is La NU|bank tag tile B IB C]; apply steps_back in B.
    - eapply implied_site; eauto.
    - eapply implied_clock; eauto.
  Qed.
  Lemma reading_package : package_covers g p pins (pud ++ feats').
  Proof.
    destruct PK as [P1 P2]. split.
    - intros f tile site tag I U C. apply in_app_iff in I as [I|I].
      + apply (P1 f tile site tag); auto. apply in_app_iff. now left.
      + destruct (NO f tile site tag I U C) as (bank & B & _). eauto.
    - intros bank tag tile B. apply (P2 bank tag tile). now apply steps_back.
  Qed.
  Lemma reading_covered f : in_design g p pins (pud ++ feats') f -> covered e root g f.
  Proof.
    intros [I|(name & IM & ->)].
    - apply in_app_iff in I as [I|I]; [apply CV; left; apply in_app_iff; now left|]. split.
      + destruct (TI f I) as (tile & rest & F). exists tile, rest. split; [exact F|]. intros k En.
        destruct (rd_fits _ _ _ _ _ RD (ff_name f) k) as ((t1 & r1 & F1 & K) & _); [exists f; auto|].
        destruct (first_dot_fun _ _ _ _ _ F F1) as [<- <-]. exact K.
      + intros a w i (tile & rest & k & bus & b & l & sb & F & En & L & Il & SB & LA). eapply IF; eauto.
    - apply CV. right. exists name. split; [now apply implied_back|reflexivity].
  Qed.
  Lemma reading_bits a w i :
    (exists f, in_design g p pins (pud ++ feats') f /\ sets_bit e root g f a w i) <->
    (exists f, in_design g p pins (pud ++ feats) f /\ sets_bit e root g f a w i).
  Proof.
    split.
    - intros (f & [I|(name & IM & ->)] & S).
      + apply in_app_iff in I as [I|I]; [exists f; split; [left; apply in_app_iff; now left|exact S]|].
        apply FR. apply wants_true, wants_bits in S as (k & En & W).
        destruct (rd_fits _ _ _ _ _ RD (ff_name f) k) as (_ & SA); [exists f; auto|]. now apply (SA true a w i W).
      + exists (plain_feature name). split; [right; exists name; split; [now apply implied_back|reflexivity]|exact S].
    - intros (f & I & S). apply wants_true, wants_bits in S as (k & En & W).
      assert (SH : shows_up e root g fs (ff_name f) k).
      { split; [eapply enables_small; eauto|]. split; [split|]; [eapply wants_known; [eapply enables_small|]; eauto|apply satisfied_bit; auto|eauto]. }
      apply (rd_complete _ _ _ _ _ RD) in SH as (f' & I' & N' & E').
      exists f'. split; [left; apply in_app_iff; now right|]. apply wants_true, wants_bits. exists k. rewrite N'. auto.
  Qed.
End Reading.

(** Property C115.  A run succeeds on a design without contradictions; [fs] are the frames in its file.  Any text whose features are a reading
    of these frames, that asks for no other STEPDOWN and uses the IO sites of the banks concerned, assembles to the same bytes. *)
Theorem C115_a_reading_assembles_to_the_same_file :
  forall fuel ord ord' c c' root input input' g p pins feats feats' s pud fs,
  run_succeeds fuel ord c root input g p pins feats s ->
  e_walk (c_env c) root <> None -> inside_frames (c_env c) root g ->
  good_orders ord' -> same_but_input c c' -> input_text c' = Some input' -> short_lines input' -> text_features Iso input' feats' ->
  (forall f, In f feats' -> tiled (ff_name f)) ->
  pudcb_default g pud -> decode p (st_bytes s) = Ok (Some fs) ->
  ~ contradiction (c_env c) root g (in_design g p pins (pud ++ feats)) ->
  reading_of (c_env c) root g fs feats' ->
  no_other_stepdown p pins (pud ++ feats) feats' -> sites_still_used p pins (pud ++ feats) (pud ++ feats') ->
  exists fuel0 s', (forall fuel', (fuel0 <= fuel')%nat -> main_program fuel' Iso ord' c' = Ok (0, s')) /\ st_bytes s' = st_bytes s.
Proof.
  intros fuel ord ord' c c' root input input' g p pins feats feats' s pud fs R WK IF G' (S1 & S2 & S3 & S4 & S5 & S6 & S7 & S8) EI' SL' T' TI
    PD DE NC RD NO SU.
  destruct (run_covered _ _ _ _ _ _ _ _ _ _ R WK IF) as (q & PD0 & PK & CV). assert (q = pud) as -> by (eapply pudcb_unique; eauto using (rs_pudcb _ _ _ _ _ _ _ _ _ _ R)).
  clear PD0. pose proof (run_proper _ _ _ _ _ _ _ _ _ _ R) as [LA PR PN PX PP PI PO PDt PT].
  destruct (run_decodes _ _ _ _ _ _ _ _ _ _ R) as (fs0 & B1 & B2 & B3 & B4 & B5 & B6). rewrite DE in B6. injection B6 as <-.
  assert (FR : forall a w i, frames_have fs a w i <-> exists f, in_design g p pins (pud ++ feats) f /\ sets_bit (c_env c) root g f a w i).
  { intros a w i. unfold frames_have. rewrite B4. split.
    - intros (q & f & Q & I & S). assert (q = pud) as -> by (eapply pudcb_unique; eauto using (rs_pudcb _ _ _ _ _ _ _ _ _ _ R)). eauto.
    - intros (f & I & S). exists pud, f. auto. }
  assert (ST : forall f, in_design g p pins (pud ++ feats) f -> satisfied (c_env c) root g fs f).
  { destruct (C113_satisfied_exactly_without_contradiction _ _ _ _ _ _ _ _ _ _ R pud PD) as (fs1 & D1 & H1). rewrite DE in D1. injection D1 as <-. now apply H1. }
  pose proof R as [G ES [HD LD] [HT LT] SF SW ER EI SL T DS CD DB OP H].
  assert (ER' : db_path c' = Some root) by (unfold db_path in *; now rewrite S1, S2).
  destruct (C71_covered_designs_are_written_for_any_reading ord' c' root input' g p pins feats' pud) as (fuel0 & s' & H'); try assumption; rewrite ?S3, ?S4, ?S5, ?S6, ?S7; try assumption.
  - apply SW.
  - eapply reading_package; eauto.
  - intros f I. eapply (reading_covered _ _ _ _ _ fs pud feats feats'); eauto.
  - exists fuel0, s'. split; [exact H'|]. specialize (H' fuel0 (le_n _)).
    assert (R' : run_succeeds fuel0 ord' c' root input' g p pins feats' s').
    { constructor; rewrite ?S3, ?S4, ?S5, ?S6, ?S7; try assumption; split; assumption. }
    destruct (run_file _ _ _ _ _ _ _ _ _ _ R) as (fa & X1 & F1 & C1 & A1 & ->).
    destruct (run_file _ _ _ _ _ _ _ _ _ _ R') as (fa' & X2 & F2 & C2 & A2 & ->).
    rewrite S4 in A2. rewrite S5, S6. f_equal. apply frames_ext; auto.
    + intros a. rewrite F1, F2. reflexivity.
    + intros a w i. unfold shows. rewrite A1, A2. unfold asks_for.
      pose proof (reading_bits _ _ _ _ _ fs pud feats feats' FR ST RD NO SU a w i) as [E1 E2]. split.
      * intros (q & f & Q & I & X). assert (q = pud) as -> by (eapply pudcb_unique; eauto).
        destruct E1 as (f' & I' & X'); [eauto|]. exists pud, f'. auto.
      * intros (q & f & Q & I & X). assert (q = pud) as -> by (eapply pudcb_unique; eauto).
        destruct E2 as (f' & I' & X'); [eauto|]. exists pud, f'. auto.
Qed.
Print Assumptions C115_a_reading_assembles_to_the_same_file.

(** ** The demonstration database, with the pull-down of the other site of the IO tile: a feature of which all bits are cleared. *)
Definition pull_file : text := tx "db/segbits_liob33".
Definition in_only : text := tx "LVCMOS12_LVCMOS15_LVCMOS18_LVCMOS25_LVCMOS33_LVDS_25_LVTTL_SSTL135_SSTL15_TMDS_33.IN_ONLY".
Definition pull_bits : text :=
  unlines [tx "LIOB33.IOB_Y0.STEPDOWN 01_100"; tx "LIOB33.IOB_Y0.PULLTYPE.PULLDOWN !00_40"; tx "LIOB33.IOB_Y1.STEPDOWN 01_22";
           tx "LIOB33.IOB_Y1." ++ in_only ++ tx " 00_01"; tx "LIOB33.IOB_Y1.LVCMOS25_LVCMOS33_LVTTL.IN 00_09"; tx "LIOB33.IOB_Y1.PULLTYPE.PULLUP 00_33"].
Definition pull_env : environment := edited_env pull_file pull_bits.
Definition pull_db : tiles := edited_db pull_file pull_bits.

(** Everything it lists: tile, rest of the name, bit, and which bits (frame, bit of the frame) are to be set or cleared. *)
Definition entry : Type := text * text * N * list (bool * N * Z).
Definition clb : text := tx "CLBLL_L_X2Y1".
Definition iob : text := tx "LIOB33_X0Y1".
Definition hclk : text := tx "HCLK_IOI3_X1Y26".
Definition entries : list entry :=
  [(clb, tx "SLICEL_X0.ALUT.INIT", 0, [(true, 2, 143%Z)]);
   (clb, tx "SLICEL_X0.ALUT.INIT", 1, [(true, 1, 143%Z); (false, 2, 142%Z)]);
   (iob, tx "IOB_Y0.STEPDOWN", 0, [(true, 129, 164%Z)]);
   (iob, tx "IOB_Y0.PULLTYPE.PULLDOWN", 0, [(false, 128, 104%Z)]);
   (iob, tx "IOB_Y1.STEPDOWN", 0, [(true, 129, 86%Z)]);
   (iob, tx "IOB_Y1." ++ in_only, 0, [(true, 128, 65%Z)]);
   (iob, tx "IOB_Y1.LVCMOS25_LVCMOS33_LVTTL.IN", 0, [(true, 128, 73%Z)]);
   (iob, tx "IOB_Y1.PULLTYPE.PULLUP", 0, [(true, 128, 97%Z)]);
   (hclk, tx "STEPDOWN", 0, [(true, 128, 1617%Z)])].
Definition entry_check (b : bits_block) (tile ty : text) (key : tile_feature) (l : list segment_bit) (x : entry) : bool :=
  let '(t, r, k, pos) := x in
  text_eqb tile t && text_eqb (fst key) (dotted ty r) && (snd key =? k) &&
  forallb (fun sb => existsb (fun q : bool * N * Z => let '(v, a, z) := q in Bool.eqb (sb_set sb) v &&
     ((bb_base b + sb_column sb) mod 2 ^ 32 =? a) && ((32 * bb_offset b + Z.of_N (sb_bit sb)) mod 2 ^ 32 =? z)%Z) pos) l.
Definition listing_check (es : list entry) (tls : tiles) : bool :=
  forallb (fun q : text * tile => no_alias (snd q) &&
    forallb (fun r : bus_type * bits_block =>
      match tl_bits tls (t_type (snd q)) with
      | Ok (Some d) => forallb (fun x : bus_type * segbits =>
          forallb (fun kl : tile_feature * list segment_bit => existsb (entry_check (snd r) (fst q) (t_type (snd q)) (fst kl) (snd kl)) es) (snd x)) (td_bits d)
      | _ => true
      end) (t_bits (snd q))) (tl_grid tls).
(** What a feature wants is in the list. *)
Lemma listing_wants e root part dord tls es f v a w i :
  sound_files e -> sound_walk e root -> parse_database e dord root part = Ok tls -> listing_check es tls = true ->
  wants e root (tl_grid tls) f v a w i ->
  exists t r k pos, In (t, r, k, pos) es /\ first_dot (ff_name f) t r /\ enables f k /\ In (v, a, Z.of_N (32 * w + i)) pos /\ i < 32.
Proof.
  intros SF SW PA H (tl & rest & k & bus & b & l & sb & F & En & L & I & SB & (LA & LI & LZ)).
  apply (entry_same _ _ _ _ _ SF SW PA) in L. destruct L as (t & ty & seen & d & segs & M & S & B & _ & _ & MB & MS & ML).
  unfold listing_check in H. rewrite forallb_forall in H. apply maps_to_In in M. specialize (H _ M). cbn [fst snd] in H.
  apply andb_true_iff in H as [NA H]. apply maps_to_In in MB. apply maps_to_In in MS. apply maps_to_In in ML.
  unfold no_alias in NA. rewrite forallb_forall in NA. rewrite forallb_forall in H. specialize (H _ MB). cbn [fst snd] in H.
  assert (X : ty = t_type t /\ seen = rest).
  { destruct S as [_|bus' b' al f' I' E' R']; [auto|]. specialize (NA _ I'). cbn [snd] in NA. rewrite E' in NA. discriminate NA. }
  destruct X as [-> ->]. specialize (NA _ MB). cbn [snd] in NA. unfold first_word in LZ. destruct (bb_alias b); [discriminate NA|].
  rewrite B in H. rewrite forallb_forall in H. specialize (H _ MS). cbn [snd] in H. rewrite forallb_forall in H. specialize (H _ ML). cbn [fst snd] in H.
  apply existsb_exists in H as ([[[t0 r0] k0] pos] & I0 & H). cbn [entry_check fst snd] in H.
  apply andb_true_iff in H as [H H4]. apply andb_true_iff in H as [H H3]. apply andb_true_iff in H as [H1 H2].
  apply text_eqb_eq in H1, H2. apply N.eqb_eq in H3. subst t0 k0. unfold dotted in H2. apply app_inv_head in H2. injection H2 as <-.
  rewrite forallb_forall in H4. specialize (H4 _ I). apply existsb_exists in H4 as ([[v0 a0] z0] & I1 & H4).
  apply andb_true_iff in H4 as [H4 H7]. apply andb_true_iff in H4 as [H5 H6].
  apply Bool.eqb_prop in H5. apply N.eqb_eq in H6. apply Z.eqb_eq in H7.
  exists tl, rest, k, pos. split; [exact I0|]. split; [exact F|]. split; [exact En|]. split; [|exact LI].
  rewrite LZ, LA, H6, H7, <- SB, H5. exact I1.
Qed.
Lemma pull_parsed : edited_tls pull_file pull_bits = Ok pull_db.
Proof.
  assert (H : match edited_tls pull_file pull_bits with Ok _ => true | _ => false end = true) by (vm_compute; reflexivity).
  unfold pull_db, edited_db. destruct (edited_tls pull_file pull_bits); first [reflexivity|discriminate H].
Qed.
Lemma pull_sound : sound_files pull_env.
Proof. apply sound_with_file; [vm_compute; reflexivity|apply unlines_full; vm_compute; reflexivity|exact demo_sound_files]. Qed.
Lemma pull_same : tl_grid pull_db = tl_grid demo_db /\ tl_part pull_db = tl_part demo_db.
Proof. split; vm_compute; reflexivity. Qed.
Lemma pull_wants f v a w i : wants pull_env (tx "db") (tl_grid demo_db) f v a w i ->
  exists t r k pos, In (t, r, k, pos) entries /\ first_dot (ff_name f) t r /\ enables f k /\ In (v, a, Z.of_N (32 * w + i)) pos /\ i < 32.
Proof.
  rewrite <- (proj1 pull_same). apply (listing_wants _ _ (tx "xc7a35t") document_order pull_db); [exact pull_sound|exact (demo_sound_walk _)|exact pull_parsed|].
  vm_compute. reflexivity.
Qed.
Lemma pull_inside : inside_frames pull_env (tx "db") (tl_grid demo_db).
Proof.
  intros tile rest k bus b l sb a w i L I SB La. rewrite <- (proj1 pull_same) in L.
  apply (entry_same _ _ _ _ _ pull_sound (demo_sound_walk _) pull_parsed) in L.
  apply (inside_check_ok pull_db tile rest k bus b l sb a w i); try assumption; vm_compute; reflexivity.
Qed.

(** *** Names cut at their dots *)
Definition parts (name : text) : option (text * text * text) :=
  match split_max 3 "." name with t :: s :: g :: _ => Some (t, s, g) | _ => None end.
Lemma parts_path3 name t s g : path3 name t s g <-> parts name = Some (t, s, g).
Proof.
  unfold parts. destruct (StepdownFacts.split3_spec name) as [(t0 & s0 & g0 & r & E & P)|[NP [(x & E)|(x & y & E)]]]; rewrite E.
  - split.
    + intros P'. destruct (StepdownFacts.path3_fun _ _ _ _ _ _ _ P P') as (-> & -> & ->). reflexivity.
    + intros X. injection X as -> -> ->. exact P.
  - split; [intros P; destruct (NP _ _ _ P)|discriminate].
  - split; [intros P; destruct (NP _ _ _ P)|discriminate].
Qed.
Definition used_check (fs : list fasm_feature) (tile site : text) : bool :=
  existsb (fun f => negb (ff_bits f =? 0) && match parts (ff_name f) with Some (t, s, _) => text_eqb t tile && text_eqb s site | None => false end) fs.
Lemma used_check_ok fs tile site : site_in_use fs tile site <-> used_check fs tile site = true.
Proof.
  unfold used_check. rewrite existsb_exists. split.
  - intros (f & tag & I & B & P). exists f. split; [exact I|]. apply parts_path3 in P. rewrite P.
    rewrite !(proj2 (text_eqb_eq _ _) eq_refl). apply N.eqb_neq in B. now rewrite B.
  - intros (f & I & H). apply andb_true_iff in H as [B H]. destruct (parts (ff_name f)) as [[[t s] g]|] eqn:P; [|discriminate H].
    apply andb_true_iff in H as [H1 H2]. apply text_eqb_eq in H1, H2. subst t s. apply parts_path3 in P.
    apply negb_true_iff, N.eqb_neq in B. exists f, g. split; [exact I|split; [exact B|exact P]].
Qed.
(** Features that ask for STEPDOWN do so in the IO tile, under that name. *)
Definition steps_check (fs : list fasm_feature) : bool :=
  forallb (fun f => match parts (ff_name f) with
    | Some (t, s, g) => negb (str_contains (tx "STEPDOWN") g) || (text_eqb t iob && text_eqb g (tx "STEPDOWN"))
    | None => true end) fs.
Lemma steps_check_ok fs f tile site tag : steps_check fs = true -> In f fs -> uses f tile site tag -> contains (tx "STEPDOWN") tag ->
  tile = iob /\ tag = tx "STEPDOWN".
Proof.
  unfold steps_check. rewrite forallb_forall. intros H I [_ P] C. specialize (H _ I). apply parts_path3 in P. rewrite P in H.
  apply str_contains_spec in C. rewrite C in H. apply andb_true_iff in H as [H1 H2]. apply text_eqb_eq in H1, H2. auto.
Qed.

(** *** The designs and their readings *)
Definition pull_input : text := demo_input ++ unlines [tx "LIOB33_X0Y1.IOB_Y0.PULLTYPE.PULLDOWN"].
Definition y0 : fasm_feature := plain_feature (dotted iob (tx "IOB_Y0.STEPDOWN")).
Definition y1 : fasm_feature := plain_feature (dotted iob (tx "IOB_Y1.STEPDOWN")).
Definition down : fasm_feature := plain_feature (dotted iob (tx "IOB_Y0.PULLTYPE.PULLDOWN")).
Definition the_pud : list fasm_feature := map plain_feature (pudcb_names iob (tx "IOB_Y1")).
Definition demo_feats1 : list fasm_feature := lut 2 :: demo_rest.
Definition pull_feats : list fasm_feature := demo_feats1 ++ [down].
(** What a disassembler prints for the second design, and for the first one a line more. *)
Definition pull_reading : text :=
  unlines ([tx "CLBLL_L_X2Y1.SLICEL_X0.ALUT.INIT[1]"; tx "LIOB33_X0Y1.IOB_Y1.STEPDOWN"; tx "HCLK_IOI3_X1Y26.STEPDOWN"] ++ pudcb_names iob (tx "IOB_Y1")).
Definition demo_reading : text := pull_reading ++ unlines [tx "LIOB33_X0Y1.IOB_Y0.STEPDOWN"].
Definition reading1 : list fasm_feature :=
  [bit_feature (dotted clb (tx "SLICEL_X0.ALUT.INIT")) 1; y1; plain_feature (dotted hclk (tx "STEPDOWN"))] ++ the_pud.
Definition reading2 : list fasm_feature := reading1 ++ [y0].

Lemma pull_says : text_features Iso pull_input pull_feats.
Proof.
  pose proof (features_compute pull_input ltac:(vm_compute; reflexivity)) as H.
  assert (E : flat_map line_features (map line_calls (getlines pull_input)) = pull_feats) by (vm_compute; reflexivity). now rewrite E in H.
Qed.
Lemma pull_reading_says : text_features Iso pull_reading reading1.
Proof.
  pose proof (features_compute pull_reading ltac:(vm_compute; reflexivity)) as H.
  assert (E : flat_map line_features (map line_calls (getlines pull_reading)) = reading1) by (vm_compute; reflexivity). now rewrite E in H.
Qed.
Lemma demo_reading_says : text_features Iso demo_reading reading2.
Proof.
  pose proof (features_compute demo_reading ltac:(vm_compute; reflexivity)) as H.
  assert (E : flat_map line_features (map line_calls (getlines demo_reading)) = reading2) by (vm_compute; reflexivity). now rewrite E in H.
Qed.
Lemma the_pud_default : pudcb_default (tl_grid demo_db) the_pud.
Proof.
  destruct C71_case_database as (pins & _ & CD). destruct (pudcb_ok _ (cd_sites _ _ _ _ CD)) as (l & E & D & _).
  assert (V : pudcb_features (tl_grid demo_db) = Ok the_pud) by (vm_compute; reflexivity). congruence.
Qed.

(** *** What the designs imply *)
Lemma iob_bank : bank_of_tile (tl_part demo_db) [demo_pin] iob 14.
Proof.
  rewrite demo_part. exists [(14, tx "HCLK_IOI3_X1Y26")], []. split; [reflexivity|]. intros b [E|[]]. apply (f_equal (fun x => List.length (snd x))) in E. discriminate E.
Qed.
Lemma y1_steps fs : In y1 fs -> bank_steps_down (tl_part demo_db) [demo_pin] fs 14 (tx "STEPDOWN").
Proof.
  intros I. exists y1, iob, (tx "IOB_Y1"). split; [exact I|]. split; [split; [discriminate|apply parts_path3; vm_compute; reflexivity]|].
  split; [exists [], []; reflexivity|exact iob_bank].
Qed.
Lemma hclk_implied fs : In y1 fs -> implied (tl_grid demo_db) (tl_part demo_db) [demo_pin] fs (dotted hclk (tx "STEPDOWN")).
Proof.
  intros I. apply (implied_clock _ _ _ _ 14 (tx "STEPDOWN")).
  - now apply y1_steps.
  - rewrite demo_part. left. exists (tx "X1Y26"). split; [now left|reflexivity].
  - exists [], (tx "_X1Y26"). reflexivity.
Qed.
Lemma y0_implied fs : In y1 fs -> used_check fs iob (tx "IOB_Y0") = false ->
  implied (tl_grid demo_db) (tl_part demo_db) [demo_pin] fs (dotted iob (dotted (tx "IOB_Y0") (tx "STEPDOWN"))).
Proof.
  intros I U.
  assert (X : match hm_find text_eqb iob (tl_grid demo_db) with Some t => existsb (fun q : text * text => text_eqb (fst q) (tx "IOB_X0Y2")) (t_sites t) | None => false end = true)
    by (vm_compute; reflexivity).
  destruct (hm_find text_eqb iob (tl_grid demo_db)) as [t|] eqn:E; [|discriminate X]. apply existsb_exists in X as ([s fn] & Is & X). apply text_eqb_eq in X. cbn [fst] in X. subst s.
  apply (hm_find_maps _ text_eqb_eq) in E.
  apply (implied_site _ _ _ _ 14 (tx "STEPDOWN") iob t (tx "IOB_X0Y2") fn (tx "IOB_Y0")).
  - now apply y1_steps.
  - right. exists demo_pin. split; [now left|]. split; reflexivity.
  - exists (tx "L"), (tx "_X0Y1"). reflexivity.
  - exact E.
  - exact Is.
  - apply (site_even (tx "IOB_X0Y") "2"). cbn. tauto.
  - intros UU. apply used_check_ok in UU. rewrite UU in U. discriminate U.
Qed.
(** Where implied features are: not in the logic tile, and not at a used site. *)
Lemma implied_where fs name : implied (tl_grid demo_db) (tl_part demo_db) [demo_pin] fs name ->
  (exists site tag, name = dotted iob (dotted site tag) /\ ~ In dot site /\ ~ site_in_use fs iob site) \/ name = dotted hclk (tx "STEPDOWN").
Proof.
  assert (IB : forall bank tile, in_bank (dp_iobanks (tl_part demo_db)) [demo_pin] bank tile -> tile = hclk \/ tile = iob).
  { intros bank tile. rewrite demo_part. intros [(x & I & ->)|(q & [<-|[]] & _ & <-)]; [left|right; reflexivity].
    cbn [dp_iobanks] in I. destruct I as [I|I]; [|try solve [destruct I]].
    assert (x = snd (bank, x)) as -> by reflexivity. rewrite <- I. reflexivity. }
  intros [bank tag tile t s fn label B I C M Is La NU|bank tag tile B I C]; apply IB in I as [-> | ->].
  - apply str_contains_spec in C. vm_compute in C. discriminate C.
  - left. exists label, tag. split; [reflexivity|]. split; [eapply StepdownFacts.site_label_nodot; eauto|exact NU].
  - now right.
  - apply str_contains_spec in C. vm_compute in C. discriminate C.
Qed.
Definition named (name : text) (k : N) (f : fasm_feature) : bool := text_eqb (ff_name f) name && existsb (N.eqb k) (map (fun j => (ff_start f + N.of_nat j) mod 2 ^ 32) (filter (fun j => N.testbit (ff_bits f) (N.of_nat j)) (seq 0 (N.to_nat (ff_width f))))).
Lemma named_ok name k f : ff_name f = name -> enables f k -> named name k f = true.
Proof.
  intros <- (j & L & B & ->). unfold named. rewrite (proj2 (text_eqb_eq _ _) eq_refl). cbn [andb]. apply existsb_exists.
  exists ((ff_start f + j) mod 2 ^ 32). split; [|apply N.eqb_refl]. apply in_map_iff. exists (N.to_nat j). rewrite N2Nat.id. split; [reflexivity|].
  apply filter_In. rewrite N2Nat.id. split; [apply in_seq; lia|exact B].
Qed.
(** The first bit of INIT is in none of the designs, the STEPDOWN of the first site not in the second one. *)
Lemma no_init0 fs f : existsb (named (dotted clb (tx "SLICEL_X0.ALUT.INIT")) 0) fs = false ->
  in_design (tl_grid demo_db) (tl_part demo_db) [demo_pin] fs f -> ff_name f = dotted clb (tx "SLICEL_X0.ALUT.INIT") -> ~ enables f 0.
Proof.
  intros H [I|(name & IM & ->)] E En.
  - pose proof (named_ok _ _ _ E En) as X. assert (Y : existsb (named (dotted clb (tx "SLICEL_X0.ALUT.INIT")) 0) fs = true) by (apply existsb_exists; eauto). rewrite Y in H. discriminate H.
  - cbn [plain_feature ff_name] in E. subst name. apply implied_where in IM as [(site & tag & X & _)|X]; unfold dotted in X; apply (f_equal (fun l => hd dot l)) in X; discriminate X.
Qed.
Lemma no_y0 fs f : existsb (named (dotted iob (tx "IOB_Y0.STEPDOWN")) 0) fs = false -> used_check fs iob (tx "IOB_Y0") = true ->
  in_design (tl_grid demo_db) (tl_part demo_db) [demo_pin] fs f -> ff_name f = dotted iob (tx "IOB_Y0.STEPDOWN") -> ~ enables f 0.
Proof.
  intros H U [I|(name & IM & ->)] E En.
  - pose proof (named_ok _ _ _ E En) as X. assert (Y : existsb (named (dotted iob (tx "IOB_Y0.STEPDOWN")) 0) fs = true) by (apply existsb_exists; eauto). rewrite Y in H. discriminate H.
  - cbn [plain_feature ff_name] in E. subst name. apply implied_where in IM as [(site & tag & X & ND & NU)|X].
    + assert (site = tx "IOB_Y0") as ->.
      { unfold dotted in X. apply app_inv_head in X. apply (f_equal (@List.tl ascii)) in X. cbn [List.tl] in X.
        change (tx "IOB_Y0.STEPDOWN") with (tx "IOB_Y0" ++ dot :: tx "STEPDOWN") in X. apply MapFacts.cut_unique in X as [X _]; [now symmetry|cbn; intuition discriminate|exact ND]. }
      apply NU. apply used_check_ok. exact U.
    + unfold dotted in X. apply (f_equal (fun l => hd dot l)) in X. discriminate X.
Qed.

(** *** The runs *)
Lemma pull_pins g p pins : database_says pull_env (tx "db") (tx "xc7a35t") g p pins -> pins = [demo_pin].
Proof.
  intros (info & fd & pd & gc & gj & pc & pj & csv & _ & _ & Ip & _ & _ & _ & _ & _ & _ & (q & Iq & F) & PC).
  rewrite (LoadFacts.inside_fun _ _ _ _ Ip (LoadFacts.path_join_inside _ _)) in Iq.
  rewrite (LoadFacts.inside_fun _ _ _ _ Iq (LoadFacts.path_join_inside _ _)) in F.
  destruct (pull_sound _ _ F) as [L S].
  pose proof (pins_complete _ _ _ S L PC) as E. unfold file in F.
  assert (F' : e_read pull_env (path_join (path_join (tx "db") (tx "xc7a35t")) (tx "package_pins.csv"))
     = Some (unlines [tx "pin,bank,site,tile,pin_function"; tx "A1,14,IOB_X0Y1,LIOB33_X0Y1,IO_L3P_T0_DQS_PUDC_B_14"])) by (vm_compute; reflexivity).
  rewrite F' in F. assert (Ec : csv = unlines [tx "pin,bank,site,tile,pin_function"; tx "A1,14,IOB_X0Y1,LIOB33_X0Y1,IO_L3P_T0_DQS_PUDC_B_14"]) by congruence.
  rewrite Ec in E. match type of E with parse_pins ?a ?b = _ => assert (V : parse_pins a b = Ok [demo_pin]) by (vm_compute; reflexivity) end.
  congruence.
Qed.
Definition pull_succeeds (input : text) (feats : list fasm_feature) (s : stream) : Prop :=
  run_succeeds 3000 ex_orders (with_env pull_env (demo_command input)) (tx "db") input (tl_grid demo_db) (tl_part demo_db) [demo_pin] feats s.
Lemma pull_run input feats : text_features Iso input feats ->
  forallb (fun l => N.of_nat (List.length l) <? 2 ^ 24 - 1) (getlines input) = true ->
  match main_program 3000 Iso ex_orders (with_env pull_env (demo_command input)) with Ok (0, _) => true | _ => false end = true ->
  exists s, pull_succeeds input feats s.
Proof.
  intros T SL RN. destruct (edited_run pull_file pull_bits input) as (s & pins & fe & RS & _).
  - vm_compute. reflexivity.
  - apply unlines_full. vm_compute. reflexivity.
  - vm_compute. reflexivity.
  - exact (proj1 pull_same).
  - exact (proj2 pull_same).
  - vm_compute. reflexivity.
  - exact SL.
  - exact RN.
  - exists s. unfold pull_succeeds.
    rewrite <- (pull_pins _ _ _ (rs_says _ _ _ _ _ _ _ _ _ _ RS)), (text_features_fun _ _ _ _ T (rs_features _ _ _ _ _ _ _ _ _ _ RS)). exact RS.
Qed.

Section Pull.
  Context (input : text) (feats : list fasm_feature) (s : stream) (fs : list (N * list N)).
  Hypothesis R : pull_succeeds input feats s.
  Hypothesis D : decode (tl_part demo_db) (st_bytes s) = Ok (Some fs).
  Let design := in_design (tl_grid demo_db) (tl_part demo_db) [demo_pin] (the_pud ++ feats).

  Lemma pull_no_contradiction : ~ contradiction pull_env (tx "db") (tl_grid demo_db) design.
  Proof.
    clear. intros (f & f' & a & w & i & _ & _ & W & W').
    apply pull_wants in W as (t & r & k & pos & I & _ & _ & P & _). apply pull_wants in W' as (t' & r' & k' & pos' & I' & _ & _ & P' & _).
    revert P P'. generalize (Z.of_N (32 * w + i)). intros z P P'.
    assert (X : forall q, In q (flat_map (fun x : entry => snd x) entries) -> fst (fst q) = false -> q = (false, 2, 142%Z) \/ q = (false, 128, 104%Z)).
    { intros q. unfold entries. cbn [flat_map snd app In]. intros Q F. repeat (destruct Q as [<-|Q]; [first [discriminate F|left; reflexivity|right; reflexivity]|]). destruct Q. }
    destruct (X (false, a, z)) as [E|E]; [apply in_flat_map; exists (t', r', k', pos'); auto|reflexivity| |];
      injection E as -> ->; (assert (Y : In (true, 2, 142%Z) (flat_map (fun x : entry => snd x) entries) \/ In (true, 128, 104%Z) (flat_map (fun x : entry => snd x) entries))
        by (first [left; apply in_flat_map; exists (t, r, k, pos); now split|right; apply in_flat_map; exists (t, r, k, pos); now split]));
      clear - Y; unfold entries in Y; cbn [flat_map snd app In] in Y;
      destruct Y as [Y|Y]; repeat (destruct Y as [Y|Y]; [discriminate Y|]); destruct Y.
  Qed.
  Lemma pull_satisfied f : design f -> satisfied pull_env (tx "db") (tl_grid demo_db) fs f.
  Proof.
    intros I. destruct (C113_satisfied_exactly_without_contradiction _ _ _ _ _ _ _ _ _ _ R the_pud the_pud_default) as (fs1 & D1 & H1).
    rewrite D in D1. injection D1 as <-. apply H1; [exact pull_no_contradiction|exact I].
  Qed.
  Lemma pull_frames a w i : frames_have fs a w i -> exists f, design f /\ wants pull_env (tx "db") (tl_grid demo_db) f true a w i.
  Proof.
    destruct (run_decodes _ _ _ _ _ _ _ _ _ _ R) as (fs0 & _ & _ & _ & B4 & _ & B6). rewrite D in B6. injection B6 as <-.
    unfold frames_have. rewrite B4. intros (q & f & Q & I & S).
    assert (q = the_pud) as -> by (eapply pudcb_unique; eauto using (rs_pudcb _ _ _ _ _ _ _ _ _ _ R), the_pud_default). exists f. auto.
  Qed.
  (** What shows up is what some feature of the design switches on. *)
  Lemma pull_shows name k : shows_up pull_env (tx "db") (tl_grid demo_db) fs name k ->
    exists t r pos f, In (t, r, k, pos) entries /\ name = dotted t r /\ (exists a z, In (true, a, z) pos) /\ design f /\ ff_name f = name /\ enables f k.
  Proof.
    intros (K & (_ & SA) & a & w & i & W). assert (H : frames_have fs a w i) by now apply (SA _ _ _ _ W).
    apply pull_frames in H as (f & I & W'). apply pull_wants in W as (t & r & k1 & pos & I1 & F1 & E1 & P1 & _).
    apply pull_wants in W' as (t' & r' & k' & pos' & I' & F' & E' & P' & _). cbn [bit_feature ff_name] in F1. apply enables_bit in E1; [|exact K]. subst k1.
    revert P1 P'. generalize (Z.of_N (32 * w + i)). intros z P1 P'.
    assert (X : (t', r', k') = (t, r, k)).
    { clear - I1 I' P1 P'. unfold entries in I1, I'. cbn [In] in I1, I'.
      repeat (destruct I1 as [I1|I1]; [|]); try contradiction; injection I1 as <- <- <- <-; cbn [In] in P1;
        repeat (destruct P1 as [P1|P1]; [|]); try contradiction; try discriminate P1; injection P1 as <- <-;
        repeat (destruct I' as [I'|I']; [injection I' as <- <- <- <-; cbn [In] in P'; first [reflexivity|exfalso; repeat (destruct P' as [P'|P']; [discriminate P'|]); exact P']|]);
        destruct I'. }
    injection X as -> -> ->. exists t, r, pos, f. destruct F1 as [F1 _], F' as [F' _].
    split; [exact I1|]. split; [exact F1|]. split; [eauto|]. split; [exact I|]. split; [congruence|exact E'].
  Qed.
End Pull.

(** *** The readings *)
(** A feature of the design that some listed segment bit knows fits the frames. *)
Lemma pull_fits input feats s fs f name k t r bus a w i :
  pull_succeeds input feats s -> decode (tl_part demo_db) (st_bytes s) = Ok (Some fs) ->
  in_design (tl_grid demo_db) (tl_part demo_db) [demo_pin] (the_pud ++ feats) f -> ff_name f = name -> enables f k ->
  first_dot name t r -> wants_check pull_db t r (match hm_find text_eqb t (tl_grid pull_db) with Some x => t_type x | None => [] end) k bus true a w i = true ->
  fits pull_env (tx "db") (tl_grid demo_db) fs name k.
Proof.
  intros R D I <- En F W. pose proof (enables_small _ _ En) as K.
  apply (wants_check_ok pull_env (tx "db") (tx "xc7a35t") document_order _ _ _ _ _ _ _ _ _ _ (bit_feature (ff_name f) k)) in W;
    [|exact pull_sound|exact (demo_sound_walk _)|exact pull_parsed|exact F|now apply enables_bit].
  rewrite (proj1 pull_same) in W. split; [eapply wants_known; eauto|].
  apply satisfied_bit; [|exact En]. eapply pull_satisfied; eauto.
Qed.
Lemma reading_members fs name k : Forall (fun f => ff_width f = 1 /\ ff_bits f = 1 /\ ff_start f < 2 ^ 32) fs ->
  switches fs name k -> exists f, In f fs /\ name = ff_name f /\ k = ff_start f.
Proof.
  intros H (f & I & <- & j & L & _ & ->). rewrite Forall_forall in H. destruct (H _ I) as (W & _ & S). exists f. split; [exact I|]. split; [reflexivity|].
  rewrite W in L. replace j with 0 by lia. rewrite N.add_0_r. now apply N.mod_small.
Qed.
Lemma reading_small : Forall (fun f => ff_width f = 1 /\ ff_bits f = 1 /\ ff_start f < 2 ^ 32) reading2.
Proof. unfold reading2, reading1, the_pud. repeat constructor. Qed.
Lemma member_switches fs f : In f fs -> enables f (ff_start f) -> switches fs (ff_name f) (ff_start f).
Proof. intros I E. exists f. auto. Qed.
Lemma reading_enables f : In f reading2 -> enables f (ff_start f).
Proof. intros I. pose proof reading_small as S. rewrite Forall_forall in S. destruct (S _ I) as (W & B & L). exists 0. rewrite W, B, N.add_0_r. split; [reflexivity|]. split; [reflexivity|]. symmetry. now apply N.mod_small. Qed.

Lemma reading1_fits input feats s fs : pull_succeeds input feats s -> decode (tl_part demo_db) (st_bytes s) = Ok (Some fs) ->
  In (lut 2) feats -> In y1 feats -> forall f, In f reading1 -> fits pull_env (tx "db") (tl_grid demo_db) fs (ff_name f) (ff_start f).
Proof.
  intros R D I1 I2 f I.
  assert (P0 : forall n, enables (plain_feature n) 0) by (intros n; now apply plain_enables).
  destruct I as [<-|[<-|[<-|I]]].
  - eapply (pull_fits _ _ _ _ (lut 2) _ _ clb (tx "SLICEL_X0.ALUT.INIT") BusCLBIOCLK 1 4 15); [exact R|exact D|left; apply in_or_app; now right|reflexivity|now apply lut_enables| |vm_compute; reflexivity].
    split; [reflexivity|cbn; intuition discriminate].
  - eapply (pull_fits _ _ _ _ y1 _ _ iob (tx "IOB_Y1.STEPDOWN") BusCLBIOCLK 129 2 22); [exact R|exact D|left; apply in_or_app; now right|reflexivity|apply P0| |vm_compute; reflexivity].
    split; [reflexivity|cbn; intuition discriminate].
  - eapply (pull_fits _ _ _ _ (plain_feature (dotted hclk (tx "STEPDOWN"))) _ _ hclk (tx "STEPDOWN") BusCLBIOCLK 128 50 17); [exact R|exact D| |reflexivity|apply P0| |vm_compute; reflexivity].
    + right. eexists. split; [|reflexivity]. apply hclk_implied. apply in_or_app. now right.
    + split; [reflexivity|cbn; intuition discriminate].
  - assert (IP : in_design (tl_grid demo_db) (tl_part demo_db) [demo_pin] (the_pud ++ feats) f) by (left; apply in_or_app; now left).
    unfold the_pud in I. apply in_map_iff in I as (n & <- & I). unfold pudcb_names in I. cbn [map In] in I. destruct I as [<-|[<-|[<-|[]]]].
    + eapply (pull_fits _ _ _ _ _ _ _ iob (tx "IOB_Y1." ++ in_only) BusCLBIOCLK 128 2 1); [exact R|exact D|exact IP|reflexivity|apply P0| |vm_compute; reflexivity].
      split; [reflexivity|cbn; intuition discriminate].
    + eapply (pull_fits _ _ _ _ _ _ _ iob (tx "IOB_Y1.LVCMOS25_LVCMOS33_LVTTL.IN") BusCLBIOCLK 128 2 9); [exact R|exact D|exact IP|reflexivity|apply P0| |vm_compute; reflexivity].
      split; [reflexivity|cbn; intuition discriminate].
    + eapply (pull_fits _ _ _ _ _ _ _ iob (tx "IOB_Y1.PULLTYPE.PULLUP") BusCLBIOCLK 128 3 1); [exact R|exact D|exact IP|reflexivity|apply P0| |vm_compute; reflexivity].
      split; [reflexivity|cbn; intuition discriminate].
Qed.
(** What shows up is in the longer reading, and is not the first bit of INIT. *)
Lemma shows_read input feats s fs name k : pull_succeeds input feats s -> decode (tl_part demo_db) (st_bytes s) = Ok (Some fs) ->
  existsb (named (dotted clb (tx "SLICEL_X0.ALUT.INIT")) 0) (the_pud ++ feats) = false ->
  shows_up pull_env (tx "db") (tl_grid demo_db) fs name k ->
  switches reading1 name k \/ (name = dotted iob (tx "IOB_Y0.STEPDOWN") /\ k = 0 /\
    exists f, in_design (tl_grid demo_db) (tl_part demo_db) [demo_pin] (the_pud ++ feats) f /\ ff_name f = name /\ enables f k).
Proof.
  intros R D N0 S. destruct (pull_shows _ _ _ _ R D _ _ S) as (t & r & pos & f & I & E & (a & z & P) & DF & NF & EF).
  assert (SW : forall x, In x reading1 -> ff_name x = name -> ff_start x = k -> switches reading1 name k).
  { intros x Ix En Es. exists x. split; [exact Ix|]. split; [exact En|]. rewrite <- Es. apply reading_enables. unfold reading2. apply in_or_app. now left. }
  unfold entries in I. cbn [In] in I.
  destruct I as [I|[I|[I|[I|[I|[I|[I|[I|[I|I]]]]]]]]]; [..|destruct I]; injection I as <- <- <- <-.
  - exfalso. rewrite E in NF. exact (no_init0 _ _ N0 DF NF EF).
  - left. apply (SW (bit_feature (dotted clb (tx "SLICEL_X0.ALUT.INIT")) 1)); [now left|now symmetry|reflexivity].
  - right. split; [exact E|]. split; [reflexivity|]. exists f. auto.
  - exfalso. destruct P as [P|[]]. discriminate P.
  - left. apply (SW y1); [right; now left|now symmetry|reflexivity].
  - left. apply (SW (plain_feature (dotted iob (tx "IOB_Y1." ++ in_only)))); [do 3 right; now left|now symmetry|reflexivity].
  - left. apply (SW (plain_feature (dotted iob (tx "IOB_Y1.LVCMOS25_LVCMOS33_LVTTL.IN")))); [do 4 right; now left|now symmetry|reflexivity].
  - left. apply (SW (plain_feature (dotted iob (tx "IOB_Y1.PULLTYPE.PULLUP")))); [do 5 right; now left|now symmetry|reflexivity].
  - left. apply (SW (plain_feature (dotted hclk (tx "STEPDOWN")))); [do 2 right; now left|now symmetry|reflexivity].
Qed.
Lemma readings_no_other feats rd : In y1 feats -> steps_check rd = true -> no_other_stepdown (tl_part demo_db) [demo_pin] (the_pud ++ feats) rd.
Proof.
  intros I SC f tile site tag If U C. destruct (steps_check_ok _ _ _ _ _ SC If U C) as [-> ->]. exists 14. split; [exact iob_bank|].
  apply y1_steps. apply in_or_app. now right.
Qed.
Lemma pull_decodes input feats s : pull_succeeds input feats s -> exists fs, decode (tl_part demo_db) (st_bytes s) = Ok (Some fs).
Proof. intros R. destruct (run_decodes _ _ _ _ _ _ _ _ _ _ R) as (fs & _ & _ & _ & _ & _ & B6). eauto. Qed.
Lemma reading2_tiled f : In f reading2 -> tiled (ff_name f).
Proof.
  intros I. assert (X : forallb (fun f => match split_max 1 "." (ff_name f) with [_; _] => true | _ => false end) reading2 = true) by (vm_compute; reflexivity).
  assert (T : exists t r, ff_name f = dotted t r /\ ~ In dot t).
  { unfold reading2, reading1, the_pud, pudcb_names in I. cbn [map app In] in I.
    destruct I as [<-|[<-|[<-|[<-|[<-|[<-|[<-|[]]]]]]]]; do 2 eexists; (split; [reflexivity|cbn; intuition discriminate]). }
  destruct T as (t & r & E & N). exists t, r. split; assumption.
Qed.

Lemma demo_says1 : text_features Iso demo_input demo_feats1.
Proof.
  pose proof (features_compute demo_input ltac:(vm_compute; reflexivity)) as H.
  assert (E : flat_map line_features (map line_calls (getlines demo_input)) = demo_feats1) by (vm_compute; reflexivity). now rewrite E in H.
Qed.
Lemma demo_pull_run : exists s, pull_succeeds demo_input demo_feats1 s.
Proof. apply (pull_run _ _ demo_says1); vm_compute; reflexivity. Qed.
Lemma pull_pull_run : exists s, pull_succeeds pull_input pull_feats s.
Proof. apply (pull_run _ _ pull_says); vm_compute; reflexivity. Qed.
Lemma reading_pull_run : exists s, pull_succeeds pull_reading reading1 s.
Proof. apply (pull_run _ _ pull_reading_says); vm_compute; reflexivity. Qed.
Lemma feats1_members : In (lut 2) demo_feats1 /\ In y1 demo_feats1.
Proof.
  split; [now left|].
  assert (X : existsb (fun f => text_eqb (ff_name f) (ff_name y1) && (ff_start f =? 0) && (ff_width f =? 1) && (ff_bits f =? 1)) demo_feats1 = true) by (vm_compute; reflexivity).
  apply existsb_exists in X as ([n s w b] & I & H). cbn [ff_name ff_start ff_width ff_bits] in H.
  apply andb_true_iff in H as [H H4]. apply andb_true_iff in H as [H H3]. apply andb_true_iff in H as [H1 H2].
  apply text_eqb_eq in H1. apply N.eqb_eq in H2, H3, H4. subst. exact I.
Qed.

(** Every run of the three texts in this database satisfies the theorem's general hypotheses. *)
Lemma reading2_fits input feats s fs : pull_succeeds input feats s -> decode (tl_part demo_db) (st_bytes s) = Ok (Some fs) ->
  In y1 feats -> used_check (the_pud ++ feats) iob (tx "IOB_Y0") = false ->
  fits pull_env (tx "db") (tl_grid demo_db) fs (ff_name y0) 0.
Proof.
  intros R D I2 U.
  eapply (pull_fits _ _ _ _ y0 _ _ iob (tx "IOB_Y0.STEPDOWN") BusCLBIOCLK 129 5 4); [exact R|exact D| |reflexivity|now apply plain_enables| |vm_compute; reflexivity].
  - right. exists (dotted iob (dotted (tx "IOB_Y0") (tx "STEPDOWN"))). split; [|reflexivity]. apply y0_implied; [apply in_or_app; now right|exact U].
  - split; [reflexivity|cbn; intuition discriminate].
Qed.
Lemma reading2_reads input feats s fs : pull_succeeds input feats s -> decode (tl_part demo_db) (st_bytes s) = Ok (Some fs) ->
  In (lut 2) feats -> In y1 feats -> used_check (the_pud ++ feats) iob (tx "IOB_Y0") = false ->
  existsb (named (dotted clb (tx "SLICEL_X0.ALUT.INIT")) 0) (the_pud ++ feats) = false ->
  reading_of pull_env (tx "db") (tl_grid demo_db) fs reading2.
Proof.
  intros R D I1 I2 U N0. split.
  - intros name k SW. apply reading_members in SW as (f & I & -> & ->); [|exact reading_small].
    unfold reading2 in I. apply in_app_or in I as [I|[<-|[]]].
    + eapply reading1_fits; eauto.
    + eapply (reading2_fits input feats s fs); eauto.
  - intros name k S. destruct (shows_read _ _ _ _ _ _ R D N0 S) as [(f & I & X)|(-> & -> & _)].
    + exists f. split; [unfold reading2; apply in_or_app; now left|exact X].
    + apply (member_switches reading2 y0); [unfold reading2; apply in_or_app; right; now left|apply reading_enables; unfold reading2; apply in_or_app; right; now left].
Qed.
Lemma reading1_reads input feats s fs : pull_succeeds input feats s -> decode (tl_part demo_db) (st_bytes s) = Ok (Some fs) ->
  In (lut 2) feats -> In y1 feats -> used_check (the_pud ++ feats) iob (tx "IOB_Y0") = true ->
  existsb (named (dotted iob (tx "IOB_Y0.STEPDOWN")) 0) (the_pud ++ feats) = false ->
  existsb (named (dotted clb (tx "SLICEL_X0.ALUT.INIT")) 0) (the_pud ++ feats) = false ->
  reading_of pull_env (tx "db") (tl_grid demo_db) fs reading1.
Proof.
  intros R D I1 I2 U Y0 N0. split.
  - intros name k SW. apply reading_members in SW as (f & I & -> & ->).
    + eapply reading1_fits; eauto.
    + pose proof reading_small as S. unfold reading2 in S. apply Forall_app in S as [S _]. exact S.
  - intros name k S. destruct (shows_read _ _ _ _ _ _ R D N0 S) as [X|(E & -> & f & DF & NF & EF)]; [exact X|].
    exfalso. rewrite E in NF. exact (no_y0 _ _ Y0 U DF NF EF).
Qed.
(** All IO sites in use in the IO tile are in use in the readings, unless it is the first one. *)
Lemma used_names fs tile site : contains (tx "IOB33") tile -> site_in_use fs tile site ->
  forallb (fun f => (ff_bits f =? 0) || match parts (ff_name f) with
     | Some (t, s, _) => negb (str_contains (tx "IOB33") t) || (text_eqb t iob && text_eqb s (tx "IOB_Y1"))
     | None => true end) fs = true -> tile = iob /\ site = tx "IOB_Y1".
Proof.
  intros C (f & tag & I & B & P) H. rewrite forallb_forall in H. specialize (H _ I). apply parts_path3 in P. rewrite P in H.
  apply N.eqb_neq in B. rewrite B in H. apply str_contains_spec in C. rewrite C in H. cbn [negb orb] in H.
  apply andb_true_iff in H as [H1 H2]. apply text_eqb_eq in H1, H2. auto.
Qed.

(** The demonstration design in this database, and the text a disassembler prints for its bitstream: every hypothesis holds. *)
Example C115_case : exists s s' fs,
  pull_succeeds demo_input demo_feats1 s /\ decode (tl_part demo_db) (st_bytes s) = Ok (Some fs) /\
  reading_of pull_env (tx "db") (tl_grid demo_db) fs reading2 /\ text_features Iso demo_reading reading2 /\ reading2 <> demo_feats1 /\
  exists fuel, main_program fuel Iso ex_orders (with_env pull_env (demo_command demo_reading)) = Ok (0, s') /\ st_bytes s' = st_bytes s.
Proof.
  destruct demo_pull_run as (s & R). destruct (pull_decodes _ _ _ R) as (fs & D). destruct feats1_members as [I1 I2].
  assert (RD : reading_of pull_env (tx "db") (tl_grid demo_db) fs reading2).
  { eapply (reading2_reads demo_input demo_feats1 s fs); eauto; vm_compute; reflexivity. }
  destruct (C115_a_reading_assembles_to_the_same_file 3000 ex_orders ex_orders (with_env pull_env (demo_command demo_input))
    (with_env pull_env (demo_command demo_reading)) (tx "db") demo_input demo_reading (tl_grid demo_db) (tl_part demo_db) [demo_pin]
    demo_feats1 reading2 s the_pud fs) as (fuel0 & s' & H & B).
  - exact R.
  - intros E. vm_compute in E. discriminate E.
  - exact pull_inside.
  - exact (rs_orders _ _ _ _ _ _ _ _ _ _ R).
  - unfold same_but_input, with_env, demo_command. cbn. repeat split; lia.
  - reflexivity.
  - apply small_input. vm_compute. reflexivity.
  - exact demo_reading_says.
  - exact reading2_tiled.
  - exact the_pud_default.
  - exact D.
  - exact (pull_no_contradiction _).
  - exact RD.
  - apply readings_no_other; [exact I2|vm_compute; reflexivity].
  - intros bank tag tile site _ _ C U. destruct (used_names _ _ _ C U) as [-> ->]; [vm_compute; reflexivity|].
    apply used_check_ok. vm_compute. reflexivity.
  - exists s, s', fs. split; [exact R|]. split; [exact D|]. split; [exact RD|]. split; [exact demo_reading_says|]. split; [|exists fuel0; split; [apply H; constructor|exact B]].
    intros E. apply (f_equal (fun l => ff_width (hd y0 l))) in E. vm_compute in E. discriminate E.
Qed.

(** Without its last condition the property fails: the second design uses the first site of the IO tile only to switch off its pull-down.
    The frames do not show that, so a disassembler prints nothing for this site, and the program takes it for an unused one: it sets
    STEPDOWN there, and the files differ. *)
Theorem C115_without_the_sites_refuted :
  ~ (forall fuel ord ord' c c' root input input' g p pins feats feats' s pud fs,
  run_succeeds fuel ord c root input g p pins feats s ->
  e_walk (c_env c) root <> None -> inside_frames (c_env c) root g ->
  good_orders ord' -> same_but_input c c' -> input_text c' = Some input' -> short_lines input' -> text_features Iso input' feats' ->
  (forall f, In f feats' -> tiled (ff_name f)) ->
  pudcb_default g pud -> decode p (st_bytes s) = Ok (Some fs) ->
  ~ contradiction (c_env c) root g (in_design g p pins (pud ++ feats)) ->
  reading_of (c_env c) root g fs feats' ->
  no_other_stepdown p pins (pud ++ feats) feats' ->
  exists fuel0 s', (forall fuel', (fuel0 <= fuel')%nat -> main_program fuel' Iso ord' c' = Ok (0, s')) /\ st_bytes s' = st_bytes s).
Proof.
  intros CLAIM. destruct pull_pull_run as (s & R). destruct (pull_decodes _ _ _ R) as (fs & D). destruct reading_pull_run as (s1 & R1).
  assert (I1 : In (lut 2) pull_feats) by (unfold pull_feats; apply in_or_app; left; apply feats1_members).
  assert (I2 : In y1 pull_feats) by (unfold pull_feats; apply in_or_app; left; apply feats1_members).
  assert (U : used_check (the_pud ++ pull_feats) iob (tx "IOB_Y0") = true) by (vm_compute; reflexivity).
  assert (N0 : existsb (named (dotted iob (tx "IOB_Y0.STEPDOWN")) 0) (the_pud ++ pull_feats) = false) by (vm_compute; reflexivity).
  assert (RD : reading_of pull_env (tx "db") (tl_grid demo_db) fs reading1).
  { eapply (reading1_reads pull_input pull_feats s fs); eauto; vm_compute; reflexivity. }
  destruct (CLAIM 3000%nat ex_orders ex_orders (with_env pull_env (demo_command pull_input))
    (with_env pull_env (demo_command pull_reading)) (tx "db") pull_input pull_reading (tl_grid demo_db) (tl_part demo_db) [demo_pin]
    pull_feats reading1 s the_pud fs) as (fuel0 & s' & H & B).
  - exact R.
  - intros E. vm_compute in E. discriminate E.
  - exact pull_inside.
  - exact (rs_orders _ _ _ _ _ _ _ _ _ _ R).
  - unfold same_but_input, with_env, demo_command. cbn. repeat split; lia.
  - reflexivity.
  - apply small_input. vm_compute. reflexivity.
  - exact pull_reading_says.
  - intros f I. apply reading2_tiled. unfold reading2. apply in_or_app. now left.
  - exact the_pud_default.
  - exact D.
  - exact (pull_no_contradiction _).
  - exact RD.
  - apply readings_no_other; [exact I2|vm_compute; reflexivity].
  - specialize (H (Nat.max fuel0 3000) (Nat.le_max_l _ _)).
    assert (E : s' = s1).
    { pose proof (main_mono _ _ _ _ _ (rs_exit _ _ _ _ _ _ _ _ _ _ R1) (Nat.max fuel0 3000) (Nat.le_max_r _ _)) as M. congruence. }
    rewrite E in B. rewrite <- B in D.
    assert (J1 : In y1 reading1) by (right; now left).
    assert (W : fits pull_env (tx "db") (tl_grid demo_db) fs (ff_name y0) 0) by (apply (reading2_fits _ _ _ _ R1 D); [exact J1|vm_compute; reflexivity]).
    destruct W as [_ W].
    assert (F : frames_have fs 129 5 4).
    { apply (W true 129 5 4); [|reflexivity]. rewrite <- (proj1 pull_same).
      apply (wants_check_ok pull_env (tx "db") (tx "xc7a35t") document_order pull_db iob (tx "IOB_Y0.STEPDOWN")
        (match hm_find text_eqb iob (tl_grid pull_db) with Some x => t_type x | None => [] end) 0 BusCLBIOCLK true 129 5 4);
        [exact pull_sound|exact (demo_sound_walk _)|exact pull_parsed|vm_compute; reflexivity| |now apply enables_bit].
      split; [reflexivity|cbn; intuition discriminate]. }
    rewrite B in D. apply (pull_frames _ _ _ _ R D) in F as (f & DF & WF).
    apply pull_wants in WF as (t & r & k & pos & I & F1 & En & P & _).
    assert (X : (t, r, k) = (iob, tx "IOB_Y0.STEPDOWN", 0)).
    { change (Z.of_N (32 * 5 + 4)) with 164%Z in P. clear - I P. unfold entries in I. cbn [In] in I.
      repeat (destruct I as [I|I]; [injection I as <- <- <- <-; cbn [In] in P;
        first [reflexivity|exfalso; repeat (destruct P as [P|P]; [discriminate P|]); exact P]|]). destruct I. }
    injection X as -> -> ->. destruct F1 as [F1 _]. exact (no_y0 _ _ N0 U DF F1 En).
Qed.
Print Assumptions C115_without_the_sites_refuted.
