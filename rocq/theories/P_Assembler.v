(** Properties C40-C52: from FASM text and database to frames. *)
From Verif Require Import Base BaseFacts Absl Part Frame Fasm FasmSpec FasmFacts FasmSafe FasmShape
  FasmFile FasmLines DbText DbJson Database Assembler EncodeSpec AsmSpec MapFacts AsmFacts
  LookupFacts ProcessFacts ProcessCrash StepdownFacts AsmLines AsmWhole RegistryFacts AsmItems P_Fasm AsmExample.
From Coq Require Import ZifyBool ZifyN ZifyNat.

Lemma bit_beyond fr a w i : wf_frames fr -> 101 <= w -> bit_at fr a w i = false.
Proof.
  intros W L. unfold bit_at. destruct (bt_find a fr) as [f|] eqn:E; [|reflexivity].
  apply wf_find in E; [|exact W]. destruct E as [E _]. rewrite nth_overflow; [apply N.bits_0|]. rewrite E. lia.
Qed.

(** ** C40 *)
(** A list of features, whatever the iteration orders: it is processed iff all of them are
    known and inside frames, and then a bit is set iff some feature requests it. *)
Theorem C40_features_to_bits :
  forall sm ord tls fs, usable_grid (tl_grid tls) -> good_orders ord -> Forall reported fs ->
  ((exists cache fr, process_features sm ord tls 0 fs ([], []) = Ok (cache, fr))
     <-> Forall (fun f => known tls f /\ fits tls f) fs) /\
  forall cache fr, process_features sm ord tls 0 fs ([], []) = Ok (cache, fr) ->
    forall a w i, bit_at fr a w i = true <-> exists f, In f fs /\ requested tls f a w i.
Proof.
  intros sm ord tls fs U G R. split.
  - split.
    + intros (c & fr & H). eapply process_features_inv in H; eauto using consistent_nil, wf_nil.
    + intros K. destruct (process_features_ok sm ord tls fs 0 [] []) as (c & fr & E & _);
        auto using consistent_nil, wf_nil. eauto.
  - intros c fr H a w i.
    pose proof H as K. eapply process_features_inv in K; eauto using consistent_nil, wf_nil.
    destruct (process_features_ok sm ord tls fs 0 [] []) as (c' & fr' & E & _ & W & _ & B);
      auto using consistent_nil, wf_nil.
    assert (X : fr' = fr) by (unfold db_cache, asm_frames, btmap in *; rewrite H in E; now inversion E). subst fr'.
    destruct (N.lt_ge_cases w 101) as [L|L].
    + rewrite B by exact L. split; [intros [X|X]; [discriminate X|exact X]|now right].
    + rewrite bit_beyond by assumption. split; [discriminate|].
      intros (f & I & Q). rewrite Forall_forall in K. destruct (K f I) as [_ F]. specialize (F a w i Q). lia.
Qed.
Print Assumptions C40_features_to_bits.

(** What a successful run on any text gives. *)
Lemma run_result sm ord tls input pud fr :
  usable_grid (tl_grid tls) -> numbered_grid (tl_grid tls) -> good_orders ord ->
  (forall fs, text_features sm input fs -> Forall reported fs) ->
  pudcb_features (tl_grid tls) = Ok pud ->
  assemble_frames sm ord tls input = Ok fr ->
  exists fs, text_features sm input fs /\ stepdown_ready (tl_banks tls) (tl_grid tls) (pud ++ fs) /\
    (forall f, all_features tls (pud ++ fs) f -> known tls f /\ fits tls f) /\ wf_frames fr /\
    (forall a, present fr a <-> exists f, all_features tls (pud ++ fs) f /\ touched tls f a) /\
    (forall a w i, bit_at fr a w i = true <-> exists f, all_features tls (pud ++ fs) f /\ requested tls f a w i).
Proof.
  intros U NG G R EP H. destruct (assemble_spec_gen sm ord tls input pud U NG G R EP) as [_ S].
  destruct (S fr H) as (fs & T & RD & K & W & P & B). exists fs. repeat (split; [assumption|]).
  intros a w i. destruct (N.lt_ge_cases w 101) as [L|L]; [now apply B|].
  rewrite bit_beyond by assumption. split; [discriminate|].
  intros (f & I & Q). destruct (K f I) as [_ F]. specialize (F a w i Q). lia.
Qed.

(** A whole run on any text: the bits are those of the PUDC_B features, of the features of
    the lines and of the STEPDOWN features these imply. *)
Theorem C40_text_to_bits :
  forall ord tls input fr,
  usable_grid (tl_grid tls) -> numbered_grid (tl_grid tls) -> good_orders ord -> short_lines input ->
  assemble_frames Iso ord tls input = Ok fr ->
  exists pud fs, pudcb_default (tl_grid tls) pud /\ text_features Iso input fs /\
  forall a w i, bit_at fr a w i = true <->
    exists f, all_features tls (pud ++ fs) f /\ requested tls f a w i.
Proof.
  intros ord tls input fr U NG G SL H. destruct (pudcb_ok _ NG) as (pud & EP & PD & _).
  destruct (run_result Iso ord tls input pud fr) as (fs & T & _ & _ & _ & _ & B); auto.
  { intros fs. now apply text_reported. }
  exists pud, fs. auto.
Qed.
Print Assumptions C40_text_to_bits.

(** A file of the grammar: the bits are those of the bits written as 1. *)
Theorem C40_file_to_bits :
  forall sm ord tls items fr,
  usable_grid (tl_grid tls) -> numbered_grid (tl_grid tls) -> good_orders ord ->
  Forall item_shape items -> Forall item_in_range items ->
  assemble_frames sm ord tls (file_text items) = Ok fr ->
  exists pud, pudcb_default (tl_grid tls) pud /\
  forall a w i, bit_at fr a w i = true <->
    exists f, all_features tls (pud ++ file_ones items) f /\ requested tls f a w i.
Proof.
  intros sm ord tls items fr U NG G S R H. destruct (pudcb_ok _ NG) as (pud & EP & PD & RP).
  destruct (run_result sm ord tls (file_text items) pud fr) as (fs & T & _ & _ & _ & _ & B); auto.
  { intros fs. now apply file_reported. }
  exists pud. split; [exact PD|]. intros a w i. rewrite B.
  rewrite (text_features_fun _ _ _ _ T (file_features sm items S R)) in *. clear T.
  assert (LP : Forall live pud).
  { destruct PD as [[-> _]|(t & s & l & _ & _ & ->)]; [constructor|]. apply Forall_forall.
    intros f I. apply in_map_iff in I as (n & <- & _). apply bit_live. }
  assert (On : forall n k, on (pud ++ flat_map (fun i => line_features (item_events 1 i)) items) n k
                       <-> on (pud ++ file_ones items) n k).
  { intros n k. rewrite !on_app, file_on by exact R. reflexivity. }
  assert (L1 : Forall live (pud ++ flat_map (fun i => line_features (item_events 1 i)) items))
    by (apply Forall_app; split; [exact LP|apply file_live]).
  assert (L2 : Forall live (pud ++ file_ones items))
    by (apply Forall_app; split; [exact LP|apply file_ones_live]).
  assert (Q : forall fs, (exists f, all_features tls fs f /\ requested tls f a w i) <->
     exists f, all_features tls fs f /\ exists k, enables f k /\ requests_at tls (ff_name f) k a w i).
  { intros fs0. split; intros (f & A & X); exists f; (split; [exact A|]); now apply requested_at. }
  rewrite !Q. split; apply (all_features_on tls _ _ (fun n k => requests_at tls n k a w i)); auto.
  intros n k. symmetry. apply On.
Qed.
Print Assumptions C40_file_to_bits.

Lemma ex_items_ok : Forall item_shape ex_items /\ Forall item_in_range ex_items.
Proof.
  split; unfold ex_items.
  - repeat (apply Forall_cons; [unfold item_shape, mk_feature; cbn [i_b0 i_feature i_end ending_shape];
      split; [constructor|]; split; [|exact I]; unfold feature_shape; cbn [f_name f_b1 f_range f_b2 f_assign];
      split; [discriminate|]; split; [name_chars|]; split; [constructor|]; split;
      [first [exact I|unfold range_shape; cbn [r_b0 r_hi r_b1 r_lo]; split; [constructor|];
         split; [numerals|]; split; [constructor|]; split; [constructor|]; split; [numerals|constructor]]|];
      split; [constructor|];
      first [exact I|split; [constructor|]; unfold rhs_shape; split; [numerals|];
        first [solve [constructor]|do 3 (split; [constructor|]); split; [numerals|constructor]]]|]).
    constructor.
  - repeat (apply Forall_cons; [unfold item_in_range, mk_feature, feature_in_range; cbn [i_feature f_assign];
      split; [vm_compute; reflexivity|]; split; [vm_compute; discriminate|];
      first [vm_compute; discriminate|unfold rhs_in_range; split; vm_compute; first [reflexivity|discriminate]]|]).
    constructor.
Qed.

(** The example of AsmExample.v meets the hypotheses. *)
Example C40_case : exists fr,
  assemble_frames Iso ex_orders ex_db (file_text ex_items) = Ok fr
  /\ usable_grid (tl_grid ex_db) /\ numbered_grid (tl_grid ex_db) /\ good_orders ex_orders
  /\ Forall item_shape ex_items /\ Forall item_in_range ex_items
  /\ bit_at fr (0x100 + 32) 4 15 = true /\ bit_at fr (0x100 + 33) 4 15 = false
  /\ present fr (0x800000 + 127).
Proof.
  destruct (run_check_ok _ _ ex_runs) as (fr & E & C). exists fr. split; [exact E|].
  split; [exact ex_usable|]. split; [exact ex_numbered|]. split; [exact ex_orders_good|].
  split; [apply ex_items_ok|]. split; [apply ex_items_ok|].
  repeat (apply andb_true_iff in C as [C ?]). rewrite negb_true_iff in *.
  split; [assumption|]. split; [assumption|]. now apply has_frame_present.
Qed.

(** ** C41 *)
(** The database with the bank registry built in the order [o]. *)
Definition with_banks (g : tilegrid) (bits : text -> outcome (option tile_db))
    (iobanks : list (N * text)) (pins : list package_pin) (p : db_part) (o : orders) : tiles :=
  {| tl_grid := g; tl_bits := bits; tl_banks := reg_create (lo_tiles (o_load o)) iobanks pins; tl_part := p |}.

Lemma registry_same o o' iobanks pins : good_orders o -> good_orders o' ->
  (forall t, reg_tile_banks (reg_create (lo_tiles (o_load o)) iobanks pins) t
           = reg_tile_banks (reg_create (lo_tiles (o_load o')) iobanks pins) t) /\
  (forall b ts, reg_tiles (reg_create (lo_tiles (o_load o)) iobanks pins) b = Some ts ->
     exists ts', reg_tiles (reg_create (lo_tiles (o_load o')) iobanks pins) b = Some ts' /\ forall t, In t ts <-> In t ts').
Proof.
  intros (_ & _ & _ & _ & G & _) (_ & _ & _ & _ & G' & _). split.
  - intros t. now rewrite !reg_tile_banks_spec.
  - intros b ts E. pose proof (reg_tiles_spec (lo_tiles (o_load o)) iobanks pins b G) as H. rewrite E in H.
    pose proof (reg_tiles_spec (lo_tiles (o_load o')) iobanks pins b G') as H'.
    destruct H as (_ & NE & HI).
    destruct (reg_tiles (reg_create (lo_tiles (o_load o')) iobanks pins) b) as [ts'|].
    + destruct H' as (_ & _ & HI'). exists ts'. split; [reflexivity|]. intros t. now rewrite HI, HI'.
    + destruct ts as [|t ts]; [contradiction|]. exfalso. apply (H' t). apply HI. now left.
Qed.

Lemma stepdown_banks b b' g fs :
  (forall t, reg_tile_banks b t = reg_tile_banks b' t) ->
  (forall k ts, reg_tiles b k = Some ts ->
     exists ts', reg_tiles b' k = Some ts' /\ forall t, In t ts <-> In t ts') ->
  (forall n, stepdown_name b g fs n -> stepdown_name b' g fs n) /\
  (stepdown_ready b g fs -> stepdown_ready b' g fs).
Proof.
  intros HB HT.
  assert (W : forall k t, wants_stepdown b fs k t <-> wants_stepdown b' fs k t).
  { intros k t. split; intros (f & ti & si & bs & I & Us & C & R); exists f, ti, si, bs;
      repeat (split; [assumption|]); [now rewrite <- HB|now rewrite HB]. }
  split.
  - intros n H. destruct H as [bank tag ts tile t s fn label Wa R It C M Is L NU|bank tag ts tile Wa R It C].
    + destruct (HT _ _ R) as (ts' & R' & E).
      apply (sd_site _ _ _ bank tag ts' tile t s fn label); auto; [now apply W|now apply E].
    + destruct (HT _ _ R) as (ts' & R' & E).
      apply (sd_clock _ _ _ bank tag ts' tile); auto; [now apply W|now apply E].
  - intros [A B]. split.
    + intros f ti si tg I Us C. rewrite <- HB. eauto.
    + intros k t X. apply W in X. destruct (B k t X) as (ts & R & K).
      destruct (HT _ _ R) as (ts' & R' & E). exists ts'. split; [exact R'|].
      intros tile I. apply K. now apply E.
Qed.

Lemma short_same t t' : (forall line, In line (getlines t) <-> In line (getlines t')) ->
  short_lines t -> short_lines t'.
Proof. intros S H line I. apply H. now apply S. Qed.

(** Two texts with the same set of lines, in any orders of iteration of the program's hash
    tables, give the same frames (and fail together). *)
Theorem C41_line_order_is_irrelevant :
  forall g bits iobanks pins p ord ord' t t' fr,
  usable_grid g -> numbered_grid g -> good_orders ord -> good_orders ord' -> short_lines t ->
  (forall line, In line (getlines t) <-> In line (getlines t')) ->
  assemble_frames Iso ord (with_banks g bits iobanks pins p ord) t = Ok fr ->
  assemble_frames Iso ord' (with_banks g bits iobanks pins p ord') t' = Ok fr.
Proof.
  intros g bits iobanks pins p ord ord' t t' fr U NG G G' SL S H.
  set (tls := with_banks g bits iobanks pins p ord) in *.
  set (tls' := with_banks g bits iobanks pins p ord') in *.
  destruct (pudcb_ok g NG) as (pud & EP & PD & RP).
  pose proof (short_same _ _ S SL) as SL'.
  destruct (run_result Iso ord tls t pud fr U NG G (fun fs => text_reported t fs SL) EP H)
    as (fs & T & RD & K & W & P & B).
  destruct (text_features_same Iso t t' fs S T) as (fs' & T' & SF).
  assert (SP : forall f, In f (pud ++ fs) <-> In f (pud ++ fs')).
  { intros f. rewrite !in_app_iff, SF. tauto. }
  assert (SP' : forall f, In f (pud ++ fs') <-> In f (pud ++ fs)) by (intros f; symmetry; apply SP).
  destruct (registry_same ord ord' iobanks pins G G') as [HB HT].
  destruct (registry_same ord' ord iobanks pins G' G) as [HB' HT'].
  assert (SN : forall n, stepdown_name (tl_banks tls) g (pud ++ fs) n
                     <-> stepdown_name (tl_banks tls') g (pud ++ fs') n).
  { intros n. split; intros X.
    - apply (stepdown_banks _ _ g (pud ++ fs') HB HT). eapply stepdown_same; eauto.
    - apply (stepdown_banks _ _ g (pud ++ fs) HB' HT'). eapply stepdown_same; [exact SP'|exact X]. }
  assert (AF : forall f, all_features tls (pud ++ fs) f <-> all_features tls' (pud ++ fs') f).
  { intros f. unfold all_features. split; (intros [X|(n & X & E)]; [left; now apply SP|right; exists n; split; [now apply SN|exact E]]). }
  assert (RD' : stepdown_ready (tl_banks tls') (tl_grid tls') (pud ++ fs')).
  { apply (stepdown_banks _ _ g (pud ++ fs') HB HT). eapply (stepdown_same _ g (pud ++ fs)); eauto. }
  destruct (assemble_spec_gen Iso ord' tls' t' pud U NG G' (fun fs => text_reported t' fs SL') EP) as [Suf _].
  destruct (Suf fs' T' RD') as (fr' & H').
  { intros f X. apply (K f). now apply AF. }
  destruct (run_result Iso ord' tls' t' pud fr' U NG G' (fun fs => text_reported t' fs SL') EP H')
    as (fs2 & T2 & _ & _ & W2 & P2 & B2).
  rewrite (text_features_fun _ _ _ _ T2 T') in *.
  rewrite H'. f_equal. symmetry. apply frames_ext; auto.
  - intros a. rewrite P, P2. split; intros (f & X & Y); exists f; (split; [now apply AF|exact Y]).
  - intros a w i _ _. apply eq_true_iff_eq. rewrite B, B2.
    split; intros (f & X & Y); exists f; (split; [now apply AF|exact Y]).
Qed.
Print Assumptions C41_line_order_is_irrelevant.

(** In particular for files of complete lines. *)
Theorem C41_permuted_or_repeated_lines :
  forall g bits iobanks pins p ord ord' ps ps' fr,
  usable_grid g -> numbered_grid g -> good_orders ord -> good_orders ord' ->
  Forall no_newline ps -> (forall l, In l ps <-> In l ps') ->
  (forall l, In l ps -> N.of_nat (List.length l) < 2 ^ 24 - 2) ->
  assemble_frames Iso ord (with_banks g bits iobanks pins p ord) (unlines ps) = Ok fr ->
  assemble_frames Iso ord' (with_banks g bits iobanks pins p ord') (unlines ps') = Ok fr.
Proof.
  intros g bits iobanks pins p ord ord' ps ps' fr U NG G G' N S L H.
  assert (N' : Forall no_newline ps').
  { rewrite Forall_forall in *. intros l I. apply N. now apply S. }
  eapply C41_line_order_is_irrelevant; [..|exact H]; auto.
  - unfold short_lines. rewrite getlines_unlines by exact N. intros line I. apply in_map_iff in I as (l & <- & I).
    specialize (L l I). rewrite app_length. cbn [List.length newline]. lia.
  - intros line. rewrite !getlines_unlines by assumption. rewrite !in_map_iff.
    split; intros (l & E & I); exists l; (split; [exact E|now apply S]).
Qed.
Print Assumptions C41_permuted_or_repeated_lines.

Example C41_case :
  let lines := [tx "CLBLL_L_X2Y1.SLICEL_X0.FFSYNC"; tx "LIOB33_X0Y1.IOB_Y0.STEPDOWN"] in
  let again := [tx "LIOB33_X0Y1.IOB_Y0.STEPDOWN"; tx "CLBLL_L_X2Y1.SLICEL_X0.FFSYNC"; tx "LIOB33_X0Y1.IOB_Y0.STEPDOWN"] in
  exists fr,
  assemble_frames Iso ex_orders (with_banks ex_grid ex_bits ex_iobanks ex_pins P_Part.small_part ex_orders) (unlines lines) = Ok fr
  /\ assemble_frames Iso ex_orders' (with_banks ex_grid ex_bits ex_iobanks ex_pins P_Part.small_part ex_orders') (unlines again) = Ok fr
  /\ bit_at fr (0x100 + 30) 5 1 = true.
Proof.
  intros lines again.
  assert (H : run_check (assemble_frames Iso ex_orders
     (with_banks ex_grid ex_bits ex_iobanks ex_pins P_Part.small_part ex_orders) (unlines lines))
     (fun fr => bit_at fr (0x100 + 30) 5 1) = true) by (vm_compute; reflexivity).
  apply run_check_ok in H as (fr & E & B). exists fr. split; [exact E|]. split; [|exact B].
  eapply C41_permuted_or_repeated_lines; [exact ex_usable|exact ex_numbered|exact ex_orders_good|exact ex_orders'_good| | | |exact E].
  - repeat (constructor; [repeat (constructor; [discriminate|]); constructor|]). constructor.
  - unfold lines, again. cbn [In]. tauto.
  - unfold lines. cbn [In]. intros l [<-|[<-|[]]]; vm_compute; reflexivity.
Qed.

(** ** C42 *)
(** Lists of features: more features, more bits and more frames. *)
Theorem C42_more_features_more_bits :
  forall sm sm' ord ord' tls fs fs' c c' fr fr',
  usable_grid (tl_grid tls) -> good_orders ord -> good_orders ord' -> Forall reported fs' ->
  incl fs fs' ->
  process_features sm ord tls 0 fs ([], []) = Ok (c, fr) ->
  process_features sm' ord' tls 0 fs' ([], []) = Ok (c', fr') ->
  (forall a, present fr a -> present fr' a) /\
  (forall a w i, bit_at fr a w i = true -> bit_at fr' a w i = true).
Proof.
  intros sm sm' ord ord' tls fs fs' c c' fr fr' U G G' R I H H'.
  assert (Rf : Forall reported fs).
  { rewrite Forall_forall in *. auto. }
  split.
  - pose proof H as K. eapply process_features_inv in K; eauto using consistent_nil, wf_nil.
    pose proof H' as K'. eapply process_features_inv in K'; eauto using consistent_nil, wf_nil.
    destruct (process_features_ok sm ord tls fs 0 [] []) as (c1 & fr1 & E1 & _ & _ & P1 & _);
      auto using consistent_nil, wf_nil.
    destruct (process_features_ok sm' ord' tls fs' 0 [] []) as (c2 & fr2 & E2 & _ & _ & P2 & _);
      auto using consistent_nil, wf_nil.
    assert (fr1 = fr) by (unfold db_cache, asm_frames, btmap in *; rewrite H in E1; now inversion E1). subst fr1.
    assert (fr2 = fr') by (unfold db_cache, asm_frames, btmap in *; rewrite H' in E2; now inversion E2). subst fr2.
    intros a. rewrite P1, P2. intros [X|(f & If & X)]; [now left|right]. exists f. auto.
  - intros a w i. destruct (C40_features_to_bits sm ord tls fs U G Rf) as [_ B].
    destruct (C40_features_to_bits sm' ord' tls fs' U G' R) as [_ B'].
    rewrite (B _ _ H), (B' _ _ H'). intros (f & If & X). exists f. auto.
Qed.
Print Assumptions C42_more_features_more_bits.

(** Whole runs: a bit can only disappear if it belonged to an implied STEPDOWN feature
    that is not implied any more. *)
Theorem C42_more_lines :
  forall ord ord' tls t t' pud fs fs' fr fr',
  usable_grid (tl_grid tls) -> numbered_grid (tl_grid tls) -> good_orders ord -> good_orders ord' ->
  short_lines t' -> incl (getlines t) (getlines t') ->
  pudcb_features (tl_grid tls) = Ok pud -> text_features Iso t fs -> text_features Iso t' fs' ->
  assemble_frames Iso ord tls t = Ok fr -> assemble_frames Iso ord' tls t' = Ok fr' ->
  incl fs fs' /\
  forall a w i, bit_at fr a w i = true ->
    bit_at fr' a w i = true \/
    exists name, stepdown_name (tl_banks tls) (tl_grid tls) (pud ++ fs) name
      /\ ~ stepdown_name (tl_banks tls) (tl_grid tls) (pud ++ fs') name
      /\ requested tls (plain_feature name) a w i.
Proof.
  intros ord ord' tls t t' pud u u' fr fr' U NG G G' SL' I EP T T' H H'.
  assert (SL : short_lines t) by (intros l Il; apply SL'; auto).
  destruct (run_result Iso ord tls t pud fr U NG G (fun fs => text_reported t fs SL) EP H)
    as (v & Tv & _ & _ & _ & _ & B).
  destruct (run_result Iso ord' tls t' pud fr' U NG G' (fun fs => text_reported t' fs SL') EP H')
    as (v' & Tv' & _ & _ & _ & _ & B').
  rewrite (text_features_fun _ _ _ _ Tv T) in *. rewrite (text_features_fun _ _ _ _ Tv' T') in *. clear Tv Tv'.
  split.
  { intros f If. destruct T as (ev & F & ->). destruct T' as (ev' & F' & ->).
    apply (Forall2_text _ _ _ F') . apply (Forall2_text _ _ _ F) in If as (l & e & Il & R). exists l, e.
    split; [now apply I|exact R]. }
  assert (Iu : incl u u').
  { intros f If. destruct T as (ev & F & ->). destruct T' as (ev' & F' & ->).
    apply (Forall2_text _ _ _ F') . apply (Forall2_text _ _ _ F) in If as (l & e & Il & R). exists l, e.
    split; [now apply I|exact R]. }
  intros a w i X. apply B in X as (f & [If|(n & SN & ->)] & Q).
  - left. apply B'. exists f. split; [|exact Q]. left. apply in_app_iff in If as [If|If]; apply in_app_iff; auto.
  - destruct (bit_at fr' a w i) eqn:E; [now left|]. right. exists n. split; [exact SN|]. split; [|exact Q].
    intros SN'. assert (bit_at fr' a w i = true); [|congruence]. apply B'. exists (plain_feature n).
    split; [|exact Q]. right. exists n. auto.
Qed.
Print Assumptions C42_more_lines.

(** ... so without STEPDOWN requests every bit stays. *)
Corollary C42_more_lines_no_stepdown :
  forall ord ord' tls t t' pud fs fr fr',
  usable_grid (tl_grid tls) -> numbered_grid (tl_grid tls) -> good_orders ord -> good_orders ord' ->
  short_lines t' -> incl (getlines t) (getlines t') ->
  pudcb_features (tl_grid tls) = Ok pud -> text_features Iso t fs ->
  (forall f tile site tag, In f (pud ++ fs) -> uses f tile site tag -> ~ contains (tx "STEPDOWN") tag) ->
  assemble_frames Iso ord tls t = Ok fr -> assemble_frames Iso ord' tls t' = Ok fr' ->
  forall a w i, bit_at fr a w i = true -> bit_at fr' a w i = true.
Proof.
  intros ord ord' tls t t' pud fs fr fr' U NG G G' SL' I EP T NS H H' a w i X.
  destruct (run_result Iso ord' tls t' pud fr' U NG G' (fun fs => text_reported t' fs SL') EP H')
    as (fs' & T' & _).
  destruct (C42_more_lines ord ord' tls t t' pud fs fs' fr fr') as [_ M]; auto.
  destruct (M a w i X) as [Y|(n & SN & _)]; [exact Y|exfalso].
  assert (W : forall b tag, ~ wants_stepdown (tl_banks tls) (pud ++ fs) b tag).
  { intros b tag (f & ti & si & bs & If & Us & C & _). eapply NS; eauto. }
  destruct SN as [bank tag ts tile t0 s fn label Wa|bank tag ts tile Wa]; eapply W; eauto.
Qed.
Print Assumptions C42_more_lines_no_stepdown.

(** The exception is real: using a site takes its implied STEPDOWN bit away. *)
Theorem C42_implied_bit_lost_refuted :
  let t := unlines [tx "LIOB33_X0Y1.IOB_Y0.STEPDOWN"] in
  let t' := unlines [tx "LIOB33_X0Y1.IOB_Y0.STEPDOWN"; tx "LIOB33_X0Y1.IOB_Y1.PULLTYPE.PULLUP"] in
  run_check (assemble_frames Iso ex_orders ex_db t) (fun fr => bit_at fr 38 2 22) = true /\
  run_check (assemble_frames Iso ex_orders ex_db t') (fun fr => negb (bit_at fr 38 2 22)) = true.
Proof. split; vm_compute; reflexivity. Qed.
Print Assumptions C42_implied_bit_lost_refuted.

Example C42_case :
  incl [plain_feature (tx "CLBLL_L_X2Y1.SLICEL_X0.FFSYNC")]
       [plain_feature (tx "CLBLL_L_X2Y1.CLBLL_L_A1.IMUX_L6"); plain_feature (tx "CLBLL_L_X2Y1.SLICEL_X0.FFSYNC")]
  /\ Forall reported [plain_feature (tx "CLBLL_L_X2Y1.CLBLL_L_A1.IMUX_L6"); plain_feature (tx "CLBLL_L_X2Y1.SLICEL_X0.FFSYNC")].
Proof. split; [apply incl_tl, incl_refl|]. repeat (constructor; [apply plain_reported|]). constructor. Qed.
