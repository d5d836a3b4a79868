(** Property C114: how a design is written down does not matter, only which bits of which features it sets. *)
From Verif Require Import Base BaseFacts Absl Part PartSpec Frame Frames Fasm FasmSpec FasmFacts FasmShape FasmFile FasmSafe
  DbText DbJson Database Packet Writer WriterFacts ConfigSpec ContainerSpec Reader Encode EncodeSpec EncodeFacts
  Assembler AsmSpec LookupFacts AsmLines AsmItems AsmWhole DbSpec DbFacts JsonSpec LoadSpec LoadFacts P_Database4 P_Main P_Main2 EndSpec AsmExample P_EndToEnd SameSpec SameFacts P_Repro
  P_Equiv P_Place MapFacts EndFacts P_Local ResultSpec P_Result P_Cut P_Input FasmTextSpec P_FasmText P_Growth SpellSpec.
From Coq Require Import Lia.

(** ** A reported feature has no bits beyond its width *)
Definition ev_live (e : event) : Prop := match e with EFeature _ _ _ w v => v < 2 ^ w | EAnnotation _ _ _ _ => True end.
Lemma report_live cb line name mn w tot bs : forall chunk st st',
  report Iso cb line name mn w tot chunk bs st = Ok st' -> Forall ev_live (p_events st) -> Forall ev_live (p_events st').
Proof.
  induction bs as [|v bs IH]; intros chunk st st' H F; cbn [report] in H.
  - inversion H; subst. exact F.
  - fold (chunk_width w tot chunk) in H. pose proof (chunk_width_u32 w tot chunk) as CW.
    set (vw := chunk_width w tot chunk) in *. clearbody vw. bind H as m EM.
    assert (VW : 1 <= vw <= 64) by (apply clamp_iso_sane; eauto). rewrite clamp_mask_ok in EM by exact VW. injection EM as <-.
    set (e := EFeature line name (u32 (mn + u32 (chunk * 64))) vw (N.land v (N.ones vw))) in *.
    assert (OK : ev_live e).
    { unfold e, ev_live. rewrite N.land_ones. apply N.mod_lt. apply N.pow_nonzero. discriminate. }
    assert (F' : Forall ev_live (p_events (p_emit e st))).
    { cbn [p_emit p_events]. apply Forall_app. split; [exact F|]. now constructor. }
    clearbody e. destruct (cb _).
    + eapply IH; [exact H|exact F'].
    + inversion H; subst. exact F'.
Qed.
Lemma no_feature_live l : no_feature l -> Forall ev_live l.
Proof. apply Forall_impl. intros []; [contradiction|exact (fun _ => Logic.I)]. Qed.
Lemma parse_line_live cb annot line st it st' r : parse_line Iso cb annot line st it = Ok (st', r) ->
  Forall ev_live (p_events st) -> Forall ev_live (p_events st').
Proof.
  intros H F. unfold parse_line in H. bind H as i0 E. bind H as [name i1] E0. bind H as i2 E1.
  destruct name as [|n0 ns].
  - bind H as [st1 i3] E2. apply parse_annotations_events in E2. destruct E2 as (l1 & El1 & NF).
    apply parse_eol_events in H. rewrite H, El1. apply Forall_app. split; [exact F|]. now apply no_feature_live.
  - bind H as rg E2. destruct rg as [mx mn i3|i3|i3].
    + bind H as i4 E3. cbv zeta in H. bind H as [[[bs w] st1] i5] E4.
      apply parse_assign_split in E4. destruct E4 as (_ & _ & EV & _).
      bind H as st2 E5. bind H as [st3 i6] E6. apply parse_annotations_events in E6. destruct E6 as (l2 & El2 & NF).
      apply parse_eol_events in H. rewrite H, El2. apply Forall_app. split; [|now apply no_feature_live].
      eapply report_live; [exact E5|rewrite EV; exact F].
    + bind H as i4 E3. inversion H; subst. exact F.
    + bind H as i4 E3. inversion H; subst. exact F.
Qed.
Lemma lines_live cb annot n : forall line st it st', (List.length it <= n)%nat ->
  lines Iso cb annot line st it = Ok st' -> Forall ev_live (p_events st) -> Forall ev_live (p_events st').
Proof.
  induction n as [|n IH]; intros line st it st' L H F.
  - destruct it as [|c it]; [|cbn in L; lia]. cbn in H. inversion H; subst. exact F.
  - destruct it as [|c it]; [cbn in H; inversion H; subst; exact F|].
    rewrite lines_step in H by discriminate. bind H as [st1 r] E. pose proof (parse_line_shrinks _ _ _ _ _ _ _ _ E).
    apply parse_line_live in E; auto. eapply IH; [|exact H|exact E]; lia.
Qed.
Lemma fasm_live cb annot t st : fasm_parse Iso cb annot t = Ok st -> Forall ev_live (p_events st).
Proof.
  intros H. unfold fasm_parse in H. destruct t as [|c t]; [inversion H; subst; constructor|].
  destruct (ch_is _ _).
  - fold (lines Iso cb annot 0 {| p_events := []; p_result := kSuccess |} (c :: t)) in H.
    eapply (lines_live cb annot (List.length (c :: t))); [apply le_n|exact H|constructor].
  - inversion H; subst. constructor.
Qed.
Lemma text_live input fs : text_features Iso input fs -> Forall live fs.
Proof.
  intros (evss & F & ->). induction F as [|line evs ls es P F IH]; cbn [flat_map]; [constructor|].
  apply Forall_app. split; [|exact IH]. destruct P as (r & E & _). apply fasm_live in E. cbn [p_events] in E.
  clear - E. unfold line_features. induction E as [|e l H HF IH]; cbn [flat_map]; [constructor|].
  apply Forall_app. split; [|exact IH]. destruct e; cbn [feature_of_event]; repeat constructor. now apply live_lt.
Qed.

(** ** Everything the program does with a design depends on the bits it switches on *)
Section Same.
  Context (e : environment) (root : text) (g : tilegrid) (p : db_part) (pins : list package_pin) (fs fs' : list fasm_feature).
  Hypothesis L : Forall live fs.
  Hypothesis L' : Forall live fs'.
  Hypothesis S : same_switches fs fs'.

  Lemma uses_same t s tag : (exists f, In f fs /\ uses f t s tag) -> exists f, In f fs' /\ uses f t s tag.
  Proof. apply on_uses; [exact L|]. intros n k. apply S. Qed.
  Lemma uses_back t s tag : (exists f, In f fs' /\ uses f t s tag) -> exists f, In f fs /\ uses f t s tag.
  Proof. apply on_uses; [exact L'|]. intros n k. apply S. Qed.
  Lemma steps_same b tag : bank_steps_down p pins fs b tag -> bank_steps_down p pins fs' b tag.
  Proof.
    intros (f & tile & site & I & U & R). destruct (uses_same tile site tag) as (f' & I' & U'); [eauto|]. exists f', tile, site. auto.
  Qed.
  Lemma implied_same name : implied g p pins fs name -> implied g p pins fs' name.
  Proof.
    intros [bank tag tile t s fn label B IB C M Is La NU|bank tag tile B IB C].
    - eapply implied_site; eauto using steps_same. intros (f & tg & I & U). apply NU.
      destruct (uses_back tile label tg) as (f' & I' & U'); [eauto|]. exists f', tg. auto.
    - eapply implied_clock; eauto using steps_same.
  Qed.
  Lemma shown_same a w i : (exists f, in_design g p pins fs f /\ sets_bit e root g f a w i) ->
    exists f, in_design g p pins fs' f /\ sets_bit e root g f a w i.
  Proof.
    intros (f & [I|(name & IM & ->)] & tile & rest & k & bus & b & l & sb & F & En & R).
    - destruct (proj1 (S (ff_name f) k)) as (f' & I' & N' & E'); [exists f; auto|].
      exists f'. split; [now left|]. exists tile, rest, k, bus, b, l, sb. rewrite N'. auto.
    - exists (plain_feature name). split; [right; exists name; split; [now apply implied_same|reflexivity]|].
      exists tile, rest, k, bus, b, l, sb. auto.
  Qed.
  Lemma package_same : package_covers g p pins fs' -> package_covers g p pins fs.
  Proof.
    intros (A1 & A2). split.
    - intros f tile site tag If U C. destruct (uses_same tile site tag) as (f' & I' & U'); [eauto|]. exact (A1 f' tile site tag I' U' C).
    - intros bank tag tile B. apply (A2 bank tag tile). now apply steps_same.
  Qed.
End Same.

Lemma covered_same_switches e root g p pins fs fs' : Forall live fs -> Forall live fs' -> same_switches fs fs' -> (forall f, In f fs' -> tiled (ff_name f)) ->
  (forall f, in_design g p pins fs f -> covered e root g f) -> forall f, in_design g p pins fs' f -> covered e root g f.
Proof.
  intros L L' S TI C f [I|(name & IM & ->)].
  - split.
    + destruct (TI f I) as (tile & rest & F). exists tile, rest. split; [exact F|]. intros k En.
      destruct (proj2 (S (ff_name f) k)) as (f0 & I0 & N0 & E0); [exists f; auto|].
      destruct (C f0 (or_introl I0)) as [(t1 & r1 & F1 & K) _]. rewrite N0 in F1. destruct (first_dot_fun _ _ _ _ _ F F1) as [<- <-]. auto.
    + intros a w i (tile & rest & k & bus & b & l & sb & F & En & R).
      destruct (proj2 (S (ff_name f) k)) as (f0 & I0 & N0 & E0); [exists f; auto|].
      destruct (C f0 (or_introl I0)) as [_ W]. apply (W a w i). exists tile, rest, k, bus, b, l, sb. rewrite N0. auto.
  - apply C. right. exists name. split; [|reflexivity].
    apply (implied_same g p pins fs' fs); auto. intros n k. symmetry. apply S.
Qed.

(** Property C114.  A run succeeds on a design; the same database gets another text that switches on the same bits of the same features:
    lines in another order, twice, in another notation, split into single bits, with or without zero bits, comments, annotations.  The run
    on that text succeeds too, with the same bytes. *)
Theorem C114_only_the_bits_matter :
  forall fuel ord ord' c c' root input input' g p pins feats feats' s,
  run_succeeds fuel ord c root input g p pins feats s ->
  e_walk (c_env c) root <> None -> inside_frames (c_env c) root g ->
  good_orders ord' -> same_but_input c c' -> input_text c' = Some input' -> short_lines input' -> text_features Iso input' feats' ->
  same_switches feats feats' -> (forall f, In f feats' -> tiled (ff_name f)) ->
  exists fuel0 s', (forall fuel', (fuel0 <= fuel')%nat -> main_program fuel' Iso ord' c' = Ok (0, s')) /\ st_bytes s' = st_bytes s.
Proof.
  intros fuel ord ord' c c' root input input' g p pins feats feats' s R WK IF G' (S1 & S2 & S3 & S4 & S5 & S6 & S7 & S8) EI' SL' T' SS TI.
  destruct (run_covered _ _ _ _ _ _ _ _ _ _ R WK IF) as (pud & PD & PK & CV).
  pose proof (run_proper _ _ _ _ _ _ _ _ _ _ R) as [LA PR PN PX PP PI PO PDt PT].
  pose proof R as [G ES [HD LD] [HT LT] SF SW ER EI SL T DS CD DB OP H].
  assert (LP : Forall live pud).
  { destruct PD as [[-> _]|(tile & site & label & _ & _ & ->)]; [constructor|].
    apply Forall_forall. intros f I. apply in_map_iff in I as (n & <- & _). apply live_lt. vm_compute. reflexivity. }
  pose proof (text_live _ _ T) as L1. pose proof (text_live _ _ T') as L2.
  assert (LA1 : Forall live (pud ++ feats)) by (apply Forall_app; auto).
  assert (LA2 : Forall live (pud ++ feats')) by (apply Forall_app; auto).
  assert (S : same_switches (pud ++ feats) (pud ++ feats')).
  { intros n k. change switches with on. rewrite !on_app. change on with switches. specialize (SS n k). tauto. }
  assert (TA : forall f, In f (pud ++ feats') -> tiled (ff_name f)).
  { intros f I. apply in_app_iff in I as [I|I]; [|auto]. destruct (CV f) as [(t & r & F & _) _]; [left; apply in_app_iff; auto|]. exists t, r. exact F. }
  assert (ER' : db_path c' = Some root) by (unfold db_path in *; now rewrite S1, S2).
  destruct (C71_covered_designs_are_written_for_any_reading ord' c' root input' g p pins feats' pud) as (fuel0 & s' & H'); try assumption; rewrite ?S3, ?S4, ?S5, ?S6, ?S7; try assumption.
  - apply SW.
  - apply (package_same g p pins (pud ++ feats') (pud ++ feats)); auto. intros n k. symmetry. apply S.
  - intros f I. eapply (covered_same_switches _ _ _ _ _ (pud ++ feats)); eauto.
  - exists fuel0, s'. split; [exact H'|]. specialize (H' fuel0 (le_n _)).
    assert (R' : run_succeeds fuel0 ord' c' root input' g p pins feats' s').
    { constructor; rewrite ?S3, ?S4, ?S5, ?S6, ?S7; try assumption; split; assumption. }
    destruct (run_file _ _ _ _ _ _ _ _ _ _ R) as (fs & X1 & F1 & C1 & B1 & ->).
    destruct (run_file _ _ _ _ _ _ _ _ _ _ R') as (fs' & X2 & F2 & C2 & B2 & ->).
    rewrite S4 in B2. rewrite S5, S6. f_equal. apply frames_ext; auto.
    + intros a. rewrite F1, F2. reflexivity.
    + intros a w i. unfold shows. rewrite B1, B2. unfold asks_for. split.
      * intros (q & f & Q & I & X). assert (q = pud) as -> by (eapply pudcb_unique; eauto).
        destruct (shown_same (c_env c) root g p pins (pud ++ feats') (pud ++ feats) LA2 LA1) with (a := a) (w := w) (i := i) as (f' & I' & X'); [intros n k; symmetry; apply S|eauto|].
        exists pud, f'. auto.
      * intros (q & f & Q & I & X). assert (q = pud) as -> by (eapply pudcb_unique; eauto).
        destruct (shown_same (c_env c) root g p pins (pud ++ feats) (pud ++ feats') LA1 LA2) with (a := a) (w := w) (i := i) as (f' & I' & X'); [exact S|eauto|].
        exists pud, f'. auto.
Qed.
Print Assumptions C114_only_the_bits_matter.

(** ** The same lines *)
Lemma parsed_feats input evss : Forall2 (line_parsed Iso) (getlines input) evss ->
  forall f, In f (flat_map line_features evss) <-> exists line evs, In line (getlines input) /\ line_parsed Iso line evs /\ In f (line_features evs).
Proof.
  intros F f. rewrite in_flat_map. induction F as [|line evs ls es P F IH].
  - split; [intros (x & [] & _)|intros (l & e & [] & _)].
  - split.
    + intros (x & [<-|I] & If); [exists line, evs; split; [now left|auto]|].
      destruct (proj1 IH) as (l & e & I' & R); [eauto|]. exists l, e. split; [now right|exact R].
    + intros (l & e & [<-|I] & P' & If).
      * exists evs. split; [now left|]. destruct P as (r & Q & _), P' as (r' & Q' & _). rewrite Q in Q'. now injection Q' as <- _.
      * destruct (proj2 IH) as (x & Ix & R); [eauto|]. exists x. split; [now right|exact R].
Qed.
Lemma same_lines_features t t' fs : same_lines t t' -> text_features Iso t fs ->
  exists fs', text_features Iso t' fs' /\ forall f, In f fs <-> In f fs'.
Proof.
  intros S (evss & F & ->).
  assert (X : exists evss', Forall2 (line_parsed Iso) (getlines t') evss').
  { assert (A : forall l, In l (getlines t') -> exists evs, line_parsed Iso l evs).
    { intros l I. apply S in I. clear - I F. induction F as [|line evs ls es P F IH]; [destruct I|]. destruct I as [<-|I]; eauto. }
    revert A. generalize (getlines t'). intros ls A. induction ls as [|l ls IH]; [exists []; constructor|].
    destruct (A l) as (ev & P); [now left|]. destruct IH as (es & F'); [intros x I; apply A; now right|]. exists (ev :: es). now constructor. }
  destruct X as (evss' & F'). exists (flat_map line_features evss'). split; [exists evss'; auto|].
  intros f. rewrite (parsed_feats _ _ F), (parsed_feats _ _ F'). split; intros (l & ev & I & R); exists l, ev; (split; [now apply S|exact R]).
Qed.

(** Lines in another order, lines that are there twice: no difference. *)
Corollary C114_order_and_repetition_of_lines :
  forall fuel ord ord' c c' root input input' g p pins feats s,
  run_succeeds fuel ord c root input g p pins feats s ->
  e_walk (c_env c) root <> None -> inside_frames (c_env c) root g ->
  good_orders ord' -> same_but_input c c' -> input_text c' = Some input' -> same_lines input input' ->
  exists fuel0 s', (forall fuel', (fuel0 <= fuel')%nat -> main_program fuel' Iso ord' c' = Ok (0, s')) /\ st_bytes s' = st_bytes s.
Proof.
  intros fuel ord ord' c c' root input input' g p pins feats s R WK IF G' SB EI' SL.
  destruct (same_lines_features _ _ _ SL (rs_features _ _ _ _ _ _ _ _ _ _ R)) as (feats' & T' & E).
  eapply (C114_only_the_bits_matter fuel ord ord' c c'); eauto.
  - intros l I. apply (rs_short _ _ _ _ _ _ _ _ _ _ R). now apply SL.
  - intros n k. split; intros (f & I & Q); exists f; (split; [now apply E|exact Q]).
  - intros f I. apply E in I. destruct (run_covered _ _ _ _ _ _ _ _ _ _ R WK IF) as (pud & _ & _ & CV).
    destruct (CV f) as [(tile & rest & F & _) _]; [left; apply in_app_iff; auto|]. exists tile, rest. exact F.
Qed.
Print Assumptions C114_order_and_repetition_of_lines.

(** ** One line for each bit *)
Lemma text_names t fs f : text_features Iso t fs -> In f fs -> ff_name f <> [] /\ Forall is_name_char (ff_name f).
Proof.
  intros (evss & F & ->) I. apply (proj1 (parsed_feats _ _ F f)) in I as (line & evs & _ & (r & P & _) & I).
  destruct (C111_reports_stand_in_the_text _ _ _ _ _ P) as [ST _]. cbn [p_events] in ST.
  unfold line_features in I. apply in_flat_map in I as (e & Ie & I). rewrite Forall_forall in ST. destruct (ST e Ie) as (a & t' & _ & _ & LS & _).
  destruct e as [l name mn w v|]; [|destruct I]. destruct I as [<-|[]]. cbn [ff_name]. destruct LS as [NE (b & m & _ & _ & NC & _)]. auto.
Qed.
Lemma decimal_numeral ds k : DbSpec.decimal ds k -> FasmSpec.numeral 10 ds /\ numeral_value 10 ds = k.
Proof.
  intros (_ & vs & F & ->).
  assert (A : forall c d, dec_code c d -> digit_value c = Some d).
  { intros c d [L E]. unfold digit_value, code. rewrite E.
    destruct (N.leb_spec 48 (48 + d)); [|lia]. destruct (N.leb_spec (48 + d) 57); [|lia]. cbn [andb]. f_equal. lia. }
  assert (D : FasmSpec.numeral 10 ds /\ numeral_digits ds = vs).
  { induction F as [|c d cs vs C F IH]; [split; [constructor|reflexivity]|]. destruct IH as [I1 I2]. pose proof (A _ _ C) as V. split.
    - constructor; [right; exists d; split; [exact V|apply C]|exact I1].
    - cbn [numeral_digits]. rewrite V. now f_equal. }
  destruct D as [D1 D2]. split; [exact D1|]. unfold numeral_value, digits_value. rewrite D2. generalize 0.
  clear. induction vs as [|v vs IH]; intros a; cbn [fold_left]; [reflexivity|]. rewrite IH. f_equal. lia.
Qed.
Definition bit_item (n ds : text) : item :=
  {| i_b0 := []; i_feature := Some {| f_name := n; f_b1 := []; f_range := Some {| r_b0 := []; r_hi := ds; r_b1 := []; r_lo := None |}; f_b2 := []; f_assign := None |};
     i_end := EndNone |}.
Lemma bit_items bits ls : Forall2 bit_line bits ls -> (forall b, In b bits -> fst b <> [] /\ Forall is_name_char (fst b) /\ snd b < 2 ^ 16) ->
  exists items, file_text items = unlines ls /\ Forall item_shape items /\ Forall item_in_range items /\
    flat_map (fun i => line_features (item_events 1 i)) items = map (fun b => bit_feature (fst b) (snd b)) bits.
Proof.
  intros F H. induction F as [|[n k] l bits ls (ds & D & E) F IH].
  - exists []. repeat split; constructor.
  - destruct IH as (items & X1 & X2 & X3 & X4); [intros b I; apply H; now right|].
    destruct (H (n, k) (or_introl eq_refl)) as (NE & NC & LK). cbn [fst snd] in *.
    destruct (decimal_numeral _ _ D) as [NU V]. exists (bit_item n ds :: items).
    split; [|split; [|split]].
    + unfold file_text, unlines in *. cbn [map concat]. rewrite X1. f_equal. rewrite E. unfold item_text, bit_item, feature_text, range_text. cbn [i_b0 i_feature i_end f_name f_b1 f_range f_b2 f_assign r_b0 r_hi r_b1 r_lo ending_text app].
      rewrite !app_nil_r. rewrite <- !app_assoc. reflexivity.
    + constructor; [|exact X2]. unfold item_shape, bit_item, feature_shape, range_shape. cbn [i_b0 i_feature i_end f_name f_b1 f_range f_b2 f_assign r_b0 r_hi r_b1 r_lo ending_shape].
      unfold blanks. repeat split; auto.
    + constructor; [|exact X3]. unfold item_in_range, bit_item, feature_in_range, feature_width, range_hi, range_lo. cbn [i_feature f_range r_hi r_lo f_assign].
      rewrite V. split; [exact LK|]. split; [lia|]. rewrite N.sub_diag. discriminate.
    + cbn [flat_map map]. rewrite X4. rewrite item_line_features. cbn [bit_item i_feature]. rewrite feature_features.
      unfold chunk_feature, feature_width, feature_value, range_hi, range_lo. cbn [f_range r_hi r_lo f_assign f_name fst snd].
      rewrite V, N.sub_diag. change (N.to_nat (chunk_count (0 + 1))) with 1%nat. cbn [seq map app]. change (64 * N.of_nat 0) with 0. rewrite N.add_0_r. reflexivity.
Qed.

(** The plainest text for a design - one line [name[k]] for each bit it switches on, in any order, nothing else - gives the same file. *)
Corollary C114_bit_by_bit :
  forall fuel ord ord' c c' root input input' g p pins feats s bits,
  run_succeeds fuel ord c root input g p pins feats s ->
  e_walk (c_env c) root <> None -> inside_frames (c_env c) root g ->
  good_orders ord' -> same_but_input c c' -> input_text c' = Some input' -> short_lines input' ->
  bit_by_bit bits input' -> (forall n k, In (n, k) bits <-> switches feats n k) -> (forall n k, In (n, k) bits -> k < 2 ^ 16) ->
  exists fuel0 s', (forall fuel', (fuel0 <= fuel')%nat -> main_program fuel' Iso ord' c' = Ok (0, s')) /\ st_bytes s' = st_bytes s.
Proof.
  intros fuel ord ord' c c' root input input' g p pins feats s bits R WK IF G' SB EI' SL (ls & F & ->) B LT.
  assert (NA : forall b, In b bits -> fst b <> [] /\ Forall is_name_char (fst b) /\ snd b < 2 ^ 16).
  { intros [n k] I. cbn [fst snd]. pose proof (LT _ _ I) as LK. apply B in I as (f & If & <- & _).
    destruct (text_names _ _ _ (rs_features _ _ _ _ _ _ _ _ _ _ R) If). auto. }
  destruct (bit_items _ _ F NA) as (items & E & IS & IR & O). pose proof (file_features Iso items IS IR) as T'. rewrite E in T'.
  rewrite O in T'. set (feats' := map _ bits) in T'.
  assert (EN : forall n k x, In (n, k) bits -> (enables (bit_feature n k) x <-> x = k)).
  { intros n k x I. apply enables_bit. pose proof (LT _ _ I) as LK. revert LK. clear. assert (P : 2 ^ 16 < 2 ^ 32) by (vm_compute; reflexivity). intros. lia. }
  assert (SW : forall n k, switches feats' n k <-> In (n, k) bits).
  { intros n k. unfold switches, feats'. split.
    - intros (f & I & N1 & En). apply in_map_iff in I as ([n0 k0] & <- & I). cbn [fst snd] in *. cbn [bit_feature ff_name] in N1. subst n0.
      apply (EN _ _ _ I) in En. now subst.
    - intros I. exists (bit_feature n k). split; [apply in_map_iff; exists (n, k); auto|]. split; [reflexivity|]. now apply EN. }
  eapply (C114_only_the_bits_matter fuel ord ord' c c'); eauto.
  - intros n k. rewrite SW, B. reflexivity.
  - intros f I. unfold feats' in I. apply in_map_iff in I as ([n k] & <- & I). cbn [bit_feature ff_name fst].
    apply B in I as (f0 & I0 & <- & _). destruct (run_covered _ _ _ _ _ _ _ _ _ _ R WK IF) as (pud & _ & _ & CV).
    destruct (CV f0) as [(tile & rest & F0 & _) _]; [left; apply in_app_iff; auto|]. exists tile, rest. exact F0.
Qed.
Print Assumptions C114_bit_by_bit.

(** The demonstration run: its lines in another order, one of them twice; and its three bits, one a line. *)
Definition shuffled_input : text :=
  unlines [tx "LIOB33_X0Y1.IOB_Y1.STEPDOWN"; tx "# a comment"; tx "CLBLL_L_X2Y1.SLICEL_X0.ALUT.INIT[1:0] = 2'b10"; tx "LIOB33_X0Y1.IOB_Y1.STEPDOWN"; tx "CLBLL_L_X2Y1.CLBLL_L_A1.IMUX_L6"].
Definition plain_input : text :=
  unlines [tx "CLBLL_L_X2Y1.CLBLL_L_A1.IMUX_L6[0]"; tx "CLBLL_L_X2Y1.SLICEL_X0.ALUT.INIT[01]"; tx "LIOB33_X0Y1.IOB_Y1.STEPDOWN[0]"].
Definition plain_bits : list (text * N) :=
  [(tx "CLBLL_L_X2Y1.CLBLL_L_A1.IMUX_L6", 0); (tx "CLBLL_L_X2Y1.SLICEL_X0.ALUT.INIT", 1); (tx "LIOB33_X0Y1.IOB_Y1.STEPDOWN", 0)].

Lemma small_input input : forallb (fun l => N.of_nat (List.length l) <? 2 ^ 24 - 1) (getlines input) = true -> short_lines input.
Proof. intros F line I. rewrite forallb_forall in F. specialize (F _ I). now apply N.ltb_lt. Qed.

Lemma plain_enables n k : enables (plain_feature n) k <-> k = 0.
Proof.
  unfold enables. cbn [plain_feature ff_start ff_width ff_bits]. split.
  - intros (j & L & _ & ->). replace j with 0 by lia. reflexivity.
  - intros ->. exists 0. repeat split; lia.
Qed.
Lemma lut_enables k : enables (lut 2) k <-> k = 1.
Proof.
  unfold enables, lut. cbn [ff_start ff_width ff_bits]. split.
  - intros (j & L & B & ->). assert (j = 0 \/ j = 1) as [-> | ->] by lia; [discriminate B|reflexivity].
  - intros ->. exists 1. repeat split.
Qed.
Lemma plain_switches n k : In (n, k) plain_bits <-> switches (lut 2 :: demo_rest) n k.
Proof.
  unfold plain_bits, demo_rest. split.
  - intros [X|[X|[X|[]]]].
    + assert (n = tx "CLBLL_L_X2Y1.CLBLL_L_A1.IMUX_L6" /\ k = 0) as [-> ->] by (split; [exact (eq_sym (f_equal fst X))|exact (eq_sym (f_equal snd X))]).
      eexists. split; [right; left; reflexivity|]. split; [reflexivity|]. now apply plain_enables.
    + assert (n = tx "CLBLL_L_X2Y1.SLICEL_X0.ALUT.INIT" /\ k = 1) as [-> ->] by (split; [exact (eq_sym (f_equal fst X))|exact (eq_sym (f_equal snd X))]).
      eexists. split; [left; reflexivity|]. split; [reflexivity|]. now apply lut_enables.
    + assert (n = tx "LIOB33_X0Y1.IOB_Y1.STEPDOWN" /\ k = 0) as [-> ->] by (split; [exact (eq_sym (f_equal fst X))|exact (eq_sym (f_equal snd X))]).
      eexists. split; [right; right; left; reflexivity|]. split; [reflexivity|]. now apply plain_enables.
  - intros (f & [<-|[<-|[<-|[]]]] & <- & En).
    + apply lut_enables in En as ->. right. left. reflexivity.
    + apply plain_enables in En as ->. left. reflexivity.
    + apply plain_enables in En as ->. right. right. left. reflexivity.
Qed.

Example C114_case :
  exists s s1 s2 fuel0, runs demo_input s /\
    (forall fuel', (fuel0 <= fuel')%nat -> main_program fuel' Iso ex_orders (demo_command shuffled_input) = Ok (0, s1)) /\ st_bytes s1 = st_bytes s /\
    (forall fuel', (fuel0 <= fuel')%nat -> main_program fuel' Iso ex_orders (demo_command plain_input) = Ok (0, s2)) /\ st_bytes s2 = st_bytes s.
Proof.
  destruct C81_case as (s & _ & _ & R & _). destruct (demo_run _ _ R) as (pins & feats & RS).
  pose proof (text_features_fun _ _ _ _ (rs_features _ _ _ _ _ _ _ _ _ _ RS) demo_feats) as E. subst feats.
  destruct (C114_order_and_repetition_of_lines _ _ ex_orders _ (demo_command shuffled_input) _ _ shuffled_input _ _ _ _ _ RS) as (f1 & s1 & H1 & E1).
  - vm_compute. discriminate.
  - exact demo_inside.
  - exact ex_orders_good.
  - apply demo_same_but.
  - reflexivity.
  - intros l. cbn. tauto.
  - destruct (C114_bit_by_bit _ _ ex_orders _ (demo_command plain_input) _ _ plain_input _ _ _ _ _ plain_bits RS) as (f2 & s2 & H2 & E2).
    + vm_compute. discriminate.
    + exact demo_inside.
    + exact ex_orders_good.
    + apply demo_same_but.
    + reflexivity.
    + apply small_input. vm_compute. reflexivity.
    + eexists. split; [|reflexivity].
      assert (D : forall s vs v, Forall2 dec_code s vs -> s <> [] -> v = fold_left (fun a d => 10 * a + d) vs 0 -> DbSpec.decimal s v) by (intros; split; [assumption|eexists; eauto]).
      repeat constructor; cbn [fst snd].
      * exists (tx "0"). split; [|reflexivity]. apply (D _ [0]); [repeat constructor|discriminate|reflexivity].
      * exists (tx "01"). split; [|reflexivity]. apply (D _ [0; 1]); [repeat constructor|discriminate|reflexivity].
      * exists (tx "0"). split; [|reflexivity]. apply (D _ [0]); [repeat constructor|discriminate|reflexivity].
    + exact plain_switches.
    + intros n k [X|[X|[X|[]]]]; injection X as _ <-; reflexivity.
    + exists s, s1, s2, (Nat.max f1 f2). split; [exact R|]. split; [intros; apply H1; lia|]. split; [exact E1|]. split; [intros; apply H2; lia|exact E2].
Qed.
