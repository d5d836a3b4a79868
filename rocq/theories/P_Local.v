(** Property C97: a change of the design changes the file only in the frames of the tiles it reaches. *)
From Verif Require Import Base BaseFacts Absl Part PartSpec Frame Frames Fasm FasmSpec
  DbText DbJson Database Packet Writer WriterFacts ConfigSpec ContainerSpec Reader Encode EncodeSpec EncodeFacts
  Assembler AsmSpec LookupFacts AsmWhole DbSpec JsonSpec LoadSpec P_Database4 P_Main P_Main2 EndSpec AsmExample P_EndToEnd SameSpec SameFacts P_Repro
  P_Equiv PlaceSpec PlaceFacts P_Place PartFromFacts LocalSpec MapFacts EndFacts.
From Coq Require Import Lia.

Lemma feature_dec (f f' : fasm_feature) : {f = f'} + {f <> f'}.
Proof. decide equality; try apply N.eq_dec. apply (list_eq_dec ascii_dec). Qed.
Lemma feature_in_dec (f : fasm_feature) l : {In f l} + {~ In f l}.
Proof. apply in_dec, feature_dec. Qed.

Lemma first_dot_fun n a b a' b' : first_dot n a b -> first_dot n a' b' -> a = a' /\ b = b'.
Proof.
  intros [E Na] [E' Na']. rewrite E in E'. clear E n. unfold dotted in E'. revert a' Na' E'.
  induction a as [|x a IH]; intros [|y a'] Na' E; cbn [app] in E.
  - split; [reflexivity|]. congruence.
  - exfalso. apply Na'. left. congruence.
  - exfalso. apply Na. left. congruence.
  - assert (x = y) as -> by congruence. assert (E2 : a ++ dot :: b = a' ++ dot :: b') by congruence.
    destruct (IH (fun H => Na (or_intror H)) a' (fun H => Na' (or_intror H)) E2) as [-> ->]. now split.
Qed.
Lemma path3_first n tile site tag : path3 n tile site tag -> exists rest, first_dot n tile rest.
Proof. intros (A & B & C & [E|(r & E)]); eexists; split; eauto. Qed.

Lemma changed_sym fe fe' f : changed fe fe' f -> changed fe' fe f.
Proof. intros [H|H]; [right|left]; exact H. Qed.
Lemma reached_sym p pins fe fe' tile : reached p pins fe fe' tile -> reached p pins fe' fe tile.
Proof. intros [f r C F|f t0 s tag bank C U K B I D]; [eapply reached_self|eapply reached_bank]; eauto using changed_sym. Qed.
Lemma changed_app q fe fe' f : changed (q ++ fe) (q ++ fe') f -> changed fe fe' f.
Proof. intros [[A B]|[A B]]; [left|right]; rewrite in_app_iff in *; tauto. Qed.
Lemma reached_app q p pins fe fe' tile : reached p pins (q ++ fe) (q ++ fe') tile -> reached p pins fe fe' tile.
Proof. intros [f r C F|f t0 s tag bank C U K B I D]; [eapply reached_self|eapply reached_bank]; eauto using changed_app. Qed.

(** Is there a feature of this tile among those of [l] that are not in [l']? *)
Lemma tile_change l l' tile : (exists f rest, In f l /\ ~ In f l' /\ first_dot (ff_name f) tile rest) \/
  (forall f rest, In f l -> first_dot (ff_name f) tile rest -> In f l').
Proof.
  induction l as [|f l IH]; [right; intros ? ? []|]. destruct IH as [(f0 & r & A & B & C)|IH]; [left; exists f0, r; split; [now right|now split]|].
  destruct (feature_in_dec f l') as [I|NI].
  - right. intros f0 r [<-|A] B; [exact I|eauto].
  - assert (D : (exists rest, first_dot (ff_name f) tile rest) \/ (forall rest, ~ first_dot (ff_name f) tile rest)).
    { clear. destruct (in_dec ascii_dec dot tile) as [H|H]; [right; intros r [_ Q]; contradiction|].
      generalize (ff_name f). intros n. clear f. revert n. induction tile as [|x t IHt]; intros n.
      - destruct n as [|y n]; [right; intros r [E _]; discriminate E|]. destruct (ascii_dec y dot) as [->|Ny].
        + left. exists n. split; [reflexivity|intros []].
        + right. intros r [E _]. apply Ny. unfold dotted in E. cbn [app] in E. congruence.
      - destruct n as [|y n]; [right; intros r [E _]; discriminate E|]. destruct (ascii_dec y x) as [->|Ny].
        + destruct (IHt (fun q => H (or_intror q)) n) as [(r & E & _)|X].
          * left. exists r. split; [rewrite E; reflexivity|exact H].
          * right. intros r [E _]. apply (X r). split; [|intros q; apply H; now right]. unfold dotted in *. cbn [app] in E. congruence.
        + right. intros r [E _]. apply Ny. unfold dotted in E. cbn [app] in E. congruence. }
    destruct D as [(r & D)|D].
    + left. exists f, r. split; [now left|]. now split.
    + right. intros f0 r [<-|A] B; [exfalso; eapply D; eauto|eauto].
Qed.

(** A feature of one design is in the other one too, or its tile is reached. *)
Lemma design_step g p pins fe fe' f tile rest : plain_tile_names p pins -> in_design g p pins fe f -> first_dot (ff_name f) tile rest ->
  in_design g p pins fe' f \/ reached p pins fe fe' tile.
Proof.
  intros PN [I|(name & Im & E)] F.
  - destruct (feature_in_dec f fe') as [I'|N']; [left; now left|]. right. eapply reached_self; [left; split; eauto|exact F].
  - subst f. cbn [ff_name plain_feature] in F.
    assert (BS : forall bank tag, bank_steps_down p pins fe bank tag -> bank_steps_down p pins fe' bank tag \/
        exists f tile0 site, changed fe fe' f /\ uses f tile0 site tag /\ contains (tx "STEPDOWN") tag /\ bank_of_tile p pins tile0 bank).
    { intros bank tag (f & t0 & site & I & U & K & B). destruct (feature_in_dec f fe') as [I'|N'].
      - left. exists f, t0, site. auto.
      - right. exists f, t0, site. split; [left; now split|auto]. }
    destruct Im as [bank tag tl t s fn label SD IB IO G IS SL NU|bank tag tl SD IB HC].
    + destruct (tile_change fe' fe tl) as [(f & r & A & B & C)|TC].
      { right. assert (D : exists r', first_dot (dotted tl (dotted label tag)) tl r').
        { exists (dotted label tag). split; [reflexivity|]. apply C. }
        destruct D as (r' & D). destruct (first_dot_fun _ _ _ _ _ F D) as [-> _].
        eapply reached_self; [right; split; eauto|exact C]. }
      destruct (BS _ _ SD) as [SD'|(f & t0 & site & C & U & K & B)].
      * left. right. eexists. split; [|reflexivity]. eapply implied_site; eauto. intros (f & tg & I & U). apply NU. exists f, tg. split; [|exact U].
        destruct U as [_ U]. destruct (path3_first _ _ _ _ U) as (r & Fr). eauto.
      * right. destruct (first_dot_fun _ _ _ tl (dotted label tag) F) as [-> _]; [split; [reflexivity|eapply PN; eauto]|].
        eapply reached_bank; eauto.
    + destruct (first_dot_fun _ _ _ tl (tx "STEPDOWN") F) as [-> _]; [split; [reflexivity|eapply PN; eauto]|].
      destruct (BS _ _ SD) as [SD'|(f & t0 & site & C & U & K & B)].
      * left. right. eexists. split; [|reflexivity]. eapply implied_clock; eauto.
      * right. eapply reached_bank; eauto.
Qed.

(** Where the bits of a feature lie. *)
Lemma sets_frame e root g p f a w i : consistent_description e root g p -> sets_bit e root g f a w i ->
  exists tile rest t bus b j k l sb, first_dot (ff_name f) tile rest /\ maps_to g tile t /\ maps_to (t_bits t) bus b /\ j < bb_frames b /\ a = bb_base b + j /\
    listed e root g tile rest k bus b l /\ In sb l /\ lands_at b sb a w i.
Proof.
  intros CD (tile & rest & k & bus & b & l & sb & F & En & L & I & Sb & LA). pose proof LA as (A & _).
  pose proof (cd_columns _ _ _ _ CD _ _ _ _ _ _ _ L I) as Col. pose proof L as L'.
  destruct L as (t & ty & seen & d & segs & G & _ & _ & _ & _ & B & _ & _).
  exists tile, rest, t, bus, b, (sb_column sb), k, l, sb. split; [exact F|]. split; [exact G|]. split; [exact B|]. split; [exact Col|].
  split; [|auto].
  pose proof (cd_blocks _ _ _ _ CD _ _ _ _ _ G B Col) as Fr. rewrite A. apply N.mod_small.
  destruct (cd_device _ _ _ _ CD) as (PF & _). pose proof (is_frame_address_lt _ _ PF Fr) as Lt.
  assert (2 ^ 26 < 2 ^ 32) by reflexivity. eapply N.lt_trans; eauto.
Qed.

(** A byte that differs holds a bit of a reached tile. *)
Lemma local_bit fuel ord c root input feats s fuel' ord' c' input' feats' s' g p pins :
  run_succeeds fuel ord c root input g p pins feats s -> run_succeeds fuel' ord' c' root input' g p pins feats' s' ->
  c_env c = c_env c' -> plain_tile_names p pins ->
  forall j, nth_error (st_bytes s) j <> nth_error (st_bytes s') j ->
    ((64 <= j < 74)%nat /\ c_date c <> c_date c') \/
    ((78 <= j < 86)%nat /\ c_time c <> c_time c') \/
    exists tile rest t bus b col y l sb a k w i, reached p pins feats feats' tile /\ maps_to g tile t /\ maps_to (t_bits t) bus b /\ col < bb_frames b /\
      a = bb_base b + col /\ listed (c_env c) root g tile rest y bus b l /\ In sb l /\ lands_at b sb a w i /\ frame_place p a k /\ w < 101 /\
      328 + 4 * (k + w) <= N.of_nat j < 328 + 4 * (k + w + 1).
Proof.
  intros R R' EE PN j D.
  destruct (C90_rest_constant _ _ _ _ _ _ _ _ _ _ _ _ _ _ _ _ R R') as [_ X].
  destruct (X j D) as [Y|[Y|(a & w & i & k & A & W & Hi & K & Ej & ND)]]; [now left|right; now left|]. right. right.
  rewrite <- EE in ND.
  destruct (C90_bit_places _ _ _ _ _ _ _ _ _ _ R a w i k A W Hi K) as (b & _ & Tb).
  destruct (C90_bit_places _ _ _ _ _ _ _ _ _ _ R' a w i k A W Hi K) as (b' & _ & Tb'). rewrite <- EE in Tb'.
  assert (Main : forall fe fe', asks_for (c_env c) root g p pins fe a w i -> ~ asks_for (c_env c) root g p pins fe' a w i ->
      exists tile rest t bus b j k l sb, reached p pins fe fe' tile /\ maps_to g tile t /\ maps_to (t_bits t) bus b /\ j < bb_frames b /\ a = bb_base b + j /\
       listed (c_env c) root g tile rest k bus b l /\ In sb l /\ lands_at b sb a w i).
  { intros fe fe' (q & f & Q & In & S) Nq.
    destruct (sets_frame _ _ _ _ _ _ _ _ (rs_consistent _ _ _ _ _ _ _ _ _ _ R) S) as (tile & rest & t & bus & bl & col & y & l & sb & F & Fr).
    exists tile, rest, t, bus, bl, col, y, l, sb. split; [|exact Fr]. destruct (design_step g p pins _ (q ++ fe') f tile rest PN In F) as [I'|Re].
    - exfalso. apply Nq. exists q, f. auto.
    - eapply reached_app; eauto. }
  assert (Rg : 328 + 4 * (k + w) <= N.of_nat j < 328 + 4 * (k + w + 1)).
  { rewrite Ej, N2Nat.id. unfold byte_place. assert (i / 8 <= 3) by (assert (i / 8 < 4) by (apply N.div_lt_upper_bound; lia); lia). lia. }
  destruct (N.testbit b (i mod 8)) eqn:B, (N.testbit b' (i mod 8)) eqn:B'.
  - exfalso. apply ND. tauto.
  - destruct (Main feats feats') as (tile & rest & t & bus & bl & col & y & l & sb & Re & M1 & M2 & M3 & M4 & M5 & M6 & M7);
      [now apply Tb|intros H; apply Tb' in H; discriminate H|].
    exists tile, rest, t, bus, bl, col, y, l, sb, a, k, w, i. auto 20.
  - destruct (Main feats' feats) as (tile & rest & t & bus & bl & col & y & l & sb & Re & M1 & M2 & M3 & M4 & M5 & M6 & M7);
      [now apply Tb'|intros H; apply Tb in H; discriminate H|].
    apply reached_sym in Re. exists tile, rest, t, bus, bl, col, y, l, sb, a, k, w, i. auto 20.
  - exfalso. apply ND. rewrite <- Tb, <- Tb'. tauto.
Qed.

(** Property C97.  Two successful runs on the same database for the same part.  A byte that differs is in the date or in the time, if those
    differ, or belongs to a frame of a tile the change of the design reaches. *)
Theorem C97_local_change :
  forall fuel ord c root input feats s fuel' ord' c' input' feats' s' g p pins,
  run_succeeds fuel ord c root input g p pins feats s -> run_succeeds fuel' ord' c' root input' g p pins feats' s' ->
  c_env c = c_env c' -> plain_tile_names p pins ->
  forall j, nth_error (st_bytes s) j <> nth_error (st_bytes s') j ->
    ((64 <= j < 74)%nat /\ c_date c <> c_date c') \/
    ((78 <= j < 86)%nat /\ c_time c <> c_time c') \/
    exists tile a k, reached p pins feats feats' tile /\ frame_of_tile g tile a /\ frame_place p a k /\
      328 + 4 * k <= N.of_nat j < 328 + 4 * (k + 101).
Proof.
  intros fuel ord c root input feats s fuel' ord' c' input' feats' s' g p pins R R' EE PN j D.
  destruct (local_bit _ _ _ _ _ _ _ _ _ _ _ _ _ _ _ _ R R' EE PN j D)
    as [Y|[Y|(tile & rest & t & bus & b & col & y & l & sb & a & k & w & i & Re & G & B & C & A & L & I & La & K & W & Rg)]]; [now left|right; now left|].
  right. right. exists tile, a, k. split; [exact Re|]. split; [|split; [exact K|lia]]. exists t, bus, b, col. auto.
Qed.
Print Assumptions C97_local_change.

(** Even more: tiles share frames, but not their words; only the words of the reached tiles change. *)
Theorem C97_local_words :
  forall fuel ord c root input feats s fuel' ord' c' input' feats' s' g p pins,
  run_succeeds fuel ord c root input g p pins feats s -> run_succeeds fuel' ord' c' root input' g p pins feats' s' ->
  c_env c = c_env c' -> plain_tile_names p pins -> words_fit (c_env c) root g ->
  forall j, nth_error (st_bytes s) j <> nth_error (st_bytes s') j ->
    ((64 <= j < 74)%nat /\ c_date c <> c_date c') \/
    ((78 <= j < 86)%nat /\ c_time c <> c_time c') \/
    exists tile a o n k, reached p pins feats feats' tile /\ words_of_tile g tile a o n /\ frame_place p a k /\
      328 + 4 * (k + o) <= N.of_nat j < 328 + 4 * (k + o + n).
Proof.
  intros fuel ord c root input feats s fuel' ord' c' input' feats' s' g p pins R R' EE PN WF j D.
  destruct (local_bit _ _ _ _ _ _ _ _ _ _ _ _ _ _ _ _ R R' EE PN j D)
    as [Y|[Y|(tile & rest & t & bus & b & col & y & l & sb & a & k & w & i & Re & G & B & C & A & L & I & La & K & W & Rg)]]; [now left|right; now left|].
  right. right. destruct (WF _ _ _ _ _ _ _ L I) as (o & O1 & O2 & O3). exists tile, a, o, (bb_words b), k.
  split; [exact Re|]. split; [exists t, bus, b, col; auto 8|]. split; [exact K|].
  destruct La as (_ & Hi & La). rewrite <- O1 in La.
  assert (E : Z.of_N (32 * w + i) = Z.of_N (32 * o + sb_bit sb)).
  { rewrite La. replace (32 * Z.of_N o + Z.of_N (sb_bit sb))%Z with (Z.of_N (32 * o + sb_bit sb)) by lia. apply Z.mod_small.
    assert ((4294967296 = 2 ^ 32)%Z) as <- by reflexivity. lia. }
  clear La. assert (o <= w < o + bb_words b) by lia. lia.
Qed.
Print Assumptions C97_local_words.

(** In particular, without a change of STEPDOWN features only frames of the tiles named in the changed features change. *)
Theorem C97_without_stepdown :
  forall fuel ord c root input feats s fuel' ord' c' input' feats' s' g p pins,
  run_succeeds fuel ord c root input g p pins feats s -> run_succeeds fuel' ord' c' root input' g p pins feats' s' ->
  c_env c = c_env c' -> c_date c = c_date c' -> c_time c = c_time c' -> plain_tile_names p pins ->
  (forall f tile site tag, changed feats feats' f -> uses f tile site tag -> ~ contains (tx "STEPDOWN") tag) ->
  forall j, nth_error (st_bytes s) j <> nth_error (st_bytes s') j ->
    exists f tile rest a k, changed feats feats' f /\ first_dot (ff_name f) tile rest /\ frame_of_tile g tile a /\ frame_place p a k /\
      328 + 4 * k <= N.of_nat j < 328 + 4 * (k + 101).
Proof.
  intros fuel ord c root input feats s fuel' ord' c' input' feats' s' g p pins R R' EE ED ET PN NS j D.
  destruct (C97_local_change _ _ _ _ _ _ _ _ _ _ _ _ _ _ _ _ R R' EE PN j D) as [[_ Y]|[[_ Y]|(tile & a & k & Re & Fr & K & Rg)]];
    [contradiction|contradiction|].
  destruct Re as [f rest C F|f t0 site tag bank C U Q _ _ _].
  - exists f, tile, rest, a, k. auto.
  - exfalso. eapply NS; eauto.
Qed.
Print Assumptions C97_without_stepdown.

(** ** Cases: the runs of C81's cases, and one with another value for the look-up table. *)
Definition line_calls (l : text) : list event :=
  match fasm_parse Iso (fun _ => true) true l with Ok st => p_events st | _ => [] end.
Lemma features_compute input :
  forallb (fun l => match fasm_parse Iso (fun _ => true) true l with Ok st => p_result st <? kUserAbort | _ => false end) (getlines input) = true ->
  text_features Iso input (flat_map line_features (map line_calls (getlines input))).
Proof.
  intros H. eexists. split; [|reflexivity]. induction (getlines input) as [|l ls IH]; cbn [map]; [constructor|].
  cbn [forallb] in H. apply andb_true_iff in H as [H1 H2]. constructor; [|now apply IH].
  unfold line_parsed, line_calls. destruct (fasm_parse Iso (fun _ => true) true l) as [st| | | |]; try discriminate H1. exists (p_result st).
  split; [now destruct st|now apply N.ltb_lt].
Qed.

Definition demo_pin : package_pin :=
  {| pp_pin := tx "A1"; pp_bank := 14; pp_site := tx "IOB_X0Y1"; pp_tile := tx "LIOB33_X0Y1"; pp_function := tx "IO_L3P_T0_DQS_PUDC_B_14" |}.
Lemma demo_pins g p pins : database_says demo_env (tx "db") (tx "xc7a35t") g p pins -> pins = [demo_pin].
Proof.
  intros (info & fd & pd & gc & gj & pc & pj & csv & _ & _ & Ip & _ & _ & _ & _ & _ & _ & (q & Iq & F) & PC).
  rewrite (LoadFacts.inside_fun _ _ _ _ Ip (LoadFacts.path_join_inside _ _)) in Iq.
  rewrite (LoadFacts.inside_fun _ _ _ _ Iq (LoadFacts.path_join_inside _ _)) in F.
  destruct (demo_sound_files _ _ F) as [L S].
  pose proof (pins_complete _ _ _ S L PC) as E. unfold file in F.
  assert (F' : e_read demo_env (path_join (path_join (tx "db") (tx "xc7a35t")) (tx "package_pins.csv"))
     = Some (unlines [tx "pin,bank,site,tile,pin_function"; tx "A1,14,IOB_X0Y1,LIOB33_X0Y1,IO_L3P_T0_DQS_PUDC_B_14"])) by (vm_compute; reflexivity).
  rewrite F' in F. assert (Ec : csv = unlines [tx "pin,bank,site,tile,pin_function"; tx "A1,14,IOB_X0Y1,LIOB33_X0Y1,IO_L3P_T0_DQS_PUDC_B_14"]) by congruence.
  rewrite Ec in E. match type of E with parse_pins ?a ?b = _ => assert (V : parse_pins a b = Ok [demo_pin]) by (vm_compute; reflexivity) end.
  congruence.
Qed.
Lemma demo_names : plain_tile_names (tl_part demo_db) [demo_pin].
Proof.
  intros bank tile. rewrite demo_part. intros [(x & I & ->)|(q & [<-|[]] & _ & <-)].
  - cbn [dp_iobanks] in I. destruct I as [I|I]; [|try solve [destruct I]].
    assert (x = snd (bank, x)) as -> by reflexivity. rewrite <- I. cbn. intuition discriminate.
  - cbn. intuition discriminate.
Qed.

Definition lut_input : text :=
  unlines [tx "# a comment"; tx "CLBLL_L_X2Y1.SLICEL_X0.ALUT.INIT[1:0] = 2'b01";
           tx "CLBLL_L_X2Y1.CLBLL_L_A1.IMUX_L6"; tx "LIOB33_X0Y1.IOB_Y1.STEPDOWN"].
Definition lut (v : N) : fasm_feature := {| ff_name := tx "CLBLL_L_X2Y1.SLICEL_X0.ALUT.INIT"; ff_start := 0; ff_width := 2; ff_bits := v |}.
Definition demo_rest : list fasm_feature := [plain_feature (tx "CLBLL_L_X2Y1.CLBLL_L_A1.IMUX_L6"); plain_feature (tx "LIOB33_X0Y1.IOB_Y1.STEPDOWN")].
Lemma demo_feats : text_features Iso demo_input (lut 2 :: demo_rest).
Proof.
  pose proof (features_compute demo_input ltac:(vm_compute; reflexivity)) as H.
  assert (E : flat_map line_features (map line_calls (getlines demo_input)) = lut 2 :: demo_rest) by (vm_compute; reflexivity). now rewrite E in H.
Qed.
Lemma lut_feats : text_features Iso lut_input (lut 1 :: demo_rest).
Proof.
  pose proof (features_compute lut_input ltac:(vm_compute; reflexivity)) as H.
  assert (E : flat_map line_features (map line_calls (getlines lut_input)) = lut 1 :: demo_rest) by (vm_compute; reflexivity). now rewrite E in H.
Qed.
Lemma other_feats : text_features Iso other_input [lut 2; plain_feature (tx "CLBLL_L_X2Y1.CLBLL_L_A1.IMUX_L6")].
Proof.
  pose proof (features_compute other_input ltac:(vm_compute; reflexivity)) as H.
  assert (E : flat_map line_features (map line_calls (getlines other_input)) = [lut 2; plain_feature (tx "CLBLL_L_X2Y1.CLBLL_L_A1.IMUX_L6")])
    by (vm_compute; reflexivity). now rewrite E in H.
Qed.
Lemma demo_run_of input s fe : runs input s -> text_features Iso input fe ->
  run_succeeds 3000 ex_orders (demo_command input) (tx "db") input (tl_grid demo_db) (tl_part demo_db) [demo_pin] fe s.
Proof.
  intros R T. destruct (demo_run _ _ R) as (pins & feats & RS).
  rewrite <- (demo_pins _ _ _ (rs_says _ _ _ _ _ _ _ _ _ _ RS)). rewrite (text_features_fun _ _ _ _ T (rs_features _ _ _ _ _ _ _ _ _ _ RS)). exact RS.
Qed.
Lemma path3_fun n t s g t' s' g' : path3 n t s g -> path3 n t' s' g' -> t = t' /\ s = s' /\ g = g'.
Proof.
  intros (A & B & C & D) (A' & B' & C' & D').
  assert (X : exists r, n = dotted t r /\ (r = dotted s g \/ exists q, r = dotted s (dotted g q))).
  { destruct D as [->|(q & ->)]; eexists; (split; [reflexivity|eauto]). }
  assert (X' : exists r, n = dotted t' r /\ (r = dotted s' g' \/ exists q, r = dotted s' (dotted g' q))).
  { destruct D' as [->|(q & ->)]; eexists; (split; [reflexivity|eauto]). }
  destruct X as (r & E & X), X' as (r' & E' & X'). destruct (first_dot_fun n t r t' r') as [-> ->]; [now split..|]. split; [reflexivity|].
  destruct X as [->|(q & ->)], X' as [Y|(q' & Y)];
    (destruct (first_dot_fun _ s _ s' _ (conj eq_refl B) (conj Y B')) as [-> Z]; split; [reflexivity|]).
  - exact Z.
  - exfalso. apply C. rewrite Z. unfold dotted. apply in_or_app. right. now left.
  - exfalso. apply C'. rewrite <- Z. unfold dotted. apply in_or_app. right. now left.
  - apply (first_dot_fun _ g q g' q' (conj eq_refl C) (conj Z C')).
Qed.
Lemma lut_changes f : changed (lut 2 :: demo_rest) (lut 1 :: demo_rest) f -> ff_name f = tx "CLBLL_L_X2Y1.SLICEL_X0.ALUT.INIT".
Proof.
  intros [[I NI]|[I NI]]; (destruct I as [<-|I]; [reflexivity|exfalso; apply NI; now right]).
Qed.

Definition lut_check (o o' : outcome (N * stream)) : bool :=
  match o' with
  | Ok (0, s') => match o with
      | Ok (_, s) => match nth_error (st_bytes s) 750, nth_error (st_bytes s') 750 with Some a, Some b => negb (a =? b) | _, _ => false end
      | _ => false end
  | _ => false end.
Lemma lut_check_run o o' : lut_check o o' = true -> match o' with Ok (0, _) => true | _ => false end = true.
Proof. unfold lut_check. destruct o' as [[[|q] ?]| | | |]; try discriminate. reflexivity. Qed.
Lemma lut_check_differ s s' : lut_check (Ok (0, s)) (Ok (0, s')) = true -> nth_error (st_bytes s) 750 <> nth_error (st_bytes s') 750.
Proof.
  unfold lut_check. destruct (nth_error (st_bytes s) 750) as [x|]; [|discriminate]. destruct (nth_error (st_bytes s') 750) as [y|]; [|discriminate].
  intros H E. assert (x = y) as -> by congruence. now rewrite N.eqb_refl in H.
Qed.

(** Another value of the look-up table: the files differ, in the three frames of its tile only (bytes 328 to 1539). *)
Example C97_case_lut : exists s s',
  run_succeeds 3000 ex_orders (demo_command demo_input) (tx "db") demo_input (tl_grid demo_db) (tl_part demo_db) [demo_pin] (lut 2 :: demo_rest) s /\
  run_succeeds 3000 ex_orders (demo_command lut_input) (tx "db") lut_input (tl_grid demo_db) (tl_part demo_db) [demo_pin] (lut 1 :: demo_rest) s' /\
  plain_tile_names (tl_part demo_db) [demo_pin] /\
  (forall f tile site tag, changed (lut 2 :: demo_rest) (lut 1 :: demo_rest) f -> uses f tile site tag -> ~ contains (tx "STEPDOWN") tag) /\
  nth_error (st_bytes s) 750 <> nth_error (st_bytes s') 750.
Proof.
  destruct C81_case as (s & _ & _ & R & _).
  assert (X : lut_check (main_program 3000 Iso ex_orders (demo_command demo_input)) (main_program 3000 Iso ex_orders (demo_command lut_input)) = true)
    by (vm_compute; reflexivity).
  destruct (run_shape lut_input) as (s' & R').
  { vm_compute. reflexivity. }
  { exact (lut_check_run _ _ X). }
  exists s, s'.
  split; [exact (demo_run_of _ _ _ R demo_feats)|]. split; [exact (demo_run_of _ _ _ R' lut_feats)|]. split; [exact demo_names|]. split.
  - clear. intros f tile site tag C [_ P]. rewrite (lut_changes _ C) in P.
    destruct (path3_fun _ _ _ _ (tx "CLBLL_L_X2Y1") (tx "SLICEL_X0") (tx "ALUT") P) as (_ & _ & ->).
    + repeat split; try (cbn; intuition discriminate). right. exists (tx "INIT"). reflexivity.
    + intros (a & b & E). apply (f_equal (@List.length ascii)) in E. rewrite !app_length in E. cbn [List.length tx list_ascii_of_string] in E. lia.
  - destruct R as (_ & _ & R), R' as (_ & _ & R').
    rewrite R, R' in X. exact (lut_check_differ _ _ X).
Qed.

Definition words_check (tls : tiles) : bool :=
  forallb (fun p : text * tile => let t := snd p in no_alias t &&
    forallb (fun q : bus_type * bits_block => let b := snd q in
      (0 <=? bb_offset b)%Z && (Z.to_N (bb_offset b) + bb_words b <=? 101) &&
      match tl_bits tls (t_type t) with
      | Ok (Some d) => forallb (fun r : bus_type * segbits =>
          negb (bus_eqb (fst r) (fst q)) ||
          forallb (fun e : tile_feature * list segment_bit =>
             forallb (fun sb => sb_bit sb <? 32 * bb_words b) (snd e)) (snd r)) (td_bits d)
      | _ => true
      end) (t_bits t)) (tl_grid tls).
Lemma words_check_ok tls tile rest k bus b l sb : words_check tls = true -> entry tls tile rest k bus b l -> In sb l ->
  exists o, Z.of_N o = first_word b /\ o + bb_words b <= 101 /\ sb_bit sb < 32 * bb_words b.
Proof.
  intros H (t & ty & seen & d & segs & M & SA & B & _ & _ & MB & MS & ML) I. unfold words_check in H. rewrite forallb_forall in H.
  apply maps_to_In in M, MB, MS, ML. specialize (H _ M). cbn [snd] in H. apply andb_true_iff in H as [A H].
  rewrite forallb_forall in H. specialize (H _ MB). cbn [fst snd] in H. apply andb_true_iff in H as [H H3]. apply andb_true_iff in H as [H1 H2].
  apply Z.leb_le in H1. apply N.leb_le in H2.
  assert (NA : forall bus b, In (bus, b) (t_bits t) -> bb_alias b = None).
  { intros bu bl J. unfold no_alias in A. rewrite forallb_forall in A. specialize (A _ J). cbn [snd] in A. destruct (bb_alias bl); [discriminate A|reflexivity]. }
  assert (ty = t_type t) by (destruct SA as [|bus' b' al f' J E _]; [reflexivity|]; rewrite (NA _ _ J) in E; discriminate E). subst ty.
  rewrite B, forallb_forall in H3. specialize (H3 _ MS). cbn [fst snd] in H3.
  apply orb_true_iff in H3 as [H3|H3]; [apply negb_true_iff in H3; rewrite (proj2 (bus_eqb_eq bus bus) eq_refl) in H3; discriminate H3|].
  rewrite forallb_forall in H3. specialize (H3 _ ML). cbn [snd] in H3. rewrite forallb_forall in H3. specialize (H3 _ I). apply N.ltb_lt in H3.
  exists (Z.to_N (bb_offset b)). split; [|now split]. unfold first_word. rewrite (NA _ _ MB). lia.
Qed.
Example C97_case_words : words_fit demo_env (tx "db") (tl_grid demo_db).
Proof.
  intros tile rest k bus b l sb L I. apply (entry_same _ _ _ _ _ demo_sound_files (demo_sound_walk _) demo_db_parsed) in L.
  eapply words_check_ok; eauto. vm_compute. reflexivity.
Qed.

(** Without the STEPDOWN line, the clock tile of bank 14 loses its implied STEPDOWN: byte 1741, in word 50 of frame 0x80, changes,
    and the clock tile is reached. *)
Example C97_case_stepdown : exists s s',
  let feats := lut 2 :: demo_rest in let feats' := [lut 2; plain_feature (tx "CLBLL_L_X2Y1.CLBLL_L_A1.IMUX_L6")] in
  run_succeeds 3000 ex_orders (demo_command demo_input) (tx "db") demo_input (tl_grid demo_db) (tl_part demo_db) [demo_pin] feats s /\
  run_succeeds 3000 ex_orders (demo_command other_input) (tx "db") other_input (tl_grid demo_db) (tl_part demo_db) [demo_pin] feats' s' /\
  reached (tl_part demo_db) [demo_pin] feats feats' (tx "HCLK_IOI3_X1Y26") /\ ~ reached (tl_part demo_db) [demo_pin] feats feats' (tx "CLBLL_L_X2Y1") /\
  st_bytes s <> st_bytes s'.
Proof.
  destruct C81_case as (s & _ & s' & R & _ & R' & _ & _ & _ & ND). exists s, s'. cbv zeta.
  split; [exact (demo_run_of _ _ _ R demo_feats)|]. split; [exact (demo_run_of _ _ _ R' other_feats)|].
  assert (CH : forall f, changed (lut 2 :: demo_rest) [lut 2; plain_feature (tx "CLBLL_L_X2Y1.CLBLL_L_A1.IMUX_L6")] f ->
     f = plain_feature (tx "LIOB33_X0Y1.IOB_Y1.STEPDOWN")).
  { intros f [[I NI]|[I NI]].
    - unfold demo_rest in I. destruct I as [<-|[<-|[<-|[]]]]; [exfalso; apply NI; now left|exfalso; apply NI; right; now left|reflexivity].
    - exfalso. apply NI. destruct I as [<-|[<-|[]]]; [now left|right; now left]. }
  split; [|split].
  - eapply (reached_bank _ _ _ _ _ (plain_feature (tx "LIOB33_X0Y1.IOB_Y1.STEPDOWN")) (tx "LIOB33_X0Y1") (tx "IOB_Y1") (tx "STEPDOWN") 14).
    + left. split; [right; right; now left|]. intros [E|[E|[]]]; apply (f_equal (fun f => List.length (ff_name f))) in E; discriminate E.
    + split; [discriminate|]. repeat split; try (cbn; intuition discriminate).
    + exists [], []. reflexivity.
    + rewrite demo_part. exists [(14, tx "HCLK_IOI3_X1Y26")], []. split; [reflexivity|]. intros b [E|[]]. apply (f_equal (fun x => List.length (snd x))) in E. discriminate E.
    + rewrite demo_part. left. exists (tx "X1Y26"). split; [now left|reflexivity].
    + right. exists [], (tx "_X1Y26"). reflexivity.
  - intros [f rest C F|f t0 site tag bank C U K B I D].
    + rewrite (CH _ C) in F. destruct (first_dot_fun _ _ _ (tx "LIOB33_X0Y1") (tx "IOB_Y1.STEPDOWN") F) as [E _]; [split; [reflexivity|cbn; intuition discriminate]|].
      apply (f_equal (@List.length ascii)) in E. discriminate E.
    + destruct I as [(x & _ & E)|(q & [<-|[]] & _ & E)]; [apply (f_equal (fun l => hd dot l)) in E|apply (f_equal (fun l => hd dot l)) in E]; discriminate E.
  - exact ND.
Qed.
