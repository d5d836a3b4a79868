(** Properties C43-C46, C52, C63: frames of used buses, disabled features, errors. *)
From Verif Require Import Base BaseFacts Absl Part Frame Fasm FasmSpec FasmFacts FasmSafe FasmShape
  FasmFile FasmLines DbText DbJson Database Assembler EncodeSpec AsmSpec MapFacts AsmFacts
  LookupFacts ProcessFacts ProcessCrash StepdownFacts AsmLines AsmWhole RegistryFacts AsmItems P_Fasm AsmExample
  P_Assembler.
From Coq Require Import ZifyBool ZifyN ZifyNat.

(** ** C43 *)
(** The frames of the result are those of the buses where a feature has bits. *)
Theorem C43_frames_of_features :
  forall sm ord tls fs cache fr, usable_grid (tl_grid tls) -> good_orders ord -> Forall reported fs ->
  process_features sm ord tls 0 fs ([], []) = Ok (cache, fr) ->
  (forall a, present fr a <-> exists f, In f fs /\ touched tls f a) /\
  Forall (fun kv => is_frame_content (snd kv)) fr /\ NoDup (map fst fr).
Proof.
  intros sm ord tls fs c fr U G R H.
  pose proof H as K. eapply process_features_inv in K; eauto using consistent_nil, wf_nil.
  destruct (process_features_ok sm ord tls fs 0 [] []) as (c1 & fr1 & E1 & _ & W & P1 & _);
    auto using consistent_nil, wf_nil.
  assert (fr1 = fr) by (unfold db_cache, asm_frames, btmap in *; rewrite H in E1; now inversion E1). subst fr1.
  split; [|split; [apply W|]].
  - intros a. rewrite P1. split; [intros [(x & [])|X]; exact X|now right].
  - apply bt_keys_NoDup. apply W.
Qed.
Print Assumptions C43_frames_of_features.

(** A block is tidy for a segment bit: the bit's frame is one of the block's, which lie
    below 2^32. *)
Definition tidy (b : bits_block) (sb : segment_bit) : Prop :=
  sb_column sb < bb_frames b /\ bb_base b + bb_frames b <= 2 ^ 32.

(** A whole run: for databases whose bits lie inside their blocks, the frames of the result
    are exactly the frames [base, base + frames) of the blocks where a feature has a bit. *)
Theorem C43_used_buses_complete :
  forall ord tls input pud fs fr,
  usable_grid (tl_grid tls) -> numbered_grid (tl_grid tls) -> good_orders ord -> short_lines input ->
  pudcb_features (tl_grid tls) = Ok pud -> text_features Iso input fs ->
  (forall f bus b sb, all_features tls (pud ++ fs) f -> asks tls f bus b sb -> tidy b sb) ->
  assemble_frames Iso ord tls input = Ok fr ->
  forall a, present fr a <->
    exists f bus b sb, all_features tls (pud ++ fs) f /\ asks tls f bus b sb /\
      bb_base b <= a < bb_base b + bb_frames b.
Proof.
  intros ord tls input pud fs fr U NG G SL EP T TD H a.
  destruct (run_result Iso ord tls input pud fr U NG G (fun fs => text_reported input fs SL) EP H)
    as (v & Tv & _ & _ & _ & P & _).
  rewrite (text_features_fun _ _ _ _ Tv T) in *. rewrite P. split.
  - intros (f & A & bus & b & sb & As & X). exists f, bus, b, sb. split; [exact A|]. split; [exact As|].
    destruct (TD f bus b sb A As) as [T1 T2]. destruct X as [->|(j & J & ->)].
    + rewrite N.mod_small; lia.
    + assert (2 ^ 32 < 2 ^ 64) by (vm_compute; reflexivity). rewrite N.mod_small; lia.
  - intros (f & bus & b & sb & A & As & X). exists f. split; [exact A|]. exists bus, b, sb. split; [exact As|].
    right. exists (a - bb_base b). destruct (TD f bus b sb A As) as [T1 T2].
    assert (2 ^ 32 < 2 ^ 64) by (vm_compute; reflexivity). split; [lia|]. rewrite N.mod_small; lia.
Qed.
Print Assumptions C43_used_buses_complete.

Example C43_case : exists fr,
  assemble_frames Iso ex_orders ex_db (unlines [tx "BRAM_L_X6Y0.RAMB18_Y0.INIT_00[0]"]) = Ok fr
  /\ present fr (0x800000 + 127) /\ ~ present fr (0x800000 + 128) /\ ~ present fr 0x80.
Proof.
  assert (H : run_check (assemble_frames Iso ex_orders ex_db (unlines [tx "BRAM_L_X6Y0.RAMB18_Y0.INIT_00[0]"]))
    (fun fr => has_frame fr (0x800000 + 127) && negb (has_frame fr (0x800000 + 128)) && negb (has_frame fr 0x80)) = true)
    by (vm_compute; reflexivity).
  apply run_check_ok in H as (fr & E & C). exists fr. split; [exact E|].
  repeat (apply andb_true_iff in C as [C ?]). rewrite negb_true_iff in *.
  split; [now apply has_frame_present|]. split; intros X; apply has_frame_present in X; congruence.
Qed.

(** ** C44 *)
(** Runs on two texts whose features switch on the same bits. *)
Lemma same_on_run sm ord ord' tls t t' pud fs fs' fr :
  usable_grid (tl_grid tls) -> numbered_grid (tl_grid tls) -> good_orders ord -> good_orders ord' ->
  pudcb_features (tl_grid tls) = Ok pud ->
  text_features sm t fs -> text_features sm t' fs' -> Forall reported fs -> Forall reported fs' ->
  Forall live fs -> Forall live fs' ->
  (forall n k, on fs n k <-> on fs' n k) ->
  (forall f, In f fs' -> In dot (ff_name f)) ->
  assemble_frames sm ord tls t = Ok fr -> assemble_frames sm ord' tls t' = Ok fr.
Proof.
  intros U NG G G' EP T T' R R' L L' On HD H.
  assert (RT : forall x, text_features sm t x -> Forall reported x).
  { intros x X. now rewrite (text_features_fun _ _ _ _ X T). }
  assert (RT' : forall x, text_features sm t' x -> Forall reported x).
  { intros x X. now rewrite (text_features_fun _ _ _ _ X T'). }
  destruct (run_result sm ord tls t pud fr U NG G RT EP H) as (v & Tv & RD & K & W & P & B).
  rewrite (text_features_fun _ _ _ _ Tv T) in *. clear Tv.
  destruct (pudcb_ok _ NG) as (pud' & EP' & PD & RP). rewrite EP in EP'. inversion EP'; subst pud'. clear EP'.
  assert (LP : Forall live pud).
  { destruct PD as [[-> _]|(tt & s & l & _ & _ & ->)]; [constructor|]. apply Forall_forall.
    intros f I. apply in_map_iff in I as (n & <- & _). apply bit_live. }
  assert (On2 : forall n k, on (pud ++ fs) n k <-> on (pud ++ fs') n k).
  { intros n k. rewrite !on_app, On. reflexivity. }
  assert (L1 : Forall live (pud ++ fs)) by (apply Forall_app; auto).
  assert (L2 : Forall live (pud ++ fs')) by (apply Forall_app; auto).
  assert (Us : forall ti si g, (exists f, In f (pud ++ fs) /\ uses f ti si g) <-> exists f, In f (pud ++ fs') /\ uses f ti si g).
  { intros ti si g. split; apply on_uses; auto; intros n k; apply On2. }
  assert (RD' : stepdown_ready (tl_banks tls) (tl_grid tls) (pud ++ fs')).
  { destruct RD as [RA RB]. split.
    - intros f ti si tg I Uf C. destruct (proj2 (Us ti si tg)) as (g & Ig & Ug); [exists f; auto|]. exact (RA g ti si tg Ig Ug C).
    - intros bank tag (f & ti & si & bs & I & Uf & C & Rg). apply (RB bank tag).
      destruct (proj2 (Us ti si tag)) as (f' & I' & Uf'); [eauto|]. exists f', ti, si, bs. auto. }
  assert (Q : forall (X : fasm_feature -> Prop) (Y : text -> N -> Prop),
    (forall f, X f <-> exists k, enables f k /\ Y (ff_name f) k) ->
    (exists f, all_features tls (pud ++ fs) f /\ X f) <-> (exists f, all_features tls (pud ++ fs') f /\ X f)).
  { intros X Y XY. split; intros (f & A & Z).
    - destruct (all_features_on tls (pud ++ fs) (pud ++ fs') Y L1 L2 On2) as (f' & A' & Z').
      + exists f. split; [exact A|]. now apply XY.
      + exists f'. split; [exact A'|]. now apply XY.
    - destruct (all_features_on tls (pud ++ fs') (pud ++ fs) Y L2 L1) as (f' & A' & Z').
      + intros n k. symmetry. apply On2.
      + exists f. split; [exact A|]. now apply XY.
      + exists f'. split; [exact A'|]. now apply XY. }
  assert (KF : forall f, all_features tls (pud ++ fs') f -> known tls f /\ fits tls f).
  { intros f A.
    assert (D : In dot (ff_name f)).
    { destruct A as [I|(n & SN & ->)].
      - apply in_app_iff in I as [I|I]; [|auto]. assert (A1 : all_features tls (pud ++ fs) f) by (left; apply in_app_iff; auto).
        destruct (K f A1) as [(tile & rest & [E _] & _) _]. rewrite E. apply dot_notin_dotted.
      - cbn [plain_feature ff_name]. destruct SN; apply dot_notin_dotted. }
    destruct (split1_spec (ff_name f)) as [(tile & rest & FD & _)|[ND _]]; [|contradiction].
    split.
    - exists tile, rest. split; [exact FD|]. intros k En.
      destruct (proj2 (Q (fun g => exists k', enables g k' /\ (ff_name g = ff_name f /\ k' = k))
                         (fun n k' => n = ff_name f /\ k' = k) (fun g => conj (fun x => x) (fun x => x))))
        as (g & Ag & k' & Eg & Nm & ->).
      { exists f. split; [exact A|]. exists k. auto. }
      destruct (K g Ag) as [(tile' & rest' & FD' & Kg) _]. rewrite Nm in FD'.
      destruct (first_dot_fun _ _ _ _ _ FD FD') as [<- <-]. auto.
    - intros a w i Rq.
      destruct (proj2 (Q (fun g => requested tls g a w i) (fun n k => requests_at tls n k a w i)
                  (fun g => requested_at tls g a w i))) as (g & Ag & Rg).
      { exists f. auto. }
      destruct (K g Ag) as [_ F]. eapply F; eauto. }
  destruct (assemble_spec_gen sm ord' tls t' pud U NG G' RT' EP) as [Suf _].
  destruct (Suf fs' T' RD' KF) as (fr' & H').
  destruct (run_result sm ord' tls t' pud fr' U NG G' RT' EP H') as (v2 & Tv2 & _ & _ & W2 & P2 & B2).
  rewrite (text_features_fun _ _ _ _ Tv2 T') in *. rewrite H'. f_equal. symmetry. apply frames_ext; auto.
  - intros a. rewrite P, P2. apply (Q _ (fun n k => touches_at tls n k a)). intros f. apply touched_at.
  - intros a w i _ _. apply eq_true_iff_eq. rewrite B, B2.
    apply (Q _ (fun n k => requests_at tls n k a w i)). intros f. apply requested_at.
Qed.

Lemma line_features_name line f g : In g (line_features (feature_events line f)) -> ff_name g = f_name f.
Proof.
  rewrite feature_features. intros I. apply in_map_iff in I as (i & <- & _). reflexivity.
Qed.

(** A line that gives the value 0 to a feature changes nothing, whatever the database says
    about the name (there need not be such a tile). *)
Theorem C44_zero_features_do_nothing :
  forall sm ord ord' tls l1 l2 i f fr,
  usable_grid (tl_grid tls) -> numbered_grid (tl_grid tls) -> good_orders ord -> good_orders ord' ->
  Forall item_shape (l1 ++ i :: l2) -> Forall item_in_range (l1 ++ i :: l2) ->
  i_feature i = Some f -> In dot (f_name f) ->
  (forall j, j < feature_width f -> N.testbit (feature_value f) j = false) ->
  (assemble_frames sm ord tls (file_text (l1 ++ l2)) = Ok fr <->
   assemble_frames sm ord' tls (file_text (l1 ++ i :: l2)) = Ok fr).
Proof.
  intros sm ord ord' tls l1 l2 i f fr U NG G G' S R Ei D Z.
  destruct (pudcb_ok _ NG) as (pud & EP & PD & RP).
  assert (S2 : Forall item_shape (l1 ++ l2)).
  { apply Forall_app in S as [A B]. inversion B; subst. apply Forall_app. auto. }
  assert (R2 : Forall item_in_range (l1 ++ l2)).
  { apply Forall_app in R as [A B]. inversion B; subst. apply Forall_app. auto. }
  pose proof (file_features sm _ S R) as T. pose proof (file_features sm _ S2 R2) as T2.
  assert (N0 : forall n k, ~ on (line_features (item_events 1 i)) n k).
  { intros n k X. rewrite item_line_features, Ei in X.
    apply feature_on in X.
    - destruct X as (g & I & _). unfold feature_ones in I. apply in_map_iff in I as (j & _ & I).
      apply filter_In in I as [I B]. apply in_seq in I. rewrite Z in B by lia. discriminate B.
    - apply item_range. rewrite Forall_forall in R. specialize (R i (in_elt _ _ _)). unfold item_in_range in R.
      now rewrite Ei in R. }
  assert (On : forall n k, on (flat_map (fun i => line_features (item_events 1 i)) (l1 ++ i :: l2)) n k
                       <-> on (flat_map (fun i => line_features (item_events 1 i)) (l1 ++ l2)) n k).
  { intros n k. rewrite !flat_map_app. cbn [flat_map]. rewrite !on_app. split; [|tauto].
    intros [X|[X|X]]; auto. exfalso. eapply N0; eauto. }
  assert (On' : forall n k, on (flat_map (fun i => line_features (item_events 1 i)) (l1 ++ l2)) n k
                        <-> on (flat_map (fun i => line_features (item_events 1 i)) (l1 ++ i :: l2)) n k)
    by (intros; symmetry; apply On).
  assert (Dots : forall o it, assemble_frames sm o tls (file_text it) = Ok fr -> good_orders o ->
     Forall item_shape it -> Forall item_in_range it ->
     forall g, In g (flat_map (fun i => line_features (item_events 1 i)) it) -> In dot (ff_name g)).
  { intros o it H Go Si Ri g I.
    destruct (run_result sm o tls (file_text it) pud fr U NG Go (fun fs => file_reported sm it fs Si Ri) EP H)
      as (v & Tv & _ & K & _).
    rewrite (text_features_fun _ _ _ _ Tv (file_features sm it Si Ri)) in K.
    destruct (K g) as [(ti & re & [E _] & _) _]; [left; apply in_app_iff; now right|].
    rewrite E. apply dot_notin_dotted. }
  split; intros H.
  - eapply (same_on_run sm ord ord'); [exact U|exact NG|exact G|exact G'|exact EP|exact T2|exact T| | | | |exact On'| |exact H];
      try (eapply file_reported; [| |eassumption]; assumption); try apply file_live.
    intros g I. rewrite flat_map_app in I. cbn [flat_map] in I.
    pose proof (Dots ord (l1 ++ l2) H G S2 R2 g) as X. rewrite flat_map_app in X.
    apply in_app_iff in I as [I|I]; [apply X; apply in_app_iff; now left|].
    apply in_app_iff in I as [I|I]; [|apply X; apply in_app_iff; now right].
    rewrite item_line_features, Ei in I. apply line_features_name in I. now rewrite I.
  - eapply (same_on_run sm ord' ord); [exact U|exact NG|exact G'|exact G|exact EP|exact T|exact T2| | | | |exact On| |exact H];
      try (eapply file_reported; [| |eassumption]; assumption); try apply file_live.
    intros g I. apply (Dots ord' _ H G' S R). rewrite flat_map_app in *. cbn [flat_map].
    rewrite !in_app_iff in *. tauto.
Qed.
Print Assumptions C44_zero_features_do_nothing.

(** Feature level: neither the database nor the frames are looked at. *)
Theorem C44_zero_feature_not_looked_up :
  forall sm ord tls i st f, reported f -> In dot (ff_name f) -> (forall k, ~ enables f k) ->
  process_feature sm ord tls i st f = Ok st.
Proof.
  intros sm ord tls i [cache fr] f R D Z. unfold process_feature. rewrite (width_nat _ R).
  destruct (split1_spec (ff_name f)) as [(tile & rest & FD & E)|[ND _]]; [|contradiction]. rewrite E. cbn [fst snd].
  assert (X : forall n addr, addr + N.of_nat n <= ff_width f ->
    process_bits sm ord tls i tile rest (ff_start f) (ff_bits f) n addr (cache, (fr, [])) = Ok (cache, (fr, []))).
  { destruct R as [Rw Rs]. induction n as [|n IH]; intros addr L; cbn [process_bits]; [reflexivity|].
    rewrite feature_address_ok, feature_bit_ok by (auto; lia). cbn [obind].
    destruct (N.testbit (ff_bits f) addr) eqn:T.
    - exfalso. apply (Z ((ff_start f + addr) mod 2 ^ 32)). exists addr. split; [lia|]. auto.
    - cbn [obind]. apply IH. lia. }
  rewrite X by lia. reflexivity.
Qed.
Print Assumptions C44_zero_feature_not_looked_up.

Example C44_case :
  assemble_frames Iso ex_orders ex_db (unlines [tx "NO_SUCH_TILE.X[3:0] = 4'b0000"])
  = assemble_frames Iso ex_orders ex_db [] /\
  run_check (assemble_frames Iso ex_orders ex_db []) (fun fr => has_frame fr 0) = true.
Proof. split; vm_compute; reflexivity. Qed.
