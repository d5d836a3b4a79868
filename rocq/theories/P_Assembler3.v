(** Properties C45, C46, C52, C63, C67: unknown features, pseudo pips, bad lines, bits
    outside frames. *)
From Verif Require Import Base BaseFacts Absl Part Frame Fasm FasmSpec FasmFacts FasmSafe FasmShape
  FasmFile FasmLines FasmSkip DbText DbJson Database Assembler EncodeSpec AsmSpec MapFacts AsmFacts
  LookupFacts ProcessFacts ProcessCrash OutcomeFacts StepdownFacts AsmLines AsmWhole RegistryFacts AsmItems
  P_Fasm AsmExample P_Assembler P_Assembler2.
From Coq Require Import ZifyBool ZifyN ZifyNat.

(** ** C45 *)

(** Feature lists: a name without a dot is an error, a bit the database does not know
    aborts. *)
Theorem C45_features_malformed_error :
  forall sm ord tls fs, usable_grid (tl_grid tls) -> good_orders ord -> Forall reported fs ->
  Forall (fun f => In dot (ff_name f) -> known tls f /\ fits tls f) fs ->
  (exists f, In f fs /\ ~ In dot (ff_name f)) ->
  process_features sm ord tls 0 fs ([], []) = Err.
Proof.
  intros sm ord tls fs U G R K E. apply features_err; auto. split; [apply consistent_nil|apply wf_nil].
Qed.
Print Assumptions C45_features_malformed_error.

Theorem C45_features_unknown_abort :
  forall sm ord tls fs f k, usable_grid (tl_grid tls) -> good_orders ord -> readable tls -> Forall reported fs ->
  Forall (fits tls) fs -> Forall (fun f => In dot (ff_name f)) fs ->
  In f fs -> enables f k -> ~ recognised tls f k ->
  process_features sm ord tls 0 fs ([], []) = Crash.
Proof.
  intros sm ord tls fs f k U G RD R FI D I E N. apply features_crash; eauto 6.
  split; [apply consistent_nil|apply wf_nil].
Qed.
Print Assumptions C45_features_unknown_abort.

(** What the features of a run are. *)
Lemma run_features sm ord tls input fs pud :
  good_orders ord -> pudcb_features (tl_grid tls) = Ok pud -> text_features sm input fs ->
  stepdown_ready (tl_banks tls) (tl_grid tls) (pud ++ fs) ->
  exists all, (forall f, In f all <-> all_features tls (pud ++ fs) f) /\
    assemble_frames sm ord tls input
    = obind (process_features sm ord tls 0 all ([], [])) (fun p => Ok (snd p)).
Proof.
  intros G EP (evss & F & Efs) RD. pose proof G as (_ & _ & GB & GT & _).
  destruct (add_stepdown_ok (o_banks ord) (o_tags ord) _ _ _ GB GT RD) as (extra & E & He).
  exists ((pud ++ fs) ++ extra). split.
  - intros f. unfold all_features. rewrite in_app_iff, He. tauto.
  - unfold assemble_frames. rewrite EP. cbn [obind].
    rewrite (proj2 (assemble_lines_ok sm (getlines input) pud (pud ++ fs)));
      [|exists evss; split; [exact F|now rewrite Efs]].
    cbn [obind]. rewrite E. cbn [obind].
    destruct (process_features sm ord tls 0 ((pud ++ fs) ++ extra) ([], [])) as [[c fr]| | | |]; reflexivity.
Qed.

Lemma all_reported tls pud fs : Forall reported pud -> Forall reported fs ->
  forall all, (forall f, In f all <-> all_features tls (pud ++ fs) f) -> Forall reported all.
Proof.
  intros RP RF all A. apply Forall_forall. intros f I. apply A in I as [I|(n & _ & ->)].
  - apply in_app_iff in I as [I|I]; rewrite Forall_forall in *; auto.
  - apply plain_reported.
Qed.

Lemma implied_dot tls pud fs f : pudcb_default (tl_grid tls) pud -> all_features tls (pud ++ fs) f ->
  In dot (ff_name f) \/ In f fs.
Proof.
  intros PD [I|(n & SN & ->)].
  - apply in_app_iff in I as [I|I]; [|now right]. left.
    destruct PD as [[-> _]|(t & s & la & _ & _ & ->)]; [destruct I|].
    apply in_map_iff in I as (n & <- & I). unfold pudcb_names in I. apply in_map_iff in I as (x & <- & _).
    apply dot_notin_dotted.
  - left. cbn [plain_feature ff_name]. destruct SN; apply dot_notin_dotted.
Qed.

(** Everything but the named problem is in order: the descriptions the STEPDOWN pass needs
    are there, and all bits are inside frames. *)
Definition otherwise_fine (tls : tiles) (fs : list fasm_feature) : Prop :=
  forall pud, pudcb_default (tl_grid tls) pud ->
    stepdown_ready (tl_banks tls) (tl_grid tls) (pud ++ fs) /\
    forall f, all_features tls (pud ++ fs) f -> fits tls f.

(** A whole text with a feature bit that the database does not know: the program aborts. *)
Theorem C45_unknown_feature_aborts :
  forall ord tls input fs f k,
  usable_grid (tl_grid tls) -> numbered_grid (tl_grid tls) -> good_orders ord -> readable tls ->
  short_lines input -> text_features Iso input fs -> otherwise_fine tls fs ->
  (forall g, In g fs -> In dot (ff_name g)) ->
  In f fs -> enables f k -> ~ recognised tls f k ->
  assemble_frames Iso ord tls input = Crash.
Proof.
  intros ord tls input fs f k U NG G RD SL T OF D I E N.
  destruct (pudcb_ok _ NG) as (pud & EP & PD & RP). destruct (OF pud PD) as [SR FI].
  destruct (run_features Iso ord tls input fs pud G EP T SR) as (all & A & ->).
  rewrite (C45_features_unknown_abort Iso ord tls all f k); auto.
  - apply (all_reported tls pud fs); [exact RP|eapply text_reported; eassumption|exact A].
  - apply Forall_forall. intros g Ig. apply FI. now apply A.
  - apply Forall_forall. intros g Ig. apply A in Ig. destruct (implied_dot _ _ _ _ PD Ig); auto.
  - apply A. left. apply in_app_iff. now right.
Qed.
Print Assumptions C45_unknown_feature_aborts.

(** A whole text with a name without a dot: an error is returned. *)
Theorem C45_malformed_name_is_an_error :
  forall ord tls input fs f,
  usable_grid (tl_grid tls) -> numbered_grid (tl_grid tls) -> good_orders ord ->
  short_lines input -> text_features Iso input fs -> otherwise_fine tls fs ->
  (forall pud g, pudcb_default (tl_grid tls) pud -> all_features tls (pud ++ fs) g -> In dot (ff_name g) -> known tls g) ->
  In f fs -> ~ In dot (ff_name f) ->
  assemble_frames Iso ord tls input = Err.
Proof.
  intros ord tls input fs f U NG G SL T OF K I D.
  destruct (pudcb_ok _ NG) as (pud & EP & PD & RP). destruct (OF pud PD) as [SR FI].
  destruct (run_features Iso ord tls input fs pud G EP T SR) as (all & A & ->).
  rewrite (C45_features_malformed_error Iso ord tls all); auto.
  - apply (all_reported tls pud fs); [exact RP|eapply text_reported; eassumption|exact A].
  - apply Forall_forall. intros g Ig Dg. apply A in Ig. eauto.
  - exists f. split; [|exact D]. apply A. left. apply in_app_iff. now right.
Qed.
Print Assumptions C45_malformed_name_is_an_error.

(** In any case success means that every feature of the text has a dot in its name and
    all its bits are known. *)
Theorem C45_success_means_known :
  forall ord tls input fs fr,
  usable_grid (tl_grid tls) -> numbered_grid (tl_grid tls) -> good_orders ord ->
  short_lines input -> text_features Iso input fs ->
  assemble_frames Iso ord tls input = Ok fr ->
  forall f, In f fs -> In dot (ff_name f) /\ forall k, enables f k -> recognised tls f k.
Proof.
  intros ord tls input fs fr U NG G SL T H f I.
  destruct (pudcb_ok _ NG) as (pud & EP & _ & _).
  destruct (run_result Iso ord tls input pud fr) as (fs' & T' & _ & K & _); auto.
  { intros gs. now apply text_reported. }
  rewrite (text_features_fun _ _ _ _ T' T) in K.
  destruct (K f) as [Kf _]; [left; apply in_app_iff; now right|]. split.
  - destruct Kf as (tile & rest & [E _] & _). rewrite E. apply dot_notin_dotted.
  - intros k E. now apply recognised_known.
Qed.
Print Assumptions C45_success_means_known.

Example C45_case :
  assemble_frames Iso ex_orders ex_db (unlines [tx "CLBLL_L_X2Y1.SLICEL_X0.FFSYNC"; tx "NODOT"]) = Err /\
  assemble_frames Iso ex_orders ex_db (unlines [tx "CLBLL_L_X2Y1.SLICEL_X0.FFSYNC"; tx "NO_SUCH_TILE.X"]) = Crash /\
  assemble_frames Iso ex_orders ex_db (unlines [tx "CLBLL_L_X2Y1.SLICEL_X0.NOT_THERE"]) = Crash /\
  assemble_frames Iso ex_orders ex_db (unlines [tx "CLBLL_L_X2Y1.SLICEL_X0.ALUT.INIT[4]"]) = Crash /\
  assemble_frames Iso ex_orders ex_db (unlines [tx "LIOB33_X0Y3.A"; tx "NODOT"]) = Crash.
Proof. vm_compute. auto. Qed.

(** ** C67 *)
(** A feature with a set bit at word 101 or later of a frame: the write is outside the
    array of the frame. *)
Theorem C67_bit_outside_frame_is_undefined :
  forall sm ord tls fs f a w i, usable_grid (tl_grid tls) -> good_orders ord -> Forall reported fs ->
  Forall (known tls) fs -> In f fs -> requested tls f a w i -> 101 <= w ->
  process_features sm ord tls 0 fs ([], []) = UB.
Proof.
  intros sm ord tls fs f a w i U G R K I Q L. apply features_ub; eauto 8.
  split; [apply consistent_nil|apply wf_nil].
Qed.
Print Assumptions C67_bit_outside_frame_is_undefined.

Definition wide_db : tiles :=
  {| tl_grid := [(tx "T", mk_tile (tx "TT") [(BusCLBIOCLK, mk_block None 0 1 100 2)] [] [])];
     tl_bits := fun _ => Ok (Some {| td_pips := [];
       td_bits := [(BusCLBIOCLK, [((tx "TT.IN", 0), [mk_bit 0 31 true]); ((tx "TT.OUT", 0), [mk_bit 0 32 true])])] |});
     tl_banks := {| br_banks := []; br_tiles := [] |}; tl_part := tl_part ex_db |}.
Example C67_case :
  run_check (assemble_frames Iso ex_orders wide_db (unlines [tx "T.IN"])) (fun fr => bit_at fr 0 100 31) = true
  /\ assemble_frames Iso ex_orders wide_db (unlines [tx "T.OUT"]) = UB
  /\ requested wide_db (plain_feature (tx "T.OUT")) 0 101 0.
Proof.
  split; [vm_compute; reflexivity|]. split; [vm_compute; reflexivity|].
  exists BusCLBIOCLK, (mk_block None 0 1 100 2), (mk_bit 0 32 true). split; [|split; [reflexivity|]].
  - exists (tx "T"), (tx "OUT"), 0, [mk_bit 0 32 true]. split; [split; [reflexivity|]|].
    { intros [H|[]]. discriminate H. }
    split. { exists 0. split; [reflexivity|]. split; reflexivity. }
    split; [|now left].
    exists (mk_tile (tx "TT") [(BusCLBIOCLK, mk_block None 0 1 100 2)] [] []), (tx "TT"), (tx "OUT").
    eexists. exists [((tx "TT.IN", 0), [mk_bit 0 31 true]); ((tx "TT.OUT", 0), [mk_bit 0 32 true])].
    split. { exists [], []. split; [reflexivity|intros []]. }
    split. { apply seen_plain. intros bus b [H|[]]. inversion H; subst. reflexivity. }
    split; [reflexivity|]. split; [intros []|]. split; [intros []|].
    split. { exists [], []. split; [reflexivity|intros []]. }
    split. { exists [], []. split; [reflexivity|intros []]. }
    exists [((tx "TT.IN", 0), [mk_bit 0 31 true])], []. split; [reflexivity|].
    intros [H|[]]. discriminate H.
  - split; [reflexivity|]. split; [reflexivity|]. reflexivity.
Qed.

(** A text for this database meets the hypotheses of the theorems of C45. *)
Lemma wide_plain f : (forall t s g, ~ uses f t s g) -> forall pud, pudcb_default (tl_grid wide_db) pud ->
  stepdown_ready (tl_banks wide_db) (tl_grid wide_db) (pud ++ [f]) /\
  forall g, all_features wide_db (pud ++ [f]) g <-> g = f.
Proof.
  intros N pud PD.
  assert (E : pud = []).
  { destruct PD as [[-> _]|(t & s & l & (t0 & fn & I & I2 & _) & _)]; [reflexivity|].
    destruct I as [I|[]]. inversion I; subst. destruct I2. }
  subst pud. cbn [app].
  assert (W : forall bank tag, ~ wants_stepdown (tl_banks wide_db) [f] bank tag).
  { intros bank tag (g & t & s & bs & [<-|[]] & Us & _). eapply N; eauto. }
  split; [split|].
  - intros g t s tg [<-|[]] Us. exfalso. eapply N; eauto.
  - intros bank tag X. exfalso. eapply W; eauto.
  - intros g. split.
    + intros [[I|[]]|(n & SN & _)]; [auto|]. exfalso. destruct SN; eapply W; eauto.
    + intros ->. left. now left.
Qed.
Lemma wide_name (n : text) : In n [tx "T.NOPE"; tx "NODOT"] -> forall t s g, ~ uses (plain_feature n) t s g.
Proof.
  intros I t s g [_ (D1 & D2 & D3 & E)]. cbn [plain_feature ff_name] in E.
  assert (C : count_occ ascii_dec n dot = 1%nat \/ count_occ ascii_dec n dot = 0%nat).
  { destruct I as [<-|[<-|[]]]; vm_compute; auto. }
  assert (X : (2 <= count_occ ascii_dec n dot)%nat).
  { unfold dotted in E. destruct E as [->|(r & ->)]; rewrite ?count_occ_app; cbn [count_occ];
      rewrite ?count_occ_app; cbn [count_occ]; destruct (ascii_dec dot dot); try contradiction; lia. }
  lia.
Qed.
Lemma wide_usable : usable_grid (tl_grid wide_db).
Proof.
  apply usable_all. apply Forall_cons; [|constructor]. apply (usable_one _ None).
  - apply NoDup_cons; [intros []|constructor].
  - repeat constructor.
Qed.
Lemma wide_numbered : numbered_grid (tl_grid wide_db).
Proof.
  split.
  - intros tile t s fn M _ I. apply maps_to_In in M. destruct M as [M|[]]. inversion M; subst. destruct I.
  - intros tile site (t & fn & [M|[]] & I & _). inversion M; subst. destruct I.
Qed.
Lemma wide_no_entry tile rest k bus b l :
  entry wide_db tile rest k bus b l -> tile = tx "T" /\ (rest = tx "IN" \/ rest = tx "OUT").
Proof.
  intros (t & ty & seen & d & segs & M & S & B & _ & _ & _ & M2 & M3).
  apply maps_to_In in M. destruct M as [M|[]]. inversion M; subst. split; [reflexivity|].
  inversion B; subst. apply maps_to_In in M2. destruct M2 as [M2|[]]. inversion M2; subst.
  apply maps_to_In in M3. inversion S as [A|bus' b' al f' I E]; subst.
  - cbn [t_type mk_tile] in M3. destruct M3 as [M3|[M3|[]]]; inversion M3; subst; auto.
  - destruct I as [I|[]]. inversion I; subst. discriminate E.
Qed.
Lemma wide_no_pip tile rest : ~ pseudo_pip wide_db tile rest.
Proof. intros (t & ty & seen & d & _ & _ & B & P). inversion B; subst. destruct P as [[]|[]]. Qed.

Example C45_unknown_case : let fs := [plain_feature (tx "T.NOPE")] in
  usable_grid (tl_grid wide_db) /\ numbered_grid (tl_grid wide_db) /\ good_orders ex_orders /\ readable wide_db /\
  short_lines (unlines [tx "T.NOPE"]) /\ text_features Iso (unlines [tx "T.NOPE"]) fs /\ otherwise_fine wide_db fs /\
  (forall g, In g fs -> In dot (ff_name g)) /\
  enables (plain_feature (tx "T.NOPE")) 0 /\ ~ recognised wide_db (plain_feature (tx "T.NOPE")) 0.
Proof.
  cbv zeta. split; [apply wide_usable|]. split; [apply wide_numbered|]. split; [apply ex_orders_good|].
  split; [intros ty; eexists; reflexivity|]. split; [intros l [<-|[]]; vm_compute; reflexivity|].
  split. { eexists. split; [constructor; [|constructor]; eexists; split; [vm_compute; reflexivity|vm_compute; reflexivity]|reflexivity]. }
  assert (X : forall t r, first_dot (tx "T.NOPE") t r -> t = tx "T" /\ r = tx "NOPE").
  { intros t r FD. apply (first_dot_fun _ _ _ _ _ FD). split; [reflexivity|]. intros [H|[]]. discriminate H. }
  split.
  { intros pud PD. destruct (wide_plain (plain_feature (tx "T.NOPE"))) with (pud := pud) as [A B]; [apply wide_name; now left|exact PD|].
    split; [exact A|]. intros f Hf. apply B in Hf. subst f.
    intros a w i (bus & b & sb & (tile & rest & k & l & FD & _ & En & _) & _).
    apply X in FD as [-> ->]. apply wide_no_entry in En as [_ [En|En]]; discriminate En. }
  split. { intros g [<-|[]]. right. now left. }
  split. { exists 0. split; [reflexivity|]. split; reflexivity. }
  intros (tile & rest & FD & [P|(bus & b & l & En)]); [now apply wide_no_pip in P|].
  apply X in FD as [-> ->]. apply wide_no_entry in En as [_ [En|En]]; discriminate En.
Qed.

Example C45_malformed_case : let fs := [plain_feature (tx "NODOT")] in
  short_lines (unlines [tx "NODOT"]) /\ text_features Iso (unlines [tx "NODOT"]) fs /\ otherwise_fine wide_db fs /\
  (forall pud g, pudcb_default (tl_grid wide_db) pud -> all_features wide_db (pud ++ fs) g -> In dot (ff_name g) -> known wide_db g) /\
  ~ In dot (ff_name (plain_feature (tx "NODOT"))).
Proof.
  cbv zeta. assert (ND : ~ In dot (tx "NODOT")) by (vm_compute; intuition discriminate).
  split; [intros l [<-|[]]; vm_compute; reflexivity|].
  split. { eexists. split; [constructor; [|constructor]; eexists; split; [vm_compute; reflexivity|vm_compute; reflexivity]|reflexivity]. }
  assert (NA : forall bus b sb, ~ asks wide_db (plain_feature (tx "NODOT")) bus b sb).
  { intros bus b sb (tile & rest & k & l & [E _] & _). apply ND. cbn [plain_feature ff_name] in E. rewrite E. apply dot_notin_dotted. }
  split.
  { intros pud PD. destruct (wide_plain (plain_feature (tx "NODOT"))) with (pud := pud) as [A B]; [apply wide_name; right; now left|exact PD|].
    split; [exact A|]. intros f Hf. apply B in Hf. subst f.
    intros a w i (bus & b & sb & As & _). now apply NA in As. }
  split; [|exact ND].
  intros pud g PD Hg D. destruct (wide_plain (plain_feature (tx "NODOT"))) with (pud := pud) as [_ B]; [apply wide_name; right; now left|exact PD|].
  apply B in Hg. subst g. contradiction.
Qed.
