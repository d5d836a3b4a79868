(** How the assembler ends, for a loaded database. *)
From Verif Require Import Base BaseFacts Absl Part PartSpec Frame Frames Fasm FasmSpec FasmLines
  DbText DbJson Database Encode EncodeSpec
  Assembler AsmSpec MapFacts AsmFacts LookupFacts ProcessFacts ProcessCrash RegistryFacts StepdownFacts
  AsmLines AsmWhole AsmItems OutcomeFacts DbSpec JsonSpec LoadSpec P_Assembler3 P_Implied.
From Coq Require Import ZifyBool ZifyN ZifyNat.

(** ** Lists of features *)
Section Lists.
  Variables (ord : orders) (tls : tiles).
  Hypothesis U : usable_grid (tl_grid tls).
  Hypothesis O : good_orders ord.
  Hypothesis RD : readable tls.
  Let fine f := known tls f /\ fits tls f.

  Lemma first_bad fs : Forall reported fs -> Forall (fits tls) fs ->
    Forall fine fs \/ exists l1 f l2, fs = l1 ++ f :: l2 /\ Forall fine l1 /\ ~ known tls f.
  Proof.
    induction fs as [|f fs IH]; intros R F; [left; constructor|]. inversion R; subst. inversion F; subst.
    assert (D : known tls f \/ ~ known tls f).
    { destruct (in_dec ascii_dec dot (ff_name f)) as [I|I].
      - destruct (known_or_not tls f U RD H1 I) as [K|(k & E & N)]; [now left|right].
        intros K. apply N. now apply recognised_known.
      - right. intros (tile & rest & [E _] & _). apply I. rewrite E. unfold dotted. apply in_or_app. right. now left. }
    destruct D as [D|D].
    - destruct IH as [A|(l1 & g & l2 & -> & A & B)]; auto.
      + left. constructor; [split|]; auto.
      + right. exists (f :: l1), g, l2. split; [reflexivity|]. split; [constructor; [split|]; auto|exact B].
    - right. exists [], f, fs. auto.
  Qed.

  Lemma stops_at l1 f l2 : Forall reported (l1 ++ f :: l2) -> Forall fine l1 -> fits tls f -> ~ known tls f ->
    process_features Iso ord tls 0 (l1 ++ f :: l2) ([], [])
    = if in_dec ascii_dec dot (ff_name f) then Crash else Err.
  Proof.
    intros R F FI K. apply Forall_app in R as [R1 R2]. inversion R2; subst. rewrite process_features_app.
    destruct (process_features_ok Iso ord tls l1 0 [] []) as (c1 & fr1 & E & C1 & W1 & _); auto using consistent_nil, wf_nil.
    unfold db_cache, asm_frames, btmap in *. rewrite E. cbn [obind process_features].
    destruct (in_dec ascii_dec dot (ff_name f)) as [I|I].
    - destruct (known_or_not tls f U RD H1 I) as [K'|(k & En & N)]; [contradiction|].
      erewrite process_feature_crash; [reflexivity|..]; eauto.
    - rewrite process_feature_nodot by exact I. reflexivity.
  Qed.
End Lists.

(** ** Lines *)
Lemma lines_total lines :
  (exists evss, Forall2 (line_parsed Iso) lines evss) \/
  exists l1 bad l2, lines = l1 ++ bad :: l2 /\ Forall (fun l => exists evs, line_parsed Iso l evs) l1 /\
    (line_failed Iso bad \/ fasm_parse Iso (fun _ => true) true bad = UB).
Proof.
  induction lines as [|l ls IH]; [left; exists []; constructor|].
  pose proof (assemble_line_cases Iso [] l) as C.
  destruct (assemble_line Iso [] l) as [fs| | | |]; try contradiction.
  - destruct C as (evs & P & _). destruct IH as [(evss & F)|(l1 & bad & l2 & -> & F & B)].
    + left. exists (evs :: evss). now constructor.
    + right. exists (l :: l1), bad, l2. split; [reflexivity|]. split; [constructor; eauto|exact B].
  - right. exists [], l, ls. auto.
  - right. exists [], l, ls. auto.
Qed.
Lemma parsed_lines l1 : Forall (fun l => exists evs, line_parsed Iso l evs) l1 -> exists evss, Forall2 (line_parsed Iso) l1 evss.
Proof. induction 1 as [|l ls (evs & P) F (evss & IH)]; [exists []; constructor|exists (evs :: evss); now constructor]. Qed.
Lemma lines_undefined lines bad rest fs :
  Forall (fun l => exists evs, line_parsed Iso l evs) lines -> fasm_parse Iso (fun _ => true) true bad = UB ->
  ofold (assemble_line Iso) (lines ++ bad :: rest) fs = UB.
Proof.
  intros F E. apply parsed_lines in F as (evss & F). rewrite ofold_app.
  rewrite (proj2 (assemble_lines_ok Iso lines fs (fs ++ flat_map line_features evss))); [|eauto]. cbn [obind ofold].
  unfold assemble_line at 1. change always with (fun _ : list event => true). now rewrite E.
Qed.
Lemma parsed_not_failed l evs : line_parsed Iso l evs -> ~ (line_failed Iso l \/ fasm_parse Iso (fun _ => true) true l = UB).
Proof.
  intros (r & E & L) [(st & E' & L')|E']; [|congruence]. rewrite E in E'. injection E' as <-. cbn [p_result] in L'. lia.
Qed.

(** ** AssembleFrames *)
Section Assemble.
  Variables (ord : orders) (tls : tiles) (input : text) (pud : list fasm_feature).
  Hypothesis U : usable_grid (tl_grid tls).
  Hypothesis NG : numbered_grid (tl_grid tls).
  Hypothesis O : good_orders ord.
  Hypothesis RD : readable tls.
  Hypothesis SL : short_lines input.
  Hypothesis EP : pudcb_features (tl_grid tls) = Ok pud.
  Hypothesis FI : forall f, fits tls f.

  Lemma asm_bad_line l1 bad l2 : getlines input = l1 ++ bad :: l2 ->
    Forall (fun l => exists evs, line_parsed Iso l evs) l1 -> line_failed Iso bad ->
    assemble_frames Iso ord tls input = Err.
  Proof.
    intros E F B. unfold assemble_frames. rewrite EP. cbn [obind]. rewrite E, assemble_lines_err; [reflexivity| |exact B].
    now apply parsed_lines.
  Qed.
  Lemma asm_undefined_line l1 bad l2 : getlines input = l1 ++ bad :: l2 ->
    Forall (fun l => exists evs, line_parsed Iso l evs) l1 -> fasm_parse Iso (fun _ => true) true bad = UB ->
    assemble_frames Iso ord tls input = UB.
  Proof. intros E F B. unfold assemble_frames. rewrite EP. cbn [obind]. now rewrite E, lines_undefined. Qed.

  Lemma asm_not_ready feats : text_features Iso input feats ->
    ~ stepdown_ready (tl_banks tls) (tl_grid tls) (pud ++ feats) ->
    assemble_frames Iso ord tls input = Crash.
  Proof.
    intros (evss & F & E) N. unfold assemble_frames. rewrite EP. cbn [obind].
    rewrite (proj2 (assemble_lines_ok Iso (getlines input) pud (pud ++ feats))); [|exists evss; split; [exact F|now rewrite E]].
    cbn [obind]. pose proof O as (_ & _ & GB & GT & _).
    destruct (add_stepdown_ok_crash (o_banks ord) (o_tags ord) (tl_banks tls) (tl_grid tls) (pud ++ feats) GB GT NG) as [(fs' & X)|X].
    - exfalso. apply N. eapply add_stepdown_inv; eauto.
    - now rewrite X.
  Qed.
  Lemma ready_dec feats : stepdown_ready (tl_banks tls) (tl_grid tls) (pud ++ feats) \/
    ~ stepdown_ready (tl_banks tls) (tl_grid tls) (pud ++ feats).
  Proof.
    pose proof O as (_ & _ & GB & GT & _).
    destruct (add_stepdown_ok_crash (o_banks ord) (o_tags ord) (tl_banks tls) (tl_grid tls) (pud ++ feats) GB GT NG) as [(fs' & X)|X].
    - left. eapply add_stepdown_inv; eauto.
    - right. intros R. destruct (add_stepdown_ok (o_banks ord) (o_tags ord) _ _ _ GB GT R) as (extra & E & _). congruence.
  Qed.

  Lemma asm_features feats : text_features Iso input feats ->
    stepdown_ready (tl_banks tls) (tl_grid tls) (pud ++ feats) ->
    exists extra, (forall f, In f extra <-> exists name, stepdown_name (tl_banks tls) (tl_grid tls) (pud ++ feats) name /\ f = plain_feature name) /\
      Forall reported ((pud ++ feats) ++ extra) /\
      assemble_frames Iso ord tls input = obind (process_features Iso ord tls 0 ((pud ++ feats) ++ extra) ([], [])) (fun p => Ok (snd p)).
  Proof.
    intros T R. pose proof O as (_ & _ & GB & GT & _). pose proof T as (evss & F & Efs).
    destruct (add_stepdown_ok (o_banks ord) (o_tags ord) _ _ _ GB GT R) as (extra & E & He).
    exists extra. split; [exact He|]. split.
    - destruct (pudcb_ok _ NG) as (pud' & EP' & _ & RP). assert (pud' = pud) as -> by congruence.
      apply Forall_app. split; [apply Forall_app; split; [exact RP|now apply (text_reported input)]|].
      apply Forall_forall. intros f I. apply He in I as (n & _ & ->). apply plain_reported.
    - unfold assemble_frames. rewrite EP. cbn [obind].
      rewrite (proj2 (assemble_lines_ok Iso (getlines input) pud (pud ++ feats))); [|exists evss; split; [exact F|now rewrite Efs]].
      cbn [obind]. rewrite E. cbn [obind].
      destruct (process_features Iso ord tls 0 ((pud ++ feats) ++ extra) ([], [])) as [[c fr]| | | |]; reflexivity.
  Qed.

  Lemma asm_first_bad feats l1 f l2 : text_features Iso input feats ->
    stepdown_ready (tl_banks tls) (tl_grid tls) (pud ++ feats) ->
    pud ++ feats = l1 ++ f :: l2 -> Forall (known tls) l1 -> ~ known tls f ->
    assemble_frames Iso ord tls input = if in_dec ascii_dec dot (ff_name f) then Crash else Err.
  Proof.
    intros T R E K N. destruct (asm_features _ T R) as (extra & _ & RP & ->). rewrite E in *.
    rewrite <- app_assoc in *. cbn [app] in *. rewrite stops_at; auto.
    - destruct (in_dec ascii_dec dot (ff_name f)); reflexivity.
    - revert K. apply Forall_impl. auto.
  Qed.
  Lemma asm_implied_bad feats name : text_features Iso input feats ->
    stepdown_ready (tl_banks tls) (tl_grid tls) (pud ++ feats) -> Forall (known tls) (pud ++ feats) ->
    stepdown_name (tl_banks tls) (tl_grid tls) (pud ++ feats) name -> ~ known tls (plain_feature name) ->
    assemble_frames Iso ord tls input = Crash.
  Proof.
    intros T R K SN N. destruct (asm_features _ T R) as (extra & He & RP & ->).
    assert (I : In (plain_feature name) extra) by (apply He; eauto).
    destruct (first_bad tls U RD extra) as [F|(l1 & f & l2 & E & F & NK)].
    - now apply Forall_app in RP as [_ RP].
    - apply Forall_forall. auto.
    - rewrite Forall_forall in F. exfalso. apply N. now apply F.
    - subst extra. rewrite app_assoc in *. rewrite stops_at; auto.
      + destruct (in_dec ascii_dec dot (ff_name f)) as [D|D]; [reflexivity|].
        assert (If : In f (l1 ++ f :: l2)) by (apply in_or_app; right; now left). apply He in If as (n & SN' & ->).
        exfalso. apply D. cbn [plain_feature ff_name]. destruct SN'; apply dot_notin_dotted.
      + apply Forall_app. split; [|exact F]. revert K. apply Forall_impl. auto.
  Qed.
  Lemma asm_fine feats : text_features Iso input feats ->
    stepdown_ready (tl_banks tls) (tl_grid tls) (pud ++ feats) ->
    (forall f, all_features tls (pud ++ feats) f -> known tls f) ->
    exists fr, assemble_frames Iso ord tls input = Ok fr.
  Proof.
    intros T R K. destruct (assemble_spec ord tls input pud U NG O SL EP) as [A _]. apply (A feats T R). auto.
  Qed.
  (** One of them applies. *)
  Lemma features_total feats : text_features Iso input feats ->
    stepdown_ready (tl_banks tls) (tl_grid tls) (pud ++ feats) ->
    (exists l1 f l2, pud ++ feats = l1 ++ f :: l2 /\ Forall (known tls) l1 /\ ~ known tls f) \/
    Forall (known tls) (pud ++ feats) /\
      ((exists name, stepdown_name (tl_banks tls) (tl_grid tls) (pud ++ feats) name /\ ~ known tls (plain_feature name)) \/
       forall f, all_features tls (pud ++ feats) f -> known tls f).
  Proof.
    intros T R. destruct (asm_features _ T R) as (extra & He & RP & _). apply Forall_app in RP as [RP RE].
    assert (AF : forall l, Forall (fits tls) l) by (intros l; apply Forall_forall; auto).
    assert (KF : forall l, Forall (fun f => known tls f /\ fits tls f) l -> Forall (known tls) l) by (intros l; apply Forall_impl; tauto).
    destruct (first_bad tls U RD (pud ++ feats) RP (AF _)) as [F|(l1 & f & l2 & E & F & NK)]; [right|left; eauto 8].
    split; [now apply KF|].
    destruct (first_bad tls U RD extra RE (AF _)) as [F'|(l1 & f & l2 & E & F' & NK)].
    - right. intros f [I|(n & SN & ->)]; rewrite Forall_forall in *; [now apply F|].
      apply F'. apply He. eauto.
    - left. assert (If : In f extra) by (rewrite E; apply in_or_app; right; now left). apply He in If as (n & SN & ->). eauto.
  Qed.
End Assemble.
