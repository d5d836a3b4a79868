(** AssembleFrames against AsmSpec. *)
From Verif Require Import Base BaseFacts Absl Part Frame Fasm FasmSpec FasmFacts FasmSafe FasmShape
  FasmFile FasmLines DbText DbJson Database Assembler EncodeSpec AsmSpec MapFacts AsmFacts
  LookupFacts ProcessFacts StepdownFacts AsmLines.
From Coq Require Import ZifyBool ZifyN ZifyNat.

Local Notation "x <- e ;; f" := (obind e (fun x => f))
  (at level 61, e at next level, right associativity).

Lemma assemble_lines_ok sm lines : forall fs fs',
  ofold (assemble_line sm) lines fs = Ok fs' <->
  exists evss, Forall2 (line_parsed sm) lines evss /\ fs' = fs ++ flat_map line_features evss.
Proof.
  induction lines as [|line lines IH]; intros fs fs'; cbn [ofold].
  - split.
    + intros [= <-]. exists []. split; [constructor|]. cbn. now rewrite app_nil_r.
    + intros (evss & F & ->). inversion F; subst. cbn. now rewrite app_nil_r.
  - pose proof (assemble_line_cases sm fs line) as C. split.
    + intros H. destruct (assemble_line sm fs line) as [fs1| | | |]; try discriminate H.
      destruct C as (evs & P & ->). cbn [obind] in H. apply IH in H as (evss & F & ->).
      exists (evs :: evss). split; [now constructor|]. cbn [flat_map]. now rewrite app_assoc.
    + intros (evss & F & ->). inversion F as [|? evs ? evss' P F']; subst.
      assert (E : assemble_line sm fs line = Ok (fs ++ line_features evs)).
      { destruct P as (r & E & L). unfold assemble_line. change always with (fun _ : list event => true).
        rewrite E. cbn [obind p_result p_events].
        replace ((r =? kUserAbort) || (r =? kError)) with false; [reflexivity|].
        symmetry. unfold kUserAbort, kError in *. apply orb_false_iff. rewrite !N.eqb_neq. lia. }
      rewrite E. cbn [obind]. apply IH. exists evss'. split; [exact F'|].
      cbn [flat_map]. now rewrite app_assoc.
Qed.

Lemma assemble_lines_err sm lines fs bad rest :
  (exists evss, Forall2 (line_parsed sm) lines evss) -> line_failed sm bad ->
  ofold (assemble_line sm) (lines ++ bad :: rest) fs = Err.
Proof.
  intros (evss & F) B. rewrite ofold_app.
  rewrite (proj2 (assemble_lines_ok sm lines fs (fs ++ flat_map line_features evss))); [|eauto]. cbn [obind ofold].
  destruct B as (st & E & L). unfold assemble_line at 1. change always with (fun _ : list event => true).
  rewrite E. cbn [obind]. pose proof (fasm_parse_res _ _ _ _ _ E) as R.
  replace ((p_result st =? kUserAbort) || (p_result st =? kError)) with true; [reflexivity|].
  symmetry. unfold kUserAbort, kError in *. apply orb_true_iff. rewrite !N.eqb_eq. lia.
Qed.

(** ** add_stepdown, backwards *)
Lemma ofold_app_ok {A B} (f : A -> B -> outcome A) l x l' a r :
  ofold f (l ++ x :: l') a = Ok r -> exists a' a'', f a' x = Ok a''.
Proof.
  rewrite ofold_app. destruct (ofold f l a) as [a'| | | |]; cbn [obind ofold]; try discriminate.
  destruct (f a' x) as [a''| | | |] eqn:E; try discriminate. eauto.
Qed.
Lemma ofold_In_ok {A B} (f : A -> B -> outcome A) l x a r :
  In x l -> ofold f l a = Ok r -> exists a' a'', f a' x = Ok a''.
Proof. intros I H. apply in_split in I as (l1 & l2 & ->). eapply ofold_app_ok; eauto. Qed.

Lemma Forall_dec_prop banks fs : Forall (banked banks) fs \/ ~ Forall (banked banks) fs.
Proof.
  induction fs as [|f fs IH]; [left; constructor|].
  destruct (banked_dec banks f) as [B|B]; [|right; intros F; inversion F; contradiction].
  destruct IH as [F|F]; [left; now constructor|right; intros X; inversion X; contradiction].
Qed.

Lemma add_stepdown_inv ordb ordt banks grid fs fs' :
  (forall l, Permutation (ordb l) l) -> (forall b l, Permutation (ordt b l) l) ->
  numbered_grid grid ->
  add_stepdown ordb ordt banks grid fs = Ok fs' -> stepdown_ready banks grid fs.
Proof.
  intros PB PT [NG _] H. unfold add_stepdown in H.
  destruct (scan_ok banks fs [] [] [] (scan_inv_nil banks)) as [S C].
  assert (B : Forall (banked banks) fs).
  { destruct (Forall_dec_prop banks fs) as [F|F]; [exact F|]. rewrite (C F) in H. discriminate H. }
  destruct (S B) as (used & bt & E & (HU & HB & ND & NE)). rewrite E in H. cbn [obind app] in *. split.
  - intros f tile site tag I U Ct. rewrite Forall_forall in B. eapply B; eauto.
  - intros bank tag W. apply HB in W as (tags & M & It).
    assert (I : In (bank, tags) (ordb bt)).
    { apply (Permutation_in _ (Permutation_sym (PB bt))). now apply maps_to_In. }
    destruct (ofold_In_ok _ _ _ _ _ I H) as (out & out' & E1). unfold stepdown_bank in E1.
    cbn [fst snd] in E1. destruct (reg_tiles banks bank) as [ts|]; [|discriminate E1].
    exists ts. split; [reflexivity|]. intros tile Itile Ct.
    destruct (ofold_In_ok _ _ _ _ _ Itile E1) as (o1 & o2 & E2).
    unfold stepdown_tile in E2. rewrite (proj2 (str_contains_spec _ _) Ct) in E2.
    unfold iob_sites in E2. destruct (hm_find text_eqb tile grid) as [t|] eqn:F; [|discriminate E2].
    apply (hm_find_maps _ text_eqb_eq) in F. exists t. split; [exact F|].
    intros s fn Is. eapply NG; eauto.
Qed.

(** ** The whole run *)

Lemma text_reported input fs : short_lines input -> text_features Iso input fs -> Forall reported fs.
Proof.
  intros S (evss & F & ->). unfold short_lines in S. induction F as [|line evs ls es P F IH]; cbn [flat_map].
  - constructor.
  - apply Forall_app. split.
    + destruct P as (r & E & _). apply fasm_ok_events in E.
      * now apply events_reported.
      * specialize (S line (or_introl eq_refl)). lia.
    + apply IH. intros l I. apply S. now right.
Qed.

Lemma plain_reported name : reported (plain_feature name).
Proof. split; vm_compute; discriminate. Qed.

Lemma pudcb_ok grid : numbered_grid grid ->
  exists l, pudcb_features grid = Ok l /\ pudcb_default grid l /\ Forall reported l.
Proof.
  intros [_ NG]. destruct (pudcb_features_spec grid NG) as [[N E]|(t & s & la & P & L & E)]; rewrite E.
  - exists []. split; [reflexivity|]. split; [left; auto|constructor].
  - eexists. split; [reflexivity|]. split; [right; exists t, s, la; auto|].
    apply Forall_forall. intros f I. apply in_map_iff in I as (n & <- & _). apply plain_reported.
Qed.

Lemma assemble_spec_gen sm ord tls input pud :
  usable_grid (tl_grid tls) -> numbered_grid (tl_grid tls) -> good_orders ord ->
  (forall fs, text_features sm input fs -> Forall reported fs) ->
  pudcb_features (tl_grid tls) = Ok pud ->
  (forall fs, text_features sm input fs ->
     stepdown_ready (tl_banks tls) (tl_grid tls) (pud ++ fs) ->
     (forall f, all_features tls (pud ++ fs) f -> known tls f /\ fits tls f) ->
     exists fr, assemble_frames sm ord tls input = Ok fr) /\
  (forall fr, assemble_frames sm ord tls input = Ok fr ->
     exists fs, text_features sm input fs /\
       stepdown_ready (tl_banks tls) (tl_grid tls) (pud ++ fs) /\
       (forall f, all_features tls (pud ++ fs) f -> known tls f /\ fits tls f) /\
       wf_frames fr /\
       (forall a, present fr a <-> exists f, all_features tls (pud ++ fs) f /\ touched tls f a) /\
       (forall a w i, w < 101 ->
          bit_at fr a w i = true <-> exists f, all_features tls (pud ++ fs) f /\ requested tls f a w i)).
Proof.
  intros U NG G SL EP. destruct (pudcb_ok _ NG) as (pud' & EP' & PD & RP).
  rewrite EP in EP'. inversion EP'; subst pud'. clear EP'.
  pose proof G as (_ & _ & GB & GT & _).
  assert (Rep : forall fs extra, text_features sm input fs ->
     (forall f, In f extra <-> exists name, stepdown_name (tl_banks tls) (tl_grid tls) (pud ++ fs) name
                                /\ f = plain_feature name) ->
     Forall reported ((pud ++ fs) ++ extra)).
  { intros fs extra T He. apply Forall_app. split.
    - apply Forall_app. split; [exact RP|]. now apply SL.
    - apply Forall_forall. intros f I. apply He in I as (n & _ & ->). apply plain_reported. }
  assert (All : forall fs extra,
     (forall f, In f extra <-> exists name, stepdown_name (tl_banks tls) (tl_grid tls) (pud ++ fs) name
                                /\ f = plain_feature name) ->
     forall f, In f ((pud ++ fs) ++ extra) <-> all_features tls (pud ++ fs) f).
  { intros fs extra He f. unfold all_features. rewrite in_app_iff, He. tauto. }
  unfold assemble_frames. rewrite EP. cbn [obind]. split.
  - intros fs T RD K. pose proof T as (evss & F & Efs).
    rewrite (proj2 (assemble_lines_ok sm (getlines input) pud (pud ++ fs))); [|exists evss; split; [exact F|now rewrite Efs]].
    cbn [obind]. destruct (add_stepdown_ok (o_banks ord) (o_tags ord) _ _ _ GB GT RD) as (extra & E & He).
    rewrite E. cbn [obind].
    destruct (process_features_ok sm ord tls ((pud ++ fs) ++ extra) 0 [] []) as (c' & fr & EPF & _); auto.
    + apply consistent_nil.
    + apply wf_nil.
    + apply Forall_forall. intros f I. apply K. now apply (All fs extra He).
    + exists fr. unfold db_cache, asm_frames, btmap in *. rewrite EPF. reflexivity.
  - intros fr H.
    destruct (ofold (assemble_line sm) (getlines input) pud) as [fs0| | | |] eqn:EL; try discriminate H.
    apply assemble_lines_ok in EL as (evss & F & ->). set (fs := flat_map line_features evss) in *.
    assert (T : text_features sm input fs) by (exists evss; auto).
    cbn [obind] in H.
    destruct (add_stepdown (o_banks ord) (o_tags ord) (tl_banks tls) (tl_grid tls) (pud ++ fs))
      as [fs1| | | |] eqn:ES; try discriminate H.
    pose proof (add_stepdown_inv _ _ _ _ _ _ GB GT NG ES) as RD.
    destruct (add_stepdown_ok (o_banks ord) (o_tags ord) _ _ _ GB GT RD) as (extra & E & He).
    rewrite ES in E. inversion E; subst fs1. clear E. cbn [obind] in H.
    apply obind_inv in H. destruct H as ([c1 fr1] & EPF & H). inversion H; subst fr1. clear H.
    pose proof EPF as INV. apply process_features_inv in INV; auto using consistent_nil, wf_nil.
    destruct (process_features_ok sm ord tls ((pud ++ fs) ++ extra) 0 [] []) as (c' & fr' & EPF' & _ & W & P & B);
      auto using consistent_nil, wf_nil.
    unfold db_cache, asm_frames, btmap in *. rewrite EPF in EPF'. inversion EPF'; subst c' fr'. exists fs.
    split; [exact T|]. split; [exact RD|]. split.
    { intros f I. rewrite Forall_forall in INV. apply INV. now apply (All fs extra He). }
    split; [exact W|]. split.
    + intros a. rewrite P. split.
      * intros [(x & [])|(f & I & X)]. exists f. split; [now apply (All fs extra He)|exact X].
      * intros (f & I & X). right. exists f. split; [now apply (All fs extra He)|exact X].
    + intros a w i Hw. rewrite B by exact Hw. split.
      * intros [X|(f & I & X)]; [discriminate X|]. exists f. split; [now apply (All fs extra He)|exact X].
      * intros (f & I & X). right. exists f. split; [now apply (All fs extra He)|exact X].
Qed.

Lemma assemble_spec ord tls input pud :
  usable_grid (tl_grid tls) -> numbered_grid (tl_grid tls) -> good_orders ord -> short_lines input ->
  pudcb_features (tl_grid tls) = Ok pud ->
  (forall fs, text_features Iso input fs ->
     stepdown_ready (tl_banks tls) (tl_grid tls) (pud ++ fs) ->
     (forall f, all_features tls (pud ++ fs) f -> known tls f /\ fits tls f) ->
     exists fr, assemble_frames Iso ord tls input = Ok fr) /\
  (forall fr, assemble_frames Iso ord tls input = Ok fr ->
     exists fs, text_features Iso input fs /\
       stepdown_ready (tl_banks tls) (tl_grid tls) (pud ++ fs) /\
       (forall f, all_features tls (pud ++ fs) f -> known tls f /\ fits tls f) /\
       wf_frames fr /\
       (forall a, present fr a <-> exists f, all_features tls (pud ++ fs) f /\ touched tls f a) /\
       (forall a w i, w < 101 ->
          bit_at fr a w i = true <-> exists f, all_features tls (pud ++ fs) f /\ requested tls f a w i)).
Proof.
  intros U NG G SL EP. apply assemble_spec_gen; auto. intros fs. now apply text_reported.
Qed.

(** Only the set of the features matters. *)
Lemma stepdown_same banks grid fs fs' : (forall f, In f fs <-> In f fs') ->
  (forall n, stepdown_name banks grid fs n -> stepdown_name banks grid fs' n) /\
  (stepdown_ready banks grid fs -> stepdown_ready banks grid fs').
Proof.
  intros S.
  assert (W : forall b t, wants_stepdown banks fs b t <-> wants_stepdown banks fs' b t).
  { intros b t. unfold wants_stepdown. split; intros (f & ti & si & bs & I & R); exists f, ti, si, bs;
      (split; [now apply S|exact R]). }
  assert (SU : forall t s, site_in_use fs t s <-> site_in_use fs' t s).
  { intros t s. unfold site_in_use. split; intros (f & g & I & R); exists f, g; (split; [now apply S|exact R]). }
  split.
  - intros n H. destruct H as [bank tag ts tile t s fn label Wa R It C M Is L NU|bank tag ts tile Wa R It C].
    + apply (sd_site banks grid fs' bank tag ts tile t s fn label); try assumption.
      * apply W. assumption.
      * intros X. apply NU. now apply SU.
    + apply (sd_clock banks grid fs' bank tag ts tile); try assumption. apply W. assumption.
  - intros [A B]. split.
    + intros f ti si tg I. apply A. now apply S.
    + intros b t X. apply (B b t). now apply W.
Qed.

Lemma all_features_same tls fs fs' : (forall f, In f fs <-> In f fs') ->
  forall f, all_features tls fs f <-> all_features tls fs' f.
Proof.
  intros S f. unfold all_features. rewrite S.
  assert (S' : forall f, In f fs' <-> In f fs) by (intros; symmetry; apply S).
  split; (intros [H|(n & H & E)]; [now left|right; exists n; split; [|exact E]]).
  - eapply stepdown_same; eauto.
  - eapply stepdown_same; [exact S'|exact H].
Qed.

Lemma Forall2_text sm ls evss : Forall2 (line_parsed sm) ls evss ->
  forall f, In f (flat_map line_features evss) <->
    exists line evs, In line ls /\ line_parsed sm line evs /\ In f (line_features evs).
Proof.
  induction 1 as [|line evs ls es P F IH]; intros f; cbn [flat_map In].
  - split; [intros []|]. intros (l & e & [] & _).
  - rewrite in_app_iff, IH. split.
    + intros [I|(l & e & I & R)]; [exists line, evs; auto|exists l, e; split; [now right|exact R]].
    + intros (l & e & [<-|I] & P' & If).
      * left. destruct P as (r & E & _), P' as (r' & E' & _). rewrite E in E'. inversion E'; subst. exact If.
      * right. exists l, e. auto.
Qed.

Lemma text_features_same sm t t' fs : (forall line, In line (getlines t) <-> In line (getlines t')) ->
  text_features sm t fs -> exists fs', text_features sm t' fs' /\ forall f, In f fs <-> In f fs'.
Proof.
  intros S (evss & F & ->).
  assert (H : exists evss', Forall2 (line_parsed sm) (getlines t') evss').
  { assert (A : forall line, In line (getlines t') -> exists evs, line_parsed sm line evs).
    { intros line I. apply S in I. clear S. induction F as [|l e ls es P F IH]; [destruct I|].
      destruct I as [<-|I]; eauto. }
    clear - A. induction (getlines t') as [|l ls IH]; [exists []; constructor|].
    destruct (A l (or_introl eq_refl)) as (e & P). destruct IH as (es & F).
    - intros line I. apply A. now right.
    - exists (e :: es). now constructor. }
  destruct H as (evss' & F'). exists (flat_map line_features evss'). split; [exists evss'; auto|].
  intros f. rewrite (Forall2_text _ _ _ F), (Forall2_text _ _ _ F').
  split; intros (l & e & I & R); exists l, e; (split; [now apply S|exact R]).
Qed.

Lemma text_features_fun sm t fs fs' : text_features sm t fs -> text_features sm t fs' -> fs = fs'.
Proof.
  intros (e & F & ->) (e' & F' & ->). f_equal. revert e' F'.
  induction F as [|l ev ls es P F IH]; intros e' F'; inversion F' as [|? ev' ? es' P' F1]; subst; [reflexivity|].
  f_equal; [|now apply IH]. destruct P as (r & E & _), P' as (r' & E' & _). rewrite E in E'. now inversion E'.
Qed.
