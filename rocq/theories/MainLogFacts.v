(** The messages of the whole program against Assembler.v and the reasons. *)
From Verif Require Import Base BaseFacts Absl Fasm FasmSafe FasmLog AsmLog Database Writer Encode Assembler AsmSpec MapFacts OutcomeFacts
  MessageSpec MessageFacts P_Messages RefuseSpec MainLog MainLogSpec.
From Coq Require Import Lia.

Definition dotted_name (f : fasm_feature) : Prop := In dot (ff_name f).

Lemma process_erase sm ord tls : forall fs i st, process_features sm ord tls i fs st =
  obind (process_log sm ord tls i fs st) (fun r => match r with inl s => Ok s | inr _ => Err end).
Proof.
  induction fs as [|f fs IH]; intros i st; [reflexivity|]. cbn [process_features process_log].
  destruct (split1_spec (ff_name f)) as [(a & b & _ & E)|[_ E]]; rewrite E.
  - destruct (process_feature sm ord tls i st f); cbn [obind]; try reflexivity. apply IH.
  - cbn [obind]. unfold process_feature. rewrite E. reflexivity.
Qed.
Lemma process_refuses sm ord tls : forall fs i st s, process_log sm ord tls i fs st = Ok (inr s) ->
  exists f, first_without_dot fs f /\ s = tx "cannot split feature name " ++ ff_name f.
Proof.
  induction fs as [|f fs IH]; intros i st s H; cbn [process_log] in H; [discriminate|].
  destruct (split1_spec (ff_name f)) as [(a & b & [FD _] & E)|[N E]]; rewrite E in H.
  - binv H. destruct (IH _ _ _ H) as (g & (l1 & l2 & -> & D & ND) & ->). exists g. split; [|reflexivity].
    exists (f :: l1), l2. split; [reflexivity|]. split; [|exact ND]. constructor; [|exact D]. rewrite FD. unfold dotted. apply in_or_app. right. now left.
  - exists f. split; [|now apply (f_equal (fun o => match o with Ok (inr x) => x | _ => [] end)) in H].
    exists [], fs. split; [reflexivity|]. split; [constructor|exact N].
Qed.
Lemma process_accepts sm ord tls : forall fs i st st', process_log sm ord tls i fs st = Ok (inl st') -> Forall dotted_name fs.
Proof.
  induction fs as [|f fs IH]; intros i st s H; cbn [process_log] in H; [constructor|].
  destruct (split1_spec (ff_name f)) as [(a & b & [FD _] & E)|[N E]]; rewrite E in H; [|discriminate].
  binv H. constructor; [|eauto]. unfold dotted_name. rewrite FD. unfold dotted. apply in_or_app. right. now left.
Qed.

Lemma read_erase sm : forall lines fs, ofold (assemble_line sm) lines fs =
  obind (read_log sm lines fs) (fun r => match snd r with Some fs' => Ok fs' | None => Err end).
Proof.
  induction lines as [|l ls IH]; intros fs; [reflexivity|]. cbn [ofold read_log]. rewrite assemble_line_log.
  destruct (fasm_log sm always true l); cbn [obind]; try reflexivity. destruct (_ || _); [reflexivity|]. cbn [obind]. rewrite IH.
  destruct (read_log sm ls _) as [[ms r]| | | |]; reflexivity.
Qed.
Lemma read_messages sm : forall lines fs ms r, read_log sm lines fs = Ok (ms, r) -> reading_messages sm lines = Ok ms.
Proof.
  induction lines as [|l ls IH]; intros fs ms r H; cbn [read_log reading_messages] in *; [now injection H as <- _|].
  binv H. rewrite E. cbn [obind]. destruct (_ || _); [now injection H as <- _|]. binv H. destruct v0 as [ms' r']. injection H as <- _.
  rewrite (IH _ _ _ E0). reflexivity.
Qed.
Lemma assemble_erase sm ord tls input : assemble_frames sm ord tls input =
  obind (assemble_log sm ord tls input) (fun r => match snd r with inl f => Ok f | inr _ => Err end).
Proof.
  unfold assemble_frames, assemble_log. destruct (pudcb_features (tl_grid tls)) as [pud| | | |]; cbn [obind]; try reflexivity.
  rewrite read_erase. destruct (read_log sm (getlines input) pud) as [[ms [fs|]]| | | |]; cbn [obind snd]; try reflexivity.
  destruct (add_stepdown (o_banks ord) (o_tags ord) (tl_banks tls) (tl_grid tls) fs) as [fs'| | | |]; cbn [obind]; try reflexivity.
  rewrite process_erase. destruct (process_log sm ord tls 0 fs' ([], [])) as [[[x y]|s]| | | |]; reflexivity.
Qed.

Lemma all_read_spec sm lines ms : all_read sm lines ms <-> read_to_the_end sm lines ms.
Proof. reflexivity. Qed.
Lemma stopped_spec sm lines ms : stopped sm lines ms <-> read_to_an_error sm lines ms.
Proof. reflexivity. Qed.

Lemma read_to_end sm : forall lines fs ms fs', read_log sm lines fs = Ok (ms, Some fs') ->
  read_to_the_end sm lines ms /\ exists evss, Forall2 (line_parsed sm) lines evss /\ fs' = fs ++ flat_map line_features evss.
Proof.
  intros lines fs ms fs' H. split.
  - pose proof (read_messages _ _ _ _ _ H) as M. destruct (reading_cases sm _ _ M) as [[A _]|[_ O]]; [exact A|].
    specialize (O fs). rewrite read_erase, H in O. discriminate O.
  - revert fs ms fs' H. induction lines as [|l ls IH]; intros fs ms fs' H; cbn [read_log] in H.
    + injection H as _ <-. exists []. split; [constructor|]. now rewrite app_nil_r.
    + binv H. destruct (stop_or_go sm l v E) as [[S X]|[S X]]; rewrite S in H; [discriminate|]. binv H. destruct v0 as [ms' r']. injection H as _ ->.
      destruct (IH _ _ _ E0) as (evss & F & ->). exists (l_events v :: evss). split; [|cbn [flat_map]; now rewrite app_assoc].
      constructor; [|exact F]. exists (l_result v). change (fun _ : list event => true) with always. rewrite parse_erase, E. cbn [obind]. split; [reflexivity|].
      assert (R : l_result v = worst (l_messages v)) by (eapply C80_result_is_the_worst_message; [|exact E]; intros h; reflexivity).
      apply orb_false_iff in S as [S1 S2]. apply N.eqb_neq in S1, S2.
      assert (B : worst (l_messages v) <= 5).
      { clear. induction (l_messages v) as [|x ms IH]; [discriminate|]. change (x :: ms) with ([x] ++ ms). rewrite worst_app. unfold worst at 1. cbn [map fold_left].
        unfold kSuccess. pose proof (severity_cases x). generalize dependent (worst ms). generalize dependent (severity x). intros. lia. }
      unfold kUserAbort, kError in *. rewrite R in *. clear - S1 S2 B. generalize dependent (worst (l_messages v)). intros w. intros. lia.
Qed.
Lemma read_stops sm : forall lines fs ms, read_log sm lines fs = Ok (ms, None) -> read_to_an_error sm lines ms.
Proof.
  intros lines fs ms H. pose proof (read_messages _ _ _ _ _ H) as M. destruct (reading_cases sm _ _ M) as [[_ O]|[A _]]; [|exact A].
  destruct (O fs) as (fs' & X). rewrite read_erase, H in X. discriminate X.
Qed.

Lemma in_dot_mid (a b : text) : In dot (a ++ tx "." ++ b).
Proof. apply in_or_app. right. now left. Qed.
Lemma pudcb_dotted g fs : pudcb_features g = Ok fs -> Forall dotted_name fs.
Proof.
  unfold pudcb_features. intros H. binv H. destruct v as [[t s]|]; [|injection H as <-; constructor].
  assert (X : fs = map (fun sfx => implied (t ++ tx "." ++ s ++ tx "." ++ sfx)) pudcb_suffixes) by congruence. rewrite X. clear H X.
  generalize pudcb_suffixes. intros l. apply Forall_forall. intros f I. apply in_map_iff in I as (x & <- & _). unfold dotted_name, implied. cbn [ff_name]. apply in_dot_mid.
Qed.
Lemma tile_dotted g used tags t l : stepdown_tile g used tags t = Ok l -> Forall dotted_name l.
Proof.
  unfold stepdown_tile. intros H. binv H.
  assert (X : l = v ++ (if str_contains (tx "HCLK_IOI3") t then [implied (t ++ tx ".STEPDOWN")] else [])) by congruence. rewrite X. clear H X.
  apply Forall_app. split.
  - destruct (str_contains (tx "IOB33") t); [|injection E as <-; constructor]. binv E. injection E as <-.
    apply Forall_forall. intros f I. apply in_flat_map in I as (site & _ & I). destruct (existsb _ used); [contradiction|].
    apply in_map_iff in I as (tag & <- & _). apply in_dot_mid.
  - destruct (str_contains (tx "HCLK_IOI3") t); repeat constructor. apply (in_dot_mid t (tx "STEPDOWN")).
Qed.
Lemma ofold_extends {X} (F : list fasm_feature -> X -> outcome (list fasm_feature)) :
  (forall out x out', F out x = Ok out' -> exists ex, out' = out ++ ex /\ Forall dotted_name ex) ->
  forall l out out', ofold F l out = Ok out' -> exists ex, out' = out ++ ex /\ Forall dotted_name ex.
Proof.
  intros HF. induction l as [|x l IH]; intros out out' H; cbn [ofold] in H; [injection H as <-; exists []; split; [now rewrite app_nil_r|constructor]|].
  binv H. destruct (HF _ _ _ E) as (ex & -> & D). destruct (IH _ _ H) as (ex' & -> & D'). exists (ex ++ ex'). split; [symmetry; apply app_assoc|now apply Forall_app].
Qed.
Lemma stepdown_dotted ordb ordt banks g fs fs' : add_stepdown ordb ordt banks g fs = Ok fs' ->
  exists ex, fs' = fs ++ ex /\ Forall dotted_name ex.
Proof.
  unfold add_stepdown. intros H. binv H. destruct v as [used bt]. revert H. apply ofold_extends. intros out [bank tags] out' H.
  unfold stepdown_bank in H. destruct (reg_tiles banks (fst (bank, tags))); [|discriminate H]. revert H. apply ofold_extends.
  clear. intros out t out' H. binv H. injection H as <-. exists v. split; [reflexivity|]. eapply tile_dotted; eauto.
Qed.

Lemma without_dot_app l fs f : Forall dotted_name l -> first_without_dot (l ++ fs) f -> first_without_dot fs f.
Proof.
  induction 1 as [|x l D _ IH]; cbn [app]; [auto|]. intros (l1 & l2 & E & F & N). apply IH. destruct l1 as [|y l1]; cbn [app] in E; injection E as <- E.
  - contradiction.
  - exists l1, l2. split; [exact E|]. inversion F; subst. now split.
Qed.
Lemma without_dot_prefix fs l f : Forall dotted_name l -> first_without_dot (fs ++ l) f -> first_without_dot fs f.
Proof.
  intros D. revert f. induction fs as [|x fs IH]; intros f H; cbn [app] in H.
  - exfalso. destruct H as (l1 & l2 & -> & _ & N). apply Forall_app in D as [_ D]. inversion D; subst. contradiction.
  - destruct H as (l1 & l2 & E & F & N). destruct l1 as [|y l1]; cbn [app] in E; injection E as <- E.
    + exists [], fs. split; [reflexivity|]. split; [constructor|exact N].
    + inversion F; subst. destruct (IH f) as (k1 & k2 & -> & F' & _); [exists l1, l2; now split|]. exists (x :: k1), k2. split; [reflexivity|]. split; [now constructor|exact N].
Qed.
Lemma without_dot_fun fs f f' : first_without_dot fs f -> first_without_dot fs f' -> f = f'.
Proof.
  induction fs as [|x fs IH]; intros (l1 & l2 & E & F & N) (k1 & k2 & E' & F' & N'); [destruct l1; discriminate|].
  destruct l1 as [|y l1], k1 as [|z k1]; cbn [app] in E, E'; injection E as <- E; injection E' as <- E'.
  - reflexivity.
  - inversion F'; subst. contradiction.
  - inversion F; subst. contradiction.
  - inversion F; inversion F'; subst. apply IH; [exists l1, l2|exists k1, k2]; now split.
Qed.

(** What reading and assembling a text gives. *)
Lemma assembled sm ord tls input ms fr : assemble_log sm ord tls input = Ok (ms, inl fr) -> read_to_the_end sm (getlines input) ms.
Proof.
  unfold assemble_log. intros H. binv H. binv H. destruct v0 as [ms' [fs|]]; [|discriminate]. binv H. binv H. injection H as -> _.
  eapply read_to_end; eauto.
Qed.
Lemma not_assembled sm ord tls input ms s : assemble_log sm ord tls input = Ok (ms, inr s) ->
  (read_to_an_error sm (getlines input) ms /\ s = tx "internal error") \/
  (read_to_the_end sm (getlines input) ms /\ exists feats f, text_features sm input feats /\ first_without_dot feats f /\
     s = tx "cannot split feature name " ++ ff_name f).
Proof.
  unfold assemble_log. intros H. binv H. binv H. destruct v0 as [ms' [fs|]].
  - right. binv H. binv H. injection H as -> X. destruct v1 as [[c fr]|s']; [discriminate X|]. injection X as ->.
    destruct (read_to_end _ _ _ _ _ E0) as (R & evss & F & ->). split; [exact R|].
    destruct (stepdown_dotted _ _ _ _ _ _ E1) as (ex & -> & D). apply process_refuses in E2 as (f & W & ->).
    exists (flat_map line_features evss), f. split; [exists evss; now split|]. split; [|reflexivity].
    apply without_dot_prefix in W; [|exact D]. apply without_dot_app in W; [exact W|]. eapply pudcb_dotted; eauto.
  - left. injection H as -> <-. split; [|reflexivity]. eapply read_stops; eauto.
Qed.
