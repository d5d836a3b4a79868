(** Property C119: acceptance line by line. *)
From Verif Require Import Base BaseFacts Absl Part PartSpec Frame Frames Fasm FasmSpec
  DbText DbJson Database Packet Writer WriterFacts ConfigSpec ContainerSpec Reader Encode EncodeSpec EncodeFacts
  Assembler AsmSpec LookupFacts AsmLines AsmWhole DbSpec DbFacts JsonSpec JsonFacts LoadSpec LoadFacts AsmItems P_Fasm P_Database4 P_Main P_Main2 EndSpec AsmExample P_EndToEnd SameSpec SameFacts
  OrderFacts P_Repro P_Equiv P_Place P_Cut MapFacts EndFacts P_Local ResultSpec P_Result P_Input SpellSpec P_Spelling OpensSpec P_LoadLog GrowthSpec P_Growth ConflictSpec P_Conflict
  DisasmSpec P_Disasm MergeSpec P_Merge DropSpec P_Drop BisectSpec.
From Verif Require P_Messages.
From Coq Require Import Lia.

Lemma lines_shape input l : In l (getlines input) -> getlines l = [l].
Proof.
  intros I. destruct (P_Messages.getlines_shape input l I) as [(p & N0 & ->)|[N0 NE]]; [|now apply getlines_last].
  pose proof (getlines_cut p [] N0) as H. rewrite app_nil_r in H. rewrite H. reflexivity.
Qed.
Lemma lines_concat input : concat (getlines input) = input.
Proof.
  induction input as [|a r IH]; [reflexivity|]. cbn [getlines]. destruct (Ascii.eqb a nl) eqn:E.
  - apply Ascii.eqb_eq in E. subst a. cbn [concat app]. now rewrite IH.
  - destruct (getlines r) as [|l ls]; cbn [concat app] in *; now rewrite IH.
Qed.

Section Alone.
  Context (c0 : command) (root : text) (g : tilegrid) (p : db_part) (pins : list package_pin).
  Definition accepted (t : text) : Prop :=
    exists fuel ord c feats s, same_but_input c0 c /\ run_succeeds fuel ord c root t g p pins feats s.
  Hypothesis WK : e_walk (c_env c0) root <> None.
  Hypothesis IF : inside_frames (c_env c0) root g.
  Definition with_text (t : text) : command :=
    {| c_args := [tx "fpga-as"]; c_db_flag := c_db_flag c0; c_db_env := c_db_env c0; c_part := c_part c0; c_stdin := t; c_open := fun _ => None;
       c_env := c_env c0; c_date := c_date c0; c_time := c_time c0; c_stdout := c_stdout c0 |}.
  Lemma same_with_text t : same_but_input c0 (with_text t).
  Proof. unfold same_but_input, with_text. cbn [c_db_flag c_db_env c_part c_env c_date c_time c_stdout c_args List.length]. repeat split; lia. Qed.
  Lemma same_trans c1 c2 : same_but_input c0 c1 -> same_but_input c0 c2 -> same_but_input c1 c2.
  Proof. intros (? & ? & ? & ? & ? & ? & ? & ?) (? & ? & ? & ? & ? & ? & ? & ?). unfold same_but_input. intuition congruence. Qed.
  Lemma accepted_joined t1 t2 : accepted t1 -> accepted t2 -> accepted (t1 ++ t2).
  Proof.
    intros (f1 & o1 & c1 & fe1 & s1 & S1 & R1) (f2 & o2 & c2 & fe2 & s2 & S2 & R2).
    assert (E4 : c_env c1 = c_env c0) by apply S1.
    destruct (joined_succeeds f1 f2 o1 o2 o1 c1 c2 (with_text (t1 ++ t2)) root t1 t2 g p pins fe1 fe2 s1 s2 R1 R2) as (f & s & _ & R).
    - now rewrite E4.
    - now rewrite E4.
    - apply R1.
    - now apply same_trans.
    - apply same_trans; [exact S1|apply same_with_text].
    - reflexivity.
    - exists f, o1, (with_text (t1 ++ t2)), (fe1 ++ fe2), s. split; [apply same_with_text|exact R].
  Qed.
  Lemma accepted_lines ls : ls <> [] -> (forall l, In l ls -> accepted l) -> accepted (concat ls).
  Proof.
    induction ls as [|l ls IH]; [now intros []|]. intros _ A. cbn [concat]. destruct ls as [|l' ls].
    - cbn [concat]. rewrite app_nil_r. apply A. now left.
    - apply accepted_joined; [apply A; now left|]. apply IH; [discriminate|]. intros x I. apply A. now right.
  Qed.
  Lemma accepted_runs t : accepted t -> accepted_alone c0 t.
  Proof.
    intros (f1 & o1 & c1 & fe1 & s1 & S1 & R1) ord c' G E1 E2 E3 E4 E5 E6 E7 E8 EI.
    assert (X4 : c_env c1 = c_env c0) by apply S1.
    assert (S' : same_but_input c0 c') by (unfold same_but_input; repeat split; assumption).
    destruct (C114_order_and_repetition_of_lines f1 o1 ord c1 c' root t t g p pins fe1 s1 R1) as (f & s & H & _).
    - now rewrite X4.
    - now rewrite X4.
    - exact G.
    - now apply same_trans.
    - exact EI.
    - intros l. reflexivity.
    - exists f, s. exact H.
  Qed.
End Alone.

(** Property C119.  If each line is accepted as a text of its own, so is the whole text. *)
Theorem C119_lines_accepted_alone_are_accepted_together :
  forall c root g p pins input,
  e_walk (c_env c) root <> None -> inside_frames (c_env c) root g -> input <> [] ->
  (forall l, In l (getlines input) -> exists fuel ord cl feats s, same_but_input c cl /\ run_succeeds fuel ord cl root l g p pins feats s) ->
  accepted_alone c input.
Proof.
  intros c root g p pins input WK IF NE A. apply (accepted_runs c root g p pins WK IF). rewrite <- (lines_concat input).
  apply (accepted_lines c root g p pins WK IF); [|exact A]. intros E. apply NE. rewrite <- (lines_concat input), E. reflexivity.
Qed.
Print Assumptions C119_lines_accepted_alone_are_accepted_together.

(** Each line of an accepted text in which nothing asks for STEPDOWN is accepted alone, and so is any selection of the lines. *)
Theorem C119_without_stepdown_each_selection_is_accepted :
  forall fuel ord c root input g p pins feats s pud input',
  run_succeeds fuel ord c root input g p pins feats s ->
  e_walk (c_env c) root <> None -> inside_frames (c_env c) root g -> pudcb_default g pud -> no_stepdown (pud ++ feats) ->
  some_lines input' input -> accepted_alone c input'.
Proof.
  intros fuel ord c root input g p pins feats s pud input' R WK IF PD NS SL ord' c' G E1 E2 E3 E4 E5 E6 E7 E8 EI.
  destruct (run_decodes _ _ _ _ _ _ _ _ _ _ R) as (fs & _ & _ & _ & _ & _ & D).
  destruct (C118_lines_can_be_taken_away fuel ord ord' c c' root input input' g p pins feats s pud fs R WK IF G) as (feats' & _ & SUB & H); try assumption.
  - unfold same_but_input. repeat split; assumption.
  - destruct H as (fuel0 & s' & fs' & M & _); [|exists fuel0, s'; exact M].
    intros bank tag tile site (f & t & st & I & U & C & _) _ _ _. exfalso. refine (NS f t st tag _ U C).
    apply in_app_iff in I as [I|I]; apply in_app_iff; auto.
Qed.
Print Assumptions C119_without_stepdown_each_selection_is_accepted.
Corollary C119_without_stepdown_each_line_is_accepted :
  forall fuel ord c root input g p pins feats s pud l,
  run_succeeds fuel ord c root input g p pins feats s ->
  e_walk (c_env c) root <> None -> inside_frames (c_env c) root g -> pudcb_default g pud -> no_stepdown (pud ++ feats) ->
  In l (getlines input) -> accepted_alone c l.
Proof.
  intros fuel ord c root input g p pins feats s pud l R WK IF PD NS I.
  eapply C119_without_stepdown_each_selection_is_accepted; eauto. intros x Ix. rewrite (lines_shape _ _ I) in Ix. destruct Ix as [<-|[]]. exact I.
Qed.
Print Assumptions C119_without_stepdown_each_line_is_accepted.

(** ** Two lines of the demonstration *)
Lemma two_lines l : In l (getlines (one_input ++ clb_input)) -> l = one_input \/ l = clb_input.
Proof.
  assert (E : getlines (one_input ++ clb_input) = [one_input; clb_input]) by (vm_compute; reflexivity). rewrite E. intros [<-|[<-|[]]]; auto.
Qed.
Example C119_case : accepted_alone (with_env pull_env (demo_command [])) (one_input ++ clb_input).
Proof.
  apply (C119_lines_accepted_alone_are_accepted_together _ (tx "db") (tl_grid demo_db) (tl_part demo_db) [demo_pin]).
  - vm_compute. discriminate.
  - exact pull_inside.
  - discriminate.
  - intros l I. apply two_lines in I as [->| ->].
    + destruct one_run as (s & R). exists 3000%nat, ex_orders, (with_env pull_env (demo_command one_input)), one_feats, s. split; [apply pull_same_input|exact R].
    + destruct clb_run as (s & R). exists 3000%nat, ex_orders, (with_env pull_env (demo_command clb_input)), clb_feats, s. split; [apply pull_same_input|exact R].
Qed.
Print Assumptions C119_case.
Example C119_case_without_stepdown : exists s, pull_succeeds clb_input clb_feats s /\ no_stepdown (the_pud ++ clb_feats) /\
  accepted_alone (with_env pull_env (demo_command clb_input)) clb_input.
Proof.
  destruct clb_run as (s & R). exists s. split; [exact R|].
  assert (NS : no_stepdown (the_pud ++ clb_feats)).
  { intros f tile site tag I [_ P] C. apply parts_path3 in P. apply str_contains_spec in C.
    assert (X : forallb (fun f => match parts (ff_name f) with Some (_, _, tag) => negb (str_contains (tx "STEPDOWN") tag) | None => true end) (the_pud ++ clb_feats) = true)
      by (vm_compute; reflexivity).
    rewrite forallb_forall in X. specialize (X _ I). rewrite P, C in X. discriminate X. }
  split; [exact NS|].
  eapply (C119_without_stepdown_each_selection_is_accepted 3000 ex_orders); [exact R|vm_compute; discriminate|exact pull_inside|exact the_pud_default|exact NS|].
  intros l I. exact I.
Qed.
Print Assumptions C119_case_without_stepdown.
(** With STEPDOWN, a line of an accepted text need not be accepted alone. *)
Theorem C119_each_line_refuted : exists s pins feats,
  run_succeeds 3000 ex_orders (with_env gone_env (demo_command pull_input)) (tx "db") pull_input (tl_grid demo_db) (tl_part demo_db) pins feats s /\
  In left_input (getlines pull_input) /\
  main_program 3000 Iso ex_orders (with_env gone_env (demo_command left_input)) = Crash.
Proof.
  destruct C118_any_lines_refuted as (s & pins & feats & R & SL & _). exists s, pins, feats. split; [exact R|]. split; [|vm_compute; reflexivity].
  apply SL, left_lines. assert (E : getlines left_input = [left_input]) by (vm_compute; reflexivity). rewrite E. now left.
Qed.
Print Assumptions C119_each_line_refuted.
