(** Property C91: a refusal is explained on stderr, a success prints nothing but the warnings for the lines. *)
From Verif Require Import Base BaseFacts Absl Part PartSpec Fasm FasmSafe FasmSpec FasmLog AsmLog DbText DbJson Database Writer Encode Assembler AsmSpec
  MapFacts OutcomeFacts AsmLines AsmWhole DbSpec JsonSpec LoadSpec LoadFacts MessageSpec MessageFacts P_Messages RefuseSpec P_Refuse P_Main P_Main2 P_EndToEnd AsmExample
  SameFacts MainLog MainLogSpec MainLogFacts NoErrFacts.
From Coq Require Import Lia.

(** Leaving out the messages gives the program of Assembler.v. *)
Theorem C91_same_run : forall fuel sm ord ss c, omap fst (main_log fuel sm ord ss c) = main_program fuel sm ord c.
Proof.
  intros fuel sm ord ss c. unfold main_log, main_program. destruct (2 <? List.length (c_args c))%nat; [reflexivity|].
  destruct (db_path c) as [root|]; [|reflexivity].
  destruct (match root with [] => true | _ => negb (e_exists (c_env c) root) end); [reflexivity|].
  destruct (c_part c) as [|pc pr] eqn:EP; [reflexivity|]. rewrite <- EP.
  destruct (parse_database (c_env c) (o_load ord) root (c_part c)) as [tls| | | |] eqn:ED; try reflexivity.
  destruct (input_text c) as [input|]; [|reflexivity]. rewrite assemble_erase.
  pose proof (assemble_log_ne sm ord tls input (loaded_bits_ne _ _ _ _ _ ED)) as NE.
  destruct (assemble_log sm ord tls input) as [[ms [fr|s]]| | | |]; cbn [obind snd omap]; try reflexivity; try contradiction.
  destruct (encode fuel (tl_part tls) (tx "fasm") (tx "fpga-source") (c_date c) (c_time c) fr (c_stdout c)); reflexivity.
Qed.
Print Assumptions C91_same_run.

Lemma read_end_fun sm lines ms ms' : read_to_the_end sm lines ms -> read_to_the_end sm lines ms' -> ms = ms'.
Proof.
  intros (l & F & -> & _) (l' & F' & -> & _). do 2 f_equal. revert l' F'. induction F as [|x y xs ys H F IH]; intros l' F'; inversion F'; subst; [reflexivity|].
  f_equal; [congruence|auto].
Qed.
Lemma split_first_line {A} (P Q : A -> Prop) (PQ : forall a, P a -> Q a -> False) l1 x l2 l1' x' l2' :
  l1 ++ x :: l2 = l1' ++ x' :: l2' -> Forall P l1 -> Forall P l1' -> Q x -> Q x' -> l1 = l1' /\ x = x'.
Proof.
  revert l1'. induction l1 as [|y l1 IH]; intros [|y' l1'] E F F' X X'; cbn [app] in E; injection E as E1 E2; subst.
  - now split.
  - exfalso. inversion F'; subst. eauto.
  - exfalso. inversion F; subst. eauto.
  - inversion F; inversion F'; subst. destruct (IH l1') as [-> ->]; auto.
Qed.
Definition fine_line sm (l : text) : Prop := exists st, fasm_log sm (fun _ => true) true l = Ok st /\ forall m, In m (l_messages st) -> severity m <> kError.
Definition bad_line sm (l : text) : Prop := exists st, fasm_log sm (fun _ => true) true l = Ok st /\ exists m, In m (l_messages st) /\ severity m = kError.
Lemma fine_not_bad sm l : fine_line sm l -> bad_line sm l -> False.
Proof. intros (st & E & F) (st' & E' & m & I & X). assert (st' = st) as -> by congruence. exact (F m I X). Qed.
Lemma end_fine sm lines ms : read_to_the_end sm lines ms -> Forall (fine_line sm) lines.
Proof.
  intros (l & F & -> & NE). induction F as [|x y xs ys H F IH]; [constructor|]. constructor.
  - exists y. split; [exact H|]. intros m I. apply NE. cbn [map concat]. apply in_or_app. now left.
  - apply IH. intros m I. apply NE. cbn [map concat]. apply in_or_app. now right.
Qed.
Lemma read_error_fun sm lines ms ms' : read_to_an_error sm lines ms -> read_to_an_error sm lines ms' -> ms = ms'.
Proof.
  intros (b & x & a & m0 & st & -> & R & L & -> & X) (b' & x' & a' & m0' & st' & E & R' & L' & -> & X').
  destruct (split_first_line (fine_line sm) (bad_line sm) (fine_not_bad sm) b x a b' x' a' E) as [-> ->].
  - eapply end_fine; eauto.
  - eapply end_fine; eauto.
  - exists st; auto.
  - exists st'; auto.
  - rewrite (read_end_fun _ _ _ _ R R'). congruence.
Qed.
Lemma end_not_error sm lines ms ms' : read_to_the_end sm lines ms -> read_to_an_error sm lines ms' -> False.
Proof.
  intros R (b & x & a & m0 & st & -> & _ & L & _ & X). apply end_fine in R. apply Forall_app in R as [_ R]. inversion R; subst.
  eapply fine_not_bad; [eassumption|]. exists st. auto.
Qed.

(** There is one thing to say. *)
Lemma complaint_fun sm ss c ns ns' : complaint sm ss c ns -> complaint sm ss c ns' -> ns = ns'.
Proof.
  unfold path_is, one_file.
  assert (P1 : forall root, path_usable c root -> path_is c root) by (intros r [H _]; exact H).
  assert (P2 : forall root, part_given c root -> path_usable c root) by (intros r [H _]; exact H).
  assert (P3 : forall root, database_read c root -> part_given c root) by (intros r [H _]; exact H).
  assert (P4 : forall root input, text_read c root input -> database_read c root) by (intros r i [H _]; exact H).
  intros H H'.
  destruct H as [L|O D|root P X|root P X|root P X|root P X|root input ms P X|root input ms feats f P X T W];
  destruct H' as [L'|O' D'|root' P' X'|root' P' X'|root' P' X'|root' P' X'|root' input' ms' P' X'|root' input' ms' feats' f' P' X' T' W'];
  try reflexivity;
  repeat match goal with
  | H : text_read c ?r ?i |- _ => pose proof (P4 _ _ H); let E := fresh in pose proof (proj2 H : input_text c = Some i) as E; clear H
  | H : database_read c ?r |- _ => pose proof (P3 _ H); let E := fresh in pose proof (proj2 H : loadable (c_env c) r (c_part c)) as E; clear H
  | H : part_given c ?r |- _ => pose proof (P2 _ H); let E := fresh in pose proof (proj2 H : c_part c <> []) as E; clear H
  | H : path_usable c ?r |- _ => pose proof (P1 _ H); let E := fresh in pose proof (proj2 H : r <> [] /\ e_exists (c_env c) r = true) as E; clear H
  | H : path_is c ?r |- _ => destruct H
  end; unfold one_file in *; try (exfalso; lia);
  try match goal with A : db_path c = Some ?r, B : db_path c = Some ?r' |- _ => assert (r' = r) by congruence; subst r' end;
  try match goal with A : input_text c = Some ?r, B : input_text c = Some ?r' |- _ => assert (r' = r) by congruence; subst r' end;
  try congruence; try contradiction;
  try match goal with A : ?r = [] \/ e_exists (c_env c) ?r = false, B : ?r <> [] /\ e_exists (c_env c) ?r = true |- _ => exfalso; destruct B, A; congruence end.
  - rewrite (read_error_fun _ _ _ _ X X'). reflexivity.
  - exfalso. eapply end_not_error; eauto.
  - exfalso. eapply end_not_error; eauto.
  - rewrite (read_end_fun _ _ _ _ X X'). rewrite (text_features_fun _ _ _ _ T T') in *. rewrite (without_dot_fun _ _ _ W W'). reflexivity.
Qed.

Lemma main_cases fuel sm ord ss c n s notes : sound_files (c_env c) -> good_orders ord -> main_log fuel sm ord ss c = Ok (n, s, notes) ->
  (n = 1 /\ s = c_stdout c /\ complaint sm ss c notes) \/
  (n = 0 /\ exists root input tls ms fr, text_read c root input /\ parse_database (c_env c) (o_load ord) root (c_part c) = Ok tls /\
     assemble_log sm ord tls input = Ok (ms, inl fr) /\ notes = map NFasm ms).
Proof.
  intros SF GO H. unfold main_log in H.
  destruct (2 <? List.length (c_args c))%nat eqn:E1.
  { injection H as <- <- <-. left. split; [reflexivity|]. split; [reflexivity|]. apply says_usage. now apply Nat.ltb_lt. }
  apply Nat.ltb_ge in E1. destruct (db_path c) as [root|] eqn:E2.
  2:{ injection H as <- <- <-. left. split; [reflexivity|]. split; [reflexivity|]. now apply says_no_path. }
  assert (P1 : path_is c root) by now split.
  destruct (match root with [] => true | _ => negb (e_exists (c_env c) root) end) eqn:E3.
  { injection H as <- <- <-. left. split; [reflexivity|]. split; [reflexivity|]. apply says_bad_path; [exact P1|]. destruct root as [|r rs]; [now left|]. right. now apply negb_true_iff. }
  assert (P2 : path_usable c root).
  { split; [exact P1|]. destruct root as [|r rs]; [discriminate E3|]. split; [discriminate|]. now apply negb_false_iff. }
  destruct (c_part c) as [|pc pr] eqn:EPT.
  { injection H as <- <- <-. left. split; [reflexivity|]. split; [reflexivity|]. now apply (says_no_part _ _ _ root). }
  rewrite <- EPT in *. assert (P3 : part_given c root) by (split; [exact P2|rewrite EPT; discriminate]).
  assert (GL : good_load (o_load ord)) by (apply GO).
  destruct (C79_loading (c_env c) (o_load ord) root (c_part c) SF GL) as (A & B & C).
  destruct (parse_database (c_env c) (o_load ord) root (c_part c)) as [tls| | | |] eqn:ED; try discriminate H.
  2:{ injection H as <- <- <-. left. split; [reflexivity|]. split; [reflexivity|]. apply (says_database _ _ _ root); [exact P3|].
      intros L. apply A in L as (t & X). discriminate X. }
  assert (P4 : database_read c root) by (split; [exact P3|apply A; eauto]).
  destruct (input_text c) as [input|] eqn:EI.
  2:{ injection H as <- <- <-. left. split; [reflexivity|]. split; [reflexivity|]. now apply (says_open _ _ _ root). }
  assert (P5 : text_read c root input) by now split.
  binv H. destruct v as [ms [fr|st]].
  - right. pose proof (encode_not_err fuel (tl_part tls) (tx "fasm") (tx "fpga-source") (c_date c) (c_time c) fr (c_stdout c)) as NE.
    destruct (encode fuel (tl_part tls) (tx "fasm") (tx "fpga-source") (c_date c) (c_time c) fr (c_stdout c)) as [s'| | | |]; try discriminate H; [|contradiction].
    injection H as <- _ <-. split; [reflexivity|]. exists root, input, tls, ms, fr. auto.
  - left. injection H as <- <- <-. split; [reflexivity|]. split; [reflexivity|].
    destruct (not_assembled _ _ _ _ _ _ E) as [[R ->]|(R & feats & f & T & W & ->)].
    + now apply (says_bad_line _ _ _ root input).
    + now apply (says_no_dot _ _ _ root input ms feats f).
Qed.

(** A run that ends with status 1 prints the messages of its reason: the one there is. *)
Theorem C91_refusal_is_explained :
  forall fuel sm ord ss c s notes, sound_files (c_env c) -> good_orders ord ->
  main_log fuel sm ord ss c = Ok (1, s, notes) ->
  complaint sm ss c notes /\ (forall notes', complaint sm ss c notes' -> notes' = notes) /\ s = c_stdout c /\ notes <> [].
Proof.
  intros fuel sm ord ss c s notes SF GO H. destruct (main_cases _ _ _ _ _ _ _ _ SF GO H) as [(_ & S & C)|[X _]]; [|discriminate X].
  split; [exact C|]. split; [intros ns' C'; eapply complaint_fun; eauto|]. split; [exact S|].
  destruct C; try discriminate; intros X; apply app_eq_nil in X as [_ X]; discriminate X.
Qed.
Print Assumptions C91_refusal_is_explained.

(** A run that ends with status 0 prints the messages for the lines, none of which is an error; there was no reason to refuse. *)
Theorem C91_success_prints_only_warnings :
  forall fuel sm ord ss c s notes, sound_files (c_env c) -> good_orders ord ->
  main_log fuel sm ord ss c = Ok (0, s, notes) ->
  exists input ms, input_text c = Some input /\ read_to_the_end sm (getlines input) ms /\ notes = map NFasm ms /\
    forall notes', ~ complaint sm ss c notes'.
Proof.
  intros fuel sm ord ss c s notes SF GO H.
  destruct (main_cases _ _ _ _ _ _ _ _ SF GO H) as [(X & _)|(_ & root & input & tls & ms & fr & TR & ED & EA & ->)]; [discriminate X|].
  exists input, ms. split; [apply TR|]. pose proof (assembled _ _ _ _ _ _ EA) as R. split; [exact R|]. split; [reflexivity|].
  assert (ND : forall feats f, text_features sm input feats -> first_without_dot feats f -> False).
  { intros feats f T (l1 & l2 & E & _ & N). unfold assemble_log in EA. binv EA. binv EA. destruct v0 as [ms' [fs|]]; [|discriminate EA]. binv EA. binv EA.
    destruct v1 as [[c1 f1]|]; [|discriminate EA]. apply process_accepts in E3.
    destruct (read_to_end _ _ _ _ _ E1) as (_ & evss & F & ->). destruct (stepdown_dotted _ _ _ _ _ _ E2) as (ex & -> & _).
    assert (T2 : text_features sm input (flat_map line_features evss)) by (exists evss; now split).
    rewrite (text_features_fun _ _ _ _ T2 T) in E3. rewrite E in E3. apply Forall_app in E3 as [E3 _]. apply Forall_app in E3 as [_ E3].
    apply Forall_app in E3 as [_ E3]. inversion E3; subst. contradiction. }
  intros ns C.
  assert (P1 : forall root, path_usable c root -> path_is c root) by (intros r [Q _]; exact Q).
  assert (P2 : forall root, part_given c root -> path_usable c root) by (intros r [Q _]; exact Q).
  assert (P3 : forall root, database_read c root -> part_given c root) by (intros r [Q _]; exact Q).
  assert (P4 : forall root input, text_read c root input -> database_read c root) by (intros r i [Q _]; exact Q).
  clear H ED EA. destruct C as [L|O D|root' P X|root' P X|root' P X|root' P X|root' input' ms' P X|root' input' ms' feats f P X T W];
  repeat match goal with
  | H : text_read c ?r ?i |- _ => pose proof (P4 _ _ H); let E := fresh in pose proof (proj2 H : input_text c = Some i) as E; clear H
  | H : database_read c ?r |- _ => pose proof (P3 _ H); let E := fresh in pose proof (proj2 H : loadable (c_env c) r (c_part c)) as E; clear H
  | H : part_given c ?r |- _ => pose proof (P2 _ H); let E := fresh in pose proof (proj2 H : c_part c <> []) as E; clear H
  | H : path_usable c ?r |- _ => pose proof (P1 _ H); let E := fresh in pose proof (proj2 H : r <> [] /\ e_exists (c_env c) r = true) as E; clear H
  | H : path_is c ?r |- _ => destruct H
  end; unfold one_file in *; try lia;
  try match goal with A : db_path c = Some ?r, B : db_path c = Some ?r' |- _ => assert (r' = r) by congruence; subst r' end;
  try match goal with A : input_text c = Some ?r, B : input_text c = Some ?r' |- _ => assert (r' = r) by congruence; subst r' end;
  try congruence; try contradiction;
  try match goal with A : ?r = [] \/ e_exists (c_env c) ?r = false, B : ?r <> [] /\ e_exists (c_env c) ?r = true |- _ => destruct B, A; congruence end.
  - eapply end_not_error; eauto.
  - eapply ND; eauto.
Qed.
Print Assumptions C91_success_prints_only_warnings.

(** So a run that ends says what there is to say: with a reason it refuses with its messages. *)
Corollary C91_every_reason_is_reported :
  forall fuel sm ord ss c n s notes notes', sound_files (c_env c) -> good_orders ord ->
  main_log fuel sm ord ss c = Ok (n, s, notes) -> complaint sm ss c notes' -> n = 1 /\ notes = notes'.
Proof.
  intros fuel sm ord ss c n s notes notes' SF GO H C. destruct (main_cases _ _ _ _ _ _ _ _ SF GO H) as [(-> & _ & C')|[-> _]].
  - split; [reflexivity|]. eapply complaint_fun; eauto.
  - exfalso. destruct (C91_success_prints_only_warnings _ _ _ _ _ _ _ SF GO H) as (_ & _ & _ & _ & _ & N). exact (N _ C).
Qed.
Print Assumptions C91_every_reason_is_reported.

(** The text on stderr: empty after a success without warnings, never empty after a refusal, whose last message names the step that failed. *)
Definition stderr_text (c : command) (notes : list note) : text := flat_map (render_note (hd [] (c_args c))) notes.
Definition whole_lines (t : text) : Prop := t = [] \/ exists t', t = t' ++ msg_nl.
Definition last_message_starts (t start : text) : Prop := exists before rest, whole_lines before /\ t = before ++ start ++ rest ++ msg_nl.
Theorem C91_what_stderr_shows :
  forall fuel sm ord ss c n s notes, sound_files (c_env c) -> good_orders ord ->
  main_log fuel sm ord ss c = Ok (n, s, notes) ->
  (stderr_text c notes = [] <-> n = 0 /\ exists input, input_text c = Some input /\ read_to_the_end sm (getlines input) []) /\
  (n = 1 -> exists start, last_message_starts (stderr_text c notes) start /\
     In start [tx "usage: "; tx "invalid prjxray-db path: "; tx "part mapping parsing: "; s_open ss; tx "could not assemble frames: "]).
Proof.
  intros fuel sm ord ss c n s notes SF GO H.
  assert (L : forall m : message, exists x y, render m = x :: y).
  { intros m. destruct (render m) as [|x y] eqn:E; [|eauto]. exfalso.
    assert (X : last (render m) "x"%char = ch_nl).
    { destruct m; unfold render, msg_nl; rewrite ?app_assoc; apply last_last. }
    rewrite E in X. discriminate X. }
  assert (N : forall p nt, render_note p nt <> []).
  { intros p nt X. assert (Y : forall t, t ++ msg_nl <> []) by (intros t Y; apply app_eq_nil in Y as [_ Y]; discriminate Y).
    destruct nt; cbn [render_note] in X; try (rewrite ?app_assoc in X; exact (Y _ X)).
    all: destruct (L m) as (x & y & E); rewrite E in X; discriminate X. }
  assert (Z : forall ns, stderr_text c ns = [] <-> ns = []).
  { intros ns. split; [|intros ->; reflexivity]. destruct ns as [|nt ns]; [reflexivity|]. intros X. unfold stderr_text in X. cbn [flat_map] in X.
    apply app_eq_nil in X as [X _]. now apply N in X. }
  rewrite Z. destruct (main_cases _ _ _ _ _ _ _ _ SF GO H) as [(-> & S & C)|[-> _]].
  - split; [split; [|intros [X _]; discriminate X]|].
    + intros ->. inversion C as [| | | | | |? ? ? ? ? X|? ? ? ? ? ? ? ? ? X]; apply app_eq_nil in X as [_ X]; discriminate X.
    + intros _. unfold stderr_text. set (pr := hd [] (c_args c)).
      assert (WN : forall nt, whole_lines (render_note pr nt)).
      { intros nt. right. destruct nt; try (eexists; cbn [render_note]; rewrite ?app_assoc; reflexivity).
        cbn [render_note]. destruct m; unfold render, msg_nl; rewrite ?app_assoc; eexists; reflexivity. }
      assert (WL : forall ns, whole_lines (flat_map (render_note pr) ns)).
      { induction ns as [|nt ns IHns]; [now left|]. cbn [flat_map]. destruct IHns as [-> |[t' ->]]; [rewrite app_nil_r; apply WN|].
        right. eexists. rewrite app_assoc. reflexivity. }
      assert (U : forall before, whole_lines before -> exists start, last_message_starts (before ++ render_note pr NUsage ++ []) start /\ In start [tx "usage: "; tx "invalid prjxray-db path: "; tx "part mapping parsing: "; s_open ss; tx "could not assemble frames: "]).
      { intros b WB. exists (tx "usage: "). split; [|now left]. exists b.
        exists (pr ++ tx " [options] < input.fasm > output.bit" ++ msg_nl ++ msg_nl ++ tx "This tool parses a sequence of fasm lines and assembles them" ++ msg_nl ++ tx "into a set of frames then mapped into bitstream." ++ msg_nl ++ tx "Output is written to stdout.").
        split; [exact WB|]. rewrite app_nil_r. cbn [render_note]. unfold usage. rewrite <- !app_assoc. reflexivity. }
      assert (F : forall ms st, exists start, last_message_starts (flat_map (render_note pr) (map NFasm ms ++ [NAssemble st])) start /\ In start [tx "usage: "; tx "invalid prjxray-db path: "; tx "part mapping parsing: "; s_open ss; tx "could not assemble frames: "]).
      { intros ms st. exists (tx "could not assemble frames: "). split; [|right; right; right; right; now left].
        exists (flat_map (render_note pr) (map NFasm ms)), st. split; [apply WL|]. rewrite flat_map_app. cbn [flat_map render_note]. rewrite app_nil_r. reflexivity. }
      destruct C as [Q|Q D|root P X|root P X|root P X|root P X|root input ms P X|root input ms feats f P X T W]; cbn [flat_map].
      * apply (U []). now left.
      * apply U. apply WN.
      * exists (tx "invalid prjxray-db path: "). split; [|right; now left]. exists [], (tx """" ++ root ++ tx """"). split; [now left|]. rewrite app_nil_r. cbn [render_note].
        rewrite <- !app_assoc. reflexivity.
      * apply U. apply WN.
      * exists (tx "part mapping parsing: "). split; [|right; right; now left]. exists [], (s_database ss). split; [now left|]. rewrite app_nil_r. reflexivity.
      * exists (s_open ss). split; [|right; right; right; now left]. exists [], []. split; [now left|]. rewrite app_nil_r. reflexivity.
      * apply F.
      * apply F.
  - split; [|intros X; discriminate X]. destruct (C91_success_prints_only_warnings _ _ _ _ _ _ _ SF GO H) as (input & ms & EI & R & -> & _). split.
    + intros X. split; [reflexivity|]. exists input. split; [exact EI|]. apply map_eq_nil in X. subst ms. exact R.
    + intros (_ & input' & EI' & R'). assert (input' = input) as -> by congruence. rewrite (read_end_fun _ _ _ _ R R'). reflexivity.
Qed.
Print Assumptions C91_what_stderr_shows.

(** ** Cases: the demo directory; a line that is not FASM; a feature without a dot; no part. *)
Definition with_part (part : text) (c : command) : command :=
  {| c_args := c_args c; c_db_flag := c_db_flag c; c_db_env := c_db_env c; c_part := part; c_stdin := c_stdin c; c_open := c_open c;
     c_env := c_env c; c_date := c_date c; c_time := c_time c; c_stdout := c_stdout c |}.
Definition demo_notes (c : command) : option (N * text) :=
  match main_log 3000 Iso ex_orders {| s_database := tx "status"; s_open := tx "errno"; s_encode := [] |} c with
  | Ok (n, _, ns) => Some (n, stderr_text c ns)
  | _ => None
  end.
Example C91_cases : sound_files demo_env /\ good_orders ex_orders /\
  demo_notes (demo_command demo_input) = Some (0, []) /\
  demo_notes (demo_command (unlines [tx "CLBLL_L_X2Y1.CLBLL_L_A1.IMUX_L6[3:2]"; tx "A.B ?"; tx "C.D"])) =
    Some (1, tx "1: INFO Range of bits CLBLL_L_X2Y1.CLBLL_L_A1.IMUX_L6[3:2], but no assignment" ++ msg_nl ++
             tx "1: expected newline, got '?'" ++ msg_nl ++ tx "could not assemble frames: internal error" ++ msg_nl) /\
  demo_notes (demo_command (unlines [tx "CLBLL_L_X2Y1.CLBLL_L_A1.IMUX_L6"; tx "AB"; tx "CD"])) =
    Some (1, tx "could not assemble frames: cannot split feature name AB" ++ msg_nl) /\
  demo_notes (with_part (tx "xc7z") (demo_command demo_input)) = Some (1, tx "part mapping parsing: status" ++ msg_nl) /\
  demo_notes (with_part [] (demo_command demo_input)) =
    Some (1, tx "no part provided" ++ msg_nl ++ usage (tx "fpga-as") ++ msg_nl).
Proof. split; [exact demo_sound_files|]. split; [exact ex_orders_good|]. repeat split; vm_compute; reflexivity. Qed.
