(** Property C110: an input that ends early.  The program takes the end of its input, a read error and the death of the process that
    writes into the pipe for the same thing (getline returns -1); what it then does depends only on where the text stops. *)
From Verif Require Import Base BaseFacts Absl Part PartSpec Frame Frames Fasm FasmSpec
  DbText DbJson Database Packet Config Writer WriterFacts ConfigSpec ConfigFacts ContainerSpec Reader ReaderFacts Encode EncodeSpec EncodeFacts
  Assembler AsmSpec LookupFacts AsmLines AsmWhole DbSpec JsonSpec LoadSpec P_Fasm P_Database4 P_Main P_Main2 EndSpec AsmExample P_EndToEnd SameSpec SameFacts P_Repro
  ResultSpec P_Result P_Equiv PlaceSpec PlaceFacts P_Place P_Cut.
From Coq Require Import Lia.
Local Notation newline := FasmSpec.newline (only parsing).

(** The same run, but for where its input comes from and what it contains. *)
Definition same_but_input (c c' : command) : Prop :=
  c_db_flag c' = c_db_flag c /\ c_db_env c' = c_db_env c /\ c_part c' = c_part c /\ c_env c' = c_env c /\
  c_date c' = c_date c /\ c_time c' = c_time c /\ c_stdout c' = c_stdout c /\ (List.length (c_args c') <= 2)%nat.

(** The text ends where a line ends. *)
Definition whole_lines (t : text) : Prop := t = [] \/ exists t', t = t' ++ newline.

Lemma getlines_whole t1 t2 : whole_lines t1 -> getlines (t1 ++ t2) = getlines t1 ++ getlines t2.
Proof.
  intros W. destruct (split_lines t1) as (ps & r & E & F & Nr & G).
  assert (R : r = []).
  { destruct W as [W|(t' & W)].
    - rewrite W in E. destruct r; [reflexivity|]. symmetry in E. apply app_eq_nil in E as [_ E]. discriminate E.
    - destruct r as [|c r]; [reflexivity|]. exfalso. rewrite W in E.
      assert (L : last (t' ++ newline) "000"%char = last (unlines ps ++ c :: r) "000"%char) by now rewrite E.
      unfold newline in L. rewrite last_last in L.
      assert (I : In (last (c :: r) "000"%char) (c :: r)).
      { generalize c. clear. intros c. revert c. induction r as [|x r IH]; intros c; [now left|]. right. apply IH. }
      assert (L2 : last (unlines ps ++ c :: r) "000"%char = last (c :: r) "000"%char).
      { generalize (unlines ps). clear. intros l. induction l as [|x l IH]; [reflexivity|].
        change ((x :: l) ++ c :: r) with (x :: (l ++ c :: r)). rewrite <- IH. cbn [last]. destruct (l ++ c :: r) eqn:E; [|reflexivity].
        apply app_eq_nil in E as [_ E]. discriminate E. }
      rewrite L2 in L. rewrite <- L in I. unfold no_newline in Nr. rewrite Forall_forall in Nr. apply (Nr _ I). reflexivity. }
  subst r. rewrite app_nil_r in *. rewrite E. clear E G W. induction ps as [|p ps IH]; [reflexivity|]. inversion F; subst.
  change (unlines (p :: ps)) with ((p ++ newline) ++ unlines ps). rewrite <- !app_assoc.
  rewrite !getlines_cut by assumption. rewrite IH by assumption. reflexivity.
Qed.

(** A text that does not end with a line: its last line is a beginning of a line of the whole text. *)
Lemma getlines_broken t1 t2 : ~ whole_lines t1 -> exists ls r rest,
  getlines t1 = ls ++ [r] /\ getlines (t1 ++ t2) = ls ++ rest /\ r <> [] /\ no_newline r.
Proof.
  intros W. destruct (split_lines t1) as (ps & r & E & F & Nr & G).
  assert (R : r <> []).
  { intros ->. apply W. rewrite app_nil_r in E. destruct (exists_last (l := ps)) as (ps' & p & X).
    - intros ->. apply W. left. exact E.
    - right. exists (unlines ps' ++ p). rewrite E, X. unfold unlines. rewrite map_app, concat_app. cbn [map concat]. now rewrite app_nil_r, app_assoc. }
  exists (map (fun p => p ++ newline) ps), r. rewrite G. destruct r as [|c r]; [contradiction|].
  exists (getlines ((c :: r) ++ t2)). split; [reflexivity|]. split; [|split; [exact R|exact Nr]].
  rewrite E, <- app_assoc. clear E G W R. induction ps as [|p ps IH]; [reflexivity|]. inversion F; subst.
  change (unlines (p :: ps)) with ((p ++ newline) ++ unlines ps). rewrite <- !app_assoc.
  rewrite getlines_cut, IH by assumption. reflexivity.
Qed.

Lemma last_no_newline r : r <> [] -> no_newline r -> last r "010"%char <> "010"%char.
Proof.
  intros R Nr. assert (I : In (last r "010"%char) r).
  { destruct r as [|c r]; [contradiction|]. clear. revert c. induction r as [|x r IH]; intros c; [now left|]. right. apply IH. }
  unfold no_newline in Nr. rewrite Forall_forall in Nr. exact (Nr _ I).
Qed.

(** Cut inside a line (its last newline included): the run fails, with nothing written, whatever the database and the design are. *)
Theorem C110_cut_inside_a_line :
  forall fuel fuel' sm ord c c' T1 T2 s,
  main_program fuel sm ord c = Ok (0, s) -> input_text c = Some (T1 ++ T2) ->
  same_but_input c c' -> input_text c' = Some T1 -> ~ whole_lines T1 ->
  main_program fuel' sm ord c' = Ok (1, c_stdout c).
Proof.
  intros fuel fuel' sm ord c c' T1 T2 s H EI (S1 & S2 & S3 & S4 & S5 & S6 & S7 & S8) EI' W.
  destruct (exit_zero _ _ _ _ _ H) as (root & tls & input & fr & ER & ED & EI2 & EA & EE).
  assert (input = T1 ++ T2) as -> by congruence. clear EI2.
  unfold main_program in *.
  assert (X : (2 <? List.length (c_args c'))%nat = false) by (apply Nat.ltb_ge; exact S8). rewrite X.
  assert (ER' : db_path c' = Some root) by (unfold db_path in *; now rewrite S1, S2). rewrite ER'.
  rewrite S3, S4. destruct (2 <? List.length (c_args c))%nat; [discriminate H|]. rewrite ER in H.
  destruct (match root with [] => true | _ => negb (e_exists (c_env c) root) end); [discriminate H|].
  destruct (c_part c) as [|pc pr] eqn:EPT; [discriminate H|]. rewrite ED, EI'.
  assert (A' : assemble_frames sm ord tls T1 = Err); [|rewrite A', S7; reflexivity].
  destruct (getlines_broken T1 T2 W) as (ls & r & rest & G1 & G2 & R & Nr).
  unfold assemble_frames in *. destruct (pudcb_features (tl_grid tls)) as [pud| | | |]; try discriminate EA. cbn [obind] in *.
  rewrite G2, ofold_app in EA. destruct (ofold (assemble_line sm) ls pud) as [fs| | | |] eqn:EL; try discriminate EA.
  rewrite G1. assert (E2 : ofold (assemble_line sm) (ls ++ [r]) pud = Err); [|rewrite E2; reflexivity].
  apply assemble_lines_err.
  - apply assemble_lines_ok in EL as (evss & F & _). eauto.
  - eexists. split; [apply C35_no_final_newline_rejected; [exact R|now apply last_no_newline]|]. cbn [p_result]. unfold kUserAbort, kError. lia.
Qed.
Print Assumptions C110_cut_inside_a_line.

Lemma text_features_whole sm t1 t2 fs : whole_lines t1 -> text_features sm (t1 ++ t2) fs ->
  exists fs1 fs2, text_features sm t1 fs1 /\ text_features sm t2 fs2 /\ fs = fs1 ++ fs2.
Proof.
  intros W (evss & F & ->). rewrite (getlines_whole _ _ W) in F. apply Forall2_app_inv_l in F as (e1 & e2 & F1 & F2 & ->).
  exists (flat_map line_features e1), (flat_map line_features e2). split; [exists e1; auto|]. split; [exists e2; auto|]. apply flat_map_app.
Qed.

Lemma package_covers_part g p pins fs fs' : incl fs fs' -> package_covers g p pins fs' -> package_covers g p pins fs.
Proof.
  intros I (A1 & A2). split.
  - intros f tile site tag If. exact (A1 f tile site tag (I _ If)).
  - intros bank tag tile (f & tl' & site & If & B). apply (A2 bank tag tile). exists f, tl', site. split; [apply I, If|exact B].
Qed.

(** Cut between two lines, in a run that would have succeeded with all of the text: the run does not notice.  It writes the design of the
    lines it got - every one of its frames, in a file that reads back as such - unless a STEPDOWN these lines imply, for a site that only
    the missing lines use, has no entry in the database; then it aborts.  It never fails with a status. *)
Theorem C110_cut_between_lines :
  forall fuel ord c root T1 T2 g p pins feats s,
  run_succeeds fuel ord c root (T1 ++ T2) g p pins feats s ->
  e_walk (c_env c) root <> None -> inside_frames (c_env c) root g ->
  whole_lines T1 -> forall c', same_but_input c c' -> input_text c' = Some T1 ->
  exists feats1 feats2, text_features Iso T1 feats1 /\ text_features Iso T2 feats2 /\ feats = feats1 ++ feats2 /\
    exists fuel0, forall fuel', (fuel0 <= fuel')%nat ->
      (exists s' fs, main_program fuel' Iso ord c' = Ok (0, s') /\ decode p (st_bytes s') = Ok (Some fs) /\
         StronglySorted N.lt (map fst fs) /\ (forall a, In a (map fst fs) <-> is_frame_address p a) /\
         forall a w i, (exists ws x, In (a, ws) fs /\ nth_error ws (N.to_nat w) = Some x /\ N.testbit x i = true) <->
           asks_for (c_env c) root g p pins feats1 a w i)
      \/ (main_program fuel' Iso ord c' = Crash /\
          exists pud name, pudcb_default g pud /\ implied g p pins (pud ++ feats1) name /\ ~ implied g p pins (pud ++ feats) name /\
            ~ covered (c_env c) root g (plain_feature name)).
Proof.
  intros fuel ord c root T1 T2 g p pins feats s R WK IF W c' (S1 & S2 & S3 & S4 & S5 & S6 & S7 & S8) EI'.
  destruct R as [G ES [HD LD] [HT LT] SF SW ER EI SL T DS CD DB OP H].
  destruct (text_features_whole _ _ _ _ W T) as (feats1 & feats2 & TF1 & TF2 & ->). exists feats1, feats2.
  split; [exact TF1|]. split; [exact TF2|]. split; [reflexivity|].
  assert (PC : proper_command c root (T1 ++ T2) /\ proper_command c' root T1).
  { unfold main_program in H. destruct (2 <? List.length (c_args c))%nat eqn:X; [discriminate H|]. apply Nat.ltb_ge in X.
    rewrite ER in H. destruct root as [|r0 rs]; [discriminate H|].
    destruct (e_exists (c_env c) (r0 :: rs)) eqn:XE; [|discriminate H]. destruct (c_part c) as [|pc pr] eqn:XP; [discriminate H|]. clear H.
    split; constructor; try congruence; try assumption; try discriminate.
    all: unfold db_path in *; rewrite ?S1, ?S2, ?S4; assumption. }
  destruct PC as (PC & PC').
  assert (PU : exists pud, pudcb_default g pud).
  { destruct (C71_exit_zero_for_any_reading fuel ord c s root (T1 ++ T2) g p pins G ES HD HT SF SW H ER EI SL DS CD DB) as (pud & _ & _ & PD & _). eauto. }
  destruct PU as (pud & PD).
  assert (SL1 : short_lines T1). { intros l I. apply SL. rewrite (getlines_whole _ _ W). apply in_app_iff. now left. }
  destruct (C78_how_every_run_ends ord c root (T1 ++ T2) g p pins pud G PC SL SF (SW root) WK DS CD DB OP PD IF) as (f0 & Q).
  specialize (Q (Nat.max f0 fuel) ltac:(lia)). rewrite (main_mono _ _ _ _ _ H (Nat.max f0 fuel)) in Q by lia.
  inversion Q as [| | | | | |fe TFe PKe Ce]; subst.
  assert (fe = feats1 ++ feats2) as -> by (eapply text_features_fun; eauto).
  assert (IN : incl (pud ++ feats1) (pud ++ feats1 ++ feats2)).
  { intros x Ix. apply in_app_iff in Ix as [Ix|Ix]; apply in_app_iff; [now left|right; apply in_app_iff; now left]. }
  assert (PK1 : package_covers g p pins (pud ++ feats1)) by (eapply package_covers_part; eauto).
  assert (AC : all_covered (c_env c) root g (pud ++ feats1)). { apply Forall_forall. intros x Ix. apply Ce. left. apply IN, Ix. }
  assert (D' : database_says (c_env c') root (c_part c') g p pins) by (rewrite S3, S4; exact DS).
  assert (HD' : header_text (c_date c')) by (rewrite S5; exact HD). assert (HT' : header_text (c_time c')) by (rewrite S6; exact HT).
  assert (ES' : c_stdout c' = file_at_end []) by congruence.
  destruct (C78_how_every_run_ends ord c' root T1 g p pins pud G PC' SL1) as (fuel0 & Q'); try assumption; try (rewrite S4; assumption).
  { rewrite S4. apply SW. }
  exists fuel0. intros fuel' L. specialize (Q' fuel' L). rewrite S4 in Q'. clear Q H.
  destruct (main_program fuel' Iso ord c') as [[n s']| | | |] eqn:E.
  - destruct n as [|n].
    + left. destruct (C71_exit_zero_for_any_reading fuel' ord c' s' root T1 g p pins G ES' HD' HT') as (q & fe & fs & PD' & TF' & CF & _ & DE);
        try assumption; try (rewrite S4; assumption).
      { unfold db_path in *. now rewrite S1, S2. }
      exists s', fs. split; [reflexivity|]. split; [exact DE|]. rewrite S4 in CF. destruct CF as (CS & CA & _ & CB). split; [exact CS|]. split; [exact CA|].
      intros a w i. rewrite CB. assert (fe = feats1) as -> by (eapply text_features_fun; eauto). assert (q = pud) as -> by (eapply pudcb_unique; eauto).
      split.
      * intros (f & I1 & I2). exists pud, f. auto.
      * intros (q & f & Q1 & I1 & I2). assert (q = pud) as -> by (eapply pudcb_unique; eauto). eauto.
    + exfalso. destruct Q' as (_ & _ & Q'). inversion Q' as [bad FS LF| | |fe f TFf _ (l1 & l2 & X & _ & NC) _| | |]; subst.
      * eapply stop_no_features; [exact FS|left; exact LF|exact TF1].
      * assert (fe = feats1) as -> by (eapply text_features_fun; eauto). unfold all_covered in AC. rewrite X in AC. apply Forall_app in AC as [_ AC].
        inversion AC; subst. contradiction.
  - contradiction.
  - right. split; [reflexivity|]. inversion Q' as [| |fe TFf NP| |fe f TFf _ (l1 & l2 & X & _ & NC) _|fe name TFf _ _ IM NC|]; subst;
      assert (fe = feats1) as -> by (eapply text_features_fun; eauto).
    + contradiction.
    + exfalso. unfold all_covered in AC. rewrite X in AC. apply Forall_app in AC as [_ AC]. inversion AC; subst. contradiction.
    + exists pud, name. split; [exact PD|]. split; [exact IM|]. split; [|exact NC]. intros IM2. apply NC, Ce. right. eauto.
  - exfalso. inversion Q' as [|bad FS LF| | | | |]; subst. eapply stop_no_features; [exact FS|right; exact LF|exact TF1].
  - contradiction.
Qed.
Print Assumptions C110_cut_between_lines.

(** When no feature asks for STEPDOWN the shortened run always succeeds, and the bits of its file are among those of the whole design: the
    file is a valid one for a part of the design. *)
Theorem C110_part_of_the_design :
  forall fuel ord c root T1 T2 g p pins feats s,
  run_succeeds fuel ord c root (T1 ++ T2) g p pins feats s ->
  e_walk (c_env c) root <> None -> inside_frames (c_env c) root g ->
  (forall pud f tile site tag, pudcb_default g pud -> In f (pud ++ feats) -> uses f tile site tag -> ~ contains (tx "STEPDOWN") tag) ->
  whole_lines T1 -> forall c', same_but_input c c' -> input_text c' = Some T1 ->
  exists fs, decode p (st_bytes s) = Ok (Some fs) /\
  exists fuel0, forall fuel', (fuel0 <= fuel')%nat ->
    exists s' fs', main_program fuel' Iso ord c' = Ok (0, s') /\ decode p (st_bytes s') = Ok (Some fs') /\
      map fst fs' = map fst fs /\
      forall a w i, (exists ws x, In (a, ws) fs' /\ nth_error ws (N.to_nat w) = Some x /\ N.testbit x i = true) ->
                    (exists ws x, In (a, ws) fs /\ nth_error ws (N.to_nat w) = Some x /\ N.testbit x i = true).
Proof.
  intros fuel ord c root T1 T2 g p pins feats s R WK IF NS W c' SB EI'.
  destruct (run_decodes _ _ _ _ _ _ _ _ _ _ R) as (fs & A1 & A2 & _ & A4 & _ & A6). exists fs. split; [exact A6|].
  destruct (C110_cut_between_lines _ _ _ _ _ _ _ _ _ _ _ R WK IF W c' SB EI') as (f1 & f2 & TF1 & TF2 & EF & fuel0 & Q).
  exists fuel0. intros fuel' L. specialize (Q fuel' L).
  assert (NI : forall fs' pud, incl fs' (pud ++ feats) -> pudcb_default g pud -> forall name, ~ implied g p pins fs' name).
  { intros fs' pud I PD name IM.
    assert (X : exists bank tag, bank_steps_down p pins fs' bank tag) by (inversion IM; subst; eauto).
    destruct X as (bank & tag & f & tile & site & If & U & C & _). exact (NS pud f tile site tag PD (I _ If) U C). }
  destruct Q as [(s' & fs' & E & D & B0 & B1 & B2)|(_ & pud & name & PD & IM & _)].
  - exists s', fs'. split; [exact E|]. split; [exact D|]. split.
    + apply sorted_keys_eq; auto. intros x. rewrite A2, B1. reflexivity.
    + intros a w i X. apply B2 in X as (pud & f & PD & ID & SB'). apply A4. exists pud, f. split; [exact PD|]. split; [|exact SB'].
      destruct ID as [I|(name & IM & ->)].
      * left. apply in_app_iff in I as [I|I]; apply in_app_iff; [now left|right]. rewrite EF. apply in_app_iff. now left.
      * exfalso. apply (NI (pud ++ f1) pud) in IM; [exact IM| |exact PD]. rewrite EF. intros y Iy.
        apply in_app_iff in Iy as [Iy|Iy]; apply in_app_iff; [now left|right; apply in_app_iff; now left].
  - exfalso. apply (NI (pud ++ f1) pud) in IM; [exact IM| |exact PD]. rewrite EF. intros y Iy.
    apply in_app_iff in Iy as [Iy|Iy]; apply in_app_iff; [now left|right; apply in_app_iff; now left].
Qed.
Print Assumptions C110_part_of_the_design.

(** The demonstration design cut after its second line: the comment and one feature remain.  The run succeeds, with a file that differs from that of the
    whole design: the claim "a run whose input was cut short does not end with status 0" is false. *)
Definition cut_input : text := unlines [tx "# a comment"; tx "CLBLL_L_X2Y1.SLICEL_X0.ALUT.INIT[1:0] = 2'b10"].
Definition cut_rest : text := unlines [tx "CLBLL_L_X2Y1.CLBLL_L_A1.IMUX_L6"; tx "LIOB33_X0Y1.IOB_Y1.STEPDOWN"].
Lemma cut_whole : demo_input = cut_input ++ cut_rest /\ whole_lines cut_input.
Proof.
  split; [vm_compute; reflexivity|]. right.
  exists (tx "# a comment" ++ newline ++ tx "CLBLL_L_X2Y1.SLICEL_X0.ALUT.INIT[1:0] = 2'b10"). vm_compute. reflexivity.
Qed.
Lemma demo_same_but i i' : same_but_input (demo_command i) (demo_command i').
Proof. unfold same_but_input, demo_command. cbn. repeat split. lia. Qed.

Lemma Forall2_cons_first {A B} (P : A -> B -> Prop) x l l' : Forall2 P (x :: l) l' -> exists y l'', l' = y :: l'' /\ P x y.
Proof. intros F. inversion F; subst. eauto. Qed.

Theorem C110_always_noticed_refuted :
  ~ (forall fuel fuel' ord c c' T1 T2 s s' root g p pins feats,
     run_succeeds fuel ord c root (T1 ++ T2) g p pins feats s -> (exists f fs2, text_features Iso T2 (f :: fs2)) ->
     same_but_input c c' -> input_text c' = Some T1 -> main_program fuel' Iso ord c' <> Ok (0, s')).
Proof.
  intros F. destruct C81_case as (s & _ & _ & R & _). destruct (demo_run _ _ R) as (pins & feats & RS).
  destruct cut_whole as (EC & W). rewrite EC in RS.
  destruct (run_shape cut_input) as (s' & _ & _ & R'); [vm_compute; reflexivity..|].
  refine (F 3000%nat 3000%nat ex_orders (demo_command (cut_input ++ cut_rest)) (demo_command cut_input) cut_input cut_rest s s' _ _ _ pins feats RS _ _ eq_refl R').
  - pose proof (rs_features _ _ _ _ _ _ _ _ _ _ RS) as T. destruct (text_features_whole _ _ _ _ W T) as (f1 & f2 & _ & T2 & _).
    destruct f2 as [|f f2]; [|eauto]. exfalso. destruct T2 as (evss & F2 & X).
    assert (G : getlines cut_rest = [tx "CLBLL_L_X2Y1.CLBLL_L_A1.IMUX_L6" ++ newline; tx "LIOB33_X0Y1.IOB_Y1.STEPDOWN" ++ newline]) by (vm_compute; reflexivity).
    rewrite G in F2. apply Forall2_cons_first in F2 as (e & es & -> & r & P & _).
    assert (P' : match fasm_parse Iso (fun _ => true) true (tx "CLBLL_L_X2Y1.CLBLL_L_A1.IMUX_L6" ++ newline) with Ok st => line_features (p_events st) <> [] | _ => False end)
      by (vm_compute; discriminate).
    rewrite P in P'. cbn [p_events] in P'. cbn [flat_map] in X. symmetry in X. apply app_eq_nil in X as [X _]. contradiction.
  - apply demo_same_but.
Qed.
Print Assumptions C110_always_noticed_refuted.

(** The hypotheses are met: the demonstration run cut between lines and inside a line; without its STEPDOWN line, cut and whole. *)
Example C110_case :
  (exists s pins feats, run_succeeds 3000 ex_orders (demo_command demo_input) (tx "db") (cut_input ++ cut_rest) (tl_grid demo_db) (tl_part demo_db) pins feats s /\
     e_walk demo_env (tx "db") <> None /\ inside_frames demo_env (tx "db") (tl_grid demo_db) /\ whole_lines cut_input /\
     same_but_input (demo_command demo_input) (demo_command cut_input) /\ input_text (demo_command cut_input) = Some cut_input) /\
  ~ whole_lines (tx "# a comment") /\
  main_program 5 Iso ex_orders (demo_command (tx "# a comment")) = Ok (1, c_stdout (demo_command demo_input)).
Proof.
  destruct C81_case as (s & _ & _ & R & _). destruct (demo_run _ _ R) as (pins & feats & RS). destruct cut_whole as (EC & W).
  assert (NW : ~ whole_lines (tx "# a comment")).
  { intros [X|(t' & X)]; [vm_compute in X; discriminate X|].
    assert (L : last (tx "# a comment") "000"%char = last (t' ++ newline) "000"%char) by now rewrite X.
    unfold newline in L. rewrite last_last in L. vm_compute in L. discriminate L. }
  split; [|split; [exact NW|]].
  - exists s, pins, feats. rewrite <- EC. split; [exact RS|]. split; [vm_compute; discriminate|]. split; [exact demo_inside|].
    split; [exact W|]. split; [apply demo_same_but|reflexivity].
  - destruct R as (_ & _ & R).
    apply (C110_cut_inside_a_line 3000 5 Iso ex_orders (demo_command demo_input) _ (tx "# a comment") (skipn 11 demo_input) s R);
      [vm_compute; reflexivity|apply demo_same_but|reflexivity|exact NW].
Qed.
