(** Property C78: how a run ends, for every input; C77 for every run. *)
From Verif Require Import Base BaseFacts Absl Part PartSpec PartFromFacts Frame Frames Fasm FasmSpec FasmLines
  DbText DbJson Database Packet PacketFacts Writer WriterFacts Config ConfigSpec ContainerSpec Reader Encode EncodeSpec EncodeFacts
  Assembler AsmSpec MapFacts AsmFacts LookupFacts ProcessFacts RegistryFacts StepdownFacts
  AsmLines AsmWhole AsmItems JsonFacts JsonFacts2 DbSpec JsonSpec LoadSpec DbFacts LoadFacts OrderFacts P_Lookup P_Database P_Database3 P_Database4 OutcomeFacts
  P_Bitstream P_Assembler P_Main P_Main2 EndSpec EndFacts AsmExample P_EndToEnd SameSpec SameFacts P_Repro ResultSpec ResultFacts FasmFile P_Fasm.
From Coq Require Import ZifyBool ZifyN ZifyNat.

(** ** The results exclude each other *)
Lemma split_first {A} (Q R : A -> Prop) l1 x l2 l1' x' l2' : (forall a, Q a -> R a -> False) ->
  l1 ++ x :: l2 = l1' ++ x' :: l2' -> Forall Q l1 -> R x -> Forall Q l1' -> R x' -> x = x'.
Proof.
  intros EX. revert l1'. induction l1 as [|y l1 IH]; intros [|y' l1'] E F Rx F' Rx'; cbn [app] in E; injection E as E1 E2.
  - exact E1.
  - subst y'. inversion F'; subst. exfalso. eauto.
  - subst x'. inversion F; subst. exfalso. eauto.
  - inversion F; subst. inversion F'; subst. eauto.
Qed.
Definition stops l := line_failed Iso l \/ fasm_parse Iso (fun _ => true) true l = UB.
Lemma first_stop_fun input bad bad' : first_stop input bad -> stops bad -> first_stop input bad' -> stops bad' -> bad = bad'.
Proof.
  intros (l1 & l2 & E & F) B (l1' & l2' & E' & F') B'. rewrite E in E'.
  eapply (split_first (fun l => exists evs, line_parsed Iso l evs) stops); eauto.
  intros a (evs & P) S. exact (parsed_not_failed _ _ P S).
Qed.
Lemma stop_no_features input bad feats : first_stop input bad -> stops bad -> text_features Iso input feats -> False.
Proof.
  intros (l1 & l2 & E & _) S (evss & F & _). rewrite E in F. apply Forall2_app_inv_l in F as (e1 & e2 & _ & F & _).
  inversion F as [|? evs ? ? P]; subst. exact (parsed_not_failed _ _ P S).
Qed.

Section OneResult.
  Context (e : environment) (root : text) (g : tilegrid) (p : db_part) (pins : list package_pin).
  Lemma first_uncovered_fun fs f f' : first_uncovered e root g fs f -> first_uncovered e root g fs f' -> f = f'.
  Proof.
    intros (l1 & l2 & E & F & N) (l1' & l2' & E' & F' & N'). rewrite E in E'.
    eapply (split_first (covered e root g) (fun f => ~ covered e root g f)); eauto.
  Qed.
  Lemma uncovered_not_all fs f : first_uncovered e root g fs f -> all_covered e root g fs -> False.
  Proof.
    intros (l1 & l2 & -> & F & N) A. apply Forall_app in A as [_ A]. inversion A; subst. contradiction.
  Qed.
End OneResult.

(** A text ends in at most one way. *)
Theorem C78_one_result :
  forall e root g p pins input pud r r',
  ends e root g p pins input pud r -> ends e root g p pins input pud r' -> r = r'.
Proof.
  intros e root g p pins input pud r r' H H'.
  assert (TF : forall a b, text_features Iso input a -> text_features Iso input b -> a = b) by (intros a b; apply text_features_fun).
  assert (LL : forall b, line_failed Iso b -> fasm_parse Iso (fun _ => true) true b = UB -> False).
  { intros b (st & E & _) E'. congruence. }
  destruct H as [bad S B|bad S B|feats T N|feats f T PC FU D|feats f T PC FU D|feats n T PC AC I N|feats T PC A];
  destruct H' as [bad' S' B'|bad' S' B'|feats' T' N'|feats' f' T' PC' FU' D'|feats' f' T' PC' FU' D'|feats' n' T' PC' AC' I' N'|feats' T' PC' A'];
  try reflexivity; exfalso;
  lazymatch goal with
  | S : first_stop _ bad, S' : first_stop _ bad' |- _ =>
      assert (X : bad = bad') by (eapply first_stop_fun; [exact S|unfold stops; auto|exact S'|unfold stops; auto]); subst bad'; eapply LL; eassumption
  | S : first_stop _ ?x, B : line_failed _ ?x, T : text_features _ _ _ |- _ => exact (stop_no_features _ _ _ S (or_introl B) T)
  | S : first_stop _ ?x, B : _ = UB, T : text_features _ _ _ |- _ => exact (stop_no_features _ _ _ S (or_intror B) T)
  | _ => idtac
  end;
  pose proof (TF _ _ T T'); subst feats';
  try match goal with N : ~ package_covers _ _ _ _ |- _ => exact (N ltac:(assumption)) end;
  repeat match goal with
  | A : forall f, in_design _ _ _ ?fs f -> covered _ _ _ f |- _ =>
      lazymatch goal with Y : all_covered e root g fs |- _ => fail | _ =>
        assert (all_covered e root g fs) by (apply Forall_forall; intros x Ix; apply A; left; exact Ix) end
  end;
  try match goal with FU : first_uncovered _ _ _ ?fs _, A : all_covered _ _ _ ?fs |- _ => exact (uncovered_not_all _ _ _ _ _ FU A) end.
  - rewrite (first_uncovered_fun _ _ _ _ _ _ FU FU') in D. contradiction.
  - rewrite (first_uncovered_fun _ _ _ _ _ _ FU FU') in D. contradiction.
  - apply N. apply A'. right. eauto.
  - apply N'. apply A. right. eauto.
Qed.
Print Assumptions C78_one_result.

(** ** The loaded database against its description *)
Section Prepared.
  Context (ord : orders) (e : environment) (root part : text) (g : tilegrid) (p : db_part) (pins : list package_pin) (tls : tiles).
  Hypothesis G : good_orders ord.
  Hypothesis SF : sound_files e.
  Hypothesis SW : sound_walk e root.
  Hypothesis ED : parse_database e (o_load ord) root part = Ok tls.
  Hypothesis DS : database_says e root part g p pins.
  Hypothesis CD : consistent_description e root g p.
  Hypothesis DB : distinct_banks p.
  Hypothesis IF : inside_frames e root g.

  Lemma prepared :
    same_grid g (tl_grid tls) /\ same_part p (tl_part tls) /\ sound_database tls /\ readable tls /\ (forall f, fits tls f) /\
    (forall f, known tls f <-> covered e root g f) /\
    (forall fs, stepdown_ready (tl_banks tls) (tl_grid tls) fs <-> package_covers g p pins fs) /\
    (forall fs n, stepdown_name (tl_banks tls) (tl_grid tls) fs n <-> implied g p pins fs n).
  Proof.
    pose proof G as (_ & _ & _ & _ & GT). destruct (loaded_registry _ _ _ _ _ SF GT ED) as (pins1 & DS1 & BK).
    destruct (database_says_same _ _ _ _ _ _ _ _ _ SF DS DS1) as (SG & SP & <-).
    pose proof (consistent_same _ _ _ _ _ _ SG SP CD) as CD1. pose proof (sound_same e root part (o_load ord) tls SF SW ED CD1) as D.
    pose proof (same_grid_sym _ _ SG) as SG'. pose proof (same_part_sym _ _ SP) as SP'. pose proof (distinct_banks_same _ _ SP DB) as DB1.
    assert (FI : forall f, fits tls f).
    { intros f a w i Q. apply (requested_same e root part (o_load ord) tls SF SW ED) in Q.
      apply (sets_bit_same _ _ _ _ SG') in Q. destruct Q as (tile & rest & k & bus & b & l & sb & _ & _ & L & I & S & La). eapply IF; eauto. }
    split; [exact SG|]. split; [exact SP|]. split; [exact D|]. split; [eapply C70_every_type_can_be_asked_for; eauto|]. split; [exact FI|]. split; [|split].
    - intros f. split.
      + intros K. apply (covered_same _ _ _ _ _ SG'). apply (known_same e root part (o_load ord) tls SF SW ED). auto.
      + intros K. apply (covered_same _ _ _ _ _ SG) in K. now apply (known_same e root part (o_load ord) tls SF SW ED) in K.
    - intros fs. rewrite BK, (ready_same (tl_grid tls) (tl_part tls) pins (lo_tiles (o_load ord)) (proj1 GT) _ (sd_sites _ D)).
      split; eapply package_covers_same; eauto.
    - intros fs n. rewrite BK, (stepdown_same_name (tl_grid tls) (tl_part tls) pins (lo_tiles (o_load ord)) (proj1 GT)).
      assert (X : forall g p g' p', same_grid g g' -> same_part p p' -> distinct_banks p -> implied g p pins fs n -> implied g' p' pins fs n).
      { clear. intros g p g' p' SG SP DB H. destruct H as [bank tag tile t s fn label W R C M Is L NU|bank tag tile W R C].
        - destruct (same_grid_maps _ _ _ _ SG M) as (t' & M' & T). apply (implied_site g' p' pins fs bank tag tile t' s fn label); try assumption.
          + eapply steps_down_same; eauto.
          + eapply in_bank_same; eauto.
          + destruct T as (_ & _ & _ & _ & _ & _ & _ & T). exact (Permutation_in _ (same_entries_perm _ _ T) Is).
        - apply (implied_clock g' p' pins fs bank tag tile); try assumption; [eapply steps_down_same; eauto|eapply in_bank_same; eauto]. }
      split; eapply X; eauto.
  Qed.

  Context (input : text) (pud : list fasm_feature).
  Hypothesis SL : short_lines input.
  Hypothesis EP : pudcb_features (tl_grid tls) = Ok pud.

  (** What AssembleFrames returns for each result. *)
  Definition returns (r : result) (o : outcome asm_frames) : Prop :=
    match r with
    | Written => exists fr, o = Ok fr
    | GivesUp => o = Err
    | Aborts => o = Crash
    | Undefined => o = UB
    end.
  Lemma known_all l : (forall f, known tls f <-> covered e root g f) -> Forall (covered e root g) l -> Forall (known tls) l.
  Proof. intros KC. apply Forall_impl. intros f. apply KC. Qed.
  Lemma ends_returns r : ends e root g p pins input pud r -> returns r (assemble_frames Iso ord tls input).
  Proof.
    destruct prepared as (SG & SP & D & RD & FI & KC & RP & NI).
    pose proof (sd_grid _ D) as U. pose proof (sd_sites _ D) as NG.
    intros [bad (l1 & l2 & E & F) B|bad (l1 & l2 & E & F) B|feats T N|feats f T PC (l1 & l2 & E & F & NC) ND|feats f T PC (l1 & l2 & E & F & NC) ND|feats n T PC AC I N|feats T PC A]; cbn [returns].
    - eapply asm_bad_line; eauto.
    - eapply asm_undefined_line; eauto.
    - eapply asm_not_ready; eauto. rewrite RP. exact N.
    - rewrite (asm_first_bad ord tls input pud U NG G RD SL EP FI feats l1 f l2 T); auto.
      + destruct (in_dec ascii_dec dot (ff_name f)); [contradiction|reflexivity].
      + now apply RP.
      + now apply known_all.
      + now rewrite KC.
    - rewrite (asm_first_bad ord tls input pud U NG G RD SL EP FI feats l1 f l2 T); auto.
      + destruct (in_dec ascii_dec dot (ff_name f)); [reflexivity|contradiction].
      + now apply RP.
      + now apply known_all.
      + now rewrite KC.
    - apply (asm_implied_bad ord tls input pud U NG G RD SL EP FI feats n T).
      + now apply RP.
      + now apply known_all.
      + now apply NI.
      + now rewrite KC.
    - apply (asm_fine ord tls input pud U NG G SL EP FI feats T).
      + now apply RP.
      + intros f [I|(n & SN & ->)]; apply KC; apply A; [now left|]. right. exists n. split; [now apply NI|reflexivity].
  Qed.
  Lemma ends_total : exists r, ends e root g p pins input pud r.
  Proof.
    destruct prepared as (SG & SP & D & RD & FI & KC & RP & NI).
    pose proof (sd_grid _ D) as U. pose proof (sd_sites _ D) as NG.
    destruct (lines_total (getlines input)) as [(evss & F)|(l1 & bad & l2 & E & F & [B|B])].
    2:{ exists GivesUp. apply (ends_bad_line _ _ _ _ _ _ _ bad); [exists l1, l2; auto|exact B]. }
    2:{ exists Undefined. apply (ends_undefined_line _ _ _ _ _ _ _ bad); [exists l1, l2; auto|exact B]. }
    assert (T : text_features Iso input (flat_map line_features evss)) by (exists evss; auto).
    set (feats := flat_map line_features evss) in *. clearbody feats.
    destruct (ready_dec ord tls pud NG G feats) as [R|R].
    2:{ exists Aborts. apply (ends_package _ _ _ _ _ _ _ feats T). now rewrite <- RP. }
    assert (PC : package_covers g p pins (pud ++ feats)) by now apply RP.
    destruct (features_total ord tls input pud U NG G RD SL EP FI feats T R) as [(l1 & f & l2 & E & K & N)|[K [(n & SN & N)|A]]].
    - assert (FU : first_uncovered e root g (pud ++ feats) f).
      { exists l1, l2. split; [exact E|]. split; [|now rewrite <- KC]. revert K. apply Forall_impl. intros x. apply KC. }
      destruct (in_dec ascii_dec dot (ff_name f)) as [I|I].
      + exists Aborts. eapply ends_unknown; eauto.
      + exists GivesUp. eapply ends_no_dot; eauto.
    - exists Aborts. apply (ends_unknown_implied _ _ _ _ _ _ _ feats n T PC).
      + revert K. apply Forall_impl. intros x. apply KC.
      + now apply NI.
      + now rewrite <- KC.
    - exists Written. apply (ends_written _ _ _ _ _ _ _ feats T PC). intros f [I|(n & SN & ->)]; apply KC; apply A; [now left|].
      right. exists n. split; [now apply NI|reflexivity].
  Qed.
End Prepared.

(** ** Every run *)

(** The command is in order: at most one positional argument, an existing database directory, a
    part, an input that can be read, and standard output redirected to an empty file. *)
Record proper_command (c : command) (root input : text) : Prop := {
  pc_args : (List.length (c_args c) <= 2)%nat;
  pc_path : db_path c = Some root;
  pc_nonempty : root <> [];
  pc_exists : e_exists (c_env c) root = true;
  pc_part : c_part c <> [];
  pc_input : input_text c = Some input;
  pc_stdout : c_stdout c = file_at_end [];
  pc_date : header_text (c_date c);
  pc_time : header_text (c_time c)
}.

Lemma main_proper fuel sm ord c root input tls : proper_command c root input ->
  parse_database (c_env c) (o_load ord) root (c_part c) = Ok tls ->
  main_program fuel sm ord c =
    match assemble_frames sm ord tls input with
    | Err => Ok (1, c_stdout c)
    | Crash => Crash
    | UB => UB
    | NoFuel => NoFuel
    | Ok frames =>
        match encode fuel (tl_part tls) (tx "fasm") (tx "fpga-source") (c_date c) (c_time c) frames (c_stdout c) with
        | Err => Ok (1, c_stdout c)
        | Crash => Crash
        | UB => UB
        | NoFuel => NoFuel
        | Ok s => Ok (0, s)
        end
    end.
Proof.
  intros [LA ER NR EX NP EI _ _ _] ED. unfold main_program.
  assert (X : (2 <? List.length (c_args c))%nat = false) by (apply Nat.ltb_ge; exact LA). rewrite X, ER.
  destruct root as [|r0 rs]; [contradiction|]. rewrite EX. cbn [negb].
  destruct (c_part c) as [|pc pr] eqn:EPT; [contradiction|]. rewrite ED, EI. reflexivity.
Qed.

(** Given fuel enough, the run ends as the files and the text say: never otherwise. *)
Theorem C78_how_every_run_ends :
  forall ord c root input g p pins pud,
  good_orders ord -> proper_command c root input -> short_lines input ->
  sound_files (c_env c) -> sound_walk (c_env c) root -> e_walk (c_env c) root <> None ->
  database_says (c_env c) root (c_part c) g p pins -> consistent_description (c_env c) root g p ->
  distinct_banks p -> one_pudcb g -> pudcb_default g pud -> inside_frames (c_env c) root g ->
  exists fuel0, forall fuel, (fuel0 <= fuel)%nat ->
    match main_program fuel Iso ord c with
    | Ok (0, s) => ends (c_env c) root g p pins input pud Written
    | Ok (n, s) => n = 1 /\ s = c_stdout c /\ ends (c_env c) root g p pins input pud GivesUp
    | Crash => ends (c_env c) root g p pins input pud Aborts
    | UB => ends (c_env c) root g p pins input pud Undefined
    | Err | NoFuel => False
    end.
Proof.
  intros ord c root input g p pins pud G PC SL SF SW WN DS CD DB OP PD IF.
  destruct (C69_described_database_is_accepted _ (o_load ord) _ _ _ _ _ SF WN DS) as (tls & ED).
  destruct (prepared _ _ _ _ _ _ _ _ G SF SW ED DS CD DB IF) as (SG & SP & D & _).
  destruct (pudcb_ok _ (sd_sites _ D)) as (pud' & EP & PD' & _).
  assert (pud' = pud) as ->.
  { apply (pudcb_unique g); [exact OP| |exact PD]. eapply pudcb_default_same; [apply same_grid_sym, SG|exact PD']. }
  destruct (ends_total _ _ _ _ _ _ _ _ G SF SW ED DS CD DB IF input pud SL EP) as (r & E).
  pose proof (ends_returns _ _ _ _ _ _ _ _ G SF SW ED DS CD DB IF input pud SL EP r E) as R.
  destruct r; cbn [returns] in R.
  - destruct R as (fr & R). destruct PC as [LA ER NR EX NP EI ES HD HT].
    destruct (C62_good_designs_are_written ord c root tls input fr G ES HD HT LA ER NR EX NP ED EI D SL R) as (fuel0 & s & H).
    exists fuel0. intros fuel L. rewrite (H fuel L). exact E.
  - exists O. intros fuel _. rewrite (main_proper fuel Iso ord c root input tls PC ED), R. auto.
  - exists O. intros fuel _. rewrite (main_proper fuel Iso ord c root input tls PC ED), R. auto.
  - exists O. intros fuel _. rewrite (main_proper fuel Iso ord c root input tls PC ED), R. auto.
Qed.
Print Assumptions C78_how_every_run_ends.

(** The run does not depend on the iteration orders, whatever its outcome. *)
Theorem C77_same_behaviour :
  forall fuel ord ord' c root input g p pins,
  good_orders ord -> good_orders ord' -> proper_command c root input -> short_lines input ->
  sound_files (c_env c) -> sound_walk (c_env c) root -> e_walk (c_env c) root <> None ->
  database_says (c_env c) root (c_part c) g p pins -> consistent_description (c_env c) root g p ->
  distinct_banks p -> one_pudcb g -> inside_frames (c_env c) root g ->
  main_program fuel Iso ord c = main_program fuel Iso ord' c.
Proof.
  intros fuel ord ord' c root input g p pins G G' PC SL SF SW WN DS CD DB OP IF.
  destruct (C69_described_database_is_accepted _ (o_load ord) _ _ _ _ _ SF WN DS) as (tls & ED).
  destruct (C69_described_database_is_accepted _ (o_load ord') _ _ _ _ _ SF WN DS) as (tls' & ED').
  destruct (prepared _ _ _ _ _ _ _ _ G SF SW ED DS CD DB IF) as (SG & SP & D & _).
  destruct (prepared _ _ _ _ _ _ _ _ G' SF SW ED' DS CD DB IF) as (SG' & SP' & D' & _).
  destruct (pudcb_ok _ (sd_sites _ D)) as (pud & EP & PD & _). destruct (pudcb_ok _ (sd_sites _ D')) as (pud' & EP' & PD' & _).
  assert (pud' = pud) as ->.
  { apply (pudcb_unique g); [exact OP|eapply pudcb_default_same; [apply same_grid_sym, SG'|exact PD']|eapply pudcb_default_same; [apply same_grid_sym, SG|exact PD]]. }
  destruct (ends_total _ _ _ _ _ _ _ _ G SF SW ED DS CD DB IF input pud SL EP) as (r & E).
  pose proof (ends_returns _ _ _ _ _ _ _ _ G SF SW ED DS CD DB IF input pud SL EP r E) as R.
  pose proof (ends_returns _ _ _ _ _ _ _ _ G' SF SW ED' DS CD DB IF input pud SL EP' r E) as R'.
  rewrite (main_proper fuel Iso ord c root input tls PC ED), (main_proper fuel Iso ord' c root input tls' PC ED').
  destruct r; cbn [returns] in R, R'.
  - destruct R as (fr & R).
    rewrite (assemble_same ord ord' (c_env c) root (c_part c) input tls tls' g p pins G G' SF SW ED ED' SL DS CD DB OP fr R), R.
    now rewrite (encode_same ord ord' (c_env c) root (c_part c) tls tls' g p pins G G' SF ED ED' DS CD).
  - now rewrite R, R'.
  - now rewrite R, R'.
  - now rewrite R, R'.
Qed.
Print Assumptions C77_same_behaviour.

(** ** Texts whose lines are defined *)

(** No complete line ends in a quote and blanks, and no complete line makes the parser report a width
    outside 1 to 64 (C34): the run is never undefined. *)
Theorem C78_never_undefined :
  forall e root g p pins input pud,
  (forall q, In (q ++ FasmSpec.newline) (getlines input) -> FasmSpec.no_newline q -> ~ tick_ended q) ->
  (forall q st, In (q ++ FasmSpec.newline) (getlines input) ->
     fasm_parse Hw (fun _ => true) true (q ++ FasmSpec.newline) = Ok st -> Forall sane_event (p_events st)) ->
  ~ ends e root g p pins input pud Undefined.
Proof.
  intros e root g p pins input pud NT SE H. inversion H as [|bad (l1 & l2 & E & _) B| | | | |]; subst.
  assert (I : In bad (getlines input)) by (rewrite E; apply in_or_app; right; now left).
  destruct (split_lines input) as (ps & r & -> & Fp & Nr & GL). rewrite GL in I.
  assert (C : (exists q, bad = q ++ FasmSpec.newline /\ FasmSpec.no_newline q) \/ (FasmSpec.no_newline bad /\ bad <> [])).
  { apply in_app_iff in I as [I|I].
    - left. apply in_map_iff in I as (q & <- & I). rewrite Forall_forall in Fp. eauto.
    - right. destruct r; [destruct I|]. destruct I as [<-|[]]. split; [exact Nr|discriminate]. }
  destruct C as [(q & -> & Nq)|[Nb NE]].
  - assert (GQ : good_line q) by (split; [exact Nq|apply NT; [now rewrite GL|exact Nq]]).
    destruct (lines_hw_ok (fun _ => true) true [q] ltac:(repeat constructor; apply GQ) 0 start_state) as (st & X).
    assert (NT' : nl_text (q ++ FasmSpec.newline)).
    { right. clear. induction q as [|c q IH]; [reflexivity|]. cbn [app last]. destruct (q ++ FasmSpec.newline) eqn:Q; [destruct q; discriminate Q|exact IH]. }
    assert (Y : fasm_parse Hw (fun _ => true) true (q ++ FasmSpec.newline) = Ok st).
    { rewrite fasm_parse_lines by exact NT'. unfold unlines in X. cbn [map concat] in X. rewrite app_nil_r in X. exact X. }
    pose proof (SE q st) as S. rewrite GL in S. specialize (S I Y).
    apply (C34_shift_defined_iff _ _ _ _ NT' Y) in S. congruence.
  - rewrite C35_no_final_newline_rejected in B; [discriminate B|exact NE|].
    destruct (@exists_last _ bad NE) as (a & x & ->). rewrite last_last. intros ->. unfold FasmSpec.no_newline in Nb. rewrite Forall_forall in Nb. apply (Nb "010"%char); [|reflexivity]. apply in_or_app. right. now left.
Qed.
Print Assumptions C78_never_undefined.

(** ** The demonstration database *)
Definition inside_check (tls : tiles) : bool :=
  forallb (fun p : text * tile =>
    forallb (fun q : bus_type * bits_block =>
      match tl_bits tls (t_type (snd p)) with
      | Ok (Some d) => forallb (fun r : bus_type * segbits =>
          negb (bus_eqb (fst r) (fst q)) ||
          forallb (fun e : tile_feature * list segment_bit =>
             forallb (fun sb => (((32 * bb_offset (snd q) + Z.of_N (sb_bit sb)) mod 2 ^ 32) <? 3232)%Z) (snd e)) (snd r)) (td_bits d)
      | _ => true
      end) (t_bits (snd p))) (tl_grid tls).
Lemma inside_check_ok tls name rest k bus b l sb a w i :
  inside_check tls = true -> forallb (fun p : text * tile => no_alias (snd p)) (tl_grid tls) = true ->
  entry tls name rest k bus b l -> In sb l -> lands_at b sb a w i -> w < 101.
Proof.
  intros H NA (t & ty & seen & d & segs & M & S & B & _ & _ & MB & MS & ML) I (_ & Li & La).
  unfold inside_check in H. rewrite forallb_forall in H, NA. apply maps_to_In in M. specialize (H _ M). specialize (NA _ M). cbn [snd] in *.
  apply maps_to_In in MB. apply maps_to_In in MS. apply maps_to_In in ML.
  unfold no_alias in NA. rewrite forallb_forall in NA. rewrite forallb_forall in H. specialize (H _ MB). cbn [fst snd] in H.
  assert (ty = t_type t) as ->.
  { destruct S as [_|bus' b' al f' I' E' R']; [reflexivity|]. specialize (NA _ I'). cbn [snd] in NA. rewrite E' in NA. discriminate NA. }
  specialize (NA _ MB). cbn [snd] in NA. unfold first_word in La. destruct (bb_alias b); [discriminate NA|].
  rewrite B in H. rewrite forallb_forall in H. specialize (H _ MS). cbn [fst snd] in H. apply orb_prop in H as [H|H].
  - apply negb_true_iff in H. rewrite (proj2 (bus_eqb_eq bus bus) eq_refl) in H. discriminate H.
  - rewrite forallb_forall in H. specialize (H _ ML). cbn [snd] in H. rewrite forallb_forall in H. specialize (H _ I). apply Z.ltb_lt in H.
    rewrite <- La in H. lia.
Qed.
Lemma demo_inside : inside_frames demo_env (tx "db") (tl_grid demo_db).
Proof.
  intros tile rest k bus b l sb a w i L I _ La.
  apply (entry_same _ _ _ _ _ demo_sound_files (demo_sound_walk _) demo_db_parsed) in L.
  apply (inside_check_ok demo_db tile rest k bus b l sb a w i); try assumption; vm_compute; reflexivity.
Qed.
Lemma demo_proper input : proper_command (demo_command input) (tx "db") input.
Proof. constructor; try reflexivity; try discriminate; [cbn; lia|..]; (split; [repeat constructor|reflexivity]). Qed.
Lemma demo_pudcb : exists pud, pudcb_default (tl_grid demo_db) pud.
Proof.
  destruct C71_case_database as (pins & _ & CD). destruct (pudcb_ok _ (cd_sites _ _ _ _ CD)) as (pud & _ & PD & _). eauto.
Qed.

Lemma main_mono fuel sm ord c s : main_program fuel sm ord c = Ok (0, s) ->
  forall fuel', (fuel <= fuel')%nat -> main_program fuel' sm ord c = Ok (0, s).
Proof.
  intros H fuel' L. destruct (exit_zero _ _ _ _ _ H) as (root & tls & input & fr & ER & ED & EI & EA & EE).
  apply (encode_mono _ _ _ _ _ _ _ _ fuel') in EE; [|exact L]. unfold main_program in *.
  destruct (2 <? List.length (c_args c))%nat; [discriminate H|]. rewrite ER in *.
  destruct (match root with [] => true | _ => negb (e_exists (c_env c) root) end); [discriminate H|].
  destruct (c_part c) as [|pc pr] eqn:EPT; [discriminate H|]. rewrite ED, EI, EA, EE. reflexivity.
Qed.

(** Inputs with each of the results: the demonstration design; a line that is not FASM, and a name
    without a dot; an unknown feature, and a STEPDOWN outside the banks; a line ending in a quote. *)
Definition small (input : text) : bool := forallb (fun l => N.of_nat (List.length l) <? 1000) (getlines input).
Lemma small_short input : small input = true -> short_lines input.
Proof.
  intros H l I. unfold small in H. rewrite forallb_forall in H. specialize (H _ I). apply N.ltb_lt in H.
  assert (1000 <= 2 ^ 24 - 1) by (vm_compute; discriminate). lia.
Qed.
Lemma demo_ends input : small input = true -> exists pud pins,
  pudcb_default (tl_grid demo_db) pud /\
  exists fuel0, forall fuel, (fuel0 <= fuel)%nat ->
    match main_program fuel Iso ex_orders (demo_command input) with
    | Ok (0, s) => ends demo_env (tx "db") (tl_grid demo_db) (tl_part demo_db) pins input pud Written
    | Ok (n, s) => n = 1 /\ s = file_at_end [] /\ ends demo_env (tx "db") (tl_grid demo_db) (tl_part demo_db) pins input pud GivesUp
    | Crash => ends demo_env (tx "db") (tl_grid demo_db) (tl_part demo_db) pins input pud Aborts
    | UB => ends demo_env (tx "db") (tl_grid demo_db) (tl_part demo_db) pins input pud Undefined
    | Err | NoFuel => False
    end.
Proof.
  intros SM. destruct demo_pudcb as (pud & PD). destruct C71_case_database as (pins & DS & CD). exists pud, pins. split; [exact PD|].
  assert (DB : distinct_banks (tl_part demo_db)) by (rewrite demo_part; repeat constructor; cbn; tauto).
  apply (C78_how_every_run_ends ex_orders (demo_command input) (tx "db") input (tl_grid demo_db) (tl_part demo_db) pins pud);
    auto using ex_orders_good, demo_proper, small_short, demo_sound_files, demo_sound_walk, demo_one_pudcb, demo_inside.
  vm_compute. discriminate.
Qed.
Example C78_cases :
  (exists pud pins, ends demo_env (tx "db") (tl_grid demo_db) (tl_part demo_db) pins demo_input pud Written) /\
  (exists pud pins, ends demo_env (tx "db") (tl_grid demo_db) (tl_part demo_db) pins (unlines [tx "CLBLL_L_X2Y1.UNKNOWN"; tx "= ="]) pud GivesUp) /\
  (exists pud pins, ends demo_env (tx "db") (tl_grid demo_db) (tl_part demo_db) pins (unlines [tx "NODOT"; tx "CLBLL_L_X2Y1.UNKNOWN"]) pud GivesUp) /\
  (exists pud pins, ends demo_env (tx "db") (tl_grid demo_db) (tl_part demo_db) pins (unlines [tx "CLBLL_L_X2Y1.UNKNOWN"; tx "NODOT"]) pud Aborts) /\
  (exists pud pins, ends demo_env (tx "db") (tl_grid demo_db) (tl_part demo_db) pins (unlines [tx "NODOT"; tx "LIOB33_X9Y9.IOB_Y1.STEPDOWN"]) pud Aborts) /\
  (exists pud pins, ends demo_env (tx "db") (tl_grid demo_db) (tl_part demo_db) pins (unlines [tx "NODOT"; tx "a='"]) pud Undefined).
Proof.
  split; [|split; [|split; [|split; [|split]]]].
  - destruct (demo_ends demo_input) as (pud & pins & _ & fuel0 & H); [vm_compute; reflexivity|]. exists pud, pins.
    destruct C71_case as (s & R & _). specialize (H (Nat.max fuel0 3000) ltac:(lia)).
    rewrite (main_mono _ _ _ _ _ R (Nat.max fuel0 3000)) in H; [exact H|lia].
  - destruct (demo_ends (unlines [tx "CLBLL_L_X2Y1.UNKNOWN"; tx "= ="])) as (pud & pins & _ & fuel0 & H); [vm_compute; reflexivity|]. exists pud, pins.
    specialize (H fuel0 (le_n _)). destruct (main_program fuel0 Iso ex_orders _) as [[n s]| | | |] eqn:E; vm_compute in E; try discriminate E.
    injection E as <- <-. apply H.
  - destruct (demo_ends (unlines [tx "NODOT"; tx "CLBLL_L_X2Y1.UNKNOWN"])) as (pud & pins & _ & fuel0 & H); [vm_compute; reflexivity|]. exists pud, pins.
    specialize (H fuel0 (le_n _)). destruct (main_program fuel0 Iso ex_orders _) as [[n s]| | | |] eqn:E; vm_compute in E; try discriminate E.
    injection E as <- <-. apply H.
  - destruct (demo_ends (unlines [tx "CLBLL_L_X2Y1.UNKNOWN"; tx "NODOT"])) as (pud & pins & _ & fuel0 & H); [vm_compute; reflexivity|]. exists pud, pins.
    specialize (H fuel0 (le_n _)). destruct (main_program fuel0 Iso ex_orders _) as [[n s]| | | |] eqn:E; vm_compute in E; try discriminate E. exact H.
  - destruct (demo_ends (unlines [tx "NODOT"; tx "LIOB33_X9Y9.IOB_Y1.STEPDOWN"])) as (pud & pins & _ & fuel0 & H); [vm_compute; reflexivity|]. exists pud, pins.
    specialize (H fuel0 (le_n _)). destruct (main_program fuel0 Iso ex_orders _) as [[n s]| | | |] eqn:E; vm_compute in E; try discriminate E. exact H.
  - destruct (demo_ends (unlines [tx "NODOT"; tx "a='"])) as (pud & pins & _ & fuel0 & H); [vm_compute; reflexivity|]. exists pud, pins.
    specialize (H fuel0 (le_n _)). destruct (main_program fuel0 Iso ex_orders _) as [[n s]| | | |] eqn:E; vm_compute in E; try discriminate E. exact H.
Qed.
