(** Property C118: lines taken away from an accepted design. *)
From Verif Require Import Base BaseFacts Absl Part PartSpec Frame Frames Fasm FasmSpec
  DbText DbJson Database Packet Writer WriterFacts ConfigSpec ContainerSpec Reader Encode EncodeSpec EncodeFacts
  Assembler AsmSpec LookupFacts AsmLines AsmWhole DbSpec DbFacts JsonSpec JsonFacts LoadSpec LoadFacts AsmItems P_Fasm P_Database4 P_Main P_Main2 EndSpec AsmExample P_EndToEnd SameSpec SameFacts
  OrderFacts P_Repro P_Equiv P_Place P_Cut MapFacts EndFacts P_Local ResultSpec P_Result P_Input SpellSpec P_Spelling OpensSpec P_LoadLog GrowthSpec P_Growth ConflictSpec P_Conflict
  DisasmSpec P_Disasm MergeSpec P_Merge DropSpec.
From Coq Require Import Lia.
Local Notation implied := EndSpec.implied (only parsing).
Local Notation covered := EndSpec.covered (only parsing).
Local Notation bank_steps_down := EndSpec.bank_steps_down (only parsing).

Lemma some_features t t' fs : some_lines t' t -> text_features Iso t fs ->
  exists fs', text_features Iso t' fs' /\ forall f, In f fs' -> In f fs.
Proof.
  intros S (evss & F & ->).
  assert (X : exists evss', Forall2 (line_parsed Iso) (getlines t') evss').
  { assert (A : forall l, In l (getlines t') -> exists evs, line_parsed Iso l evs).
    { intros l I. apply S in I. clear - I F. induction F as [|line evs ls es P F IH]; [destruct I|]. destruct I as [<-|I]; eauto. }
    revert A. generalize (getlines t'). intros ls A. induction ls as [|l ls IH]; [exists []; constructor|].
    destruct (A l) as (ev & P); [now left|]. destruct IH as (es & F'); [intros x I; apply A; now right|]. exists (ev :: es). now constructor. }
  destruct X as (evss' & F'). exists (flat_map line_features evss'). split; [exists evss'; auto|].
  intros f. rewrite (parsed_feats _ _ F), (parsed_feats _ _ F'). intros (l & ev & I & R); exists l, ev; (split; [now apply S|exact R]).
Qed.
Lemma feature_in_dec (f : fasm_feature) fs : In f fs \/ ~ In f fs.
Proof.
  assert (D : forall a b : fasm_feature, {a = b} + {a <> b}).
  { intros [n1 a1 b1 c1] [n2 a2 b2 c2]. destruct (list_eq_dec Ascii.ascii_dec n1 n2) as [->|X]; [|right; congruence].
    destruct (N.eq_dec a1 a2) as [->|X]; [|right; congruence]. destruct (N.eq_dec b1 b2) as [->|X]; [|right; congruence].
    destruct (N.eq_dec c1 c2) as [->|X]; [now left|right; congruence]. }
  destruct (in_dec D f fs); auto.
Qed.

Section Fewer.
  Context (g : tilegrid) (p : db_part) (pins : list package_pin) (d d' : list fasm_feature).
  Hypothesis S : forall f, In f d' -> In f d.
  Lemma steps_fewer bank tag : bank_steps_down p pins d' bank tag -> bank_steps_down p pins d bank tag.
  Proof. intros (f & tile & site & I & R). exists f, tile, site. auto. Qed.
  Lemma in_use_fewer tile site : site_in_use d' tile site -> site_in_use d tile site.
  Proof. intros (f & tag & I & U). exists f, tag. auto. Qed.
  Lemma design_fewer f : keeps_out p pins d' d -> in_design g p pins d' f -> in_design g p pins d f.
  Proof.
    intros K [I|(name & IM & ->)]; [left; auto|]. right. exists name. split; [|reflexivity].
    destruct IM as [bank tag tile t s fn label B IB C M Is La NU|bank tag tile B IB C].
    - eapply (implied_site g p pins _ bank tag tile t s fn label); [now apply steps_fewer|exact IB|exact C|exact M|exact Is|exact La|].
      intros U. apply NU. exact (K _ _ _ _ B IB C U).
    - eapply (implied_clock g p pins _ bank tag tile); [now apply steps_fewer|exact IB|exact C].
  Qed.
  Lemma package_fewer : package_covers g p pins d -> package_covers g p pins d'.
  Proof.
    intros [P1 P2]. split.
    - intros f tile site tag I. apply P1. auto.
    - intros bank tag tile B. apply (P2 bank tag). now apply steps_fewer.
  Qed.
  (** What is in the whole design and not in the rest goes back to a feature that was taken away. *)
  Lemma design_lost f : in_design g p pins d f -> in_design g p pins d' f \/
    exists f0, In f0 d /\ ~ In f0 d' /\ (f0 = f \/ exists tile site tag, uses f0 tile site tag /\ contains (tx "STEPDOWN") tag).
  Proof.
    intros [I|(name & IM & ->)].
    - destruct (feature_in_dec f d') as [Y|N0]; [left; now left|right]. exists f. auto.
    - destruct IM as [bank tag tile t s fn label B IB C M Is La NU|bank tag tile B IB C].
      + destruct B as (f0 & tile0 & site0 & I0 & U0 & C0 & B0). destruct (feature_in_dec f0 d') as [Y|N0].
        * left. right. exists (dotted tile (dotted label tag)). split; [|reflexivity].
          eapply (implied_site g p pins _ bank tag tile t s fn label); [|exact IB|exact C|exact M|exact Is|exact La|intros U; apply NU, in_use_fewer, U].
          exists f0, tile0, site0. auto.
        * right. exists f0. split; [exact I0|]. split; [exact N0|]. right. exists tile0, site0, tag. auto.
      + destruct B as (f0 & tile0 & site0 & I0 & U0 & C0 & B0). destruct (feature_in_dec f0 d') as [Y|N0].
        * left. right. exists (dotted tile (tx "STEPDOWN")). split; [|reflexivity].
          eapply (implied_clock g p pins _ bank tag tile); [|exact IB|exact C]. exists f0, tile0, site0. auto.
        * right. exists f0. split; [exact I0|]. split; [exact N0|]. right. exists tile0, site0, tag. auto.
  Qed.
End Fewer.

(** Property C118.  Lines are taken away from an accepted design.  If, in the banks in which the rest steps down, the whole uses no IO sites but
    those the rest uses, then the rest is accepted; its file has no bit that the file of the whole has not, and a bit it has no more was
    set by a feature that was taken away, or such a feature asks for STEPDOWN. *)
Theorem C118_lines_can_be_taken_away :
  forall fuel ord ord' c c' root input input' g p pins feats s pud fs,
  run_succeeds fuel ord c root input g p pins feats s ->
  e_walk (c_env c) root <> None -> inside_frames (c_env c) root g -> good_orders ord' ->
  same_but_input c c' -> input_text c' = Some input' -> some_lines input' input ->
  pudcb_default g pud -> decode p (st_bytes s) = Ok (Some fs) ->
  exists feats', text_features Iso input' feats' /\ (forall f, In f feats' -> In f feats) /\
   (keeps_out p pins (pud ++ feats') (pud ++ feats) ->
    exists fuel0 s' fs', (forall fuel', (fuel0 <= fuel')%nat -> main_program fuel' Iso ord' c' = Ok (0, s')) /\ decode p (st_bytes s') = Ok (Some fs') /\
      (forall a w i, frames_have fs' a w i -> frames_have fs a w i) /\
      (forall a w i, frames_have fs a w i -> frames_have fs' a w i \/
         exists f, In f feats /\ ~ In f feats' /\
           (sets_bit (c_env c) root g f a w i \/ exists tile site tag, uses f tile site tag /\ contains (tx "STEPDOWN") tag))).
Proof.
  intros fuel ord ord' c c' root input input' g p pins feats s pud fs R WK IF G (S1 & S2 & S3 & S4 & S5 & S6 & S7 & S8) EI SL PD D.
  destruct (some_features _ _ _ SL (rs_features _ _ _ _ _ _ _ _ _ _ R)) as (feats' & T' & SUB). exists feats'. split; [exact T'|]. split; [exact SUB|].
  intros K. pose proof (rs_pudcb _ _ _ _ _ _ _ _ _ _ R) as OP.
  assert (X1 : package_covers g p pins (pud ++ feats) /\ forall f, in_design g p pins (pud ++ feats) f -> covered (c_env c) root g f).
  { destruct (run_covered _ _ _ _ _ _ _ _ _ _ R WK IF) as (q & PQ & PK & CV). assert (E : q = pud) by (eapply pudcb_unique; eauto). rewrite E in *. auto. }
  destruct X1 as [PK CV].
  assert (SUB' : forall f, In f (pud ++ feats') -> In f (pud ++ feats)) by (intros f; rewrite !in_app_iff; intros [I|I]; auto).
  pose proof (run_proper _ _ _ _ _ _ _ _ _ _ R) as [LA PR PN PX PP PI PO PDt PT].
  assert (SL' : short_lines input') by (intros l I; apply (rs_short _ _ _ _ _ _ _ _ _ _ R); auto).
  destruct (run_decodes _ _ _ _ _ _ _ _ _ _ R) as (fs0 & _ & _ & _ & B0 & _ & E0). assert (EF : fs0 = fs) by congruence. rewrite EF in *. clear EF E0.
  pose proof R as [G1 ES [HD LD] [HT LT] SF SW ER EI1 SL1 _ DS CD DB _ H1].
  assert (ER' : db_path c' = Some root) by (unfold db_path in *; now rewrite S1, S2).
  destruct (C71_covered_designs_are_written_for_any_reading ord' c' root input' g p pins feats' pud) as (fuel0 & s' & H'); try assumption; rewrite ?S3, ?S4, ?S5, ?S6, ?S7; try assumption.
  - apply SW.
  - eapply package_fewer; eauto.
  - intros f I. apply CV. eapply design_fewer; eauto.
  - specialize (H' fuel0 (le_n _)) as H0.
    assert (R' : run_succeeds fuel0 ord' c' root input' g p pins feats' s').
    { constructor; rewrite ?S3, ?S4, ?S5, ?S6, ?S7; try assumption; split; assumption. }
    destruct (run_decodes _ _ _ _ _ _ _ _ _ _ R') as (fs' & _ & _ & _ & B & _ & E). rewrite S4 in B.
    exists fuel0, s', fs'. split; [exact H'|]. split; [exact E|]. unfold frames_have. split; intros a w i Sh.
    + apply B in Sh as (q & f & PQ & I & X). assert (Eq : q = pud) by (eapply pudcb_unique; eauto). rewrite Eq in I.
      apply B0. exists pud, f. split; [exact PD|]. split; [|exact X]. eapply design_fewer; eauto.
    + apply B0 in Sh as (q & f & PQ & I & X). assert (Eq : q = pud) by (eapply pudcb_unique; eauto). rewrite Eq in I.
      destruct (design_lost _ _ _ _ _ SUB' _ I) as [Y|(f0 & I0 & N0 & W)].
      * left. apply B. exists pud, f. auto.
      * right. exists f0. apply in_app_or in I0 as [I0|I0]; [exfalso; apply N0, in_or_app; now left|].
        split; [exact I0|]. split; [intros Y; apply N0, in_or_app; now right|]. destruct W as [->|W]; auto.
Qed.
Print Assumptions C118_lines_can_be_taken_away.

(** ** The demonstration design with a line left *)
Definition left_input : text := unlines [tx "LIOB33_X0Y1.IOB_Y1.STEPDOWN"].
Lemma left_says : text_features Iso left_input [y1].
Proof.
  pose proof (features_compute left_input ltac:(vm_compute; reflexivity)) as H.
  assert (E : flat_map line_features (map line_calls (getlines left_input)) = [y1]) by (vm_compute; reflexivity). now rewrite E in H.
Qed.
Lemma left_lines : some_lines left_input demo_input.
Proof.
  intros l. assert (E : getlines left_input = [nth 3 (getlines demo_input) []]) by (vm_compute; reflexivity). rewrite E. intros [<-|[]].
  apply nth_In. assert (X : (3 <? List.length (getlines demo_input))%nat = true) by (vm_compute; reflexivity). now apply Nat.ltb_lt in X.
Qed.
Lemma left_keeps_out : keeps_out (tl_part demo_db) [demo_pin] (the_pud ++ [y1]) (the_pud ++ demo_feats1).
Proof.
  intros bank tag tile site _ _ C U. apply (used_names _ _ _ C) in U as [-> ->]; [|vm_compute; reflexivity]. apply used_check_ok. vm_compute. reflexivity.
Qed.
Example C118_case : exists s s' fs fs' fuel,
  pull_succeeds demo_input demo_feats1 s /\ decode (tl_part demo_db) (st_bytes s) = Ok (Some fs) /\
  main_program fuel Iso ex_orders (with_env pull_env (demo_command left_input)) = Ok (0, s') /\ decode (tl_part demo_db) (st_bytes s') = Ok (Some fs') /\
  (forall a w i, frames_have fs' a w i -> frames_have fs a w i).
Proof.
  destruct demo_pull_run as (s & R). destruct (pull_decodes _ _ _ R) as (fs & D).
  destruct (C118_lines_can_be_taken_away _ _ ex_orders _ (with_env pull_env (demo_command left_input)) _ _ left_input _ _ _ _ _ the_pud fs R)
    as (feats' & T' & SUB & H).
  - vm_compute. discriminate.
  - exact pull_inside.
  - exact ex_orders_good.
  - apply pull_same_input.
  - reflexivity.
  - exact left_lines.
  - exact the_pud_default.
  - exact D.
  - rewrite <- (text_features_fun _ _ _ _ left_says T') in H. destruct (H left_keeps_out) as (fuel0 & s' & fs' & M & D' & B & _).
    exists s, s', fs, fs', fuel0. split; [exact R|]. split; [exact D|]. split; [apply M; lia|]. split; [exact D'|exact B].
Qed.
Print Assumptions C118_case.

(** ** Not any lines can be taken away *)
Definition gone_bits : text :=
  unlines [tx "LIOB33.IOB_Y0.PULLTYPE.PULLDOWN !00_40"; tx "LIOB33.IOB_Y1.STEPDOWN 01_22";
           tx "LIOB33.IOB_Y1." ++ in_only ++ tx " 00_01"; tx "LIOB33.IOB_Y1.LVCMOS25_LVCMOS33_LVTTL.IN 00_09"; tx "LIOB33.IOB_Y1.PULLTYPE.PULLUP 00_33"].
Definition gone_env : environment := edited_env pull_file gone_bits.
Lemma gone_same : tl_grid (edited_db pull_file gone_bits) = tl_grid demo_db /\ tl_part (edited_db pull_file gone_bits) = tl_part demo_db.
Proof. split; vm_compute; reflexivity. Qed.
Theorem C118_any_lines_refuted : exists s pins feats,
  run_succeeds 3000 ex_orders (with_env gone_env (demo_command pull_input)) (tx "db") pull_input (tl_grid demo_db) (tl_part demo_db) pins feats s /\
  some_lines demo_input pull_input /\
  main_program 3000 Iso ex_orders (with_env gone_env (demo_command demo_input)) = Crash.
Proof.
  destruct (edited_run pull_file gone_bits pull_input) as (s & pins & fe & RS & _).
  - vm_compute. reflexivity.
  - apply unlines_full. vm_compute. reflexivity.
  - vm_compute. reflexivity.
  - exact (proj1 gone_same).
  - exact (proj2 gone_same).
  - vm_compute. reflexivity.
  - vm_compute. reflexivity.
  - vm_compute. reflexivity.
  - exists s, pins, fe. split; [exact RS|]. split; [|vm_compute; reflexivity].
    intros l I. unfold pull_input. rewrite (getlines_whole _ _ (parsed_whole _ _ _ demo_says1)). apply in_or_app. now left.
Qed.
Print Assumptions C118_any_lines_refuted.
