(** Property C112: a newer edition of the database gives the same file. *)
From Verif Require Import Base BaseFacts Absl Part PartSpec Frame Frames Fasm FasmSpec
  DbText DbJson Database Packet Writer WriterFacts ConfigSpec ContainerSpec Reader Encode EncodeSpec EncodeFacts
  Assembler AsmSpec LookupFacts AsmWhole DbSpec DbFacts JsonSpec LoadSpec LoadFacts P_Database4 P_Main P_Main2 EndSpec AsmExample P_EndToEnd SameSpec SameFacts P_Repro
  P_Equiv P_Place MapFacts EndFacts P_Local ResultSpec P_Result OpensSpec P_LoadLog GrowthSpec.
From Coq Require Import Lia.

Section Newer.
  Context (e e' : environment) (root : text) (g : tilegrid) (p : db_part) (pins : list package_pin).
  Hypothesis NW : newer e e' root.
  Hypothesis UG : usable_grid g.

  Lemma seen_same t rest ty seen ty' seen' tile : maps_to g tile t -> seen_as t rest ty seen -> seen_as t rest ty' seen' -> ty' = ty /\ seen' = seen.
  Proof. intros M S S'. destruct (UG _ _ M) as [_ X]. exact (X _ _ _ _ _ S' S). Qed.
  Lemma tile_same tile t t' : maps_to g tile t -> maps_to g tile t' -> t' = t.
  Proof. intros M M'. exact (maps_to_fun _ text_eqb_eq _ _ _ _ M' M). Qed.

  Lemma pip_newer tile rest : listed_pip e root g tile rest -> listed_pip e' root g tile rest.
  Proof.
    intros (t & ty & seen & d & M & S & D & K). destruct (NW _ _ D) as ((d' & D') & G). specialize (G _ D').
    exists t, ty, seen, d'. split; [exact M|]. split; [exact S|]. split; [exact D'|].
    destruct K as [K|K]; [left|right]; now apply (gr_pips _ _ _ G).
  Qed.
  Lemma listed_newer tile rest k bus b l : ~ In dot tile -> listed e root g tile rest k bus b l -> listed e' root g tile rest k bus b l.
  Proof.
    intros ND (t & ty & seen & d & segs & M & S & D & N1 & N2 & B & MS & ML). destruct (NW _ _ D) as ((d' & D') & G). specialize (G _ D').
    assert (HB : has_bits d (dotted ty seen) k bus l) by (exists segs; auto).
    destruct (gr_bits _ _ _ G _ _ _ _ HB) as (segs' & MS' & ML').
    exists t, ty, seen, d', segs'. split; [exact M|]. split; [exact S|]. split; [exact D'|].
    split; [|split; [|auto]].
    - intros K. destruct (gr_new_pips _ _ _ G tile seen (or_intror ND) K) as [X|X]; [contradiction|]. exact (X _ _ _ HB).
    - intros K. destruct (gr_new_pips _ _ _ G ty seen (or_introl eq_refl) K) as [X|X]; [contradiction|]. exact (X _ _ _ HB).
  Qed.
  (** What is covered keeps its bits and gets no others. *)
  Lemma listed_older tile rest k bus b l : listed_pip e root g tile rest \/ (exists bus b l, listed e root g tile rest k bus b l) ->
    listed e' root g tile rest k bus b l -> listed e root g tile rest k bus b l.
  Proof.
    intros C (t & ty & seen & d' & segs' & M & S & D' & N1 & N2 & B & MS & ML).
    destruct C as [(t0 & ty0 & seen0 & d & M0 & S0 & D & K)|(bus0 & b0 & l0 & t0 & ty0 & seen0 & d & segs & M0 & S0 & D & P1 & P2 & B0 & MS0 & ML0)].
    - rewrite (tile_same _ _ _ M M0) in *. destruct (seen_same _ _ _ _ _ _ _ M S S0) as [-> ->].
      destruct (NW _ _ D) as (_ & G). specialize (G _ D'). exfalso. destruct K as [K|K]; apply (gr_pips _ _ _ G) in K; contradiction.
    - rewrite (tile_same _ _ _ M M0) in *. destruct (seen_same _ _ _ _ _ _ _ M S S0) as [-> ->].
      destruct (NW _ _ D) as (_ & G). specialize (G _ D').
      destruct (gr_new_bits _ _ _ G (dotted ty seen) k bus l) as [(s1 & X1 & X2)|X]; [exists segs'; auto| |].
      + exists t, ty, seen, d, s1. auto 10.
      + exfalso. apply (X bus0 l0). exists segs. auto.
  Qed.
  Lemma sets_newer f a w i : covered e root g f -> (sets_bit e' root g f a w i <-> sets_bit e root g f a w i).
  Proof.
    intros [(tile & rest & F & C) _]. split.
    - intros (tile' & rest' & k & bus & b & l & sb & F' & En & L & R). destruct (first_dot_fun _ _ _ _ _ F F') as [<- <-].
      exists tile, rest, k, bus, b, l, sb. split; [exact F|]. split; [exact En|]. split; [|exact R]. apply listed_older; auto.
    - intros (tile' & rest' & k & bus & b & l & sb & F' & En & L & R). destruct (first_dot_fun _ _ _ _ _ F F') as [<- <-].
      exists tile, rest, k, bus, b, l, sb. split; [exact F|]. split; [exact En|]. split; [|exact R]. apply listed_newer; [apply F|exact L].
  Qed.
  Lemma covered_newer f : covered e root g f -> covered e' root g f.
  Proof.
    intros C. pose proof C as [(tile & rest & F & K) W]. split.
    - exists tile, rest. split; [exact F|]. intros k En. destruct (K k En) as [P|(bus & b & l & L)].
      + left. now apply pip_newer.
      + right. exists bus, b, l. apply listed_newer; [apply F|exact L].
    - intros a w i S. apply (W a w i). now apply sets_newer.
  Qed.
End Newer.

(** What a successful run has: a proper command and a covered design. *)
Lemma run_proper fuel ord c root input g p pins feats s : run_succeeds fuel ord c root input g p pins feats s -> proper_command c root input.
Proof.
  intros [G ES [HD _] [HT _] SF SW ER EI SL T DS CD DB OP H].
  unfold main_program in H. destruct (2 <? List.length (c_args c))%nat eqn:X; [discriminate H|]. apply Nat.ltb_ge in X.
  rewrite ER in H. destruct root as [|r0 rs]; [discriminate H|].
  destruct (e_exists (c_env c) (r0 :: rs)) eqn:XE; [|discriminate H]. destruct (c_part c) as [|pc pr] eqn:XP; [discriminate H|]. clear H.
  constructor; try congruence; try assumption; discriminate.
Qed.
Lemma run_covered fuel ord c root input g p pins feats s : run_succeeds fuel ord c root input g p pins feats s ->
  e_walk (c_env c) root <> None -> inside_frames (c_env c) root g ->
  exists pud, pudcb_default g pud /\ package_covers g p pins (pud ++ feats) /\
    forall f, in_design g p pins (pud ++ feats) f -> covered (c_env c) root g f.
Proof.
  intros R WK IF. pose proof (run_proper _ _ _ _ _ _ _ _ _ _ R) as PC.
  destruct R as [G ES [HD LD] [HT LT] SF SW ER EI SL T DS CD DB OP H].
  assert (PU : exists pud, pudcb_default g pud).
  { destruct (C71_exit_zero_for_any_reading fuel ord c s root input g p pins G ES HD HT SF SW H ER EI SL DS CD DB) as (pud & _ & _ & PD & _). eauto. }
  destruct PU as (pud & PD). exists pud. split; [exact PD|].
  destruct (C78_how_every_run_ends ord c root input g p pins pud G PC SL SF (SW root) WK DS CD DB OP PD IF) as (f0 & Q).
  specialize (Q (Nat.max f0 fuel) ltac:(lia)). rewrite (main_mono _ _ _ _ _ H (Nat.max f0 fuel)) in Q by lia.
  inversion Q as [| | | | | |fe TFe PKe Ce]; subst.
  assert (fe = feats) as -> by (eapply text_features_fun; eauto). auto.
Qed.

(** Property C112.  A run succeeds; the directory is replaced by a newer edition of it (with the same device, package and grid).  Then the
    run on the newer edition succeeds too, and writes the same bytes. *)
Theorem C112_newer_database_same_file :
  forall fuel ord ord' c root input g p pins feats s e',
  run_succeeds fuel ord c root input g p pins feats s ->
  e_walk (c_env c) root <> None -> inside_frames (c_env c) root g ->
  good_orders ord' -> sound_files e' -> (forall root, sound_walk e' root) -> e_walk e' root <> None -> e_exists e' root = true ->
  database_says e' root (c_part c) g p pins -> consistent_description e' root g p ->
  newer (c_env c) e' root ->
  exists fuel0 s', (forall fuel', (fuel0 <= fuel')%nat -> main_program fuel' Iso ord' (with_env e' c) = Ok (0, s')) /\ st_bytes s' = st_bytes s.
Proof.
  intros fuel ord ord' c root input g p pins feats s e' R WK IF G' SF' SW' WK' EX' DS' CD' NW.
  destruct (run_covered _ _ _ _ _ _ _ _ _ _ R WK IF) as (pud & PD & PK & CV).
  pose proof (run_proper _ _ _ _ _ _ _ _ _ _ R) as [LA PR PN PX PP PI PO PDt PT].
  pose proof R as [G ES [HD LD] [HT LT] SF SW ER EI SL T DS CD DB OP H].
  assert (UG : usable_grid g) by apply (cd_grid _ _ _ _ CD).
  destruct (C71_covered_designs_are_written_for_any_reading ord' (with_env e' c) root input g p pins feats pud) as (fuel0 & s' & H'); try assumption.
  - apply SW'.
  - intros f I. eapply covered_newer; eauto.
  - exists fuel0, s'. split; [exact H'|]. specialize (H' fuel0 (le_n _)).
    assert (R' : run_succeeds fuel0 ord' (with_env e' c) root input g p pins feats s').
    { constructor; try assumption; split; assumption. }
    destruct (run_file _ _ _ _ _ _ _ _ _ _ R) as (fs & S1 & F1 & C1 & B1 & ->).
    destruct (run_file _ _ _ _ _ _ _ _ _ _ R') as (fs' & S2 & F2 & C2 & B2 & ->).
    cbn [with_env c_env c_date c_time] in *. f_equal. apply frames_ext; auto.
    + intros a. rewrite F1, F2. reflexivity.
    + intros a w i. unfold shows. rewrite B1, B2. split.
      * intros (q & f & Q & I & S). assert (q = pud) as -> by (eapply pudcb_unique; eauto). exists pud, f. split; [exact Q|]. split; [exact I|].
        apply (sets_newer (c_env c) e' root g NW UG); auto.
      * intros (q & f & Q & I & S). assert (q = pud) as -> by (eapply pudcb_unique; eauto). exists pud, f. split; [exact Q|]. split; [exact I|].
        apply (sets_newer (c_env c) e' root g NW UG); auto.
Qed.
Print Assumptions C112_newer_database_same_file.

(** ** Lines added to a file *)
Lemma type_dir_unique e root ty d d' : type_dir e root ty d -> type_dir e root ty d' -> d = d'.
Proof.
  intros (all & b & q & a & W & E & F & N1) (all' & b' & q' & a' & W' & E' & F' & N1').
  assert (all' = all) as -> by congruence. rewrite E in E'. clear E W W'.
  assert (Q : q = q').
  { revert b' N1' E'. induction b as [|x b IH]; intros [|y b'] N1' E'; cbn [app] in E'.
    - congruence.
    - exfalso. apply (N1' y d); [now left|]. assert (q = y) as <- by congruence. exact F.
    - exfalso. apply (N1 x d'); [now left|]. assert (x = q') as -> by congruence. exact F'.
    - apply (IH (fun p dd I => N1 p dd (or_intror I)) b' (fun p dd I => N1' p dd (or_intror I))). congruence. }
  subst q'. destruct F as (x & -> & _ & X), F' as (x' & E & _ & X').
  assert (x = x') as <-; [|destruct X as [[X1 X2]|[X1 X2]], X' as [[Y1 Y2]|[Y1 Y2]]; congruence].
  apply app_inv_tail in E. exact E.
Qed.

Lemma full_lines_app a b la lb : full_lines a -> text_lines a la -> text_lines b lb -> text_lines (a ++ b) (la ++ lb).
Proof.
  intros FL TA TB. induction TA as [|l NE Nn|l r ls Nn T IH].
  - exact TB.
  - exfalso. destruct FL as [->|(s & ->)]; [now apply NE|]. apply Nn, in_or_app. right. now left.
  - rewrite <- app_assoc. cbn [app]. constructor; [exact Nn|]. apply IH.
    destruct FL as [E|(s & E)]; [destruct l; discriminate E|].
    destruct r as [|c r]; [now left|]. right.
    assert (X : exists r', c :: r = r' ++ [last (c :: r) c]) by (exists (removelast (c :: r)); apply app_removelast_last; discriminate).
    destruct X as (r' & X). exists r'. rewrite X in E |- *. f_equal. f_equal.
    assert (Y : (l ++ DbSpec.newline :: r') ++ [last (c :: r) c] = s ++ [DbSpec.newline]) by (rewrite <- E, <- app_assoc; reflexivity).
    apply app_inj_tail in Y as [_ Y]. exact Y.
Qed.
Lemma maps_app {K A} (eqb : K -> K -> bool) (Q : forall a b, eqb a b = true <-> a = b) (a b : list (K * A)) k v :
  maps_to (a ++ b) k v <-> maps_to a k v \/ ((forall v0, ~ maps_to a k v0) /\ maps_to b k v).
Proof.
  assert (X : (forall v0, ~ maps_to a k v0) <-> hm_find eqb k a = None).
  { split.
    - intros H. destruct (hm_find eqb k a) as [v0|] eqn:E; [|reflexivity]. apply (hm_find_maps eqb Q) in E. now apply H in E.
    - intros E v0 H. apply (hm_find_maps eqb Q) in H. congruence. }
  rewrite X, <- !(hm_find_maps eqb Q), hm_find_app. destruct (hm_find eqb k a).
  - split; [now left|intros [H|[H _]]; [exact H|discriminate H]].
  - split; [now right|intros [H|[_ H]]; [discriminate H|exact H]].
Qed.

(** A file with lines added at its end: the entries of the old lines win. *)
Definition added {K A} (m m2 m' : list (K * A)) : Prop :=
  forall k v, maps_to m' k v <-> maps_to m k v \/ ((forall v0, ~ maps_to m k v0) /\ maps_to m2 k v).
Lemma added_lines {K A} (eqb : K -> K -> bool) (Q : forall a b, eqb a b = true <-> a = b) (line : text -> list (K * A) -> Prop)
    (LF : forall l x x', line l x -> line l x' -> x = x') :
  let says := fun content m => exists ls es, text_lines content ls /\ Forall2 line ls es /\ collects (concat es) m in
  forall old more m m2, full_lines old -> says old m -> says more m2 ->
  (exists m', says (old ++ more) m') /\ forall m', says (old ++ more) m' -> added m m2 m'.
Proof.
  intros says old more m m2 FL (l1 & e1 & T1 & F1 & C1) (l2 & e2 & T2 & F2 & C2).
  assert (T : text_lines (old ++ more) (l1 ++ l2)) by now apply full_lines_app.
  assert (F : Forall2 line (l1 ++ l2) (e1 ++ e2)) by now apply Forall2_app.
  split.
  - exists (insert_all eqb (concat (e1 ++ e2)) []). exists (l1 ++ l2), (e1 ++ e2). split; [exact T|]. split; [exact F|].
    split; [apply (insert_all_NoDup eqb Q); constructor|]. intros k v. apply (insert_all_maps eqb Q).
  - intros m' (l' & e' & T' & F' & _ & C') k v. rewrite (text_lines_fun _ _ _ T' T) in F'. rewrite (Forall2_fun _ LF _ _ _ F' F), concat_app in C'.
    destruct C1 as [_ C1], C2 as [_ C2]. rewrite C', (maps_app eqb Q), C1, C2.
    assert (X : (forall v0, ~ maps_to (concat e1) k v0) <-> (forall v0, ~ maps_to m k v0)) by (split; intros H v0 M; apply (H v0), C1, M).
    now rewrite X.
Qed.

Section Added.
  Context (e : environment) (root path old more : text).
  Hypothesis RO : e_read e path = Some old.
  Let e' := with_file path (old ++ more) e.

  Lemma other_file {A} q (says : text -> A -> Prop) o : q <> path -> (opt_file e' q says o <-> opt_file e q says o).
  Proof.
    intros NE. assert (X : forall c, file e' q c <-> file e q c).
    { intros c. unfold file, e', with_file. cbn [e_read]. destruct (text_eqb q path) eqn:E; [apply text_eqb_eq in E; contradiction|reflexivity]. }
    split; intros [E|c x E F S]; [now constructor 1| |now constructor 1|]; apply X in F; now apply (file_present _ _ _ c).
  Qed.
  Lemma this_opt {K A} (says : text -> list (K * A) -> Prop) m m2 o :
    (exists m', says (old ++ more) m') -> (forall m', says (old ++ more) m' -> added m m2 m') ->
    (forall x, says old x -> same_map x m) -> opt_file e path says o ->
    (exists o', opt_file e' path says o') /\
    forall o', opt_file e' path says o' -> match o, o' with Some x, Some x' => added x m2 x' /\ same_map x m | None, None => True | _, _ => False end.
  Proof.
    intros (m' & S') AD SM O. assert (RF : file e' path (old ++ more)).
    { unfold file, e', with_file. cbn [e_read]. now rewrite text_eqb_refl. }
    destruct O as [EX|c x EX F S].
    - split; [exists None; now constructor|]. intros o' O'. inversion O' as [|c y E F S]; subst; [exact Logic.I|]. unfold e', with_file in E. cbn [e_exists] in E. congruence.
    - split; [exists (Some m'); now apply (file_present _ _ _ (old ++ more))|]. intros o' O'. unfold file in F. assert (c = old) as -> by congruence.
      inversion O' as [E|c' y E F' S2]; subst; [unfold e', with_file in E; cbn [e_exists] in E; congruence|].
      unfold file in *. assert (c' = old ++ more) as -> by congruence. pose proof (AD _ S2) as A2. pose proof (SM _ S) as X. split; [|exact X]. intros k v.
      rewrite (A2 k v), <- (X k v). assert (Y : (forall v0, ~ maps_to x k v0) <-> (forall v0, ~ maps_to m k v0)) by (split; intros H v0 M; apply (H v0), X, M).
      now rewrite Y.
  Qed.

  (** What an edited optional file says, for one that may be the edited one. *)
  Lemma any_opt {K A} (says : text -> list (K * A) -> Prop) m m2 q o :
    (q = path -> (exists m', says (old ++ more) m') /\ (forall m', says (old ++ more) m' -> added m m2 m') /\ (forall x, says old x -> same_map x m)) ->
    (forall c x x', says c x -> says c x' -> same_map x x') -> opt_file e q says o ->
    (exists o', opt_file e' q says o') /\
    forall o', opt_file e' q says o' -> match o, o' with
      | Some x, Some x' => same_map x x' \/ q = path /\ added x m2 x' /\ same_map x m
      | None, None => True | _, _ => False end.
  Proof.
    intros TH FN O. destruct (list_eq_dec ascii_dec q path) as [->|NE].
    - destruct (TH eq_refl) as (A1 & A2 & A3). destruct (this_opt says m m2 o A1 A2 A3 O) as (B1 & B2). split; [exact B1|].
      intros o' O'. specialize (B2 o' O'). destruct o, o'; try exact B2. right. now split.
    - split; [exists o; now apply other_file|]. intros o' O'. apply other_file in O'; [|exact NE].
      pose proof (opt_file_fun _ _ _ _ FN _ _ O O') as X. destruct o, o'; try exact X. now left.
  Qed.
End Added.

Lemma data_from clb bram pips e oc ob op : opt_file e clb segbits_content oc -> opt_file e bram segbits_content ob -> opt_file e pips pips_content op ->
  exists d, type_says e clb bram pips d.
Proof.
  intros OC OB OP.
  exists {| td_pips := of_option op;
            td_bits := (match oc with Some m => [(BusCLBIOCLK, m)] | None => [] end) ++ (match ob with Some m => [(BusBlockRam, m)] | None => [] end) |}.
  exists oc, ob, op. split; [exact OC|]. split; [exact OB|]. split; [exact OP|]. split; [reflexivity|]. cbn [td_bits].
  intros bus m. rewrite <- (hm_find_maps bus_eqb bus_eqb_eq).
  destruct oc as [mc|], ob as [mb|], bus; cbn; split; intros H; repeat match goal with
    | H : _ \/ _ |- _ => destruct H
    | H : _ /\ _ |- _ => destruct H
    end; try discriminate; try congruence; try (left; split; congruence); try (right; split; congruence).
Qed.

(** Lines added to a segment bits file whose entries are new: a line for a bit of a name that has segment bits already in the tile type is only
    for a line of the same file (which goes before). *)
Theorem C112_added_segment_bits :
  forall e root path old more m m2, e_read e path = Some old -> full_lines old ->
  segbits_content old m -> segbits_content more m2 ->
  (forall ty dir clb bram pips d, type_dir e root ty dir -> type_paths dir ty clb bram pips -> type_data e root ty d ->
     path <> pips /\
     (path = clb \/ path = bram -> forall n k bus l, has_key m2 (n, k) -> has_bits d n k bus l -> has_key m (n, k))) ->
  newer e (with_file path (old ++ more) e) root.
Proof.
  intros e root path old more m m2 RO FL S1 S2 FR ty d TD0. pose proof TD0 as (dir & clb & bram & pips & TD & TP & oc & ob & op & OC & OB & OP & EP & EB).
  destruct (FR _ _ _ _ _ _ TD TP TD0) as (NP & NB).
  destruct (added_lines _ tf_eqb_eq seg_line seg_line_fun old more m m2 FL S1 S2) as (X1 & X2).
  assert (TH : forall q, q = path -> (exists m', segbits_content (old ++ more) m') /\ (forall m', segbits_content (old ++ more) m' -> added m m2 m') /\
     (forall x, segbits_content old x -> same_map x m)).
  { intros q _. split; [exact X1|]. split; [exact X2|]. intros x S. eapply segbits_content_fun; eauto. }
  destruct (any_opt e path old more RO segbits_content m m2 clb oc (TH clb) segbits_content_fun OC) as ((oc' & OC') & UC).
  destruct (any_opt e path old more RO segbits_content m m2 bram ob (TH bram) segbits_content_fun OB) as ((ob' & OB') & UB).
  assert (OPs : forall o, opt_file (with_file path (old ++ more) e) pips pips_content o <-> opt_file e pips pips_content o) by (intros o; apply other_file; congruence).
  split.
  - destruct (data_from clb bram pips (with_file path (old ++ more) e) oc' ob' op) as (d' & D'); auto; [now apply OPs|].
    exists d', dir, clb, bram, pips. auto.
  - clear oc' OC' ob' OB'. intros d' (dir' & clb' & bram' & pips' & TD' & TP' & oc' & ob' & op' & OC' & OB' & OP' & EP' & EB').
    assert (dir' = dir) as -> by (eapply type_dir_unique; [exact TD'|exact TD]). destruct (type_paths_fun _ _ _ _ _ _ _ _ TP TP') as (<- & <- & <-).
    specialize (UC _ OC'). specialize (UB _ OB'). apply OPs in OP'. pose proof (opt_file_fun _ _ _ _ pips_content_fun _ _ OP OP') as UP.
    assert (PK : forall n, is_pip d n <-> is_pip d' n).
    { intros n. unfold is_pip. rewrite EP, EP'. destruct op as [y|], op' as [y'|]; cbn [of_option]; try contradiction; [|reflexivity].
      split; apply same_keys; [exact UP|]. intros a b. symmetry. apply UP. }
    constructor.
    + intros n. apply PK.
    + intros n k bus l (segs & M & L). apply EB in M as [[-> ->]|[-> ->]].
      * destruct oc' as [x'|]; [|contradiction]. exists x'. split; [apply EB'; auto|]. destruct UC as [U|(_ & U & _)]; apply U; auto.
      * destruct ob' as [x'|]; [|contradiction]. exists x'. split; [apply EB'; auto|]. destruct UB as [U|(_ & U & _)]; apply U; auto.
    + intros n k bus l (segs & M & L). apply EB' in M as [[-> ->]|[-> ->]].
      * destruct oc as [x|]; [|contradiction]. destruct UC as [U|(E & U & SM)].
        -- left. exists x. split; [apply EB; auto|]. now apply U.
        -- apply U in L as [L|[NL L]]; [left; exists x; split; [apply EB; auto|exact L]|]. right. intros bus0 l0 H.
           assert (HK : has_key m (n, k)) by (eapply NB; eauto using (maps_to_key _ _ _ L)).
           apply (key_maps_to _ tf_eqb_eq) in HK as (v & HK). apply SM in HK. exact (NL _ HK).
      * destruct ob as [x|]; [|contradiction]. destruct UB as [U|(E & U & SM)].
        -- left. exists x. split; [apply EB; auto|]. now apply U.
        -- apply U in L as [L|[NL L]]; [left; exists x; split; [apply EB; auto|exact L]|]. right. intros bus0 l0 H.
           assert (HK : has_key m (n, k)) by (eapply NB; eauto using (maps_to_key _ _ _ L)).
           apply (key_maps_to _ tf_eqb_eq) in HK as (v & HK). apply SM in HK. exact (NL _ HK).
    + intros head rest _ K. left. now apply PK.
Qed.
Print Assumptions C112_added_segment_bits.

(** Lines added to a pseudo pips file, for names without segment bits. *)
Theorem C112_added_pseudo_pips :
  forall e root path old more m m2, e_read e path = Some old -> full_lines old ->
  pips_content old m -> pips_content more m2 ->
  (forall ty dir clb bram pips d, type_dir e root ty dir -> type_paths dir ty clb bram pips -> type_data e root ty d ->
     path <> clb /\ path <> bram /\
     (path = pips -> forall head rest k bus l, has_key m2 (dotted head rest) -> head = ty \/ ~ In dot head -> ~ has_bits d (dotted ty rest) k bus l)) ->
  newer e (with_file path (old ++ more) e) root.
Proof.
  intros e root path old more m m2 RO FL S1 S2 FR ty d TD0. pose proof TD0 as (dir & clb & bram & pips & TD & TP & oc & ob & op & OC & OB & OP & EP & EB).
  destruct (FR _ _ _ _ _ _ TD TP TD0) as (NC & NBr & NB).
  destruct (added_lines _ text_eqb_eq pip_line pip_line_fun old more m m2 FL S1 S2) as (X1 & X2).
  assert (TH : forall q, q = path -> (exists m', pips_content (old ++ more) m') /\ (forall m', pips_content (old ++ more) m' -> added m m2 m') /\
     (forall x, pips_content old x -> same_map x m)).
  { intros q _. split; [exact X1|]. split; [exact X2|]. intros x S. eapply pips_content_fun; eauto. }
  destruct (any_opt e path old more RO pips_content m m2 pips op (TH pips) pips_content_fun OP) as ((op' & OP') & UP).
  assert (OCs : forall o, opt_file (with_file path (old ++ more) e) clb segbits_content o <-> opt_file e clb segbits_content o) by (intros o; apply other_file; congruence).
  assert (OBs : forall o, opt_file (with_file path (old ++ more) e) bram segbits_content o <-> opt_file e bram segbits_content o) by (intros o; apply other_file; congruence).
  split.
  - destruct (data_from clb bram pips (with_file path (old ++ more) e) oc ob op') as (d' & D'); [now apply OCs|now apply OBs|exact OP'|].
    exists d', dir, clb, bram, pips. auto.
  - clear op' OP'. intros d' (dir' & clb' & bram' & pips' & TD' & TP' & oc' & ob' & op' & OC' & OB' & OP' & EP' & EB').
    assert (dir' = dir) as -> by (eapply type_dir_unique; [exact TD'|exact TD]). destruct (type_paths_fun _ _ _ _ _ _ _ _ TP TP') as (<- & <- & <-).
    specialize (UP _ OP'). apply OCs in OC'. apply OBs in OB'.
    assert (SD : forall n k bus l, has_bits d n k bus l <-> has_bits d' n k bus l).
    { pose proof (opt_file_fun _ _ _ _ segbits_content_fun _ _ OC OC') as UC. pose proof (opt_file_fun _ _ _ _ segbits_content_fun _ _ OB OB') as UB.
      intros n k bus l. split.
      - intros (segs & M & L). apply EB in M as [[-> ->]|[-> ->]].
        + destruct oc' as [x'|]; [|contradiction]. exists x'. split; [apply EB'; auto|]. now apply UC.
        + destruct ob' as [x'|]; [|contradiction]. exists x'. split; [apply EB'; auto|]. now apply UB.
      - intros (segs & M & L). apply EB' in M as [[-> ->]|[-> ->]].
        + destruct oc as [x'|]; [|contradiction]. exists x'. split; [apply EB; auto|]. now apply UC.
        + destruct ob as [x'|]; [|contradiction]. exists x'. split; [apply EB; auto|]. now apply UB. }
    assert (P1 : forall n, is_pip d n -> is_pip d' n).
    { intros n. unfold is_pip. rewrite EP, EP'. destruct op as [y|], op' as [y'|]; cbn [of_option]; try contradiction.
      intros H. apply (key_maps_to _ text_eqb_eq) in H as (v & H). apply (maps_to_key y' n v). destruct UP as [U|(E & U & SM)]; apply U; auto. }
    assert (P2 : forall n, is_pip d' n -> is_pip d n \/ (path = pips /\ has_key m2 n)).
    { intros n. unfold is_pip. rewrite EP, EP'. destruct op as [y|], op' as [y'|]; cbn [of_option]; try contradiction.
      intros H. apply (key_maps_to _ text_eqb_eq) in H as (v & H). destruct UP as [U|(E & U & SM)]; apply U in H.
      - left. exact (maps_to_key y n v H).
      - destruct H as [H|[_ H]]; [left; exact (maps_to_key y n v H)|right]. split; [congruence|exact (maps_to_key m2 n v H)]. }
    constructor.
    + exact P1.
    + intros n k bus l. apply SD.
    + intros n k bus l H. left. now apply SD.
    + intros head rest HD K. apply P2 in K as [K|[E K]]; [now left|right]. intros k bus l. now apply (NB E head).
Qed.
Print Assumptions C112_added_pseudo_pips.

(** A segment bits or pseudo pips file is no part of the part, grid and package description. *)
Lemma ends_apart (d1 d2 s1 s2 : text) n : d1 ++ s1 = d2 ++ s2 -> (n <= List.length s1)%nat -> (n <= List.length s2)%nat ->
  skipn (List.length s1 - n) s1 = skipn (List.length s2 - n) s2.
Proof.
  intros E L1 L2. assert (E2 : skipn (List.length (d1 ++ s1) - n) (d1 ++ s1) = skipn (List.length (d2 ++ s2) - n) (d2 ++ s2)) by now rewrite E.
  rewrite !skipn_app in E2. rewrite !app_length in E2.
  rewrite (skipn_all2 d1), (skipn_all2 d2) in E2 by lia. cbn [app] in E2.
  replace (List.length d1 + List.length s1 - n - List.length d1)%nat with (List.length s1 - n)%nat in E2 by lia.
  replace (List.length d2 + List.length s2 - n - List.length d2)%nat with (List.length s2 - n)%nat in E2 by lia. exact E2.
Qed.
Lemma inside_ends dir name q : inside dir name q -> exists d, q = d ++ name.
Proof.
  intros H. inversion H as [NR|R E|d R E|R NE ND]; subst.
  - exists []. reflexivity.
  - exists []. reflexivity.
  - exists (d ++ [slash]). reflexivity.
  - exists (dir ++ [slash]). rewrite <- app_assoc. reflexivity.
Qed.
Lemma file_in_with e d c dir name x : skipn (List.length name - 3) name <> tx ".db" -> (3 <= List.length name)%nat ->
  file_in e dir name x -> file_in (with_file (d ++ tx ".db") c e) dir name x.
Proof.
  intros NE L (q & Q & F). exists q. split; [exact Q|]. unfold file, with_file in *. cbn [e_read].
  destruct (text_eqb q (d ++ tx ".db")) eqn:E; [|exact F]. apply text_eqb_eq in E. exfalso. apply NE.
  destruct (inside_ends _ _ _ Q) as (d' & ->). apply (ends_apart _ _ _ _ 3) in E; [|exact L|cbn; lia]. exact E.
Qed.
Lemma says_with_file e d c root part g p pins : database_says e root part g p pins -> database_says (with_file (d ++ tx ".db") c e) root part g p pins.
Proof.
  intros (info & fab & pd & gc & gj & pc & pj & csv & (mp & ps & dv & esp & esd & pp & M1 & M2 & M3 & M4) & I1 & I2 & G1 & G2 & G3 & P1 & P2 & P3 & C1 & C2).
  assert (K : forall dir name x, In name [tx "parts.yaml"; tx "devices.yaml"; tx "tilegrid.json"; tx "part.json"; tx "package_pins.csv"] ->
     file_in e dir name x -> file_in (with_file (d ++ tx ".db") c e) dir name x).
  { intros dir name x I. apply file_in_with; repeat (destruct I as [<-|I]; [first [discriminate|cbn; lia]|]); contradiction. }
  exists info, fab, pd, gc, gj, pc, pj, csv. split.
  - exists mp, ps, dv, esp, esd, pp. split; [exact M1|]. split; [apply K; [cbn; tauto|exact M2]|]. split; [apply K; [cbn; tauto|exact M3]|exact M4].
  - split; [exact I1|]. split; [exact I2|]. split; [apply K; [cbn; tauto|exact G1]|]. split; [exact G2|]. split; [exact G3|].
    split; [apply K; [cbn; tauto|exact P1]|]. split; [exact P2|]. split; [exact P3|]. split; [apply K; [cbn; tauto|exact C1]|exact C2].
Qed.
Lemma sound_with_file e path c : N.of_nat (List.length c) < 2 ^ 32 - 1 -> full_lines c -> sound_files e -> sound_files (with_file path c e).
Proof.
  intros L F S q x H. unfold file, with_file in H. cbn [e_read] in H. destruct (text_eqb q path); [|exact (S q x H)].
  assert (x = c) as -> by congruence. split; [exact L|]. destruct F as [->|F]; [now left|right; now left].
Qed.

(** ** A case: the demonstration database with two lines more, one for another slice, one that repeats a name. *)
Definition more_bits : text := unlines [tx "CLBLL_L.SLICEL_X1.ALUT.INIT[00] 00_40"; tx "CLBLL_L.SLICEL_X0.ALUT.INIT[00] 00_41"].
Definition old_bits : text := unlines [tx "CLBLL_L.SLICEL_X0.ALUT.INIT[00] 02_15"; tx "CLBLL_L.SLICEL_X0.ALUT.INIT[01] 01_15 !02_14"].
Definition grown_env : environment := with_file (tx "db/segbits_clbll_l.db") (old_bits ++ more_bits) demo_env.
Definition grown_tls : outcome tiles := parse_database grown_env document_order (tx "db") (tx "xc7a35t").
Definition grown_db : tiles := match grown_tls with Ok t => t | _ => ex_db end.
Lemma grown_db_parsed : grown_tls = Ok grown_db.
Proof.
  assert (H : match grown_tls with Ok _ => true | _ => false end = true) by (vm_compute; reflexivity).
  unfold grown_db. destruct grown_tls; first [reflexivity|discriminate H].
Qed.
Lemma grown_same : tl_grid grown_db = tl_grid demo_db /\ tl_part grown_db = tl_part demo_db.
Proof. split; vm_compute; reflexivity. Qed.
Lemma grown_full : full_lines (old_bits ++ more_bits).
Proof. right. exists (removelast (old_bits ++ more_bits)). vm_compute. reflexivity. Qed.
Lemma grown_sound : sound_files grown_env.
Proof. apply sound_with_file; [vm_compute; reflexivity|exact grown_full|exact demo_sound_files]. Qed.
Lemma grown_walk root : sound_walk grown_env root.
Proof. exact (demo_sound_walk root). Qed.
Lemma grown_description : consistent_description grown_env (tx "db") (tl_grid demo_db) (tl_part demo_db).
Proof.
  destruct grown_same as [EG EP].
  assert (SD : sound_database grown_db).
  { apply sound_check_ok; [rewrite EP; exact demo_usable|]. vm_compute. reflexivity. }
  destruct SD as [A B C D E]. rewrite EG, EP in *. constructor; try assumption. intros tile rest k bus b l sb En I.
  rewrite <- EG in En. apply (entry_same _ _ _ _ _ grown_sound (grown_walk _) grown_db_parsed) in En. eauto.
Qed.
Lemma demo_types ty d : tl_bits demo_db ty = Ok (Some d) -> In ty [tx "CLBLL_L"; tx "LIOB33"; tx "HCLK_IOI3"].
Proof.
  destruct (loaded_bits _ _ _ _ _ demo_db_parsed) as (l & El & Eb). rewrite Eb. unfold tiles_database. clear Eb.
  set (paths := fold_left _ l []). assert (X : map fst paths = [tx "CLBLL_L"; tx "LIOB33"; tx "HCLK_IOI3"]).
  { subst paths. cbn [demo_env e_walk] in El. assert (l = map fst demo_files) as ->.
    { assert (Z : text_eqb (tx "db") (tx "db") = true) by reflexivity. rewrite Z in El. congruence. }
    vm_compute. reflexivity. }
  destruct (hm_find text_eqb ty paths) as [q|] eqn:E; [|discriminate]. intros _.
  apply (hm_find_maps _ text_eqb_eq) in E. apply maps_to_key in E. unfold has_key in E. now rewrite X in E.
Qed.
Definition new_key : tile_feature := (tx "CLBLL_L.SLICEL_X1.ALUT.INIT", 0).
Definition old_key : tile_feature := (tx "CLBLL_L.SLICEL_X0.ALUT.INIT", 0).
Lemma new_key_free ty d : tl_bits demo_db ty = Ok (Some d) -> forall bus l, ~ has_bits d (fst new_key) (snd new_key) bus l.
Proof.
  intros E bus l (segs & M & L). pose proof (demo_types _ _ E) as I.
  assert (X : forall ty, In ty [tx "CLBLL_L"; tx "LIOB33"; tx "HCLK_IOI3"] ->
     match tl_bits demo_db ty with Ok (Some d) => forallb (fun q : bus_type * segbits => negb (hm_contains tf_eqb new_key (snd q))) (td_bits d) | _ => true end = true).
  { intros t [<-|[<-|[<-|[]]]]; vm_compute; reflexivity. }
  specialize (X _ I). rewrite E in X. rewrite forallb_forall in X. apply maps_to_In in M. specialize (X _ M). cbn [snd] in X.
  apply negb_true_iff in X. apply (hm_contains_not _ tf_eqb_eq) in X. apply X. eapply maps_to_key. exact L.
Qed.
Lemma text_says (t : text) n : match parse_segbits (after_mapping t) t with Ok m => (List.length m =? n)%nat | _ => false end = true -> full_lines t ->
  exists m, parse_segbits (after_mapping t) t = Ok m /\ segbits_content t m.
Proof.
  intros X F. destruct (parse_segbits (after_mapping t) t) as [m| | | |] eqn:E; try discriminate X. exists m. split; [reflexivity|].
  eapply segbits_sound; [|exact E]. destruct F as [F|F]; [now left|right; now left].
Qed.
Lemma unlines_full l : last (unlines l) DbSpec.newline = DbSpec.newline -> full_lines (unlines l).
Proof.
  intros H. destruct (unlines l) as [|c r] eqn:E; [now left|]. right. exists (removelast (c :: r)).
  pose proof (app_removelast_last DbSpec.newline (l := c :: r)) as X. rewrite H in X. apply X. discriminate.
Qed.
Example C112_case_newer : newer demo_env grown_env (tx "db").
Proof.
  destruct (text_says old_bits 2) as (m & P1 & S1); [vm_compute; reflexivity|apply unlines_full; vm_compute; reflexivity|].
  destruct (text_says more_bits 2) as (m2 & P2 & S2); [vm_compute; reflexivity|apply unlines_full; vm_compute; reflexivity|].
  assert (K1 : has_key m old_key).
  { apply (hm_contains_key _ tf_eqb_eq). assert (X : match parse_segbits (after_mapping old_bits) old_bits with Ok m => hm_contains tf_eqb old_key m | _ => false end = true) by (vm_compute; reflexivity).
    rewrite P1 in X. exact X. }
  assert (K2 : forall key, has_key m2 key -> key = new_key \/ key = old_key).
  { intros key H. assert (X : match parse_segbits (after_mapping more_bits) more_bits with Ok m => forallb (fun q => tf_eqb (fst q) new_key || tf_eqb (fst q) old_key) m | _ => false end = true) by (vm_compute; reflexivity).
    rewrite P2 in X. rewrite forallb_forall in X. unfold has_key in H. apply in_map_iff in H as (q & <- & I). specialize (X _ I).
    apply orb_prop in X as [X|X]; apply tf_eqb_eq in X; auto. }
  clear P1 P2. unfold grown_env. apply (C112_added_segment_bits demo_env (tx "db") _ old_bits more_bits m m2); [vm_compute; reflexivity|apply unlines_full; vm_compute; reflexivity|exact S1|exact S2|].
  intros ty dir clb bram pips d TD TP D. destruct (data_loaded _ _ _ _ _ demo_sound_files (demo_sound_walk _) demo_db_parsed _ _ D) as (d' & E & SD). split.
  - pose proof (demo_types _ _ E) as I. intros Q. destruct TP as (low & L & _ & _ & In). apply inside_ends in In as (h & ->).
    apply lower_spec in L. subst low.
    assert (X : tx "db/segbits_clbll_l.db" = h ++ (tx "ppips_" ++ map to_lower ty ++ tx ".db")) by exact Q. clear Q.
    replace (tx "db/segbits_clbll_l.db") with ([] ++ tx "db/segbits_clbll_l.db") in X by reflexivity.
    destruct I as [<-|[<-|[<-|[]]]]; (apply (ends_apart _ _ _ _ 14) in X; [vm_compute in X; discriminate X|vm_compute; lia|vm_compute; lia]).
  - intros _ n k bus l H HB. destruct (K2 _ H) as [Ek|Ek]; [|rewrite Ek; exact K1]. exfalso.
    assert (n = fst new_key /\ k = snd new_key) as [-> ->] by (rewrite <- Ek; now split).
    apply (new_key_free _ _ E bus l). destruct SD as [_ SD]. unfold has_bits in *. apply (proj1 (SD bus (fst new_key, snd new_key) l)). exact HB.
Qed.
(** The demonstration run on it: the same bytes. *)
Example C112_case : exists s fuel0 s', runs demo_input s /\
  (forall fuel', (fuel0 <= fuel')%nat -> main_program fuel' Iso ex_orders (with_env grown_env (demo_command demo_input)) = Ok (0, s')) /\ st_bytes s' = st_bytes s.
Proof.
  destruct C81_case as (s & _ & _ & R & _). exists s.
  destruct (demo_run _ _ R) as (pins & feats & RS).
  destruct (C112_newer_database_same_file _ _ ex_orders _ _ _ _ _ _ _ _ grown_env RS) as (f0 & s' & H & E).
  - vm_compute. discriminate.
  - exact demo_inside.
  - exact ex_orders_good.
  - exact grown_sound.
  - exact grown_walk.
  - vm_compute. discriminate.
  - vm_compute. reflexivity.
  - apply (says_with_file demo_env (tx "db/segbits_clbll_l")). exact (rs_says _ _ _ _ _ _ _ _ _ _ RS).
  - exact grown_description.
  - exact C112_case_newer.
  - exists f0, s'. auto.
Qed.

(** Not every added line is harmless: a pseudo pip of a name with segment bits hides them, and the run does not notice.  The claim that the
    same run on a directory with a line more, when it succeeds, writes the same bytes, is false. *)
Definition hiding_env : environment :=
  with_file (tx "db/ppips_clbll_l.db") (unlines [tx "CLBLL_L.CLBLL_L_A1.IMUX_L6 always"] ++ unlines [tx "CLBLL_L.SLICEL_X0.ALUT.INIT always"]) demo_env.
Theorem C112_any_added_line_refuted :
  ~ (forall fuel fuel' ord c path old line root input g p pins feats s s',
     run_succeeds fuel ord c root input g p pins feats s -> e_read (c_env c) path = Some old -> full_lines old -> (exists m, pips_content (unlines [line]) m) ->
     main_program fuel' Iso ord (with_env (with_file path (old ++ unlines [line]) (c_env c)) c) = Ok (0, s') -> st_bytes s' = st_bytes s).
Proof.
  intros F. destruct C81_case as (s & _ & _ & R & _).
  destruct (demo_run _ _ R) as (pins & feats & RS). destruct R as (_ & _ & R).
  assert (X : match main_program 3000 Iso ex_orders (demo_command demo_input), main_program 3000 Iso ex_orders (with_env hiding_env (demo_command demo_input)) with
     | Ok (_, s), Ok (n, s1) => (n =? 0) && (if list_eq_dec N.eq_dec (st_bytes s1) (st_bytes s) then false else true)
     | _, _ => false end = true) by (vm_compute; reflexivity).
  rewrite R in X. destruct (main_program 3000 Iso ex_orders (with_env hiding_env (demo_command demo_input))) as [[n s1]| | | |] eqn:E; try discriminate X.
  apply andb_true_iff in X as [X1 X2]. apply N.eqb_eq in X1. subst n.
  destruct (list_eq_dec N.eq_dec (st_bytes s1) (st_bytes s)) as [|NE]; [discriminate X2|]. apply NE.
  refine (F _ _ _ _ (tx "db/ppips_clbll_l.db") (unlines [tx "CLBLL_L.CLBLL_L_A1.IMUX_L6 always"]) (tx "CLBLL_L.SLICEL_X0.ALUT.INIT always") _ _ _ _ _ _ _ _ RS _ _ _ E).
  - vm_compute. reflexivity.
  - apply unlines_full. vm_compute. reflexivity.
  - assert (Y : match parse_ppips (after_mapping (unlines [tx "CLBLL_L.SLICEL_X0.ALUT.INIT always"])) (unlines [tx "CLBLL_L.SLICEL_X0.ALUT.INIT always"]) with Ok _ => true | _ => false end = true) by (vm_compute; reflexivity).
    destruct (parse_ppips _ (unlines [tx "CLBLL_L.SLICEL_X0.ALUT.INIT always"])) as [m| | | |] eqn:P; try discriminate Y. exists m.
    eapply pips_sound; [|exact P]. right. left. exists (removelast (unlines [tx "CLBLL_L.SLICEL_X0.ALUT.INIT always"])). vm_compute. reflexivity.
Qed.
Print Assumptions C112_any_added_line_refuted.
