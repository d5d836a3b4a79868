(** Property C96: the files of the database a run opens. *)
From Verif Require Import Base BaseFacts Absl Part Frame Frames Fasm DbText DbJson Database Assembler AsmSpec MapFacts PartSpec
  DbSpec JsonSpec LoadSpec LoadFacts EndSpec SameSpec SameFacts LookupFacts StepdownFacts AsmWhole ResultFacts P_Main P_Main2 P_Database4 P_EndToEnd P_Result
  AsmExample P_Equiv JsonFacts OpensSpec Opens OpensFacts OpensFacts2.
From Coq Require Import Lia.

(** Other contents of files that the run did not open change nothing: not its result, not its output, not what it opens. *)
Theorem C96_nothing_else_is_read :
  forall fuel sm ord c e', same_directory (c_env c) e' ->
  (forall path, In path (main_opens sm ord c) -> e_read e' path = e_read (c_env c) path) ->
  main_program fuel sm ord (with_env e' c) = main_program fuel sm ord c /\
  main_opens sm ord (with_env e' c) = main_opens sm ord c.
Proof. intros fuel sm ord c e' (EX & EW & EJ) A. now apply run_agree. Qed.
Print Assumptions C96_nothing_else_is_read.

(** ** Which files *)
Lemma opens_database e root part path : In path (database_opens e root part) -> part_file e root part path.
Proof.
  intros H. unfold database_opens in H. apply in_app_or in H as [H|H].
  { unfold part_info_opens in H. destruct H as [<-|H].
    - eapply part_file_parts; apply path_join_inside.
    - destruct (map_file e _) in H; try solve [destruct H]. destruct H as [<-|[]]. eapply part_file_devices; apply path_join_inside. }
  destruct (parse_part_info e root part) as [info| | | |] eqn:EI; try solve [destruct H]. apply part_info_spec in EI.
  destruct H as [<-|H]; [eapply part_file_grid; [exact EI| |]; apply path_join_inside|].
  destruct (map_file e _) as [gt| | | |] in H; try solve [destruct H]. destruct (parse_tilegrid (e_json e gt)) as [g| | | |]; try solve [destruct H].
  destruct (index_tile_types e root) as [ps| | | |]; try solve [destruct H]. destruct H as [<-|H]; [eapply part_file_part; apply path_join_inside|].
  destruct (map_file e _) as [pt| | | |] in H; try solve [destruct H]. destruct (parse_part_json (e_json e pt)) as [p| | | |]; try solve [destruct H].
  destruct H as [<-|[]]. eapply part_file_pins; apply path_join_inside.
Qed.

(** What the getter opens are files of the type; all that exist, if it can be loaded. *)
Lemma type_paths_of e root l ty dir : e_walk e root = Some l -> Forall (fun p => In slash p) l -> type_dir e root ty dir ->
  type_paths dir ty (path_join dir (tx "segbits_" ++ map to_lower ty ++ tx ".db")) (path_join dir (tx "segbits_" ++ map to_lower ty ++ tx ".block_ram.db"))
    (path_join dir (tx "ppips_" ++ map to_lower ty ++ tx ".db")).
Proof. intros _ _ _. exists (map to_lower ty). split; [now apply lower_spec|]. repeat split; apply path_join_inside. Qed.
Lemma opt_opens_exists e p q : In q (opt_opens (if_exists e p)) <-> q = p /\ e_exists e p = true.
Proof. unfold if_exists. destruct (e_exists e p); cbn [opt_opens In]; intuition congruence. Qed.
Lemma opens_type e root l ty path : e_walk e root = Some l -> Forall (fun p => In slash p) l ->
  In path (getter_opens e (fold_left (index_step e) l []) ty) -> type_file e root ty path.
Proof.
  intros EL W H. unfold getter_opens in H. pose proof (index_find e ty l W []) as IF. cbn [hm_find] in IF.
  destruct IF as [(b & p & a & dir & El & TF & NB & IF)|[_ IF]]; rewrite IF in H; [|destruct H].
  assert (TD : type_dir e root ty dir) by (exists l, b, p, a; auto).
  exists dir. do 3 eexists. split; [exact TD|]. split; [eapply type_paths_of; eauto|].
  unfold tile_type_opens, paths_of in H. cbn [tp_segbits tp_block_ram tp_ppips] in H.
  apply in_app_or in H as [H|H]; [apply opt_opens_exists in H as [-> H]; auto|].
  destruct (parse_opt e parse_ppips _) in H; try solve [destruct H].
  apply in_app_or in H as [H|H]; [apply opt_opens_exists in H as [-> H]; auto|].
  destruct (parse_opt e parse_segbits _) in H; try solve [destruct H].
  apply opt_opens_exists in H as [-> H]. auto.
Qed.
Lemma opens_type_all e root l ty path d : e_walk e root = Some l -> Forall (fun p => In slash p) l ->
  tiles_database e (fold_left (index_step e) l []) ty = Ok (Some d) -> type_file e root ty path ->
  In path (getter_opens e (fold_left (index_step e) l []) ty).
Proof.
  intros EL W T (dir & clb & bram & pips & TD & (low & Lo & P1 & P2 & P3) & EP & EX). unfold getter_opens, tiles_database in *.
  rewrite (indexed_paths e root l ty dir EL W TD) in *. apply lower_spec in Lo.
  rewrite <- Lo in *. rewrite (inside_fun _ _ _ _ P1 (path_join_inside _ _)) in *. rewrite (inside_fun _ _ _ _ P2 (path_join_inside _ _)) in *.
  rewrite (inside_fun _ _ _ _ P3 (path_join_inside _ _)) in *.
  unfold parse_tile_type_database, tile_type_opens, paths_of in *. cbn [tp_segbits tp_block_ram tp_ppips] in *.
  destruct (parse_opt e parse_ppips _) as [x| | | |] in *; cbn [obind] in T; try discriminate T.
  destruct (parse_opt e parse_segbits (if_exists e (path_join dir (tx "segbits_" ++ map to_lower ty ++ tx ".db")))) as [y| | | |] in *; cbn [obind] in T; try discriminate T.
  rewrite !in_app_iff, !opt_opens_exists. destruct EP as [-> | [-> | ->]]; auto.
Qed.

(** What ProcessFasmFeatures looks for, in terms of the grid. *)
Lemma split_first_dot name tile rest : split_max 1 "." name = [tile; rest] <-> first_dot name tile rest.
Proof.
  split.
  - intros H. destruct (in_dec ascii_dec dot name) as [I|I].
    + apply in_split in I as (a & b & E).
      assert (X : exists a b, name = a ++ dot :: b /\ ~ In dot a).
      { clear -E. revert name E. induction a as [|c a IH]; intros name E; [exists [], b; split; [exact E|intros []]|].
        destruct (ascii_dec c dot) as [->|NE]; [exists [], (a ++ dot :: b); split; [exact E|intros []]|].
        destruct (IH _ eq_refl) as (a' & b' & E' & N'). exists (c :: a'), b'. split; [rewrite E; cbn [app]; now rewrite E'|]. intros [X|X]; auto. }
      clear a b E. destruct X as (a & b & -> & N). change "."%char with dot in H. rewrite (split_max_cut 0 dot a b N), split_max_0 in H. injection H as <- <-. split; [reflexivity|exact N].
    + change "."%char with dot in H. rewrite split_max_nodot in H by exact I. discriminate H.
  - intros [-> N]. unfold dotted. change "."%char with dot. now rewrite split_max_cut, split_max_0.
Qed.
Lemma looks_for_spec tls f ty : usable_grid (tl_grid tls) -> reported f ->
  (looks_for Iso tls f ty <-> exists tile rest k t seen, first_dot (ff_name f) tile rest /\ enables f k /\ maps_to (tl_grid tls) tile t /\ seen_as t rest ty seen).
Proof.
  intros U [RW RS]. split.
  - intros (tile & rest & t & seen & m & j & fa & S & F & R & J & W & FA & FB). apply split_first_dot in S. apply (hm_find_maps _ text_eqb_eq) in F.
    destruct (resolve_alias_spec t rest (proj1 (U _ _ F))) as (ty' & seen' & R' & SA). rewrite R in R'. injection R' as -> -> _.
    exists tile, rest, ((ff_start f + j) mod 2 ^ 32), t, seen'. repeat (split; [assumption|]). split; [|auto].
    exists j. split; [exact J|]. split; [|reflexivity]. unfold feature_bit in FB. destruct (j <? 64); congruence.
  - intros (tile & rest & k & t & seen & FD & (j & J & B & _) & M & SA). destruct (resolve_alias_spec t rest (proj1 (U _ _ M))) as (ty' & seen' & R & SA').
    destruct (proj2 (U _ _ M) _ _ _ _ _ SA SA') as [-> _].
    exists tile, rest, t, seen', (map resolved_pair (t_bits t)), j, (u32 (ff_start f + j)).
    split; [now apply split_first_dot|]. split; [now apply (hm_find_maps _ text_eqb_eq)|]. split; [exact R|]. split; [exact J|].
    split; [lia|]. split.
    + unfold feature_address. destruct (ff_start f <? 2 ^ 31) eqn:Z; [|reflexivity]. destruct (2 ^ 31 <=? ff_start f + j) eqn:Z2; [|reflexivity].
      apply N.leb_le in Z2. lia.
    + unfold feature_bit. destruct (j <? 64) eqn:Z; [now rewrite B|]. apply N.ltb_ge in Z. lia.
Qed.

(** A run: the files of the database, then those of the types it looks for, each type once. *)
Lemma frames_types {A} (get : text -> list A) sm ord tls input : exists tys, frames_opens get sm ord tls input = flat_map get tys /\ NoDup tys /\
  (tys = [] \/ exists fs, obind (pudcb_features (tl_grid tls)) (fun fs => obind (ofold (assemble_line sm) (getlines input) fs) (fun fs =>
          add_stepdown (o_banks ord) (o_tags ord) (tl_banks tls) (tl_grid tls) fs)) = Ok fs /\
     forall ty, In ty tys -> exists f, In f fs /\ looks_for sm tls f ty) /\
  (forall fr, assemble_frames sm ord tls input = Ok fr ->
     exists fs, obind (pudcb_features (tl_grid tls)) (fun fs => obind (ofold (assemble_line sm) (getlines input) fs) (fun fs =>
          add_stepdown (o_banks ord) (o_tags ord) (tl_banks tls) (tl_grid tls) fs)) = Ok fs /\
     (forall ty f, In f fs -> looks_for sm tls f ty -> In ty tys) /\ forall ty, In ty tys -> exists d, tl_bits tls ty = Ok (Some d)).
Proof.
  unfold frames_opens, assemble_frames. destruct (pudcb_features (tl_grid tls)) as [p| | | |]; cbn [obind].
  2-5: exists []; split; [reflexivity|]; split; [constructor|]; split; [now left|]; discriminate.
  destruct (ofold (assemble_line sm) (getlines input) p) as [fs| | | |]; cbn [obind].
  2-5: exists []; split; [reflexivity|]; split; [constructor|]; split; [now left|]; discriminate.
  destruct (add_stepdown (o_banks ord) (o_tags ord) (tl_banks tls) (tl_grid tls) fs) as [fs'| | | |]; cbn [obind].
  2-5: exists []; split; [reflexivity|]; split; [constructor|]; split; [now left|]; discriminate.
  destruct (features_types get sm ord tls fs' 0 ([], [])) as (tys & E & ND & U & K). exists tys. split; [exact E|]. split; [exact ND|]. split.
  - right. exists fs'. split; [reflexivity|]. intros ty I. apply U, I.
  - intros fr H. exists fs'. split; [reflexivity|]. destruct (process_features sm ord tls 0 fs' ([], [])) as [st| | | |]; cbn [obind] in H; try discriminate H.
    destruct (K _ eq_refl) as (Ka & Kb & Kc). split; [|exact Kc]. intros ty f I L. pose proof (Kb ty f I L) as X. apply Ka in X as [[]|X]. exact X.
Qed.

Section Described.
  Context (ord : orders) (c : command) (root input : text) (g : tilegrid) (p : db_part) (pins : list package_pin) (pud : list fasm_feature).
  Hypothesis G : good_orders ord.
  Hypothesis PC : proper_command c root input.
  Hypothesis SL : short_lines input.
  Hypothesis SF : sound_files (c_env c).
  Hypothesis SW : sound_walk (c_env c) root.
  Hypothesis WN : e_walk (c_env c) root <> None.
  Hypothesis DS : database_says (c_env c) root (c_part c) g p pins.
  Hypothesis CD : consistent_description (c_env c) root g p.
  Hypothesis DB : distinct_banks p.
  Hypothesis OP : one_pudcb g.
  Hypothesis PD : pudcb_default g pud.

  Lemma run_types : exists tls l tys, parse_database (c_env c) (o_load ord) root (c_part c) = Ok tls /\ e_walk (c_env c) root = Some l /\
    Forall (fun p => In slash p) l /\ tl_bits tls = tiles_database (c_env c) (fold_left (index_step (c_env c)) l []) /\
    main_opens Iso ord c = database_opens (c_env c) root (c_part c) ++ flat_map (getter_opens (c_env c) (fold_left (index_step (c_env c)) l [])) tys /\
    (forall ty, In ty tys -> exists feats, text_features Iso input feats /\ uses_type g (in_design g p pins (pud ++ feats)) ty) /\
    (forall fr, assemble_frames Iso ord tls input = Ok fr ->
       (forall feats ty, text_features Iso input feats -> uses_type g (in_design g p pins (pud ++ feats)) ty -> In ty tys) /\
       forall ty, In ty tys -> exists d, tl_bits tls ty = Ok (Some d)).
  Proof.
    destruct (C69_described_database_is_accepted _ (o_load ord) _ _ _ _ _ SF WN DS) as (tls & ED). pose proof G as (_ & _ & GB & GT & GL).
    destruct (loaded_registry _ _ _ _ _ SF GL ED) as (pins1 & DS1 & BK). destruct (database_says_same _ _ _ _ _ _ _ _ _ SF DS DS1) as (SG & SP & <-).
    pose proof (consistent_same _ _ _ _ _ _ SG SP CD) as CD1. pose proof (sound_same _ root (c_part c) (o_load ord) tls SF SW ED CD1) as D.
    destruct (loaded_bits _ _ _ _ _ ED) as (l & EL & ET).
    set (get := getter_opens (c_env c) (fold_left (index_step (c_env c)) l [])).
    destruct (frames_types get Iso ord tls input) as (tys & E & ND & U & K). exists tls, l, tys. split; [exact ED|]. split; [exact EL|]. split; [exact (SW _ EL)|]. split; [exact ET|]. split.
    { pose proof PC as [LA ER NR EX NP EI _ _ _]. unfold main_opens. replace (2 <? List.length (c_args c))%nat with false by (symmetry; apply Nat.ltb_ge; exact LA).
      rewrite ER. destruct root as [|rc rr] eqn:Er; [now elim NR|]. rewrite EX. cbn [negb]. destruct (c_part c) as [|pc pr] eqn:Ep; [now elim NP|].
      rewrite ED, EI. f_equal. unfold index_tile_types. rewrite EL. exact E. }
    assert (PU : exists pud', pudcb_features (tl_grid tls) = Ok pud' /\ pud' = pud).
    { destruct (pudcb_ok _ (sd_sites _ D)) as (pud' & EP & PD' & _). exists pud'. split; [exact EP|].
      apply (pudcb_unique g); [exact OP| |exact PD]. eapply pudcb_default_same; [apply same_grid_sym, SG|exact PD']. }
    destruct PU as (pud' & EP & ->).
    assert (Q : forall fs, obind (pudcb_features (tl_grid tls)) (fun fs => obind (ofold (assemble_line Iso) (getlines input) fs) (fun fs =>
          add_stepdown (o_banks ord) (o_tags ord) (tl_banks tls) (tl_grid tls) fs)) = Ok fs ->
        exists feats, text_features Iso input feats /\ Forall reported fs /\ forall f, In f fs <-> in_design g p pins (pud ++ feats) f).
    { intros fs H. rewrite EP in H. cbn [obind] in H. destruct (ofold (assemble_line Iso) (getlines input) pud) as [fs1| | | |] eqn:EL1; cbn [obind] in H; try discriminate H.
      apply assemble_lines_ok in EL1 as (evss & F2 & E1). assert (T : text_features Iso input (flat_map line_features evss)) by (exists evss; auto).
      exists (flat_map line_features evss). split; [exact T|]. set (feats := flat_map line_features evss) in *.
      rewrite E1 in H. pose proof (add_stepdown_inv _ _ _ _ _ _ GB GT (sd_sites _ D) H) as R.
      destruct (add_stepdown_ok (o_banks ord) (o_tags ord) _ _ _ GB GT R) as (extra & E2 & X). assert (fs = (pud ++ feats) ++ extra) as -> by congruence.
      split.
      - destruct (pudcb_ok _ (sd_sites _ D)) as (pud2 & EP2 & _ & RP). assert (pud2 = pud) as -> by congruence.
        rewrite !Forall_app. split; [split; [exact RP|now apply (text_reported input)]|].
        apply Forall_forall. intros f I. apply X in I as (n & _ & ->). split; [discriminate|]. cbn [plain_feature ff_start]. discriminate.
      - intros f. transitivity (all_features tls (pud ++ feats) f).
        + unfold all_features. rewrite in_app_iff, X. tauto.
        + rewrite (features_same (o_load ord) tls pins GL BK). split; eapply in_design_same; eauto using same_grid_sym, same_part_sym, distinct_banks_same. }
    assert (LF : forall f ty, reported f -> (looks_for Iso tls f ty <-> exists tile rest k t seen, first_dot (ff_name f) tile rest /\ enables f k /\ maps_to g tile t /\ seen_as t rest ty seen)).
    { intros f ty R. rewrite (looks_for_spec tls f ty (sd_grid _ D) R). split; intros (tile & rest & k & t & seen & A & B & M & S).
      - destruct (same_grid_maps _ _ _ _ (same_grid_sym _ _ SG) M) as (t' & M' & T). exists tile, rest, k, t', seen. repeat (split; [assumption|]). eapply seen_same; eauto.
      - destruct (same_grid_maps _ _ _ _ SG M) as (t' & M' & T). exists tile, rest, k, t', seen. repeat (split; [assumption|]). eapply seen_same; eauto. }
    split.
    - intros ty I. destruct U as [-> | (fs & H & U)]; [destruct I|]. destruct (U ty I) as (f & If & L). destruct (Q fs H) as (feats & T & RE & ID).
      exists feats. split; [exact T|]. rewrite Forall_forall in RE. apply (LF f ty (RE f If)) in L as (tile & rest & k & t & seen & A & B & M & S).
      exists f, tile, rest, k, t, seen. split; [now apply ID|auto].
    - intros fr H. destruct (K fr H) as (fs & Hf & K1 & K2). split; [|exact K2].
      intros feats ty T (f & tile & rest & k & t & seen & ID & A & B & M & S). destruct (Q fs Hf) as (feats' & T' & RE & ID').
      assert (feats' = feats) as -> by (eapply text_features_fun; eauto). apply ID' in ID. rewrite Forall_forall in RE.
      apply (K1 ty f ID). apply (LF f ty (RE f ID)). exists tile, rest, k, t, seen. auto.
  Qed.

  Lemma which_files : forall path, In path (main_opens Iso ord c) ->
    part_file (c_env c) root (c_part c) path \/
    exists feats ty, text_features Iso input feats /\ uses_type g (in_design g p pins (pud ++ feats)) ty /\ type_file (c_env c) root ty path.
  Proof.
    intros path H. destruct run_types as (tls & l & tys & ED & EL & W & ET & E & U & _). rewrite E in H. apply in_app_or in H as [H|H].
    - left. now apply opens_database.
    - right. apply in_flat_map in H as (ty & I & H). destruct (U ty I) as (feats & T & US). exists feats, ty. split; [exact T|]. split; [exact US|]. eapply opens_type; eauto.
  Qed.

  Lemma all_of_them : forall fuel s path feats, main_program fuel Iso ord c = Ok (0, s) -> text_features Iso input feats ->
    (In path (main_opens Iso ord c) <->
     part_file (c_env c) root (c_part c) path \/
     exists ty, uses_type g (in_design g p pins (pud ++ feats)) ty /\ type_file (c_env c) root ty path).
  Proof.
    intros fuel s path feats M T. split.
    { intros H. destruct (which_files path H) as [H'|(feats' & ty & T' & U & F)]; [now left|]. right.
      assert (feats' = feats) as -> by (eapply text_features_fun; eauto). eauto. }
    destruct run_types as (tls & l & tys & ED & EL & W & ET & E & _ & K). rewrite E, in_app_iff.
    rewrite (main_proper fuel Iso ord c root input tls PC ED) in M.
    destruct (assemble_frames Iso ord tls input) as [fr| | | |] eqn:EA; try discriminate M. destruct (K fr eq_refl) as [K1 K2]. clear M E.
    intros [H|(ty & U & F)].
    - left. unfold database_opens. unfold parse_database in ED. apply obind_ok in ED as (info & Ei & H1).
      rewrite Ei. apply obind_ok in H1 as (gt & Eg & H1). rewrite Eg. apply obind_ok in H1 as (g1 & Egj & H1). rewrite Egj. apply obind_ok in H1 as (paths & Ex & H1).
      rewrite Ex. apply obind_ok in H1 as (pt & Ep & H1). rewrite Ep. apply obind_ok in H1 as (p1 & Epj & _). rewrite Epj.
      pose proof Ei as Ei'. unfold parse_part_info in Ei'. apply obind_ok in Ei' as (ps & Eps & _). unfold part_info_opens. rewrite Eps.
      apply part_info_spec in Ei.
      destruct H as [dir q I1 I2|dir q I1 I2|info' dir q PL I1 I2|dir q I1 I2|dir q I1 I2]; rewrite (inside_fun _ _ _ _ I1 (path_join_inside _ _)) in I2;
        rewrite (inside_fun _ _ _ _ I2 (path_join_inside _ _)); cbn [app In].
      + now left.
      + right. now left.
      + apply part_info_spec in PL. apply part_info_spec in Ei. assert (info' = info) as -> by congruence. right. right. now left.
      + right. right. right. now left.
      + right. right. right. right. now left.
    - right. apply in_flat_map. pose proof (K1 feats ty T U) as I. exists ty. split; [exact I|]. destruct (K2 ty I) as (d & Ed). rewrite ET in Ed.
      eapply opens_type_all; eauto.
  Qed.
End Described.

(** Only the five files about the part, and the files of the tile types the design uses, are opened. *)
Theorem C96_which_files :
  forall ord c root input g p pins pud path,
  good_orders ord -> proper_command c root input -> short_lines input ->
  sound_files (c_env c) -> sound_walk (c_env c) root -> e_walk (c_env c) root <> None ->
  database_says (c_env c) root (c_part c) g p pins -> consistent_description (c_env c) root g p ->
  distinct_banks p -> one_pudcb g -> pudcb_default g pud ->
  In path (main_opens Iso ord c) ->
  part_file (c_env c) root (c_part c) path \/
  exists feats ty, text_features Iso input feats /\ uses_type g (in_design g p pins (pud ++ feats)) ty /\ type_file (c_env c) root ty path.
Proof. intros. eapply which_files; eauto. Qed.
Print Assumptions C96_which_files.

(** A run that succeeds opens all of them. *)
Theorem C96_all_of_them :
  forall ord c root input g p pins pud fuel s feats path,
  good_orders ord -> proper_command c root input -> short_lines input ->
  sound_files (c_env c) -> sound_walk (c_env c) root -> e_walk (c_env c) root <> None ->
  database_says (c_env c) root (c_part c) g p pins -> consistent_description (c_env c) root g p ->
  distinct_banks p -> one_pudcb g -> pudcb_default g pud ->
  main_program fuel Iso ord c = Ok (0, s) -> text_features Iso input feats ->
  (In path (main_opens Iso ord c) <->
   part_file (c_env c) root (c_part c) path \/
   exists ty, uses_type g (in_design g p pins (pud ++ feats)) ty /\ type_file (c_env c) root ty path).
Proof. intros. eapply all_of_them; eauto. Qed.
Print Assumptions C96_all_of_them.

(** ** No file is opened twice *)
Definition tail7 (p : text) : text := firstn 7 (rev p).
Lemma join_tail a b : relative b -> exists pre, path_join a b = pre ++ b.
Proof.
  intros R. destruct (path_join_inside a b) as [N|_ _|d _ _|_ _ _]; [contradiction|exists []; reflexivity|exists a; reflexivity|].
  exists (a ++ [slash]). now rewrite <- app_assoc.
Qed.
Lemma tail_join a b : relative b -> (7 <= List.length b)%nat -> tail7 (path_join a b) = tail7 b.
Proof.
  intros R L. destruct (join_tail a b R) as (pre & ->). unfold tail7. rewrite rev_app_distr, firstn_app, rev_length.
  replace (7 - List.length b)%nat with O by lia. cbn [firstn]. apply app_nil_r.
Qed.
Lemma relative_first c r : c <> slash -> relative (c :: r).
Proof. intros N r' E. injection E as E _. contradiction. Qed.
Ltac tails := rewrite tail_join by (first [apply relative_first; discriminate | cbn; lia]).

Definition fixed_tails : list text := [rev (tx "ts.yaml"); rev (tx "es.yaml"); rev (tx "id.json"); rev (tx "rt.json"); rev (tx "ins.csv")].
Lemma database_tails e root part : exists n, map tail7 (database_opens e root part) = firstn n fixed_tails.
Proof.
  assert (T1 : forall a, tail7 (path_join a (tx "parts.yaml")) = rev (tx "ts.yaml")) by (intros a; tails; reflexivity).
  assert (T2 : forall a, tail7 (path_join a (tx "devices.yaml")) = rev (tx "es.yaml")) by (intros a; tails; reflexivity).
  assert (T3 : forall a, tail7 (path_join a (tx "tilegrid.json")) = rev (tx "id.json")) by (intros a; tails; reflexivity).
  assert (T4 : forall a, tail7 (path_join a (tx "part.json")) = rev (tx "rt.json")) by (intros a; tails; reflexivity).
  assert (T5 : forall a, tail7 (path_join a (tx "package_pins.csv")) = rev (tx "ins.csv")) by (intros a; tails; reflexivity).
  unfold database_opens, part_info_opens, parse_part_info.
  destruct (map_file e (path_join (path_join root (tx "mapping")) (tx "parts.yaml"))) as [ps| | | |]; cbn [obind map app].
  2-5: exists 1%nat; rewrite T1; reflexivity.
  destruct (obind (map_file e (path_join (path_join root (tx "mapping")) (tx "devices.yaml"))) _) as [info| | | |]; cbn [map app].
  2-5: exists 2%nat; rewrite T1, T2; reflexivity.
  destruct (map_file e _) as [gt| | | |]; cbn [map].
  2-5: exists 3%nat; rewrite T1, T2, T3; reflexivity.
  destruct (parse_tilegrid (e_json e gt)) as [g| | | |]; cbn [map].
  2-5: exists 3%nat; rewrite T1, T2, T3; reflexivity.
  destruct (index_tile_types e root) as [paths| | | |]; cbn [map].
  2-5: exists 3%nat; rewrite T1, T2, T3; reflexivity.
  destruct (map_file e _) as [pt| | | |]; cbn [map].
  2-5: exists 4%nat; rewrite T1, T2, T3, T4; reflexivity.
  destruct (parse_part_json (e_json e pt)) as [p| | | |]; cbn [map].
  2-5: exists 4%nat; rewrite T1, T2, T3, T4; reflexivity.
  exists 5%nat. rewrite T1, T2, T3, T4, T5. reflexivity.
Qed.
Lemma NoDup_firstn {A} n (l : list A) : NoDup l -> NoDup (firstn n l).
Proof. intros H. rewrite <- (firstn_skipn n l) in H. revert H. generalize (skipn n l). induction (firstn n l) as [|x r IH]; intros q H; [constructor|]. inversion H; subst. constructor; [intros I; apply H2, in_or_app; now left|eapply IH; eauto]. Qed.
Lemma database_once e root part : NoDup (database_opens e root part).
Proof.
  destruct (database_tails e root part) as (n & E). apply (NoDup_map_inv tail7). rewrite E. apply NoDup_firstn.
  repeat constructor; cbn; intuition discriminate.
Qed.

(** The names of the files of a tile type. *)
Lemma lower_no_slash ty : ~ In slash ty -> ~ In slash (map to_lower ty).
Proof.
  intros N I. apply in_map_iff in I as (c & E & I). apply to_lower_spec in E as [[R E]|[_ E]]; [|subst c; contradiction].
  change (N_of_ascii slash) with 47 in E. lia.
Qed.
Lemma lower_no_dot ty : ~ In dot ty -> ~ In dot (map to_lower ty).
Proof.
  intros N I. apply in_map_iff in I as (c & E & I). apply to_lower_spec in E as [[R E]|[_ E]]; [|subst c; contradiction].
  change (N_of_ascii dot) with 46 in E. lia.
Qed.
Lemma filename_join dir name : dir <> [] -> name <> [] -> ~ In slash name -> path_filename (path_join dir name) = name.
Proof.
  intros D NE N. destruct (path_join_inside dir name) as [X|_ X|d _ X|_ _ _].
  - exfalso. apply X. intros r ->. apply N. now left.
  - contradiction.
  - rewrite X, <- app_assoc. cbn [app]. now apply path_cut.
  - now apply path_cut.
Qed.
Definition type_names (ty : text) : list text :=
  [tx "ppips_" ++ map to_lower ty ++ tx ".db"; tx "segbits_" ++ map to_lower ty ++ tx ".db"; tx "segbits_" ++ map to_lower ty ++ tx ".block_ram.db"].
Lemma cut_first (x y a b : text) : ~ In dot x -> ~ In dot y -> x ++ dot :: a = y ++ dot :: b -> x = y.
Proof.
  revert y. induction x as [|c x IH]; intros [|c' y] X Y E; cbn [app] in E; [reflexivity| | |]; injection E as E1 E2.
  - exfalso. apply Y. left. auto.
  - exfalso. apply X. left. auto.
  - subst c'. f_equal. apply IH; [intros Q; apply X; now right|intros Q; apply Y; now right|exact E2].
Qed.
Lemma type_name_cut ty ty' n : ~ In dot ty -> ~ In dot ty' -> In n (type_names ty) -> In n (type_names ty') -> map to_lower ty = map to_lower ty'.
Proof.
  intros D D' H H'. apply lower_no_dot in D. apply lower_no_dot in D'. unfold type_names in H, H'. revert D D' H H'. generalize (map to_lower ty) (map to_lower ty'). intros l l' D D' H H'.
  change (tx ".db") with (dot :: tx "db") in *. change (tx ".block_ram.db") with (dot :: tx "block_ram.db") in *.
  destruct H as [<-|[<-|[<-|[]]]]; destruct H' as [E|[E|[E|[]]]]; try (exfalso; clear - E; cbn [tx list_ascii_of_string app] in E; discriminate E);
    apply app_inv_head in E; symmetry in E; revert E; apply cut_first; assumption.
Qed.
Lemma type_names_once ty : ~ In dot ty -> NoDup (type_names ty).
Proof.
  intros D. unfold type_names. generalize (map to_lower ty). intros l. repeat constructor.
  - intros [E|[E|[]]]; clear - E; cbn [tx list_ascii_of_string app] in E; discriminate E.
  - intros [E|[]]. apply app_inv_head, app_inv_head in E. discriminate E.
  - intros [].
Qed.
Lemma type_names_plain ty n : ~ In slash ty -> In n (type_names ty) -> n <> [] /\ ~ In slash n.
Proof.
  intros S H. apply lower_no_slash in S. unfold type_names in H. revert S H. generalize (map to_lower ty). intros l S H.
  assert (P : forall a, ~ In slash a -> forall b, ~ In slash b -> ~ In slash (a ++ l ++ b)) by (intros a A b B X; apply in_app_or in X as [X|X]; [auto|apply in_app_or in X as [X|X]; auto]).
  destruct H as [<-|[<-|[<-|[]]]]; (split; [discriminate|]); apply P; cbn; intuition discriminate.
Qed.
Lemma type_names_end ty n : In n (type_names ty) -> exists pre, n = pre ++ tx ".db" /\ (4 <= List.length pre)%nat.
Proof.
  intros H. unfold type_names in H. revert H. generalize (map to_lower ty). intros l H. destruct H as [<-|[<-|[<-|[]]]].
  - exists (tx "ppips_" ++ l). split; [now rewrite <- app_assoc|rewrite app_length; cbn; lia].
  - exists (tx "segbits_" ++ l). split; [now rewrite <- app_assoc|rewrite app_length; cbn; lia].
  - exists (tx "segbits_" ++ l ++ tx ".block_ram"). split; [now rewrite <- !app_assoc|rewrite app_length; cbn; lia].
Qed.

(** The files the getter opens, by name. *)
Lemma getter_names e root l ty : e_walk e root = Some l -> Forall (fun p => In slash p) l ->
  (exists p dir ns, In p l /\ tile_type_file p dir ty /\ dir <> [] /\ getter_opens e (fold_left (index_step e) l []) ty = map (path_join dir) ns /\
     (forall n, In n ns -> In n (type_names ty)) /\ (NoDup (type_names ty) -> NoDup ns)) \/ getter_opens e (fold_left (index_step e) l []) ty = [].
Proof.
  intros EL W. unfold getter_opens. pose proof (index_find e ty l W []) as IF. cbn [hm_find] in IF.
  destruct IF as [(b & p & a & dir & El & TF & NB & IF)|[_ IF]]; rewrite IF; [left|now right].
  exists p, dir. assert (DN : dir <> []) by (destruct TF as (d & _ & _ & [[_ ->]|[X ->]]); [discriminate|exact X]).
  assert (IP : In p l) by (rewrite El; apply in_or_app; right; now left).
  unfold tile_type_opens, paths_of. cbn [tp_segbits tp_block_ram tp_ppips]. unfold type_names.
  set (n1 := tx "ppips_" ++ map to_lower ty ++ tx ".db"). set (n2 := tx "segbits_" ++ map to_lower ty ++ tx ".db"). set (n3 := tx "segbits_" ++ map to_lower ty ++ tx ".block_ram.db").
  set (f := fun b : bool => fun n : text => if b then [n] else []).
  assert (O : forall n, opt_opens (if_exists e (path_join dir n)) = map (path_join dir) (f (e_exists e (path_join dir n)) n)) by (intros n; unfold if_exists, f; destruct (e_exists e _); reflexivity).
  rewrite !O.
  assert (F : forall b1 b2 b3, (forall n, In n (f b1 n1 ++ f b2 n2 ++ f b3 n3) -> In n [n1; n2; n3]) /\ (NoDup [n1; n2; n3] -> NoDup (f b1 n1 ++ f b2 n2 ++ f b3 n3))).
  { clear. intros b1 b2 b3. split; [destruct b1, b2, b3; cbn; tauto|]. intros H. inversion H as [|? ? A1 H1]; subst. inversion H1 as [|? ? A2 H2]; subst. cbn in A1, A2.
    destruct b1, b2, b3; cbn; repeat constructor; cbn; intuition. }
  clearbody n1 n2 n3.
  destruct (parse_opt e parse_ppips _) as [x| | | |].
  2-5: rewrite app_nil_r; exists (f (e_exists e (path_join dir n1)) n1); repeat (split; [assumption||reflexivity|]);
       specialize (F (e_exists e (path_join dir n1)) false false); change (f false n2) with (@nil text) in F; change (f false n3) with (@nil text) in F; cbn [app] in F; rewrite app_nil_r in F; exact F.
  destruct (parse_opt e parse_segbits _) as [y| | | |].
  2-5: rewrite app_nil_r, <- map_app; exists (f (e_exists e (path_join dir n1)) n1 ++ f (e_exists e (path_join dir n2)) n2); repeat (split; [assumption||reflexivity|]);
       specialize (F (e_exists e (path_join dir n1)) (e_exists e (path_join dir n2)) false); change (f false n3) with (@nil text) in F; rewrite app_nil_r in F; exact F.
  rewrite <- !map_app. eexists. repeat (split; [eassumption||reflexivity|]). apply F.
Qed.

Lemma NoDup_app_intro {A} (a b : list A) : NoDup a -> NoDup b -> (forall x, In x a -> In x b -> False) -> NoDup (a ++ b).
Proof.
  induction a as [|x a IH]; intros NA NB D; [exact NB|]. inversion NA; subst. cbn [app]. constructor.
  - intros I. apply in_app_or in I as [I|I]; [contradiction|]. apply (D x); [now left|exact I].
  - apply IH; [assumption|assumption|]. intros y I J. apply (D y); [now right|exact J].
Qed.
Lemma flat_map_once {A B} (f : A -> list B) l : NoDup l -> (forall x, In x l -> NoDup (f x)) ->
  (forall x y z, In x l -> In y l -> In z (f x) -> In z (f y) -> x = y) -> NoDup (flat_map f l).
Proof.
  induction l as [|x l IH]; intros ND F D; [constructor|]. inversion ND; subst. cbn [flat_map]. apply NoDup_app_intro.
  - apply F. now left.
  - apply IH; [assumption|intros y I; apply F; now right|]. intros y z w I J. apply D; now right.
  - intros z I J. apply in_flat_map in J as (y & J & K). assert (x = y) as <- by (eapply (D x y z); auto; [now left|now right]). contradiction.
Qed.
Lemma types_once e root l tys : e_walk e root = Some l -> Forall (fun p => In slash p) l -> distinct_types e root -> NoDup tys ->
  NoDup (flat_map (getter_opens e (fold_left (index_step e) l [])) tys).
Proof.
  intros EL W DT ND. apply flat_map_once; [exact ND| |].
  - intros ty _. destruct (getter_names e root l ty EL W) as [(p & dir & ns & IP & TF & DN & E & NS & NN)| ->]; [|constructor].
    rewrite E. assert (D : ~ In dot ty) by (eapply (DT l p p dir dir ty ty []); eauto). specialize (NN (type_names_once ty D)).
    assert (S : ~ In slash ty) by (destruct TF as (d & _ & S & _); exact S).
    apply (NoDup_map_inv path_filename). rewrite map_map. rewrite (map_ext_in _ (fun n => n)); [now rewrite map_id|].
    intros n I. destruct (type_names_plain ty n S (NS n I)) as [NE NSL]. now apply filename_join.
  - intros ty ty' path _ _ H H'. destruct (getter_names e root l ty EL W) as [(p & dir & ns & IP & TF & DN & E & NS & _)|E]; rewrite E in H; [|destruct H].
    destruct (getter_names e root l ty' EL W) as [(p' & dir' & ns' & IP' & TF' & DN' & E' & NS' & _)|E']; rewrite E' in H'; [|destruct H'].
    apply in_map_iff in H as (n & <- & I). apply in_map_iff in H' as (n' & EP & I').
    assert (S : ~ In slash ty) by (destruct TF as (d & _ & S & _); exact S). assert (S' : ~ In slash ty') by (destruct TF' as (d & _ & S' & _); exact S').
    destruct (type_names_plain ty n S (NS n I)) as [NE NSL]. destruct (type_names_plain ty' n' S' (NS' n' I')) as [NE' NSL'].
    assert (n' = n) as ->.
    { rewrite <- (filename_join dir n DN NE NSL), <- (filename_join dir' n' DN' NE' NSL'). now rewrite EP. }
    assert (D : ~ In dot ty) by (eapply (DT l p p dir dir ty ty []); eauto). assert (D' : ~ In dot ty') by (eapply (DT l p' p' dir' dir' ty' ty' []); eauto).
    pose proof (type_name_cut ty ty' n D D' (NS n I) (NS' n I')) as L.
    eapply (DT l p p' dir dir' ty ty' (map to_lower ty)); eauto; apply lower_spec; auto.
Qed.
Lemma apart e root part l tys path : e_walk e root = Some l -> Forall (fun p => In slash p) l ->
  In path (database_opens e root part) -> In path (flat_map (getter_opens e (fold_left (index_step e) l [])) tys) -> False.
Proof.
  intros EL W H H'. apply in_flat_map in H' as (ty & _ & H'). destruct (getter_names e root l ty EL W) as [(p & dir & ns & IP & TF & DN & E & NS & _)|E]; rewrite E in H'; [|destruct H'].
  apply in_map_iff in H' as (n & <- & I). assert (S : ~ In slash ty) by (destruct TF as (d & _ & S & _); exact S).
  destruct (type_names_plain ty n S (NS n I)) as [NE NSL]. destruct (type_names_end ty n (NS n I)) as (pre & -> & L).
  destruct (database_tails e root part) as (k & DTL). apply (in_map tail7) in H. rewrite DTL in H.
  rewrite tail_join in H.
  - unfold tail7 in H. rewrite rev_app_distr in H. change (rev (tx ".db")) with (["b"; "d"; "."]%char) in H. cbn [app firstn] in H.
    assert (X : In ("b"%char :: "d"%char :: "."%char :: firstn 4 (rev pre)) fixed_tails) by (rewrite <- (firstn_skipn k fixed_tails); apply in_or_app; now left).
    clear - X. unfold fixed_tails in X. repeat (destruct X as [X|X]; [discriminate X|]). destruct X.
  - intros r Er. apply NSL. rewrite Er. now left.
  - rewrite app_length. cbn [tx list_ascii_of_string List.length]. lia.
Qed.

(** No file is opened twice, whatever the run comes to. *)
Theorem C96_no_file_twice :
  forall sm ord c, (forall root, db_path c = Some root -> sound_walk (c_env c) root /\ distinct_types (c_env c) root) ->
  NoDup (main_opens sm ord c).
Proof.
  intros sm ord c H. unfold main_opens. destruct (2 <? List.length (c_args c))%nat; [constructor|]. destruct (db_path c) as [root|]; [|constructor].
  destruct (match root with [] => true | _ => negb (e_exists (c_env c) root) end); [constructor|]. destruct (H root eq_refl) as [SW DT]. clear H.
  destruct (c_part c) as [|pc pr]; [constructor|]. set (part := pc :: pr). clearbody part. pose proof (database_once (c_env c) root part) as DO.
  destruct (parse_database (c_env c) (o_load ord) root part) as [tls| | | |]; try (rewrite app_nil_r; exact DO).
  unfold index_tile_types. destruct (e_walk (c_env c) root) as [l|] eqn:EL; [|rewrite app_nil_r; exact DO].
  destruct (input_text c) as [input|]; [|rewrite app_nil_r; exact DO].
  destruct (frames_types (getter_opens (c_env c) (fold_left (index_step (c_env c)) l [])) sm ord tls input) as (tys & E & ND & _).
  change (NoDup (database_opens (c_env c) root part ++ frames_opens (getter_opens (c_env c) (fold_left (index_step (c_env c)) l [])) sm ord tls input)).
  rewrite E.
  pose proof (SW l EL) as W. apply NoDup_app_intro; [exact DO|now apply (types_once _ root)|]. intros path I J. eapply apart; eauto.
Qed.
Print Assumptions C96_no_file_twice.

(** A case: the demo text; and no text at all, for which a broken file of the tile type CLBLL_L is no trouble, though it is for the demo text. *)
Example C96_case :
  main_opens Iso ex_orders (demo_command demo_input) =
    map tx ["db/mapping/parts.yaml"; "db/mapping/devices.yaml"; "db/fab/tilegrid.json"; "db/xc7a35t/part.json"; "db/xc7a35t/package_pins.csv";
            "db/segbits_liob33.db"; "db/ppips_clbll_l.db"; "db/segbits_clbll_l.db"; "db/segbits_hclk_ioi3.db"]%string /\
  main_opens Iso ex_orders (demo_command []) =
    map tx ["db/mapping/parts.yaml"; "db/mapping/devices.yaml"; "db/fab/tilegrid.json"; "db/xc7a35t/part.json"; "db/xc7a35t/package_pins.csv";
            "db/segbits_liob33.db"]%string.
Proof. split; vm_compute; reflexivity. Qed.
Example C96_case_twice : forall root, db_path (demo_command demo_input) = Some root -> sound_walk demo_env root /\ distinct_types demo_env root.
Proof.
  intros root E. change (Some (tx "db") = Some root) in E. assert (root = tx "db") as -> by congruence. clear E.
  assert (W : e_walk demo_env (tx "db") = Some (map fst demo_files)) by reflexivity. split.
  - intros l EL. rewrite W in EL. assert (l = map fst demo_files) as -> by congruence. clear.
    assert (H : forallb (fun p => existsb (fun c => if ascii_dec c slash then true else false) p) (map fst demo_files) = true) by (vm_compute; reflexivity).
    apply Forall_forall. intros p I. rewrite forallb_forall in H. apply H in I. apply existsb_exists in I as (c & I & X). destruct (ascii_dec c slash) as [->|]; [exact I|discriminate X].
  - intros l p p' dir dir' ty ty' low EL I I' TF TF'. rewrite W in EL. assert (l = map fst demo_files) as -> by congruence. clear W EL.
    assert (Q : forall p dir ty, In p (map fst demo_files) -> tile_type_file p dir ty -> In ty [tx "CLBLL_L"; tx "LIOB33"; tx "HCLK_IOI3"]).
    { clear. intros p dir ty I (d & -> & N & _). apply tile_type_noslash in N. apply (in_map path_filename) in I. rewrite (proj1 (path_cut d _ N)) in I. clear N d dir.
      assert (E : map path_filename (map fst demo_files) =
        [tx "parts.yaml"; tx "devices.yaml"; tx "tilegrid.json"; tx "part.json"; tx "package_pins.csv"; tx "tile_type_" ++ tx "CLBLL_L" ++ tx ".json"; tx "segbits_clbll_l.db";
         tx "ppips_clbll_l.db"; tx "tile_type_" ++ tx "LIOB33" ++ tx ".json"; tx "segbits_liob33.db"; tx "tile_type_" ++ tx "HCLK_IOI3" ++ tx ".json"; tx "segbits_hclk_ioi3.db"]) by (vm_compute; reflexivity).
      rewrite E in I. clear E.
      repeat (destruct I as [E|I]; [first [apply app_inv_head, app_inv_tail in E; subst ty; cbn [In]; tauto
        | exfalso; apply (f_equal (firstn 5)) in E; cbn in E; discriminate E]|]). destruct I. }
    pose proof (Q _ _ _ I TF) as T. pose proof (Q _ _ _ I' TF') as T'. clear - T T'. split.
    + destruct T as [<-|[<-|[<-|[]]]]; cbn; intuition discriminate.
    + intros L L'. apply lower_spec in L. apply lower_spec in L'. rewrite <- L' in L. clear L'.
      destruct T as [<-|[<-|[<-|[]]]]; destruct T' as [<-|[<-|[<-|[]]]]; try reflexivity; vm_compute in L; discriminate L.
Qed.
Definition broken_env : environment :=
  {| e_read := fun p => if text_eqb p (tx "db/segbits_clbll_l.db") then Some (tx "nonsense") else e_read demo_env p;
     e_exists := e_exists demo_env; e_walk := e_walk demo_env; e_json := e_json demo_env |}.
Example C96_case_broken :
  same_directory demo_env broken_env /\
  (forall path, In path (main_opens Iso ex_orders (demo_command [])) -> e_read broken_env path = e_read demo_env path) /\
  (exists s, main_program 3000 Iso ex_orders (with_env broken_env (demo_command [])) = Ok (0, s)) /\
  main_program 3000 Iso ex_orders (with_env broken_env (demo_command demo_input)) = Crash.
Proof.
  split; [repeat split|]. split.
  { destruct C96_case as [_ ->]. intros path I. unfold broken_env. cbn [e_read].
    repeat (destruct I as [<-|I]; [reflexivity|]). destruct I. }
  split.
  - assert (X : match main_program 3000 Iso ex_orders (with_env broken_env (demo_command [])) with Ok (0, _) => true | _ => false end = true) by (vm_compute; reflexivity).
    destruct (main_program 3000 Iso ex_orders (with_env broken_env (demo_command []))) as [[[|n] s]| | | |]; try discriminate X. now exists s.
  - vm_compute. reflexivity.
Qed.
