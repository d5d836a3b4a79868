(** What is said is a fault of the specification (LoadLogSpec): the part tables and the directory. *)
From Verif Require Import Base BaseFacts Absl Part DbText DbJson Database Fasm Assembler AsmSpec MapFacts OutcomeFacts
  DbSpec JsonSpec LoadSpec RefuseSpec JsonFacts JsonFacts2 DbFacts YamlFacts LoadFacts P_Database P_Database2 P_Database3 P_Database4 P_Refuse
  FasmLog LoadLog LoadLogSpec LoadLogFacts LoadLogTrue LoadLogTrue2.
From Coq Require Import Lia.

Lemma fabrics_sound devices fb : parse_yaml fabric_sink devices [] = Ok fb ->
  exists esd, yaml_document devices esd /\ (forall k ps, In (k, ps) (named esd) -> has_key ps (tx "fabric")) /\
    forall d f, hm_find text_eqb d fb = Some f <-> exists dps, maps_to (named esd) d dps /\ maps_to dps (tx "fabric") f.
Proof.
  intros H. destruct (yaml_document_or_not fabric_sink fabric_sink_dec devices) as [(esd & D)|(ls & l & Pp & I & N)].
  2:{ rewrite (parse_yaml_bad fabric_sink fabric_sink_dec devices ls l) in H; [discriminate H|exact Pp|exact I|exact N]. }
  exists esd. split; [exact D|].
  assert (HD : forall k ps, In (k, ps) (named esd) -> has_key ps (tx "fabric")).
  { intros k ps I. destruct (hm_find text_eqb (tx "fabric") ps) as [f|] eqn:E.
    - apply (hm_find_maps _ text_eqb_eq) in E. eapply maps_to_key; eauto.
    - exfalso. destruct (parse_yaml_doc fabric_sink fabric_sink_dec devices esd [] D) as (es' & Ee & Hp). rewrite Hp in H.
      destruct (run_entries_values fabric_sink fabric_value fabric_sink_value es' []) as [_ R]. rewrite <- Ee in R.
      assert (W : exists k ps, In (k, ps) (named esd) /\ fabric_value k ps = None) by (exists k, ps; split; [exact I|]; unfold fabric_value; now rewrite E).
      pose proof (eq_trans (eq_sym H) (R W)) as Z. discriminate Z. }
  split; [exact HD|]. destruct (fabrics_of devices esd D HD) as (fb' & E & FB). assert (fb' = fb) as -> by congruence. exact FB.
Qed.

Section True.
  Context (lt : library_texts) (e : environment) (root part : text).
  Let T := explains lt e root part.

  Lemma file_tells name p m : database_file e root part name p -> say_file lt e p = Says m -> T m.
  Proof.
    intros D H. unfold say_file in H. destruct (e_read e p) as [c|] eqn:E; [discriminate H|].
    assert (X : m = tx "could not open file: " ++ p ++ tx ": " ++ lt_errno lt p) by congruence. rewrite X.
    eapply cannot_open; [exact D|]. intros c F. unfold file in F. congruence.
  Qed.
  Lemma file_fine name p c : database_file e root part name p -> say_file lt e p = Fine c -> database_text e root part name c.
  Proof.
    intros D H. exists p. split; [exact D|]. unfold say_file in H. unfold file. destruct (e_read e p); [congruence|discriminate H].
  Qed.
  Lemma parts_file : database_file e root part (tx "parts.yaml") (path_join (path_join root (tx "mapping")) (tx "parts.yaml")).
  Proof. eapply mapping_file; [apply path_join_inside|now left|apply path_join_inside]. Qed.
  Lemma devices_file : database_file e root part (tx "devices.yaml") (path_join (path_join root (tx "mapping")) (tx "devices.yaml")).
  Proof. eapply mapping_file; [apply path_join_inside|right; now left|apply path_join_inside]. Qed.
  Lemma part_json_file : database_file e root part (tx "part.json") (path_join (path_join root part) (tx "part.json")).
  Proof. eapply part_file; [apply path_join_inside|now left|apply path_join_inside]. Qed.
  Lemma pins_file : database_file e root part (tx "package_pins.csv") (path_join (path_join root part) (tx "package_pins.csv")).
  Proof. eapply part_file; [apply path_join_inside|right; now left|apply path_join_inside]. Qed.

  Lemma unsaid_fine {A} (o : said A) x : o = Fine x -> unsaid o = Ok x.
  Proof. intros ->. reflexivity. Qed.
  Lemma part_info_tells m : say_part_info lt e root part = Says m -> T m.
  Proof.
    intros H. unfold say_part_info in H.
    says H; [eapply file_tells; [apply parts_file|exact H]|]. rename x into parts. apply (file_fine _ _ _ parts_file) in E.
    says H; [eapply file_tells; [apply devices_file|exact H]|]. rename x into devices. apply (file_fine _ _ _ devices_file) in E0.
    says H.
    - unfold say_parts_infos in H. says H.
      + eapply devices_table; [exact E0|]. eapply yaml_tells; [|exact H]. exact fabric_sink_tells.
      + apply unsaid_fine in E1. rewrite (yaml_erase _ fabric_sink _ _ fabric_sink_erase) in E1.
        destruct (fabrics_sound _ _ E1) as (esd & D & HD & FB).
        eapply parts_table; [exact E|exact E0|exact D|]. eapply yaml_tells; [|exact H].
        intros s k p q m'. now apply part_sink_tells with (fb := x).
    - apply unsaid_fine in E1. rewrite parts_infos_erase in E1. destruct (parts_sound _ _ _ E1) as (esp & esd & P & D & HD & HP).
      destruct (C56_parts_are_resolved parts devices esp esd P D HD HP) as (i & Ei & M). assert (i = x) as -> by congruence.
      destruct (hm_find text_eqb part x) eqn:F; [discriminate H|].
      assert (X : m = tx "invalid or unknown part """ ++ part ++ tx """").
      { unfold quoted in H. assert (Y : m = tx "invalid or unknown part " ++ tx """" ++ part ++ tx """") by congruence. exact Y. }
      rewrite X. eapply part_unknown; [exact E|exact P|]. intros K. apply (key_maps_to text_eqb text_eqb_eq) in K as (ps & Mp).
      destruct (HP _ _ (maps_to_In _ _ _ Mp)) as (info & R). assert (Y : maps_to x part info) by (apply M; eauto).
      apply (hm_find_maps _ text_eqb_eq) in Y. congruence.
  Qed.
  Lemma database_tells ord m : sound_files e -> say_database lt e ord root part = Says m -> T m.
  Proof.
    intros SF H. unfold say_database in H.
    says H; [now apply part_info_tells|]. rename x into info. apply unsaid_fine in E. rewrite part_info_erase in E. apply part_info_spec in E.
    assert (G : database_file e root part (tx "tilegrid.json") (path_join (path_join root (pi_fabric info)) (tx "tilegrid.json")))
      by (eapply fabric_file; [exact E|apply path_join_inside|apply path_join_inside]).
    says H; [eapply file_tells; [exact G|exact H]|]. rename x into gt. apply (file_fine _ _ _ G) in E0.
    says H.
    { unfold say_tilegrid in H. destruct (e_json e gt) as [j|] eqn:J.
      - eapply grid_wrong; [exact E0|exact J|]. apply (tilegrid_tells lt gt). exact H.
      - assert (X : m = tx "json parsing error, " ++ lt_parse lt gt) by congruence. rewrite X.
        eapply no_json; [now left|exact E0|exact J]. }
    says H.
    { unfold say_index in H. apply unchecked_says in H as [H ->]. apply cannot_walk. unfold index_tile_types in H.
      destruct (e_walk e root); [discriminate H|reflexivity]. }
    says H; [eapply file_tells; [exact part_json_file|exact H]|]. rename x1 into pt. apply (file_fine _ _ _ part_json_file) in E3.
    says H.
    { unfold say_part_json in H. destruct (e_json e pt) as [j|] eqn:J.
      - eapply part_wrong; [exact E3|exact J|]. eapply part_tells. exact H.
      - assert (X : m = tx "json parsing error, " ++ lt_parse lt pt) by congruence. rewrite X.
        eapply no_json; [right; now left|exact E3|exact J]. }
    cbv zeta in H. says H; [|discriminate H]. unfold say_banks_registry in H.
    says H; [eapply file_tells; [exact pins_file|exact H]|]. apply (file_fine _ _ _ pins_file) in E5.
    says H; [|discriminate H]. eapply pins_wrong; [exact E5|]. destruct E5 as (p & _ & F). destruct (SF _ _ F) as [B S].
    eapply pins_tells; [exact S|exact B|exact H].
  Qed.
End True.
