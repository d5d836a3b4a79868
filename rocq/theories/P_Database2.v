(** Property C56: the part and device tables. *)
From Verif Require Import Base BaseFacts Absl Part DbText AsmSpec MapFacts DbSpec DbFacts YamlFacts.
From Coq Require Import ZifyBool ZifyN ZifyNat.

Lemma fabrics_of devices esd : yaml_document devices esd ->
  (forall k ps, In (k, ps) (named esd) -> has_key ps (tx "fabric")) ->
  exists fabrics, parse_yaml fabric_sink devices [] = Ok fabrics /\
    forall d f, hm_find text_eqb d fabrics = Some f <->
      exists dps, maps_to (named esd) d dps /\ maps_to dps (tx "fabric") f.
Proof.
  intros D H. destruct (parse_yaml_doc fabric_sink fabric_sink_dec devices esd [] D) as (es' & E & ->).
  destruct (run_entries_values fabric_sink fabric_value fabric_sink_value es' []) as [R _]. rewrite <- E in R.
  assert (V : forall k ps, In (k, ps) (named esd) -> fabric_value k ps <> None).
  { intros k ps I X. apply H in I. apply (hm_find_none _ text_eqb_eq) in X. contradiction. }
  eexists. split; [apply R; exact V|]. intros d f. rewrite (hm_find_maps _ text_eqb_eq), (insert_all_maps _ text_eqb_eq).
  rewrite (values_maps _ _ _ _ V). split; intros (ps & M & X); exists ps; (split; [exact M|]); now apply (hm_find_maps _ text_eqb_eq).
Qed.

Lemma part_value_spec fabrics esd k ps info :
  (forall d f, hm_find text_eqb d fabrics = Some f <-> exists dps, maps_to (named esd) d dps /\ maps_to dps (tx "fabric") f) ->
  (part_value fabrics k ps = Some info <-> resolves esd ps info).
Proof.
  intros H. unfold part_value, resolves. split.
  - destruct (hm_find text_eqb (tx "device") ps) as [d|] eqn:E1; [|discriminate].
    destruct (hm_find text_eqb (tx "package") ps) as [p|] eqn:E2; [|discriminate].
    destruct (hm_find text_eqb (tx "speedgrade") ps) as [sg|] eqn:E3; [|discriminate].
    destruct (hm_find text_eqb d fabrics) as [f|] eqn:E4; [|discriminate]. intros [= <-]. cbn.
    apply (hm_find_maps _ text_eqb_eq) in E1, E2, E3. apply H in E4. auto.
  - intros (E1 & E2 & E3 & E4). apply H in E4. apply (hm_find_maps _ text_eqb_eq) in E1, E2, E3.
    rewrite E1, E2, E3, E4. destruct info; reflexivity.
Qed.

(** Every part is mapped to the device, package and speed grade written for it and to the fabric
    of that device; nothing else is in the table. *)
Theorem C56_parts_are_resolved :
  forall parts devices esp esd, yaml_document parts esp -> yaml_document devices esd ->
  (forall k ps, In (k, ps) (named esd) -> has_key ps (tx "fabric")) ->
  (forall k ps, In (k, ps) (named esp) -> exists info, resolves esd ps info) ->
  exists m, parse_parts_infos parts devices = Ok m /\
    forall part info, maps_to m part info <-> exists ps, maps_to (named esp) part ps /\ resolves esd ps info.
Proof.
  intros parts devices esp esd P D HD HP. destruct (fabrics_of devices esd D HD) as (fabrics & EF & F).
  unfold parse_parts_infos. rewrite EF. cbn [obind].
  destruct (parse_yaml_doc (part_sink fabrics) (part_sink_dec fabrics) parts esp [] P) as (es' & E & ->).
  destruct (run_entries_values (part_sink fabrics) (part_value fabrics) (part_sink_value fabrics) es' []) as [R _].
  rewrite <- E in R.
  assert (V : forall k ps, In (k, ps) (named esp) -> part_value fabrics k ps <> None).
  { intros k ps I X. apply HP in I as (info & I). apply (part_value_spec fabrics esd k ps info F) in I. congruence. }
  eexists. split; [apply R; exact V|]. intros part info.
  rewrite (insert_all_maps _ text_eqb_eq), (values_maps _ _ _ _ V).
  split; intros (ps & M & X); exists ps; (split; [exact M|]); now apply (part_value_spec fabrics esd part ps info F).
Qed.

(** A device without fabric, or a part that cannot be resolved, is an error. *)
Theorem C56_unresolvable_is_an_error :
  forall parts devices esp esd, yaml_document parts esp -> yaml_document devices esd ->
  (exists k ps, In (k, ps) (named esd) /\ ~ has_key ps (tx "fabric")) \/
  (exists k ps, In (k, ps) (named esp) /\ forall info, ~ resolves esd ps info) ->
  parse_parts_infos parts devices = Err.
Proof.
  intros parts devices esp esd P D H. unfold parse_parts_infos.
  assert (DC : (exists k ps, In (k, ps) (named esd) /\ ~ has_key ps (tx "fabric")) \/
    (forall k ps, In (k, ps) (named esd) -> has_key ps (tx "fabric"))).
  { clear. induction (named esd) as [|[k ps] l IH]; [right; intros k ps []|].
    destruct (hm_find text_eqb (tx "fabric") ps) as [f|] eqn:E.
    - destruct IH as [(k' & ps' & I & N)|IH]; [left; exists k', ps'; split; [now right|exact N]|right].
      intros k' ps' [X|X]; [|eauto]. inversion X; subst. apply (hm_find_maps _ text_eqb_eq) in E. eapply maps_to_key; eauto.
    - left. exists k, ps. split; [now left|]. now apply (hm_find_none _ text_eqb_eq). }
  destruct DC as [(k & ps & I & N)|HD].
  - destruct (parse_yaml_doc fabric_sink fabric_sink_dec devices esd [] D) as (es' & E & EQ). unfold props in *. rewrite EQ.
    destruct (run_entries_values fabric_sink fabric_value fabric_sink_value es' []) as [_ R]. rewrite <- E in R.
    unfold props. rewrite R; [reflexivity|]. exists k, ps. split; [exact I|]. now apply (hm_find_none _ text_eqb_eq).
  - destruct H as [(k & ps & I & N)|(k & ps & I & N)]; [exfalso; apply N; eauto|].
    destruct (fabrics_of devices esd D HD) as (fabrics & -> & F). cbn [obind].
    destruct (parse_yaml_doc (part_sink fabrics) (part_sink_dec fabrics) parts esp [] P) as (es' & E & ->).
    destruct (run_entries_values (part_sink fabrics) (part_value fabrics) (part_sink_value fabrics) es' []) as [_ R].
    rewrite <- E in R. apply R. exists k, ps. split; [exact I|].
    destruct (part_value fabrics k ps) as [info|] eqn:EV; [|reflexivity].
    apply (part_value_spec fabrics esd k ps info F) in EV. exfalso. eapply N; eauto.
Qed.

(** A line that is neither blank, a comment, a key nor a property rejects the tables. *)
Theorem C56_malformed_is_rejected :
  forall parts devices content ls l, content = parts \/ content = devices ->
  pieces newline content ls -> In l ls -> (forall i, ~ yaml_reads l i) ->
  parse_parts_infos parts devices = Err.
Proof.
  intros parts devices content ls l C P I N. unfold parse_parts_infos.
  assert (OD : ok_or_err (parse_yaml fabric_sink devices [])).
  { destruct (yaml_document_or_not fabric_sink fabric_sink_dec devices) as [(es & D)|(ls' & l' & P' & I' & N')].
    - destruct (parse_yaml_doc fabric_sink fabric_sink_dec devices es [] D) as (es' & _ & ->).
      apply run_entries_dec. apply fabric_sink_dec.
    - right. eapply parse_yaml_bad; eauto. apply fabric_sink_dec. }
  destruct C as [->| ->].
  - destruct OD as [(f & ->)| ->]; [|reflexivity]. cbn [obind]. eapply parse_yaml_bad; eauto. apply part_sink_dec.
  - rewrite (parse_yaml_bad fabric_sink fabric_sink_dec devices ls l [] P I N). reflexivity.
Qed.
Theorem C56_result_or_rejection :
  forall content, (exists es, yaml_document content es) \/
    (exists ls l, pieces newline content ls /\ In l ls /\ forall i, ~ yaml_reads l i).
Proof. exact (yaml_document_or_not fabric_sink fabric_sink_dec). Qed.
Print Assumptions C56_parts_are_resolved.
Print Assumptions C56_unresolvable_is_an_error.
Print Assumptions C56_malformed_is_rejected.
Print Assumptions C56_result_or_rejection.

Definition ex_devices : text :=
  tx """xc7a50t"":" ++ [newline] ++ tx "  fabric: ""xc7a50t""" ++ [newline] ++
  tx """xc7a35t"":" ++ [newline] ++ tx "  fabric: ""xc7a50t""" ++ [newline].
Definition ex_parts : text :=
  tx "# parts" ++ [newline] ++ tx "xc7a35tcsg324-1:" ++ [newline] ++ tx "  device: xc7a35t" ++ [newline] ++
  tx "  package: csg324" ++ [newline] ++ tx "  speedgrade: '1'" ++ [newline].
Example C56_case : exists esp esd, yaml_document ex_parts esp /\ yaml_document ex_devices esd /\
  maps_to (named esp) (tx "xc7a35tcsg324-1") [(tx "speedgrade", tx "1"); (tx "package", tx "csg324"); (tx "device", tx "xc7a35t")] /\
  parse_parts_infos ex_parts ex_devices = Ok [(tx "xc7a35tcsg324-1",
    {| pi_device := tx "xc7a35t"; pi_fabric := tx "xc7a50t"; pi_package := tx "csg324"; pi_speedgrade := tx "1" |})].
Proof.
  assert (X : forall c, (exists ls l, pieces newline c ls /\ In l ls /\ forall i, ~ yaml_reads l i) ->
     parse_parts_infos ex_parts c = Err /\ parse_parts_infos c ex_devices = Err).
  { intros c (ls & l & P & I & N). split; [apply (C56_malformed_is_rejected _ _ c ls l)|apply (C56_malformed_is_rejected _ _ c ls l)]; auto. }
  destruct (C56_result_or_rejection ex_parts) as [(esp & P)|B]; [|apply X in B as [_ B]; vm_compute in B; discriminate].
  destruct (C56_result_or_rejection ex_devices) as [(esd & D)|B]; [|apply X in B as [B _]; vm_compute in B; discriminate].
  exists esp, esd. split; [exact P|]. split; [exact D|]. split; [|vm_compute; reflexivity].
  destruct P as (ls & items & PL & F & E).
  apply yaml_entries_group in E. apply split_char_spec in PL.
  assert (G : Forall2 yaml_reads ls [YNothing; YKey (tx "xc7a35tcsg324-1"); YProp (tx "device") (tx "xc7a35t");
     YProp (tx "package") (tx "csg324"); YProp (tx "speedgrade") (tx "1"); YNothing]).
  { subst ls. vm_compute (split_char newline ex_parts).
    constructor; [apply (reads_comment _ (tx " parts")); apply strip_spec; reflexivity|].
    constructor; [apply (reads_key _ (tx "xc7a35tcsg324-1"));
      [intros c r [= <- _]; apply is_space_not; reflexivity|apply strip_spec; reflexivity|discriminate|apply unquote_spec; reflexivity]|].
    constructor; [eapply (reads_prop _ _ _ (tx "device") (tx " xc7a35t"));
      [reflexivity|apply is_space_spec; reflexivity|apply strip_spec; reflexivity|intros I; vm_compute in I; intuition discriminate|discriminate
      |apply strip_spec; reflexivity|apply strip_spec; reflexivity|apply unquote_spec; reflexivity]|].
    constructor; [eapply (reads_prop _ _ _ (tx "package") (tx " csg324"));
      [reflexivity|apply is_space_spec; reflexivity|apply strip_spec; reflexivity|intros I; vm_compute in I; intuition discriminate|discriminate
      |apply strip_spec; reflexivity|apply strip_spec; reflexivity|apply unquote_spec; reflexivity]|].
    constructor; [eapply (reads_prop _ _ _ (tx "speedgrade") (tx " '1'"));
      [reflexivity|apply is_space_spec; reflexivity|apply strip_spec; reflexivity|intros I; vm_compute in I; intuition discriminate|discriminate
      |apply strip_spec; reflexivity|apply strip_spec; reflexivity|apply unquote_spec; reflexivity]|].
    constructor; [constructor; constructor|]. constructor. }
  assert (U : forall l i i', yaml_reads l i -> yaml_reads l i' -> i = i').
  { intros l i i' R R'.
    pose (sink := fun (s : list (text * props)) k p => @Ok (list (text * props)) (s ++ [(k, p)])).
    assert (SD : forall s k p, ok_or_err (sink s k p)) by (intros; left; eexists; reflexivity).
    pose proof (yaml_line_reads sink SD l i (tx "@", [], []) R) as E1.
    pose proof (yaml_line_reads sink SD l i' (tx "@", [], []) R') as E2.
    rewrite E1 in E2. destruct i as [|k|n v], i' as [|k'|n' v']; cbn in E2; inversion E2; reflexivity. }
  assert (EI : items = [YNothing; YKey (tx "xc7a35tcsg324-1"); YProp (tx "device") (tx "xc7a35t");
     YProp (tx "package") (tx "csg324"); YProp (tx "speedgrade") (tx "1"); YNothing]).
  { clear - F G U. revert items F. induction G as [|l i ls is R G IH]; intros items F; inversion F; subst; [reflexivity|].
    f_equal; eauto. }
  rewrite E, EI. exists [], []. split; [reflexivity|intros []].
Qed.
