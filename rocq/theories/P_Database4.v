(** C69, C70: loading a database directory. *)
From Verif Require Import Base BaseFacts Absl Part DbText DbJson Database Fasm FasmSpec Assembler AsmSpec MapFacts DbSpec DbFacts YamlFacts JsonSpec JsonFacts JsonFacts2 OrderFacts.
From Verif Require Import LoadSpec P_Database P_Database2 P_Database3 LoadFacts P_Lookup P_Assembler3 AsmExample.

(** ** Contents *)
Lemma segbits_sound after c m : splittable after c -> parse_segbits after c = Ok m -> segbits_content c m.
Proof.
  intros S H. destruct (text_lines_total c) as (ls & T). destruct (C53_result_or_rejection c ls T) as [(es & F)|(l & I & N)].
  - destruct (C53_segbits_are_read after c ls es S T F) as (m' & E & ND & M). assert (m' = m) as -> by congruence. exists ls, es. split; [exact T|]. split; [exact F|]. split; assumption.
  - rewrite (C53_malformed_is_rejected after c ls l S T I N) in H. discriminate.
Qed.
Lemma segbits_complete after c m : splittable after c -> segbits_content c m -> exists m', parse_segbits after c = Ok m'.
Proof. intros S (ls & es & T & F & _). destruct (C53_segbits_are_read after c ls es S T F) as (m' & E & _). eauto. Qed.
Lemma pips_sound after c m : splittable after c -> parse_ppips after c = Ok m -> pips_content c m.
Proof.
  intros S H. destruct (text_lines_total c) as (ls & T). destruct (C54_result_or_rejection c ls T) as [(es & F)|(l & I & N)].
  - destruct (C54_pips_are_read after c ls es S T F) as (m' & E & ND & M). assert (m' = m) as -> by congruence. exists ls, es. split; [exact T|]. split; [exact F|]. split; assumption.
  - rewrite (C54_malformed_is_rejected after c ls l S T I N) in H. discriminate.
Qed.
Lemma pips_complete after c m : splittable after c -> pips_content c m -> exists m', parse_ppips after c = Ok m'.
Proof. intros S (ls & es & T & F & _). destruct (C54_pips_are_read after c ls es S T F) as (m' & E & _). eauto. Qed.
Lemma lines_bound c ls : text_lines c ls -> (List.length ls <= List.length c)%nat.
Proof.
  intros T. induction T as [|l NE N|l r ls N T IH]; cbn [List.length]; [lia|destruct l; [contradiction|cbn; lia]|].
  rewrite app_length. cbn [List.length]. lia.
Qed.
Lemma pins_sound after c m : splittable after c -> N.of_nat (List.length c) < 2 ^ 32 - 1 -> parse_pins after c = Ok m -> pins_content c m.
Proof.
  intros S B H. destruct (text_lines_total c) as (ls & T). pose proof (lines_bound _ _ T) as L. destruct ls as [|h ls].
  - left. inversion T; subst. cbn in H. injection H as <-. auto.
  - right. cbn [List.length] in L. assert (B' : N.of_nat (List.length ls) < 2 ^ 32 - 1) by (eapply N.le_lt_trans; [|exact B]; lia).
    destruct (C55_result_or_rejection ls) as [(es & F)|(l & I & N)].
    + destruct (texts_eqb (map strip (skip_empty (split_char "," h))) pins_header) eqn:E.
      * assert (HH : pin_header h) by (now apply pin_header_spec). exists h, ls, es. split; [exact T|]. split; [exact HH|]. split; [exact F|].
        pose proof (C55_pins_are_read after c h ls es S T B' HH F). congruence.
      * exfalso. assert (HH : ~ pin_header h) by (intros X; apply pin_header_spec in X; congruence).
        pose proof (C55_malformed_is_rejected after c h ls S T B' (or_introl HH)). congruence.
    + pose proof (C55_malformed_is_rejected after c h ls S T B' (or_intror (ex_intro _ l (conj I N)))). congruence.
Qed.
Lemma pins_complete after c m : splittable after c -> N.of_nat (List.length c) < 2 ^ 32 - 1 -> pins_content c m -> parse_pins after c = Ok m.
Proof.
  intros S B [[-> ->]|(h & ls & es & T & HH & F & ->)]; [reflexivity|]. pose proof (lines_bound _ _ T) as L. cbn [List.length] in L.
  apply (C55_pins_are_read after c h ls es S T); [|exact HH|exact F]. eapply N.le_lt_trans; [|exact B]; lia.
Qed.
Lemma parts_sound parts devices m : parse_parts_infos parts devices = Ok m ->
  exists esp esd, yaml_document parts esp /\ yaml_document devices esd /\
    (forall k ps, In (k, ps) (named esd) -> has_key ps (tx "fabric")) /\
    (forall k ps, In (k, ps) (named esp) -> exists info, resolves esd ps info).
Proof.
  intros H.
  destruct (C56_result_or_rejection parts) as [(esp & P)|(ls & l & Pp & I & N)].
  2:{ rewrite (C56_malformed_is_rejected parts devices parts ls l) in H; auto. discriminate. }
  destruct (C56_result_or_rejection devices) as [(esd & D)|(ls & l & Pp & I & N)].
  2:{ rewrite (C56_malformed_is_rejected parts devices devices ls l) in H; auto. discriminate. }
  exists esp, esd. split; [exact P|]. split; [exact D|].
  assert (HD : forall k ps, In (k, ps) (named esd) -> has_key ps (tx "fabric")).
  { intros k ps I. destruct (hm_find text_eqb (tx "fabric") ps) as [f|] eqn:E.
    - apply (hm_find_maps _ text_eqb_eq) in E. eapply maps_to_key; eauto.
    - apply (hm_find_none _ text_eqb_eq) in E. rewrite (C56_unresolvable_is_an_error parts devices esp esd P D) in H; [discriminate|]. left. eauto. }
  split; [exact HD|]. intros k ps I. destruct (fabrics_of devices esd D HD) as (fabrics & _ & F).
  destruct (part_value fabrics k ps) as [info|] eqn:E.
  - exists info. now apply (part_value_spec fabrics esd k ps info F).
  - rewrite (C56_unresolvable_is_an_error parts devices esp esd P D) in H; [discriminate|]. right. exists k, ps. split; [exact I|].
    intros info R. apply (part_value_spec fabrics esd k ps info F) in R. congruence.
Qed.

(** ** Optional files *)
Section OptFiles.
  Context (e : environment) {A : Type} (parse : option ascii -> text -> outcome A) (says : text -> A -> Prop)
    (sound : forall after c m, splittable after c -> parse after c = Ok m -> says c m)
    (complete : forall after c m, splittable after c -> says c m -> exists m', parse after c = Ok m')
    (dec : forall after c, splittable after c -> read_or_reported (parse after c))
    (SF : sound_files e).
  Lemma parse_opt_sound p o : parse_opt e parse (if_exists e p) = Ok o -> opt_file e p says o.
  Proof.
    unfold if_exists. destruct (e_exists e p) eqn:E; cbn [parse_opt].
    - intros H. apply obind_ok in H as (c & Ec & H). apply obind_ok in H as (x & Ex & H). injection H as <-.
      assert (F : file e p c) by (unfold map_file in Ec; unfold file; destruct (e_read e p); [now injection Ec as ->|discriminate]).
      apply (file_present e p says c x E F). eapply sound; [exact (proj2 (SF _ _ F))|exact Ex].
    - intros H. injection H as <-. now constructor.
  Qed.
  Lemma parse_opt_complete p o : opt_file e p says o -> exists o', parse_opt e parse (if_exists e p) = Ok o'.
  Proof.
    unfold if_exists. intros [E|c x E F S]; rewrite E; cbn [parse_opt]; [eauto|].
    unfold map_file. unfold file in F. rewrite F. cbn [obind].
    destruct (complete (after_mapping c) c x (proj2 (SF _ _ F)) S) as (m & ->). cbn [obind]. eauto.
  Qed.
  Lemma parse_opt_dec p : read_or_reported (parse_opt e parse (if_exists e p)).
  Proof.
    unfold if_exists, read_or_reported. destruct (e_exists e p); cbn [parse_opt]; [|eauto].
    unfold map_file. destruct (e_read e p) as [c|] eqn:F; cbn [obind]; [|auto].
    destruct (dec (after_mapping c) c (proj2 (SF _ _ F))) as [(m & ->)| ->]; cbn [obind]; eauto.
  Qed.
End OptFiles.

Lemma type_paths_of dir ty clb bram pips : type_paths dir ty clb bram pips ->
  clb = path_join dir (tx "segbits_" ++ map to_lower ty ++ tx ".db") /\
  bram = path_join dir (tx "segbits_" ++ map to_lower ty ++ tx ".block_ram.db") /\
  pips = path_join dir (tx "ppips_" ++ map to_lower ty ++ tx ".db").
Proof.
  intros (low & L & A & B & C). apply lower_spec in L. subst low.
  split; [|split]; eapply inside_fun; eauto using path_join_inside.
Qed.
Lemma type_database_spec e dir ty clb bram pips : sound_files e -> type_paths dir ty clb bram pips ->
  (forall d, parse_tile_type_database e (paths_of e dir ty) = Ok d -> type_says e clb bram pips d) /\
  (forall d, type_says e clb bram pips d -> exists d', parse_tile_type_database e (paths_of e dir ty) = Ok d') /\
  read_or_reported (parse_tile_type_database e (paths_of e dir ty)).
Proof.
  intros SF TP. apply type_paths_of in TP as (-> & -> & ->). unfold parse_tile_type_database, paths_of. cbn [tp_ppips tp_segbits tp_block_ram].
  pose proof (fun after c S => proj1 (C61_text_files after c S)) as D1.
  pose proof (fun after c S => proj1 (proj2 (C61_text_files after c S))) as D2.
  split; [|split].
  - intros d H. apply obind_ok in H as (op & Ep & H). apply obind_ok in H as (oc & Ec & H). apply obind_ok in H as (ob & Eb & H). injection H as <-.
    apply (parse_opt_sound e parse_ppips pips_content pips_sound SF) in Ep.
    apply (parse_opt_sound e parse_segbits segbits_content segbits_sound SF) in Ec.
    apply (parse_opt_sound e parse_segbits segbits_content segbits_sound SF) in Eb.
    exists oc, ob, op. split; [exact Ec|]. split; [exact Eb|]. split; [exact Ep|]. split; [reflexivity|].
    intros bus m. cbn [td_bits]. rewrite <- (hm_find_maps _ bus_eqb_eq).
    destruct oc as [x|], ob as [y|], bus; cbn; split; intros H;
      solve [discriminate|injection H as ->; auto|destruct H as [[H H']|[H H']]; solve [discriminate|injection H' as ->; reflexivity]].
  - intros d (oc & ob & op & Hc & Hb & Hp & _).
    destruct (parse_opt_complete e parse_ppips pips_content pips_complete SF _ _ Hp) as (x & ->). cbn [obind].
    destruct (parse_opt_complete e parse_segbits segbits_content segbits_complete SF _ _ Hc) as (y & ->). cbn [obind].
    destruct (parse_opt_complete e parse_segbits segbits_content segbits_complete SF _ _ Hb) as (z & ->). cbn [obind]. eauto.
  - destruct (parse_opt_dec e parse_ppips D2 SF (path_join dir (tx "ppips_" ++ map to_lower ty ++ tx ".db"))) as [(x & ->)| ->]; cbn [obind]; [|now right].
    destruct (parse_opt_dec e parse_segbits D1 SF (path_join dir (tx "segbits_" ++ map to_lower ty ++ tx ".db"))) as [(y & ->)| ->]; cbn [obind]; [|now right].
    destruct (parse_opt_dec e parse_segbits D1 SF (path_join dir (tx "segbits_" ++ map to_lower ty ++ tx ".block_ram.db"))) as [(z & ->)| ->]; cbn [obind]; [|now right].
    left. eauto.
Qed.

(** ** The whole database *)
Lemma map_file_in e dir name c : map_file e (path_join dir name) = Ok c <-> file_in e dir name c.
Proof.
  unfold map_file, file_in, file. split.
  - intros H. exists (path_join dir name). split; [apply path_join_inside|]. destruct (e_read e _); [now injection H as ->|discriminate].
  - intros (p & I & F). rewrite (inside_fun _ _ _ _ (path_join_inside dir name) I), F. reflexivity.
Qed.

Lemma part_info_spec e root part info : parse_part_info e root part = Ok info <-> part_listed e root part info.
Proof.
  unfold parse_part_info. split.
  - intros H. apply obind_ok in H as (parts & Ep & H). apply obind_ok in H as (devices & Ed & H). apply obind_ok in H as (m & Em & H).
    apply map_file_in in Ep. apply map_file_in in Ed.
    destruct (parts_sound _ _ _ Em) as (esp & esd & P & D & HD & HP).
    destruct (C56_parts_are_resolved parts devices esp esd P D HD HP) as (m' & E & M). assert (m' = m) as -> by congruence.
    destruct (hm_find text_eqb part m) as [i|] eqn:F; [|discriminate]. injection H as ->. apply (hm_find_maps _ text_eqb_eq) in F.
    destruct (proj1 (M _ _) F) as (ps & Mp & R). exists (path_join root (tx "mapping")), parts, devices, esp, esd, ps.
    split; [apply path_join_inside|]. auto 10.
  - intros (mp & parts & devices & esp & esd & ps & Im & Fp & Fd & P & D & HD & HP & Mp & R).
    rewrite (inside_fun _ _ _ _ Im (path_join_inside root (tx "mapping"))) in *.
    apply map_file_in in Fp. apply map_file_in in Fd. rewrite Fp. cbn [obind]. rewrite Fd. cbn [obind].
    destruct (C56_parts_are_resolved parts devices esp esd P D HD HP) as (m & E & M). rewrite E. cbn [obind].
    assert (F : maps_to m part info) by (apply M; eauto). apply (hm_find_maps _ text_eqb_eq) in F. now rewrite F.
Qed.

(** A loaded database holds exactly what its files say: the tile grid of the fabric of the part, the
    description of the part, and the banks of its package. *)
Theorem C69_database_is_loaded : forall e ord root part tls,
  sound_files e -> good_load ord ->
  parse_database e ord root part = Ok tls ->
  exists pins, database_says e root part (tl_grid tls) (tl_part tls) pins /\
    forall bank tile,
      (In bank (reg_tile_banks (tl_banks tls) tile) <-> in_bank (dp_iobanks (tl_part tls)) pins bank tile) /\
      ((exists ts, reg_tiles (tl_banks tls) bank = Some ts /\ In tile ts) <-> in_bank (dp_iobanks (tl_part tls)) pins bank tile).
Proof.
  intros e ord root part tls SF OK H. unfold parse_database in H.
  apply obind_ok in H as (info & Ei & H). apply part_info_spec in Ei.
  apply obind_ok in H as (gt & Eg & H). apply obind_ok in H as (g & Egj & H). apply obind_ok in H as (paths & Ex & H).
  apply obind_ok in H as (pt & Ep & H). apply obind_ok in H as (p & Epj & H). apply obind_ok in H as (bk & Eb & H). injection H as <-.
  cbn [tl_grid tl_part tl_banks]. unfold create_banks_registry in Eb. apply obind_ok in Eb as (csv & Ec & Eb). apply obind_ok in Eb as (pins & Es & Eb).
  injection Eb as <-. destruct (e_json e gt) as [gj|] eqn:Jg; [|discriminate Egj]. destruct (e_json e pt) as [pj|] eqn:Jp; [|discriminate Epj].
  apply C68_grid_is_read in Egj. apply C59_part_is_read in Epj. apply (order_grid_json _ OK) in Egj. apply (order_part_json _ OK) in Epj.
  apply map_file_in in Eg. apply map_file_in in Ep. apply map_file_in in Ec.
  exists pins. split.
  - exists info, (path_join root (pi_fabric info)), (path_join root part), gt, gj, pt, pj, csv.
    split; [exact Ei|]. split; [apply path_join_inside|]. split; [apply path_join_inside|]. do 7 (split; [assumption|]).
    destruct Ec as (cp & _ & F). destruct (SF _ _ F) as [B S]. eapply pins_sound; eauto.
  - intros bank tile. apply C49_registry_is_the_package. apply OK.
Qed.
(** And every directory that describes a database is accepted. *)
Theorem C69_described_database_is_accepted : forall e ord root part g p pins,
  sound_files e -> e_walk e root <> None -> database_says e root part g p pins ->
  exists tls, parse_database e ord root part = Ok tls.
Proof.
  intros e ord root part g p pins SF W (info & fd & pd & gt & gj & pt & pj & csv & Hi & If & Ip & Fg & Jg & G & Fp & Jp & P & Fc & Cs).
  rewrite (inside_fun _ _ _ _ If (path_join_inside _ _)) in *. rewrite (inside_fun _ _ _ _ Ip (path_join_inside _ _)) in *.
  apply part_info_spec in Hi. apply map_file_in in Fg. apply map_file_in in Fp. 
  assert (F : map_file e (path_join (path_join root part) (tx "package_pins.csv")) = Ok csv) by (now apply map_file_in).
  destruct Fc as (cp & _ & Fc). destruct (SF _ _ Fc) as [B S].
  unfold parse_database. rewrite Hi. cbn [obind]. rewrite Fg. cbn [obind]. rewrite Jg.
  destruct (C68_described_grid_is_accepted gj g G) as (g' & -> & _). cbn [obind]. unfold index_tile_types.
  destruct (e_walk e root) as [l|]; [|now elim W]. cbn [obind]. rewrite Fp. cbn [obind]. rewrite Jp.
  destruct (C59_described_part_is_accepted pj p P) as (p' & -> & _). cbn [obind]. unfold create_banks_registry. rewrite F. cbn [obind].
  rewrite (pins_complete _ _ _ S B Cs). cbn [obind]. eauto.
Qed.

Lemma loaded_bits e ord root part tls : parse_database e ord root part = Ok tls ->
  exists l, e_walk e root = Some l /\ tl_bits tls = tiles_database e (fold_left (index_step e) l []).
Proof.
  intros H. unfold parse_database in H. apply obind_ok in H as (info & _ & H). apply obind_ok in H as (gt & _ & H). apply obind_ok in H as (g & _ & H).
  apply obind_ok in H as (paths & Ex & H). apply obind_ok in H as (pt & _ & H). apply obind_ok in H as (p & _ & H). apply obind_ok in H as (bk & _ & H).
  injection H as <-. cbn [tl_bits]. unfold index_tile_types in Ex. destruct (e_walk e root) as [l|]; [|discriminate]. injection Ex as <-. exists l. split; reflexivity.
Qed.
Lemma indexed_paths e root l ty dir : e_walk e root = Some l -> Forall (fun p => In slash p) l -> type_dir e root ty dir ->
  hm_find text_eqb ty (fold_left (index_step e) l []) = Some (paths_of e dir ty).
Proof.
  intros El W (all & before & path & after & Ea & -> & TF & NB). assert (l = before ++ path :: after) as -> by congruence.
  pose proof (index_find e ty _ W []) as IF. cbn [hm_find] in IF.
  destruct IF as [(b' & p' & a' & d' & El' & TF' & NB' & IF)|[IF _]].
  2:{ exfalso. apply (IF path dir); [apply in_or_app; right; now left|exact TF]. }
  assert (path = p') as <-.
  { clear - El' TF TF' NB NB'. revert b' NB' El'. induction before as [|x b IH]; intros [|y b'] NB' E; cbn [app] in E; injection E as -> E.
    - reflexivity.
    - exfalso. apply (NB' y dir); [now left|exact TF].
    - exfalso. apply (NB p' d'); [now left|exact TF'].
    - apply (IH (fun p d I => NB p d (or_intror I)) b' (fun p d I => NB' p d (or_intror I)) E). }
  assert (dir = d') as <-.
  { assert (I : In slash path) by (rewrite Forall_forall in W; apply W, in_or_app; right; now left).
    apply tile_type_path in TF as [_ <-]; [|exact I]. apply tile_type_path in TF' as [_ <-]; [|exact I]. reflexivity. }
  exact IF.
Qed.
(** The walk of a directory gives paths with a directory. *)
Definition sound_walk (e : environment) (root : text) : Prop :=
  forall l, e_walk e root = Some l -> Forall (fun p => In slash p) l.

(** The files of a tile type are those beside the first tile_type_TYPE.json found; without such a
    file the type has no data. *)
Theorem C69_tile_types : forall e ord root part tls ty,
  sound_files e -> sound_walk e root -> parse_database e ord root part = Ok tls ->
  (forall dir clb bram pips, type_dir e root ty dir -> type_paths dir ty clb bram pips ->
     (forall d, tl_bits tls ty = Ok (Some d) -> type_says e clb bram pips d) /\
     (forall d, type_says e clb bram pips d -> exists d', tl_bits tls ty = Ok (Some d'))) /\
  ((forall dir, ~ type_dir e root ty dir) -> tl_bits tls ty = Ok None).
Proof.
  intros e ord root part tls ty SF W H. destruct (loaded_bits _ _ _ _ _ H) as (l & El & ->). specialize (W _ El). unfold tiles_database. split.
  - intros dir clb bram pips TD TP. rewrite (indexed_paths e root l ty dir El W TD).
    destruct (type_database_spec e dir ty clb bram pips SF TP) as (S & C & D). split.
    + intros d. destruct (parse_tile_type_database e (paths_of e dir ty)) as [d'| | | |] eqn:E; try discriminate. intros X. injection X as <-. now apply S.
    + intros d Hd. destruct (C d Hd) as (d' & ->). eauto.
  - intros N. pose proof (index_find e ty l W []) as IF. cbn [hm_find] in IF.
    destruct IF as [(b' & p' & a' & d' & El' & TF' & NB' & IF)|[_ ->]]; [|reflexivity].
    exfalso. apply (N d'). exists l, b', p', a'. auto.
Qed.

(** ** C70 *)
Lemma lower_total ty : exists low, lower ty low.
Proof. exists (map to_lower ty). now apply lower_spec. Qed.
Lemma type_paths_total dir ty : exists clb bram pips, type_paths dir ty clb bram pips.
Proof.
  destruct (lower_total ty) as (low & L). eexists _, _, _. exists low. split; [exact L|].
  split; [apply path_join_inside|]. split; apply path_join_inside.
Qed.
(** Asking a loaded database for a tile type never fails and never aborts. *)
Theorem C70_every_type_can_be_asked_for : forall e ord root part tls,
  sound_files e -> sound_walk e root -> parse_database e ord root part = Ok tls -> readable tls.
Proof.
  intros e ord root part tls SF W H ty. destruct (loaded_bits _ _ _ _ _ H) as (l & El & ->). specialize (W _ El). unfold tiles_database.
  destruct (hm_find text_eqb ty (fold_left (index_step e) l [])) as [ps|] eqn:E; [|eauto].
  assert (X : exists dir, ps = paths_of e dir ty).
  { pose proof (index_find e ty l W []) as IF. cbn [hm_find] in IF.
    destruct IF as [(b' & p' & a' & d' & _ & _ & _ & IF)|[_ IF]]; [|congruence]. exists d'. congruence. }
  destruct X as (dir & ->). destruct (type_paths_total dir ty) as (clb & bram & pips & TP).
  destruct (type_database_spec e dir ty clb bram pips SF TP) as (_ & _ & [(d & ->)| ->]); eauto.
Qed.
(** If one of the files of a tile type is malformed (or exists but cannot be read) the type is
    silently treated as one without data. *)
Theorem C70_malformed_type_is_treated_as_missing : forall e ord root part tls ty dir clb bram pips,
  sound_files e -> sound_walk e root -> parse_database e ord root part = Ok tls ->
  type_dir e root ty dir -> type_paths dir ty clb bram pips -> (forall d, ~ type_says e clb bram pips d) ->
  tl_bits tls ty = Ok None.
Proof.
  intros e ord root part tls ty dir clb bram pips SF W H TD TP N.
  destruct (loaded_bits _ _ _ _ _ H) as (l & El & ->). specialize (W _ El). unfold tiles_database. rewrite (indexed_paths e root l ty dir El W TD).
  destruct (type_database_spec e dir ty clb bram pips SF TP) as (S & C & [(d & E)| ->]); [|reflexivity].
  exfalso. now apply (N d), S.
Qed.
(** The error shows up when a feature of a tile of that type is used: the program aborts. *)
Theorem C70_its_features_abort : forall e dord root part tls ty ord input fs f k tile rest t seen,
  sound_files e -> sound_walk e root -> parse_database e dord root part = Ok tls ->
  (forall dir clb bram pips d, type_dir e root ty dir -> type_paths dir ty clb bram pips -> ~ type_says e clb bram pips d) ->
  usable_grid (tl_grid tls) -> numbered_grid (tl_grid tls) -> good_orders ord ->
  short_lines input -> text_features Iso input fs -> otherwise_fine tls fs ->
  (forall g, In g fs -> In dot (ff_name g)) ->
  In f fs -> enables f k -> first_dot (ff_name f) tile rest -> maps_to (tl_grid tls) tile t -> seen_as t rest ty seen ->
  assemble_frames Iso ord tls input = Crash.
Proof.
  intros e dord root part tls ty ord input fs f k tile rest t seen SF W H N U NG G SL T OF D I E FD M S.
  assert (NO : forall d, tl_bits tls ty <> Ok (Some d)).
  { intros d X. destruct (loaded_bits _ _ _ _ _ H) as (l & El & Ev). pose proof (W _ El) as W'. 
    pose proof (index_find e ty l W' []) as IF. cbn [hm_find] in IF.
    destruct IF as [(b' & p' & a' & d' & El' & TF' & NB' & IF)|[_ IF]].
    - assert (TD : type_dir e root ty d') by (exists l, b', p', a'; auto). destruct (type_paths_total d' ty) as (clb & bram & pips & TP).
      rewrite (C70_malformed_type_is_treated_as_missing e dord root part tls ty d' clb bram pips SF W H TD TP) in X; [discriminate|]. eauto.
    - rewrite Ev in X. unfold tiles_database in X. rewrite IF in X. discriminate. }
  apply (C45_unknown_feature_aborts ord tls input fs f k); auto.
  - now apply (C70_every_type_can_be_asked_for e dord root part).
  - intros (tile' & rest' & FD' & R). destruct (first_dot_fun _ _ _ _ _ FD FD') as [<- <-].
    destruct R as [(t' & ty' & seen' & d & M' & S' & B & _)|(bus & b & l & t' & ty' & seen' & d & segs & M' & S' & B & _)].
    + assert (t' = t) as -> by (apply (hm_find_maps _ text_eqb_eq) in M; apply (hm_find_maps _ text_eqb_eq) in M'; congruence).
      destruct (proj2 (U _ _ M) _ _ _ _ _ S S') as [-> _]. now apply (NO d).
    + assert (t' = t) as -> by (apply (hm_find_maps _ text_eqb_eq) in M; apply (hm_find_maps _ text_eqb_eq) in M'; congruence).
      destruct (proj2 (U _ _ M) _ _ _ _ _ S S') as [-> _]. now apply (NO d).
Qed.
(** ** A directory *)
Definition sample_files (segbits : text) : list (text * text) :=
  [(tx "db/mapping/parts.yaml", ex_parts); (tx "db/mapping/devices.yaml", ex_devices);
   (tx "db/xc7a50t/tilegrid.json", tx "GRID"); (tx "db/xc7a35tcsg324-1/part.json", tx "PART");
   (tx "db/xc7a35tcsg324-1/package_pins.csv", tx "pin,bank,site,tile,pin_function" ++ [newline]);
   (tx "db/tile_type_INT_L.json", tx "{}"); (tx "db/segbits_int_l.db", segbits)].
Definition sample_env (segbits : text) : environment :=
  {| e_read := fun p => hm_find text_eqb p (sample_files segbits);
     e_exists := fun p => hm_contains text_eqb p (sample_files segbits);
     e_walk := fun root => if text_eqb root (tx "db") then Some (map fst (sample_files segbits)) else None;
     e_json := fun c => if text_eqb c (tx "GRID") then Some (JObj [(tx "INT_L_X2Y0", sample_tile sample_bits)])
                        else if text_eqb c (tx "PART") then Some sample_part else None |}.
Definition good_segbits : text := tx "INT_L.FOO 01_05" ++ [newline].
Definition bad_segbits : text := tx "INT_L.FOO 01-05" ++ [newline].
Definition sample_load (segbits : text) : outcome tiles :=
  parse_database (sample_env segbits) document_order (tx "db") (tx "xc7a35tcsg324-1").
Lemma sample_sound segbits : segbits = good_segbits \/ segbits = bad_segbits -> sound_files (sample_env segbits) /\ sound_walk (sample_env segbits) (tx "db").
Proof.
  intros B. split.
  - intros p c F. unfold file, sample_env in F. cbn [e_read] in F. apply (hm_find_maps _ text_eqb_eq) in F. apply maps_to_In in F.
    assert (X : Forall (fun pc : text * text => N.of_nat (List.length (snd pc)) < 2 ^ 32 - 1 /\ splittable (after_mapping (snd pc)) (snd pc)) (sample_files segbits)).
    { destruct B as [-> | ->]; (repeat apply Forall_cons; [..|apply Forall_nil]); (split; [vm_compute; reflexivity|right; right; vm_compute; discriminate]). }
    rewrite Forall_forall in X. exact (X _ F).
  - intros l E. cbn [sample_env e_walk] in E. rewrite (proj2 (text_eqb_eq _ _) eq_refl) in E. injection E as <-.
    destruct B as [-> | ->]; (repeat apply Forall_cons; [..|apply Forall_nil]); do 2 right; now left.
Qed.
Lemma sample_dir segbits : type_dir (sample_env segbits) (tx "db") (tx "INT_L") (tx "db").
Proof.
  exists (map fst (sample_files segbits)), (firstn 5 (map fst (sample_files segbits))), (tx "db/tile_type_INT_L.json"), [tx "db/segbits_int_l.db"].
  split; [reflexivity|]. split; [reflexivity|]. split.
  - exists (tx "db"). split; [reflexivity|]. split; [|right; split; [discriminate|reflexivity]].
    intros I. repeat (destruct I as [I|I]; [discriminate I|]). destruct I.
  - intros p d I (d0 & -> & _ & _). change (firstn 5 (map fst (sample_files segbits))) with
      [tx "db/mapping/parts.yaml"; tx "db/mapping/devices.yaml"; tx "db/xc7a50t/tilegrid.json"; tx "db/xc7a35tcsg324-1/part.json"; tx "db/xc7a35tcsg324-1/package_pins.csv"] in I.
    assert (R : exists r, In (rev (d0 ++ slash :: tx "tile_type_" ++ tx "INT_L" ++ tx ".json"))  (map (@rev ascii)
       [tx "db/mapping/parts.yaml"; tx "db/mapping/devices.yaml"; tx "db/xc7a50t/tilegrid.json"; tx "db/xc7a35tcsg324-1/part.json"; tx "db/xc7a35tcsg324-1/package_pins.csv"]) /\ r = 0)
      by (exists 0; split; [now apply in_map|reflexivity]).
    destruct R as (_ & R & _). rewrite rev_app_distr in R. revert R. generalize (rev d0). intros r R.
    repeat (destruct R as [R|R]; [cbn in R; discriminate R|]). destruct R.
Qed.

Lemma sample_loads segbits : segbits = good_segbits \/ segbits = bad_segbits -> exists tls, sample_load segbits = Ok tls.
Proof.
  intros B. assert (X : match sample_load segbits with Ok _ => true | _ => false end = true) by (destruct B as [-> | ->]; vm_compute; reflexivity).
  destruct (sample_load segbits) as [tls| | | |]; try discriminate X. eauto.
Qed.

(** The hypotheses of C69 are met; the two files make a difference only when a feature is used. *)
Example C69_case : exists tls d, sample_load good_segbits = Ok tls /\ tl_bits tls (tx "INT_L") = Ok (Some d) /\
  type_says (sample_env good_segbits) (tx "db/segbits_int_l.db") (tx "db/segbits_int_l.block_ram.db") (tx "db/ppips_int_l.db") d /\
  maps_to (td_bits d) BusCLBIOCLK [((tx "INT_L.FOO", 0), [mk_bit 1 5 true])].
Proof.
  destruct (sample_loads good_segbits (or_introl eq_refl)) as (tls & E).
  exists tls, {| td_pips := []; td_bits := [(BusCLBIOCLK, [((tx "INT_L.FOO", 0), [mk_bit 1 5 true])])] |}. split; [exact E|].
  assert (X : tl_bits tls (tx "INT_L") = Ok (Some {| td_pips := []; td_bits := [(BusCLBIOCLK, [((tx "INT_L.FOO", 0), [mk_bit 1 5 true])])] |})).
  { assert (Y : forall t, sample_load good_segbits = Ok t -> tl_bits t (tx "INT_L") = match sample_load good_segbits with Ok t => tl_bits t (tx "INT_L") | _ => UB end) by (intros t ->; reflexivity).
    rewrite (Y _ E). vm_compute. reflexivity. }
  split; [exact X|]. split.
  - destruct (sample_sound good_segbits (or_introl eq_refl)) as [SF W].
    destruct (C69_tile_types _ _ _ _ _ (tx "INT_L") SF W E) as [C _]. eapply (proj1 (C _ _ _ _ (sample_dir _) _)). exact X.
    Unshelve. exists (tx "int_l"). split; [apply lower_spec; reflexivity|].
    split; [exact (path_join_inside (tx "db") (tx "segbits_int_l.db"))|]. split; [exact (path_join_inside (tx "db") (tx "segbits_int_l.block_ram.db"))|exact (path_join_inside (tx "db") (tx "ppips_int_l.db"))].
  - exists [], []. split; [reflexivity|intros []].
Qed.
Example C70_case : exists tls, sample_load bad_segbits = Ok tls /\ tl_bits tls (tx "INT_L") = Ok None /\
  (forall dir clb bram pips d, type_dir (sample_env bad_segbits) (tx "db") (tx "INT_L") dir -> type_paths dir (tx "INT_L") clb bram pips -> ~ type_says (sample_env bad_segbits) clb bram pips d) /\
  assemble_frames Iso ex_orders tls (unlines [tx "INT_L_X2Y0.FOO"]) = Crash /\
  forall tls', sample_load good_segbits = Ok tls' -> run_check (assemble_frames Iso ex_orders tls' (unlines [tx "INT_L_X2Y0.FOO"])) (fun fr => bit_at fr 4196865 99 5) = true.
Proof.
  destruct (sample_loads bad_segbits (or_intror eq_refl)) as (tls & E). exists tls. split; [exact E|].
  assert (Y : forall s {A} (f : tiles -> outcome A) t, sample_load s = Ok t -> f t = match sample_load s with Ok t => f t | _ => UB end) by (intros s A f t ->; reflexivity).
  assert (X : tl_bits tls (tx "INT_L") = Ok None) by (rewrite (Y _ _ (fun t => tl_bits t (tx "INT_L")) _ E); vm_compute; reflexivity).
  split; [exact X|]. split; [|split].
  - intros dir clb bram pips d TD TP S. destruct (sample_sound bad_segbits (or_intror eq_refl)) as [SF W].
    destruct (C69_tile_types _ _ _ _ _ (tx "INT_L") SF W E) as [C _]. destruct (proj2 (C _ _ _ _ TD TP) d S) as (d' & X'). congruence.
  - rewrite (Y _ _ (fun t => assemble_frames Iso ex_orders t (unlines [tx "INT_L_X2Y0.FOO"])) _ E). vm_compute. reflexivity.
  - intros tls' E'. rewrite (Y _ _ (fun t => assemble_frames Iso ex_orders t (unlines [tx "INT_L_X2Y0.FOO"])) _ E'). vm_compute. reflexivity.
Qed.
Print Assumptions C69_database_is_loaded.
Print Assumptions C69_described_database_is_accepted.
Print Assumptions C69_tile_types.
Print Assumptions C70_every_type_can_be_asked_for.
Print Assumptions C70_malformed_type_is_treated_as_missing.
Print Assumptions C70_its_features_abort.
