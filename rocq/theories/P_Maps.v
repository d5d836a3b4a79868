(** Property C98: the descriptors and mappings a run holds. *)
From Verif Require Import Base BaseFacts Absl Part Frame Frames Fasm DbText DbJson Database Assembler AsmSpec MapFacts
  Writer WriterFacts P_Main P_Main2 AsmExample P_Equiv Opens MapsSpec Maps.
From Coq Require Import Lia.

(** ** Sequences of calls *)
Lemma does_all_app a b h h1 h2 : does_all a h h1 -> does_all b h1 h2 -> does_all (a ++ b) h h2.
Proof. intros H K. induction H as [|c l h h1' h2' D _ IH]; [exact K|]. cbn [app]. econstructor; eauto. Qed.
Definition maps (m : list (text * N)) : held := {| h_open := []; h_mapped := m |}.
(** The calls leave behind what they found. *)
Definition closed (l : list sys_call) : Prop := forall m, does_all l (maps m) (maps m).
(** All along, at most one descriptor and [d] mappings more. *)
Definition safe (d : nat) (l : list sys_call) : Prop :=
  forall m l1 l2, l = l1 ++ l2 -> exists h, does_all l1 (maps m) h /\ (List.length (h_open h) <= 1)%nat /\ (List.length (h_mapped h) <= List.length m + d)%nat.
Lemma closed_nil : closed [].
Proof. intros m. constructor. Qed.
Lemma safe_nil d : safe d [].
Proof. intros m l1 l2 E. symmetry in E. apply app_eq_nil in E as [-> _]. exists (maps m). split; [constructor|]. cbn. lia. Qed.
Lemma closed_app a b : closed a -> closed b -> closed (a ++ b).
Proof. intros A B m. eapply does_all_app; eauto. Qed.
Lemma safe_app d a b : safe d a -> closed a -> safe d b -> safe d (a ++ b).
Proof.
  intros A C B m l1 l2 E. revert C B. destruct (app_eq_app _ _ _ _ E) as (q & [[E1 E2]|[E1 E2]]); intros C B.
  - destruct (A m l1 q) as (h & H); [exact E1|]. eauto.
  - destruct (B m q l2 E2) as (h & D & H). exists h. split; [|exact H]. rewrite E1. eapply does_all_app; [apply C|exact D].
Qed.
Lemma safe_le d d' l : (d <= d')%nat -> safe d l -> safe d' l.
Proof. intros L S m l1 l2 E. destruct (S m l1 l2 E) as (h & D & O & M). exists h. split; [exact D|]. split; [exact O|lia]. Qed.

(** ** A mapped file *)
Lemma mapping_fits e path body d :
  (forall c, safe d (fst (body c)) /\ (snd (body c) = true -> closed (fst (body c)))) ->
  safe (S d) (fst (mapping e path body)) /\ (snd (mapping e path body) = true -> closed (fst (mapping e path body))).
Proof.
  intros B. unfold mapping. destruct (e_read e path) as [c|]; cbn [fst snd].
  2:{ split.
      - intros m l1 l2 E. destruct l1 as [|x [|y l1]]; cbn [app] in E.
        + exists (maps m). split; [constructor|]. cbn. lia.
        + assert (x = Open path false) as -> by congruence. exists (maps m). split; [econstructor; [apply does_open_fail|constructor]|]. cbn. lia.
        + exfalso. apply (f_equal (@List.length sys_call)) in E. cbn in E. lia.
      - intros _ m. econstructor; [apply does_open_fail|constructor]. }
  specialize (B c). destruct (body c) as [l b]. cbn [fst snd] in *. destruct B as [S C]. set (n := N.of_nat (List.length c)).
  assert (M : forall m, exists m', does_all [Open path true; Map path n; Close path] (maps m) (maps m') /\
     (List.length m' <= List.length m + 1)%nat /\ does_all [Unmap path n] (maps m') (maps m)).
  { intros m. destruct (N.eq_dec n 0) as [->|Z].
    - exists m. split; [|split; [lia|]].
      + econstructor; [apply does_open|]. econstructor; [apply does_map_empty; now left|]. econstructor; [apply does_close|]. constructor.
      + econstructor; [apply does_unmap_empty|constructor].
    - exists ((path, n) :: m). split; [|split; [cbn; lia|]].
      + econstructor; [apply does_open|]. econstructor; [apply does_map; [now left|lia]|]. econstructor; [apply does_close|]. constructor.
      + econstructor; [apply does_unmap; lia|constructor]. }
  split.
  - intros m l1 l2 E. destruct (M m) as (m' & D & Lm & U).
    destruct l1 as [|x1 [|x2 [|x3 l1]]]; cbn [app] in E.
    + exists (maps m). split; [constructor|]. cbn. lia.
    + assert (x1 = Open path true) as -> by congruence. eexists. split; [econstructor; [apply does_open|constructor]|]. cbn. lia.
    + assert (x1 = Open path true) as -> by congruence. assert (x2 = Map path n) as -> by congruence.
      destruct (N.eq_dec n 0) as [->|Z].
      * eexists. split; [econstructor; [apply does_open|]; econstructor; [apply does_map_empty; now left|constructor]|]. cbn. lia.
      * eexists. split; [econstructor; [apply does_open|]; econstructor; [apply does_map; [now left|lia]|constructor]|]. cbn. lia.
    + assert (x1 = Open path true) as -> by congruence. assert (x2 = Map path n) as -> by congruence. assert (x3 = Close path) as -> by congruence.
      assert (E' : l ++ (if b then [Unmap path n] else []) = l1 ++ l2) by congruence. clear E.
      destruct (app_eq_app _ _ _ _ E') as (q & [[E1 E2]|[E1 E2]]).
      * destruct (S m' l1 q E1) as (h & Dh & O & H). exists h. split; [|split; [exact O|lia]].
        apply (does_all_app [Open path true; Map path n; Close path] l1 _ _ _ D Dh).
      * destruct b.
        2:{ symmetry in E2. apply app_eq_nil in E2 as [-> ->]. rewrite app_nil_r in E1. subst l1. destruct (S m' l [] (eq_sym (app_nil_r l))) as (h & Dh & O & H).
            exists h. split; [|split; [exact O|lia]]. apply (does_all_app [Open path true; Map path n; Close path] l _ _ _ D Dh). }
        subst l1. destruct q as [|x q]; cbn [app] in E2.
        -- rewrite app_nil_r. destruct (S m' l [] (eq_sym (app_nil_r l))) as (h & Dh & O & H).
           exists h. split; [|split; [exact O|lia]]. apply (does_all_app [Open path true; Map path n; Close path] l _ _ _ D Dh).
        -- assert (x = Unmap path n) as -> by congruence. assert (q = []) as -> by (destruct q; [reflexivity|]; apply (f_equal (@List.length sys_call)) in E2; cbn in E2; lia).
           exists (maps m). split; [|cbn; lia]. apply (does_all_app [Open path true; Map path n; Close path] _ _ _ _ D).
           eapply does_all_app; [apply (C eq_refl)|exact U].
  - intros -> m. destruct (M m) as (m' & D & Lm & U). apply (does_all_app [Open path true; Map path n; Close path] _ _ _ _ D).
    eapply does_all_app; [apply (C eq_refl)|exact U].
Qed.

Lemma leaf_fits d b : safe d (fst (@nil sys_call, b)) /\ (snd (@nil sys_call, b) = true -> closed (fst (@nil sys_call, b))).
Proof. split; [apply safe_nil|intros _; apply closed_nil]. Qed.

Lemma part_info_fits e root part : safe 2 (fst (part_info_calls e root)) /\ (returns (parse_part_info e root part) = true -> closed (fst (part_info_calls e root))).
Proof.
  unfold part_info_calls.
  match goal with |- safe 2 (fst (mapping e ?p ?b)) /\ _ => destruct (mapping_fits e p b 1) as [S C] end.
  { intros c. apply (mapping_fits _ _ _ 0). intros c'. apply leaf_fits. }
  split; [exact S|]. intros H. apply C. clear S C. unfold parse_part_info, map_file in H. unfold mapping.
  destruct (e_read e (path_join (path_join root (tx "mapping")) (tx "parts.yaml"))) as [parts|]; [|reflexivity]. cbn [obind] in H.
  destruct (e_read e (path_join (path_join root (tx "mapping")) (tx "devices.yaml"))) as [devices|]; [|reflexivity]. cbn [obind] in H.
  destruct (parse_parts_infos parts devices); cbn [obind] in H; try discriminate H; reflexivity.
Qed.
Lemma database_fits e ord root part : safe 2 (database_calls e root part) /\
  (returns (parse_database e ord root part) = true -> closed (database_calls e root part)).
Proof.
  destruct (part_info_fits e root part) as [S C]. unfold database_calls, parse_database.
  destruct (parse_part_info e root part) as [info| | | |]; cbn [obind].
  2-5: rewrite app_nil_r; auto.
  specialize (C eq_refl). set (grid := path_join (path_join root (pi_fabric info)) (tx "tilegrid.json")).
  destruct (mapping_fits e grid (fun gtext => ([], returns (parse_tilegrid (e_json e gtext)))) 0) as [S1 C1]; [intros c; apply leaf_fits|].
  apply (safe_le 1 2) in S1; [|lia].
  assert (C1' : returns (obind (map_file e grid) (fun gtext => parse_tilegrid (e_json e gtext))) = true ->
     closed (fst (mapping e grid (fun gtext => ([], returns (parse_tilegrid (e_json e gtext))))))).
  { intros H. apply C1. unfold mapping, map_file in *. destruct (e_read e grid) as [gt|]; [|reflexivity]. exact H. }
  destruct (map_file e grid) as [gt| | | |] eqn:EM; cbn [obind] in *.
  2-5: rewrite app_nil_r; split; [now apply safe_app|]; try discriminate; intros _; apply closed_app; auto.
  destruct (parse_tilegrid (e_json e gt)) as [g| | | |]; cbn [obind] in *.
  2-5: rewrite app_nil_r; split; [now apply safe_app|]; try discriminate; intros _; apply closed_app; auto.
  specialize (C1' eq_refl).
  destruct (index_tile_types e root) as [paths| | | |]; cbn [obind].
  2-5: rewrite app_nil_r; split; [now apply safe_app|]; try discriminate; intros _; apply closed_app; auto.
  match goal with |- safe 2 (_ ++ _ ++ fst (mapping e ?p ?b)) /\ _ => destruct (mapping_fits e p b 1) as [S2 C2] end.
  { intros pt. destruct (parse_part_json (e_json e pt)); try apply leaf_fits. apply (mapping_fits _ _ _ 0). intros c. apply leaf_fits. }
  split; [apply safe_app; [exact S|exact C|]; apply safe_app; [exact S1|exact C1'|exact S2]|]. intros H. apply closed_app; [exact C|]. apply closed_app; [exact C1'|].
  apply C2. clear - H. unfold map_file in H. unfold mapping.
  destruct (e_read e (path_join (path_join root part) (tx "part.json"))) as [pt|]; [|reflexivity]. cbn [obind] in H.
  destruct (parse_part_json (e_json e pt)) as [p| | | |]; cbn [obind returns] in H; try discriminate H; [|reflexivity].
  unfold create_banks_registry, map_file in H.
  destruct (e_read e (path_join (path_join root part) (tx "package_pins.csv"))) as [csv|]; [|reflexivity]. cbn [obind] in H.
  destruct (parse_pins (after_mapping csv) csv); cbn [obind returns] in H; try discriminate H; reflexivity.
Qed.

(** ** The files of a tile type *)
Lemma opt_fits {A} e (parse : option ascii -> text -> outcome A) path : safe 1 (opt_calls e parse path) /\
  (returns (parse_opt e parse path) = true -> closed (opt_calls e parse path)).
Proof.
  unfold opt_calls, parse_opt. destruct path as [p|]; [|split; [apply safe_nil|intros _; apply closed_nil]].
  destruct (mapping_fits e p (fun c => ([], returns (parse (after_mapping c) c))) 0) as [S C]; [intros c; apply leaf_fits|].
  split; [exact S|]. intros H. apply C. unfold map_file in H. unfold mapping. destruct (e_read e p) as [c|]; [|reflexivity]. cbn [obind] in H.
  destruct (parse (after_mapping c) c); cbn [obind returns] in H; try discriminate H; reflexivity.
Qed.
Lemma type_fits e p : safe 1 (tile_type_calls e p) /\ (returns (parse_tile_type_database e p) = true -> closed (tile_type_calls e p)).
Proof.
  unfold tile_type_calls, parse_tile_type_database.
  destruct (opt_fits e parse_ppips (tp_ppips p)) as [S1 C1]. destruct (parse_opt e parse_ppips (tp_ppips p)) as [x1| | | |]; cbn [obind].
  2-5: rewrite app_nil_r; auto. specialize (C1 eq_refl).
  destruct (opt_fits e parse_segbits (tp_segbits p)) as [S2 C2]. destruct (parse_opt e parse_segbits (tp_segbits p)) as [x2| | | |]; cbn [obind].
  2-5: rewrite app_nil_r; split; [now apply safe_app|intros H; apply closed_app; auto]. specialize (C2 eq_refl).
  destruct (opt_fits e parse_segbits (tp_block_ram p)) as [S3 C3]. split; [apply safe_app; [exact S1|exact C1|now apply safe_app]|].
  intros H. apply closed_app; [exact C1|]. apply closed_app; [exact C2|]. apply C3. destruct (parse_opt e parse_segbits (tp_block_ram p)); [reflexivity|exact H..].
Qed.
Lemma getter_fits e paths ty : safe 1 (getter_calls e paths ty) /\ (returns (tiles_database e paths ty) = true -> closed (getter_calls e paths ty)).
Proof.
  unfold getter_calls, tiles_database. destruct (hm_find text_eqb ty paths) as [p|]; [|split; [apply safe_nil|intros _; apply closed_nil]].
  destruct (type_fits e p) as [S C]. split; [exact S|]. intros H. apply C. destruct (parse_tile_type_database e p); try discriminate H; reflexivity.
Qed.

(** ** The design *)
Section Design.
  Context (get : text -> list sys_call) (sm : shift_model) (ord : orders) (tls : tiles).
  Hypothesis GS : forall ty, safe 1 (get ty).
  Hypothesis GC : forall ty, returns (tl_bits tls ty) = true -> closed (get ty).

  Lemma config_fits {S} (setter : S -> bus_type -> N -> N -> N -> bool -> outcome S) o cache tile rest a s :
    safe 1 (config_opens get tls cache tile rest) /\
    (returns (config_bits setter o tls cache tile rest a s) = true -> closed (config_opens get tls cache tile rest)).
  Proof.
    unfold config_opens, config_bits. destruct (hm_find text_eqb tile (tl_grid tls)) as [t|]; [|split; [apply safe_nil|intros _; apply closed_nil]].
    destruct (resolve_alias t rest) as [[ty al] m]. unfold cache_opens, add_to_cache.
    destruct (hm_contains text_eqb ty cache); [split; [apply safe_nil|intros _; apply closed_nil]|].
    split; [apply GS|]. intros H. apply GC. destruct (tl_bits tls ty); [reflexivity|reflexivity|exact H..].
  Qed.
  Lemma bits_fits i tile rest start bits n : forall addr st,
    safe 1 (process_bits_opens get sm ord tls i tile rest start bits n addr st) /\
    (returns (process_bits sm ord tls i tile rest start bits n addr st) = true -> closed (process_bits_opens get sm ord tls i tile rest start bits n addr st)).
  Proof.
    induction n as [|n IH]; intros addr st; cbn [process_bits_opens process_bits]; [split; [apply safe_nil|intros _; apply closed_nil]|].
    destruct (feature_address sm start addr) as [fa| | | |]; cbn [obind]; try (split; [apply safe_nil|intros _; apply closed_nil]).
    destruct (feature_bit sm bits addr) as [[]| | | |]; cbn [obind]; try (split; [apply safe_nil|intros _; apply closed_nil]).
    - destruct (config_fits set_frame_bit (o_alias ord i addr) (fst st) tile rest fa (snd st)) as [S C].
      destruct (config_bits set_frame_bit (o_alias ord i addr) tls (fst st) tile rest fa (snd st)) as [st1| | | |]; cbn [obind].
      2-5: rewrite app_nil_r; auto. specialize (C eq_refl).
      destruct (IH (addr + 1) st1) as [S1 C1]. split; [now apply safe_app|]. intros H. apply closed_app; auto.
    - apply IH.
  Qed.
  Lemma feature_fits i st f : safe 1 (process_feature_opens get sm ord tls i st f) /\
    (returns (process_feature sm ord tls i st f) = true -> closed (process_feature_opens get sm ord tls i st f)).
  Proof.
    unfold process_feature_opens, process_feature.
    destruct (split_max 1 "." (ff_name f)) as [|tile [|rest [|x l]]]; try (split; [apply safe_nil|intros _; apply closed_nil]).
    match goal with |- safe 1 (process_bits_opens _ _ _ _ _ _ _ ?s ?b ?n ?a ?st) /\ _ => destruct (bits_fits i tile rest s b n a st) as [S C] end.
    split; [exact S|]. intros H. apply C. match goal with |- returns ?o = true => destruct o end; [reflexivity|reflexivity|exact H..].
  Qed.
  Lemma features_fits fs : forall i st, safe 1 (process_features_opens get sm ord tls i fs st) /\
    (returns (process_features sm ord tls i fs st) = true -> closed (process_features_opens get sm ord tls i fs st)).
  Proof.
    induction fs as [|f fs IH]; intros i st; cbn [process_features_opens process_features]; [split; [apply safe_nil|intros _; apply closed_nil]|].
    destruct (feature_fits i st f) as [S C]. destruct (process_feature sm ord tls i st f) as [st1| | | |]; cbn [obind].
    2-5: rewrite app_nil_r; auto. specialize (C eq_refl). destruct (IH (i + 1) st1) as [S1 C1]. split; [now apply safe_app|]. intros H. apply closed_app; auto.
  Qed.
  Lemma frames_fits input : safe 1 (frames_opens get sm ord tls input) /\
    (returns (assemble_frames sm ord tls input) = true -> closed (frames_opens get sm ord tls input)).
  Proof.
    unfold frames_opens, assemble_frames. destruct (pudcb_features (tl_grid tls)) as [p| | | |]; cbn [obind].
    2-5: split; [apply safe_nil|intros _; apply closed_nil].
    destruct (ofold (assemble_line sm) (getlines input) p) as [fs| | | |]; cbn [obind].
    2-5: split; [apply safe_nil|intros _; apply closed_nil].
    destruct (add_stepdown (o_banks ord) (o_tags ord) (tl_banks tls) (tl_grid tls) fs) as [fs'| | | |]; cbn [obind].
    2-5: split; [apply safe_nil|intros _; apply closed_nil].
    destruct (features_fits fs' 0 ([], [])) as [S C]. split; [exact S|]. intros H. apply C.
    destruct (process_features sm ord tls 0 fs' ([], [])); [reflexivity|reflexivity|exact H..].
  Qed.
End Design.

Lemma main_fits fuel sm ord c : safe 2 (main_calls sm ord c) /\ (returns (main_program fuel sm ord c) = true -> closed (main_calls sm ord c)).
Proof.
  unfold main_calls, main_program. destruct (2 <? List.length (c_args c))%nat; [split; [apply safe_nil|intros _; apply closed_nil]|].
  destruct (db_path c) as [root|]; [|split; [apply safe_nil|intros _; apply closed_nil]].
  match goal with |- context [if ?b then _ else _] => destruct b end; [split; [apply safe_nil|intros _; apply closed_nil]|].
  destruct (c_part c) as [|x part']; [split; [apply safe_nil|intros _; apply closed_nil]|]. set (part := x :: part').
  destruct (database_fits (c_env c) (o_load ord) root part) as [S C].
  assert (T : forall tls, parse_database (c_env c) (o_load ord) root part = Ok tls -> exists paths, index_tile_types (c_env c) root = Ok paths /\
     tl_bits tls = tiles_database (c_env c) paths).
  { intros tls H. unfold parse_database in H. destruct (parse_part_info (c_env c) root part) as [info| | | |]; cbn [obind] in H; try discriminate H.
    destruct (map_file (c_env c) (path_join (path_join root (pi_fabric info)) (tx "tilegrid.json"))) as [gt| | | |]; cbn [obind] in H; try discriminate H.
    destruct (parse_tilegrid (e_json (c_env c) gt)) as [g| | | |]; cbn [obind] in H; try discriminate H.
    destruct (index_tile_types (c_env c) root) as [paths| | | |]; cbn [obind] in H; try discriminate H. exists paths. split; [reflexivity|].
    destruct (map_file (c_env c) (path_join (path_join root part) (tx "part.json"))) as [pt| | | |]; cbn [obind] in H; try discriminate H.
    destruct (parse_part_json (e_json (c_env c) pt)) as [p| | | |]; cbn [obind] in H; try discriminate H.
    destruct (create_banks_registry (c_env c) (lo_tiles (o_load ord)) (order_part (o_load ord) p) (path_join (path_join root part) (tx "package_pins.csv")))
      as [b| | | |]; cbn [obind] in H; try discriminate H. assert (E : tls = Build_tiles (order_grid (o_load ord) g) (tiles_database (c_env c) paths) b (order_part (o_load ord) p)) by congruence.
    rewrite E. reflexivity. }
  destruct (parse_database (c_env c) (o_load ord) root part) as [tls| | | |].
  2-5: rewrite app_nil_r; auto.
  specialize (C eq_refl). destruct (T tls eq_refl) as (paths & -> & ET).
  destruct (input_text c) as [input|]; [|rewrite app_nil_r; auto].
  destruct (frames_fits (getter_calls (c_env c) paths) sm ord tls) with (input := input) as [S1 C1].
  { intros ty. apply getter_fits. }
  { intros ty H. apply getter_fits. now rewrite <- ET. }
  split; [apply safe_app; [exact S|exact C|]; now apply (safe_le 1 2); [lia|]|]. intros H. apply closed_app; [exact C|]. apply C1.
  destruct (assemble_frames sm ord tls input); [reflexivity|reflexivity|exact H..].
Qed.

(** ** The property *)
(** At every moment of a run, at most one database file is open and at most two are mapped, and only what is held is given back. *)
Theorem C98_bounded :
  forall sm ord c before after, main_calls sm ord c = before ++ after ->
  exists h, does_all before nothing_held h /\ (List.length (h_open h) <= 1)%nat /\ (List.length (h_mapped h) <= 2)%nat.
Proof. intros sm ord c l1 l2 E. destruct (main_fits O sm ord c) as [S _]. destruct (S [] l1 l2 E) as (h & D & O & M). exists h. auto. Qed.
Print Assumptions C98_bounded.

(** A run that ends with a status, whatever it is, has given everything back. *)
Theorem C98_released :
  forall fuel sm ord c status s, main_program fuel sm ord c = Ok (status, s) -> does_all (main_calls sm ord c) nothing_held nothing_held.
Proof. intros fuel sm ord c n s H. destruct (main_fits fuel sm ord c) as [_ C]. rewrite H in C. exact (C eq_refl []). Qed.
Print Assumptions C98_released.

(** ** What is opened is what C96 speaks of *)
Definition opened (l : list sys_call) : list text := flat_map (fun c => match c with Open p _ => [p] | _ => [] end) l.
Lemma opened_app a b : opened (a ++ b) = opened a ++ opened b.
Proof. apply flat_map_app. Qed.
Lemma opened_mapping e path body : opened (fst (mapping e path body)) = path :: match e_read e path with Some c => opened (fst (body c)) | None => [] end.
Proof.
  unfold mapping. destruct (e_read e path) as [c|]; [|reflexivity]. destruct (body c) as [l b]. cbn [fst]. cbn [opened flat_map app].
  fold (opened (l ++ (if b then [Unmap path (N.of_nat (List.length c))] else []))). rewrite opened_app. destruct b; cbn [opened flat_map]; now rewrite app_nil_r.
Qed.
Lemma opened_database e root part : opened (database_calls e root part) = database_opens e root part.
Proof.
  unfold database_calls, database_opens, part_info_calls, part_info_opens. rewrite opened_app, opened_mapping. f_equal.
  - unfold map_file. destruct (e_read e (path_join (path_join root (tx "mapping")) (tx "parts.yaml"))) as [parts|]; [|reflexivity].
    rewrite opened_mapping. now destruct (e_read e (path_join (path_join root (tx "mapping")) (tx "devices.yaml"))).
  - destruct (parse_part_info e root part) as [info| | | |]; [|reflexivity..]. rewrite opened_app, opened_mapping. cbn [app]. f_equal.
    unfold map_file at 1 2. destruct (e_read e (path_join (path_join root (pi_fabric info)) (tx "tilegrid.json"))) as [gt|]; [|reflexivity]. cbn [obind fst opened flat_map app].
    destruct (parse_tilegrid (e_json e gt)) as [g| | | |]; [|reflexivity..]. destruct (index_tile_types e root) as [paths| | | |]; [|reflexivity..].
    rewrite opened_mapping. f_equal. unfold map_file. destruct (e_read e (path_join (path_join root part) (tx "part.json"))) as [pt|]; [|reflexivity].
    destruct (parse_part_json (e_json e pt)) as [p| | | |]; [|reflexivity..]. rewrite opened_mapping.
    now destruct (e_read e (path_join (path_join root part) (tx "package_pins.csv"))).
Qed.
Lemma opened_opt {A} e (parse : option ascii -> text -> outcome A) path : opened (opt_calls e parse path) = opt_opens path.
Proof. destruct path as [p|]; [|reflexivity]. unfold opt_calls, opt_opens. rewrite opened_mapping. now destruct (e_read e p). Qed.
Lemma opened_getter e paths ty : opened (getter_calls e paths ty) = getter_opens e paths ty.
Proof.
  unfold getter_calls, getter_opens. destruct (hm_find text_eqb ty paths) as [p|]; [|reflexivity]. unfold tile_type_calls, tile_type_opens.
  rewrite opened_app, opened_opt. f_equal. destruct (parse_opt e parse_ppips (tp_ppips p)); [|reflexivity..]. rewrite opened_app, opened_opt. f_equal.
  destruct (parse_opt e parse_segbits (tp_segbits p)); [|reflexivity..]. apply opened_opt.
Qed.
Section Both.
  Context (get : text -> list sys_call) (get' : text -> list text) (sm : shift_model) (ord : orders) (tls : tiles).
  Hypothesis EG : forall ty, opened (get ty) = get' ty.
  Lemma opened_bits i tile rest start bits n : forall addr st,
    opened (process_bits_opens get sm ord tls i tile rest start bits n addr st) = process_bits_opens get' sm ord tls i tile rest start bits n addr st.
  Proof.
    induction n as [|n IH]; intros addr st; cbn [process_bits_opens]; [reflexivity|].
    destruct (feature_address sm start addr) as [fa| | | |]; [|reflexivity..]. destruct (feature_bit sm bits addr) as [[]| | | |]; [|apply IH|reflexivity..].
    rewrite opened_app. f_equal.
    - unfold config_opens. destruct (hm_find text_eqb tile (tl_grid tls)) as [t|]; [|reflexivity]. destruct (resolve_alias t rest) as [[ty al] m].
      unfold cache_opens. destruct (hm_contains text_eqb ty (fst st)); [reflexivity|apply EG].
    - destruct (config_bits set_frame_bit (o_alias ord i addr) tls (fst st) tile rest fa (snd st)); [apply IH|reflexivity..].
  Qed.
  Lemma opened_frames input : opened (frames_opens get sm ord tls input) = frames_opens get' sm ord tls input.
  Proof.
    unfold frames_opens. match goal with |- opened (match ?o with _ => _ end) = _ => destruct o as [fs| | | |] end; [|reflexivity..].
    assert (F : forall fs i st, opened (process_features_opens get sm ord tls i fs st) = process_features_opens get' sm ord tls i fs st); [|apply F].
    clear fs. induction fs as [|f fs IH]; intros i st; cbn [process_features_opens]; [reflexivity|]. rewrite opened_app. f_equal.
    - unfold process_feature_opens. destruct (split_max 1 "." (ff_name f)) as [|tile [|rest [|x l]]]; [reflexivity|reflexivity|apply opened_bits|reflexivity].
    - destruct (process_feature sm ord tls i st f); [apply IH|reflexivity..].
  Qed.
End Both.
Theorem C98_opened_files : forall sm ord c, opened (main_calls sm ord c) = main_opens sm ord c.
Proof.
  intros sm ord c. unfold main_calls, main_opens. destruct (2 <? List.length (c_args c))%nat; [reflexivity|]. destruct (db_path c) as [root|]; [|reflexivity].
  match goal with |- context [if ?b then _ else _] => destruct b end; [reflexivity|]. destruct (c_part c) as [|x part']; [reflexivity|].
  rewrite opened_app, opened_database. f_equal. destruct (parse_database (c_env c) (o_load ord) root (x :: part')) as [tls| | | |]; [|reflexivity..].
  destruct (index_tile_types (c_env c) root) as [paths| | | |]; [|reflexivity..]. destruct (input_text c) as [input|]; [|reflexivity].
  apply opened_frames. intros ty. apply opened_getter.
Qed.
Print Assumptions C98_opened_files.

(** ** A descriptor is held for the time of its mapping only, and the mapping covers the file *)
Inductive tidy (e : environment) : list sys_call -> Prop :=
| tidy_nil : tidy e []
| tidy_fail : forall p l, e_read e p = None -> tidy e l -> tidy e (Open p false :: l)
| tidy_open : forall p c l, e_read e p = Some c -> tidy e l -> tidy e (Open p true :: Map p (N.of_nat (List.length c)) :: Close p :: l)
| tidy_unmap : forall p n l, tidy e l -> tidy e (Unmap p n :: l).
Lemma tidy_app e a b : tidy e a -> tidy e b -> tidy e (a ++ b).
Proof. intros A B. induction A; cbn [app]; [exact B|constructor; auto..]. Qed.
Lemma tidy_mapping e p body : (forall c, tidy e (fst (body c))) -> tidy e (fst (mapping e p body)).
Proof.
  intros B. unfold mapping. destruct (e_read e p) as [c|] eqn:E; [|constructor; [exact E|constructor]]. specialize (B c). destruct (body c) as [l b]. cbn [fst] in *.
  constructor; [exact E|]. apply tidy_app; [exact B|]. destruct b; repeat constructor.
Qed.
Lemma tidy_database e root part : tidy e (database_calls e root part).
Proof.
  unfold database_calls, part_info_calls. apply tidy_app.
  { apply tidy_mapping. intros c. apply tidy_mapping. intros c'. constructor. }
  destruct (parse_part_info e root part) as [info| | | |]; [|constructor..]. apply tidy_app; [apply tidy_mapping; intros c; constructor|].
  match goal with |- tidy e (match ?o with _ => _ end) => destruct o end; [|constructor..]. destruct (index_tile_types e root); [|constructor..].
  apply tidy_mapping. intros pt. destruct (parse_part_json (e_json e pt)); try constructor. apply tidy_mapping. intros c'. constructor.
Qed.
Lemma tidy_getter e paths ty : tidy e (getter_calls e paths ty).
Proof.
  unfold getter_calls. destruct (hm_find text_eqb ty paths) as [p|]; [|constructor]. unfold tile_type_calls.
  assert (O : forall A (parse : option ascii -> text -> outcome A) q, tidy e (opt_calls e parse q)).
  { intros A parse [q|]; [|constructor]. apply tidy_mapping. intros c. constructor. }
  apply tidy_app; [apply O|]. destruct (parse_opt e parse_ppips (tp_ppips p)); [|constructor..]. apply tidy_app; [apply O|].
  destruct (parse_opt e parse_segbits (tp_segbits p)); [apply O|constructor..].
Qed.
Lemma tidy_frames e get sm ord tls input : (forall ty, tidy e (get ty)) -> tidy e (frames_opens get sm ord tls input).
Proof.
  intros G. unfold frames_opens. match goal with |- tidy e (match ?o with _ => _ end) => destruct o as [fs| | | |] end; [|constructor..].
  assert (B : forall i tile rest start bits n addr st, tidy e (process_bits_opens get sm ord tls i tile rest start bits n addr st)).
  { intros i tile rest start bits n. induction n as [|n IH]; intros addr st; cbn [process_bits_opens]; [constructor|].
    destruct (feature_address sm start addr) as [fa| | | |]; [|constructor..]. destruct (feature_bit sm bits addr) as [[]| | | |]; [|apply IH|constructor..].
    apply tidy_app.
    - unfold config_opens. destruct (hm_find text_eqb tile (tl_grid tls)) as [t|]; [|constructor]. destruct (resolve_alias t rest) as [[ty al] m].
      unfold cache_opens. destruct (hm_contains text_eqb ty (fst st)); [constructor|apply G].
    - destruct (config_bits set_frame_bit (o_alias ord i addr) tls (fst st) tile rest fa (snd st)); [apply IH|constructor..]. }
  assert (F : forall fs i st, tidy e (process_features_opens get sm ord tls i fs st)).
  { clear fs. induction fs as [|f fs IH]; intros i st; cbn [process_features_opens]; [constructor|]. apply tidy_app.
    - unfold process_feature_opens. destruct (split_max 1 "." (ff_name f)) as [|tile [|rest [|x l]]]; [constructor|constructor|apply B|constructor].
    - destruct (process_feature sm ord tls i st f); [apply IH|constructor..]. }
  apply F.
Qed.
Lemma tidy_main sm ord c : tidy (c_env c) (main_calls sm ord c).
Proof.
  unfold main_calls. destruct (2 <? List.length (c_args c))%nat; [constructor|]. destruct (db_path c) as [root|]; [|constructor].
  match goal with |- context [if ?b then _ else _] => destruct b end; [constructor|]. destruct (c_part c) as [|x part']; [constructor|].
  apply tidy_app; [apply tidy_database|]. destruct (parse_database (c_env c) (o_load ord) root (x :: part')) as [tls| | | |]; [|constructor..].
  destruct (index_tile_types (c_env c) root) as [paths| | | |]; [|constructor..]. destruct (input_text c) as [input|]; [|constructor].
  apply tidy_frames. intros ty. apply tidy_getter.
Qed.

(** Each file that could be opened is mapped as a whole and its descriptor closed before anything else happens. *)
Theorem C98_closed_at_once :
  forall sm ord c before path ok after, main_calls sm ord c = before ++ Open path ok :: after ->
  match e_read (c_env c) path with
  | None => ok = false
  | Some content => ok = true /\ exists rest, after = Map path (N.of_nat (List.length content)) :: Close path :: rest
  end.
Proof.
  intros sm ord c before path ok after E. pose proof (tidy_main sm ord c) as T. rewrite E in T. clear E.
  remember (before ++ Open path ok :: after) as l eqn:El. revert before El. induction T as [|p l R T IH|p k l R T IH|p n l T IH]; intros before El.
  - destruct before; discriminate El.
  - destruct before as [|x b]; cbn [app] in El.
    + assert (p = path) as <- by congruence. rewrite R. congruence.
    + apply (IH b). congruence.
  - destruct before as [|x [|y [|z b]]]; cbn [app] in El; try discriminate El.
    + assert (p = path) as <- by congruence. rewrite R. split; [congruence|]. exists l. congruence.
    + apply (IH b). congruence.
  - destruct before as [|x b]; cbn [app] in El; [discriminate El|]. apply (IH b). congruence.
Qed.
Print Assumptions C98_closed_at_once.

(** ** Cases *)
(** The demo run opens ten files; two are mapped at the same time while the part list and while the package are read. *)
Fixpoint depth (n : nat) (l : list sys_call) : list nat :=
  match l with
  | [] => []
  | Map _ _ :: r => S n :: depth (S n) r
  | Unmap _ _ :: r => depth (Nat.pred n) r
  | _ :: r => depth n r
  end.
Example C98_case : (exists s, main_program 3000 Iso ex_orders (demo_command demo_input) = Ok (0, s)) /\
  depth 0 (main_calls Iso ex_orders (demo_command demo_input)) = [1; 2; 1; 1; 2; 1; 1; 1; 1]%nat.
Proof.
  split; [destruct C81_case as (s & _ & _ & (_ & _ & R) & _); exists s; exact R|]. vm_compute. reflexivity.
Qed.
(** A tile whose bits are an array: the process aborts with the file still mapped, and leaves it to the kernel. *)
Definition broken_command : command :=
  {| c_args := [tx "fpga-as"]; c_db_flag := None; c_db_env := Some (tx "db"); c_part := tx "xc7a35t"; c_stdin := []; c_open := fun _ => None;
     c_env := {| e_read := e_read demo_env; e_exists := e_exists demo_env; e_walk := e_walk demo_env; e_json := fun _ => Some (JObj [(tx "CLBLL_L_X2Y1", demo_tile (tx "CLBLL_L") (JArr []) [] [])]) |};
     c_date := tx "2024/10/01"; c_time := tx "12:00:00"; c_stdout := file_at_end [] |}.
Example C98_case_abort : main_program 3000 Iso ex_orders broken_command = Crash /\
  does_all (main_calls Iso ex_orders broken_command) nothing_held {| h_open := []; h_mapped := [(tx "db/fab/tilegrid.json", 6)] |}.
Proof.
  split; [vm_compute; reflexivity|].
  assert (E : main_calls Iso ex_orders broken_command =
    [Open (tx "db/mapping/parts.yaml") true; Map (tx "db/mapping/parts.yaml") 68; Close (tx "db/mapping/parts.yaml");
     Open (tx "db/mapping/devices.yaml") true; Map (tx "db/mapping/devices.yaml") 21; Close (tx "db/mapping/devices.yaml");
     Unmap (tx "db/mapping/devices.yaml") 21; Unmap (tx "db/mapping/parts.yaml") 68;
     Open (tx "db/fab/tilegrid.json") true; Map (tx "db/fab/tilegrid.json") 6; Close (tx "db/fab/tilegrid.json")]) by (vm_compute; reflexivity).
  rewrite E. repeat (econstructor; [constructor; first [now left|reflexivity]|]). constructor.
Qed.
