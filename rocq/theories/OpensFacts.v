(** Two environments that agree on the opened files. *)
From Verif Require Import Base BaseFacts Absl Part Frame Frames Fasm DbText DbJson Database Assembler OpensSpec Opens.
From Coq Require Import Lia.

Definition agree (e e' : environment) (l : list text) : Prop := forall p, In p l -> e_read e' p = e_read e p.
Lemma agree_app e e' l l' : agree e e' (l ++ l') <-> agree e e' l /\ agree e e' l'.
Proof. unfold agree. split; [intros H; split; intros p I; apply H, in_or_app; auto|intros [H H'] p I; apply in_app_or in I as [I|I]; auto]. Qed.
Lemma agree_cons e e' p l : agree e e' (p :: l) <-> e_read e' p = e_read e p /\ agree e e' l.
Proof. unfold agree. split; [intros H; split; [apply H; now left|intros q I; apply H; now right]|intros [H H'] q [<-|I]; auto]. Qed.
Lemma map_file_agree e e' p : e_read e' p = e_read e p -> map_file e' p = map_file e p.
Proof. intros H. unfold map_file. now rewrite H. Qed.

Section Two.
  Context (e e' : environment).
  Hypothesis EX : forall p, e_exists e' p = e_exists e p.
  Hypothesis EW : forall p, e_walk e' p = e_walk e p.
  Hypothesis EJ : forall t, e_json e' t = e_json e t.

  Lemma index_agree root : index_tile_types e' root = index_tile_types e root.
  Proof.
    unfold index_tile_types. rewrite EW. destruct (e_walk e root) as [l|]; [|reflexivity]. f_equal. generalize (@nil (text * tile_paths)).
    induction l as [|p l IH]; intros out; cbn [fold_left]; [reflexivity|].
    replace (get_database_paths e' p out) with (get_database_paths e p out); [apply IH|]. unfold get_database_paths, if_exists. now rewrite !EX.
  Qed.
  Lemma part_info_agree root part : agree e e' (part_info_opens e root) ->
    parse_part_info e' root part = parse_part_info e root part /\ part_info_opens e' root = part_info_opens e root.
  Proof.
    intros A. unfold part_info_opens in *. apply agree_cons in A as [A B]. unfold parse_part_info. rewrite (map_file_agree _ _ _ A).
    destruct (map_file e (path_join (path_join root (tx "mapping")) (tx "parts.yaml"))); cbn [obind]; auto.
    apply agree_cons in B as [B _]. rewrite (map_file_agree _ _ _ B). auto.
  Qed.
  Lemma database_agree ord root part : agree e e' (database_opens e root part) ->
    database_opens e' root part = database_opens e root part /\
    match parse_database e ord root part with
    | Ok tls => exists tls', parse_database e' ord root part = Ok tls' /\ tl_grid tls' = tl_grid tls /\ tl_banks tls' = tl_banks tls /\
                  tl_part tls' = tl_part tls /\
                  exists paths, index_tile_types e root = Ok paths /\ tl_bits tls = tiles_database e paths /\ tl_bits tls' = tiles_database e' paths
    | Err => parse_database e' ord root part = Err
    | Crash => parse_database e' ord root part = Crash
    | UB => parse_database e' ord root part = UB
    | NoFuel => parse_database e' ord root part = NoFuel
    end.
  Proof.
    intros A. unfold database_opens in A. apply agree_app in A as [A B]. destruct (part_info_agree root part A) as [EI EO].
    unfold database_opens, parse_database. rewrite EI, EO, index_agree. destruct (parse_part_info e root part) as [info| | | |]; cbn [obind]; auto.
    apply agree_cons in B as [B1 B]. rewrite (map_file_agree _ _ _ B1).
    destruct (map_file e (path_join (path_join root (pi_fabric info)) (tx "tilegrid.json"))) as [gt| | | |]; cbn [obind]; auto. rewrite EJ.
    destruct (parse_tilegrid (e_json e gt)) as [g| | | |]; cbn [obind]; auto. destruct (index_tile_types e root) as [paths| | | |]; cbn [obind]; auto.
    apply agree_cons in B as [B2 B]. rewrite (map_file_agree _ _ _ B2).
    destruct (map_file e (path_join (path_join root part) (tx "part.json"))) as [pt| | | |]; cbn [obind]; auto. rewrite EJ.
    destruct (parse_part_json (e_json e pt)) as [p| | | |]; cbn [obind]; auto. apply agree_cons in B as [B3 _]. split; [reflexivity|].
    unfold create_banks_registry. rewrite (map_file_agree _ _ _ B3).
    destruct (map_file e (path_join (path_join root part) (tx "package_pins.csv"))) as [csv| | | |]; cbn [obind]; auto.
    destruct (parse_pins (after_mapping csv) csv) as [pins| | | |]; cbn [obind]; auto.
    eexists. split; [reflexivity|]. cbn [tl_grid tl_banks tl_part tl_bits]. repeat (split; [reflexivity|]). exists paths. auto.
  Qed.

  Lemma opt_agree {A} (parse : option ascii -> text -> outcome A) path : agree e e' (opt_opens path) ->
    parse_opt e' parse path = parse_opt e parse path.
  Proof. destruct path as [p|]; [|reflexivity]. intros H. apply agree_cons in H as [H _]. unfold parse_opt. now rewrite (map_file_agree _ _ _ H). Qed.
  Lemma getter_agree paths ty : agree e e' (getter_opens e paths ty) ->
    tiles_database e' paths ty = tiles_database e paths ty /\ getter_opens e' paths ty = getter_opens e paths ty.
  Proof.
    intros A. unfold getter_opens, tiles_database in *. destruct (hm_find text_eqb ty paths) as [p|]; [|auto].
    unfold tile_type_opens in A. apply agree_app in A as [A B].
    unfold tile_type_opens, parse_tile_type_database. rewrite (opt_agree parse_ppips _ A).
    destruct (parse_opt e parse_ppips (tp_ppips p)) as [x| | | |]; cbn [obind]; auto.
    apply agree_app in B as [B C]. rewrite (opt_agree parse_segbits _ B).
    destruct (parse_opt e parse_segbits (tp_segbits p)) as [y| | | |]; cbn [obind]; auto.
    rewrite (opt_agree parse_segbits _ C). auto.
  Qed.

  (** The run, given the two databases. *)
  Context (tls tls' : tiles) (get get' : text -> list text).
  Hypothesis EG : tl_grid tls' = tl_grid tls.
  Hypothesis EB : tl_banks tls' = tl_banks tls.
  Hypothesis ET : forall ty, agree e e' (get ty) -> tl_bits tls' ty = tl_bits tls ty /\ get' ty = get ty.

  Lemma config_agree {S} (setter : S -> bus_type -> N -> N -> N -> bool -> outcome S) ord cache tile feature a s :
    agree e e' (config_opens get tls cache tile feature) ->
    config_bits setter ord tls' cache tile feature a s = config_bits setter ord tls cache tile feature a s /\
    config_opens get' tls' cache tile feature = config_opens get tls cache tile feature.
  Proof.
    intros A. unfold config_opens, config_bits in *. rewrite EG. destruct (hm_find text_eqb tile (tl_grid tls)) as [t|]; [|auto].
    destruct (resolve_alias t feature) as [[ty al] m]. unfold cache_opens, add_to_cache in *. destruct (hm_contains text_eqb ty cache); [auto|].
    destruct (ET ty A) as [-> ->]. auto.
  Qed.
  Lemma bits_agree sm ord i tile feature start bits n : forall addr st,
    agree e e' (process_bits_opens get sm ord tls i tile feature start bits n addr st) ->
    process_bits sm ord tls' i tile feature start bits n addr st = process_bits sm ord tls i tile feature start bits n addr st /\
    process_bits_opens get' sm ord tls' i tile feature start bits n addr st = process_bits_opens get sm ord tls i tile feature start bits n addr st.
  Proof.
    induction n as [|n IH]; intros addr st A; cbn [process_bits process_bits_opens] in *; [auto|].
    destruct (feature_address sm start addr) as [fa| | | |]; cbn [obind]; auto.
    destruct (feature_bit sm bits addr) as [[]| | | |]; cbn [obind]; auto.
    apply agree_app in A as [A B].
    destruct (config_agree set_frame_bit (o_alias ord i addr) (fst st) tile feature fa (snd st) A) as [-> ->].
    destruct (config_bits set_frame_bit (o_alias ord i addr) tls (fst st) tile feature fa (snd st)) as [st'| | | |]; cbn [obind]; auto.
    destruct (IH _ _ B) as [-> ->]. auto.
  Qed.
  Lemma feature_agree sm ord i st f : agree e e' (process_feature_opens get sm ord tls i st f) ->
    process_feature sm ord tls' i st f = process_feature sm ord tls i st f /\
    process_feature_opens get' sm ord tls' i st f = process_feature_opens get sm ord tls i st f.
  Proof.
    intros A. unfold process_feature, process_feature_opens in *. destruct (split_max 1 "." (ff_name f)) as [|tile [|feature [|]]]; auto.
    rewrite EG. destruct (bits_agree _ _ _ _ _ _ _ _ _ _ A) as [-> ->]. auto.
  Qed.
  Lemma features_agree sm ord : forall fs i st, agree e e' (process_features_opens get sm ord tls i fs st) ->
    process_features sm ord tls' i fs st = process_features sm ord tls i fs st /\
    process_features_opens get' sm ord tls' i fs st = process_features_opens get sm ord tls i fs st.
  Proof.
    induction fs as [|f fs IH]; intros i st A; cbn [process_features process_features_opens] in *; [auto|]. apply agree_app in A as [A B].
    destruct (feature_agree _ _ _ _ _ A) as [-> ->]. destruct (process_feature sm ord tls i st f) as [st'| | | |]; cbn [obind]; auto.
    destruct (IH _ _ B) as [-> ->]. auto.
  Qed.
  Lemma frames_agree sm ord input : agree e e' (frames_opens get sm ord tls input) ->
    assemble_frames sm ord tls' input = assemble_frames sm ord tls input /\
    frames_opens get' sm ord tls' input = frames_opens get sm ord tls input.
  Proof.
    intros A. unfold frames_opens, assemble_frames in *. rewrite EG, EB. destruct (pudcb_features (tl_grid tls)) as [p| | | |]; cbn [obind] in *; auto.
    destruct (ofold (assemble_line sm) (getlines input) p) as [fs| | | |]; cbn [obind] in *; auto.
    destruct (add_stepdown (o_banks ord) (o_tags ord) (tl_banks tls) (tl_grid tls) fs) as [fs'| | | |]; cbn [obind] in *; auto.
    destruct (features_agree _ _ _ _ _ A) as [-> ->]. auto.
  Qed.
End Two.

Lemma run_agree fuel sm ord c e' :
  (forall p, e_exists e' p = e_exists (c_env c) p) -> (forall p, e_walk e' p = e_walk (c_env c) p) -> (forall t, e_json e' t = e_json (c_env c) t) ->
  agree (c_env c) e' (main_opens sm ord c) ->
  main_program fuel sm ord (with_env e' c) = main_program fuel sm ord c /\ main_opens sm ord (with_env e' c) = main_opens sm ord c.
Proof.
  intros EX EW EJ A. unfold main_program, main_opens in *. cbn [with_env c_args c_part c_env c_date c_time c_stdout].
  change (db_path (with_env e' c)) with (db_path c). change (input_text (with_env e' c)) with (input_text c).
  destruct (2 <? List.length (c_args c))%nat; [auto|]. destruct (db_path c) as [root|]; [|auto]. rewrite EX.
  destruct (match root with [] => true | _ => negb (e_exists (c_env c) root) end); [auto|].
  destruct (c_part c) as [|pc pr]; [auto|]. set (part := pc :: pr) in *. apply agree_app in A as [A B].
  destruct (database_agree _ _ EX EW EJ (o_load ord) root part A) as [-> D]. rewrite (index_agree _ _ EX EW).
  destruct (parse_database (c_env c) (o_load ord) root part) as [tls| | | |]; try (rewrite D; auto).
  destruct D as (tls' & -> & EG & EB & EP & paths & EI & ET & ET'). rewrite EI in *. destruct (input_text c) as [input|]; [|auto].
  assert (G : forall ty, agree (c_env c) e' (getter_opens (c_env c) paths ty) ->
    tl_bits tls' ty = tl_bits tls ty /\ getter_opens e' paths ty = getter_opens (c_env c) paths ty).
  { intros ty H. rewrite ET, ET'. now apply getter_agree. }
  destruct (frames_agree _ _ _ _ _ _ EG EB G _ _ _ B) as [-> ->]. rewrite EP. auto.
Qed.
