(** The next file a run opens depends only on the files opened before. *)
From Verif Require Import Base BaseFacts Absl Part Frame Frames Fasm DbText DbJson Database Assembler OpensSpec Opens OpensFacts SnapSpec.
From Coq Require Import Lia.

(** Two lists of opens: the same on files that agree, or the same up to and with the first file that differs. *)
Definition same_opens (e e' : environment) (la lb : list text) : Prop :=
  (agree e e' la /\ lb = la) \/
  exists l p r r', la = l ++ p :: r /\ lb = l ++ p :: r' /\ agree e e' l /\ e_read e' p <> e_read e p.

Lemma same_nil e e' : same_opens e e' [] [].
Proof. left. split; [intros p []|reflexivity]. Qed.
Lemma read_dec e e' p : {e_read e' p = e_read e p} + {e_read e' p <> e_read e p}.
Proof. repeat decide equality. Qed.
Lemma same_one e e' p : same_opens e e' [p] [p].
Proof.
  destruct (read_dec e e' p) as [E|D]; [left|right].
  - split; [|reflexivity]. apply agree_cons. split; [exact E|intros q []].
  - exists [], p, [], []. repeat split; [intros q []|exact D].
Qed.
Lemma same_app e e' la lb ga gb : same_opens e e' la lb -> (agree e e' la -> same_opens e e' ga gb) -> same_opens e e' (la ++ ga) (lb ++ gb).
Proof.
  intros [[A ->]|(l & p & r & r' & -> & -> & A & D)] G.
  - destruct (G A) as [[B ->]|(l & p & r & r' & -> & -> & B & D)]; [left|right].
    + split; [apply agree_app; now split|reflexivity].
    + exists (la ++ l), p, r, r'. rewrite <- !app_assoc. repeat split; [apply agree_app; now split|exact D].
  - right. exists l, p, (r ++ ga), (r' ++ gb). rewrite <- !app_assoc. cbn [app]. now repeat split.
Qed.
Lemma same_cons e e' p ga gb : (e_read e' p = e_read e p -> same_opens e e' ga gb) -> same_opens e e' (p :: ga) (p :: gb).
Proof.
  intros G. apply (same_app e e' [p] [p]); [apply same_one|]. intros A. apply G, A. now left.
Qed.

Section Two.
  Context (e e' : environment).
  Hypothesis EX : forall p, e_exists e' p = e_exists e p.
  Hypothesis EW : forall p, e_walk e' p = e_walk e p.
  Hypothesis EJ : forall t, e_json e' t = e_json e t.

  Lemma part_info_same root : same_opens e e' (part_info_opens e root) (part_info_opens e' root).
  Proof.
    unfold part_info_opens. apply same_cons. intros E. rewrite (map_file_agree _ _ _ E).
    destruct (map_file e _); first [apply same_nil|apply same_one].
  Qed.
  Lemma database_same root part : same_opens e e' (database_opens e root part) (database_opens e' root part).
  Proof.
    unfold database_opens. apply same_app; [apply part_info_same|]. intros A. destruct (part_info_agree e e' root part A) as [-> _].
    destruct (parse_part_info e root part) as [info| | | |]; try apply same_nil. apply same_cons. intros B. rewrite (map_file_agree _ _ _ B).
    destruct (map_file e _) as [gt| | | |]; try apply same_nil. rewrite EJ, (index_agree e e' EX EW).
    destruct (parse_tilegrid (e_json e gt)) as [g| | | |]; try apply same_nil. destruct (index_tile_types e root) as [ps| | | |]; try apply same_nil.
    apply same_cons. intros C. rewrite (map_file_agree _ _ _ C).
    destruct (map_file e _) as [pt| | | |]; try apply same_nil. rewrite EJ.
    destruct (parse_part_json (e_json e pt)) as [p| | | |]; try apply same_nil. apply same_one.
  Qed.
  Lemma opt_same path : same_opens e e' (opt_opens path) (opt_opens path).
  Proof. destruct path; [apply same_one|apply same_nil]. Qed.
  Lemma getter_same paths ty : same_opens e e' (getter_opens e paths ty) (getter_opens e' paths ty).
  Proof.
    unfold getter_opens. destruct (hm_find text_eqb ty paths) as [p|]; [|apply same_nil]. unfold tile_type_opens.
    apply same_app; [apply opt_same|]. intros A. rewrite (opt_agree e e' parse_ppips _ A).
    destruct (parse_opt e parse_ppips (tp_ppips p)) as [x| | | |]; try apply same_nil.
    apply same_app; [apply opt_same|]. intros B. rewrite (opt_agree e e' parse_segbits _ B).
    destruct (parse_opt e parse_segbits (tp_segbits p)) as [y| | | |]; try apply same_nil. apply opt_same.
  Qed.

  Context (tls tls' : tiles) (get get' : text -> list text).
  Hypothesis EG : tl_grid tls' = tl_grid tls.
  Hypothesis EB : tl_banks tls' = tl_banks tls.
  Hypothesis ET : forall ty, agree e e' (get ty) -> tl_bits tls' ty = tl_bits tls ty /\ get' ty = get ty.
  Hypothesis ES : forall ty, same_opens e e' (get ty) (get' ty).

  Lemma config_same cache tile feature : same_opens e e' (config_opens get tls cache tile feature) (config_opens get' tls' cache tile feature).
  Proof.
    unfold config_opens. rewrite EG. destruct (hm_find text_eqb tile (tl_grid tls)) as [t|]; [|apply same_nil].
    destruct (resolve_alias t feature) as [[ty al] m]. unfold cache_opens. destruct (hm_contains text_eqb ty cache); [apply same_nil|apply ES].
  Qed.
  Lemma bits_same sm ord i tile feature start bits n : forall addr st,
    same_opens e e' (process_bits_opens get sm ord tls i tile feature start bits n addr st) (process_bits_opens get' sm ord tls' i tile feature start bits n addr st).
  Proof.
    induction n as [|n IH]; intros addr st; cbn [process_bits_opens]; [apply same_nil|].
    destruct (feature_address sm start addr) as [fa| | | |]; try apply same_nil.
    destruct (feature_bit sm bits addr) as [[]| | | |]; try apply same_nil; [|apply IH].
    apply same_app; [apply config_same|]. intros A.
    destruct (config_agree e e' tls tls' get get' EG ET set_frame_bit (o_alias ord i addr) (fst st) tile feature fa (snd st) A) as [-> _].
    destruct (config_bits set_frame_bit (o_alias ord i addr) tls (fst st) tile feature fa (snd st)) as [st'| | | |]; try apply same_nil. apply IH.
  Qed.
  Lemma feature_same sm ord i st f : same_opens e e' (process_feature_opens get sm ord tls i st f) (process_feature_opens get' sm ord tls' i st f).
  Proof.
    unfold process_feature_opens. destruct (split_max 1 "." (ff_name f)) as [|tile [|feature [|]]]; try apply same_nil. apply bits_same.
  Qed.
  Lemma features_same sm ord : forall fs i st,
    same_opens e e' (process_features_opens get sm ord tls i fs st) (process_features_opens get' sm ord tls' i fs st).
  Proof.
    induction fs as [|f fs IH]; intros i st; cbn [process_features_opens]; [apply same_nil|]. apply same_app; [apply feature_same|]. intros A.
    destruct (feature_agree e e' tls tls' get get' EG ET sm ord i st f A) as [-> _]. destruct (process_feature sm ord tls i st f) as [st'| | | |]; try apply same_nil. apply IH.
  Qed.
  Lemma frames_same sm ord input : same_opens e e' (frames_opens get sm ord tls input) (frames_opens get' sm ord tls' input).
  Proof.
    unfold frames_opens. rewrite EG, EB. destruct (obind _ _) as [fs| | | |]; try apply same_nil. apply features_same.
  Qed.
End Two.

Lemma run_same sm ord c e' :
  (forall p, e_exists e' p = e_exists (c_env c) p) -> (forall p, e_walk e' p = e_walk (c_env c) p) -> (forall t, e_json e' t = e_json (c_env c) t) ->
  same_opens (c_env c) e' (main_opens sm ord c) (main_opens sm ord (with_env e' c)).
Proof.
  intros EX EW EJ. unfold main_opens. cbn [with_env c_args c_part c_env c_date c_time c_stdout].
  change (db_path (with_env e' c)) with (db_path c). change (input_text (with_env e' c)) with (input_text c).
  destruct (2 <? List.length (c_args c))%nat; [apply same_nil|]. destruct (db_path c) as [root|]; [|apply same_nil]. rewrite EX.
  destruct (match root with [] => true | _ => negb (e_exists (c_env c) root) end); [apply same_nil|].
  destruct (c_part c) as [|pc pr]; [apply same_nil|]. set (part := pc :: pr) in *. apply same_app; [now apply database_same|]. intros A.
  destruct (database_agree _ _ EX EW EJ (o_load ord) root part A) as [_ D]. rewrite (index_agree _ _ EX EW).
  destruct (parse_database (c_env c) (o_load ord) root part) as [tls| | | |]; try (rewrite D; apply same_nil).
  destruct D as (tls' & -> & EG & EB & EP & paths & EI & ET & ET'). rewrite EI in *. destruct (input_text c) as [input|]; [|apply same_nil].
  apply frames_same; [exact EG|exact EB| |].
  - intros ty H. rewrite ET, ET'. now apply getter_agree.
  - intros ty. apply getter_same.
Qed.

(** ** The snapshot, file after file *)
Definition put (e : environment) (p : text) (v : option text) : environment :=
  {| e_read := fun q => if text_eqb q p then v else e_read e q; e_exists := e_exists e; e_walk := e_walk e; e_json := e_json e |}.
Lemma put_there e p v : e_read (put e p v) p = v.
Proof. cbn [put e_read]. destruct (text_eqb p p) eqn:E; [reflexivity|]. assert (text_eqb p p = true) by now apply text_eqb_eq. congruence. Qed.
Lemma put_other e p v q : q <> p -> e_read (put e p v) q = e_read e q.
Proof. intros D. cbn [put e_read]. destruct (text_eqb q p) eqn:E; [|reflexivity]. apply text_eqb_eq in E. contradiction. Qed.
Lemma same_directory_refl e : same_directory e e.
Proof. repeat split. Qed.
Lemma same_directory_put e e' p v : same_directory e e' -> same_directory e (put e' p v).
Proof. intros (A & B & C). repeat split; assumption. Qed.
Lemma with_env_twice e e' c : with_env e' (with_env e c) = with_env e' c.
Proof. reflexivity. Qed.

(** The opens of two directories agree up to and with the first file on which they differ. *)
Lemma causal sm ord c e e' : same_directory (c_env c) e -> same_directory (c_env c) e' ->
  same_opens e e' (main_opens sm ord (with_env e c)) (main_opens sm ord (with_env e' c)).
Proof.
  intros (A & B & C) (A' & B' & C'). rewrite <- (with_env_twice e e' c).
  apply (run_same sm ord (with_env e c) e'); cbn [with_env c_env]; intros x; [rewrite A', A|rewrite B', B|rewrite C', C]; reflexivity.
Qed.
