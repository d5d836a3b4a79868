(** The loaded database and the description of its files say the same. *)
From Verif Require Import Base BaseFacts Absl Part PartSpec PartFromFacts Frame Frames Fasm FasmSpec FasmLines
  DbText DbJson Database Packet Writer WriterFacts Reader Encode EncodeSpec EncodeFacts
  Assembler AsmSpec MapFacts AsmFacts LookupFacts ProcessFacts RegistryFacts StepdownFacts
  AsmLines AsmWhole DbSpec JsonSpec LoadSpec DbFacts LoadFacts P_Lookup P_Database P_Database4 P_Main EndSpec OutcomeFacts.

(** ** Files are functions *)
Lemma Forall2_fun {A B} (R : A -> B -> Prop) : (forall a b b', R a b -> R a b' -> b = b') ->
  forall l m m', Forall2 R l m -> Forall2 R l m' -> m = m'.
Proof.
  intros F l m m' H. revert m'. induction H as [|a b l m Hab H IH]; intros m' H'; inversion H'; subst; [reflexivity|].
  f_equal; [eapply F; eauto|auto].
Qed.
Definition same_map {K A} (m m' : list (K * A)) : Prop := forall k v, maps_to m k v <-> maps_to m' k v.
Lemma segbits_content_fun c m m' : segbits_content c m -> segbits_content c m' -> same_map m m'.
Proof.
  intros (ls & es & T & F & _ & M) (ls' & es' & T' & F' & _ & M') k v.
  rewrite (text_lines_fun _ _ _ T' T) in F'. rewrite (Forall2_fun _ seg_line_fun _ _ _ F' F) in M'. now rewrite M, M'.
Qed.
Lemma pips_content_fun c m m' : pips_content c m -> pips_content c m' -> same_map m m'.
Proof.
  intros (ls & es & T & F & _ & M) (ls' & es' & T' & F' & _ & M') k v.
  rewrite (text_lines_fun _ _ _ T' T) in F'. rewrite (Forall2_fun _ pip_line_fun _ _ _ F' F) in M'. now rewrite M, M'.
Qed.
Lemma opt_file_fun {A} e path (says : text -> A -> Prop) (R : A -> A -> Prop) :
  (forall c x x', says c x -> says c x' -> R x x') ->
  forall o o', opt_file e path says o -> opt_file e path says o' ->
  match o, o' with Some x, Some x' => R x x' | None, None => True | _, _ => False end.
Proof.
  intros F o o' [E|c x E Fi S] [E'|c' x' E' Fi' S']; try congruence; [exact I|].
  unfold file in *. assert (c' = c) as -> by congruence. eauto.
Qed.

Lemma same_keys {A} (m m' : list (text * A)) k : same_map m m' -> has_key m k -> has_key m' k.
Proof.
  intros S H. destruct (key_maps_to _ text_eqb_eq _ _ H) as (v & M). apply S in M. eapply maps_to_key; eauto.
Qed.
Definition same_data (d d' : tile_db) : Prop :=
  (forall k, has_key (td_pips d) k <-> has_key (td_pips d') k) /\
  forall bus key l, (exists segs, maps_to (td_bits d) bus segs /\ maps_to segs key l) <->
                    (exists segs, maps_to (td_bits d') bus segs /\ maps_to segs key l).
Lemma type_says_fun e clb bram pips d d' : type_says e clb bram pips d -> type_says e clb bram pips d' -> same_data d d'.
Proof.
  intros (oc & ob & op & C & B & P & Ep & M) (oc' & ob' & op' & C' & B' & P' & Ep' & M').
  pose proof (opt_file_fun _ _ _ _ pips_content_fun _ _ P P') as XP.
  pose proof (opt_file_fun _ _ _ _ segbits_content_fun _ _ C C') as XC.
  pose proof (opt_file_fun _ _ _ _ segbits_content_fun _ _ B B') as XB.
  split.
  - intros k. rewrite Ep, Ep'. destruct op as [m|], op' as [m'|]; cbn [of_option]; try contradiction; [|reflexivity].
    split; apply same_keys; [exact XP|]. intros a b. symmetry. apply XP.
  - intros bus key l. split.
    + intros (segs & H & K). apply M in H as [[-> ->]|[-> ->]].
      * destruct oc' as [m'|]; [|contradiction]. exists m'. split; [apply M'; auto|now apply XC].
      * destruct ob' as [m'|]; [|contradiction]. exists m'. split; [apply M'; auto|now apply XB].
    + intros (segs & H & K). apply M' in H as [[-> ->]|[-> ->]].
      * destruct oc as [m|]; [|contradiction]. exists m. split; [apply M; auto|now apply XC].
      * destruct ob as [m|]; [|contradiction]. exists m. split; [apply M; auto|now apply XB].
Qed.

Lemma lower_fun a b b' : lower a b -> lower a b' -> b = b'.
Proof. intros H H'. apply lower_spec in H, H'. congruence. Qed.
Lemma type_paths_fun dir ty a b c a' b' c' : type_paths dir ty a b c -> type_paths dir ty a' b' c' -> a = a' /\ b = b' /\ c = c'.
Proof. intros H H'. apply type_paths_of in H as (-> & -> & ->). apply type_paths_of in H' as (-> & -> & ->). auto. Qed.

Section Loaded.
  Context (e : environment) (root part : text) (dord : load_orders) (tls : tiles).
  Hypothesis SF : sound_files e.
  Hypothesis SW : sound_walk e root.
  Hypothesis LD : parse_database e dord root part = Ok tls.

  Lemma loaded_type_dir ty d : tl_bits tls ty = Ok (Some d) -> exists dir, type_dir e root ty dir.
  Proof.
    intros H. destruct (loaded_bits _ _ _ _ _ LD) as (l & El & Eb). rewrite Eb in H. specialize (SW _ El).
    unfold tiles_database in H. pose proof (index_find e ty l SW []) as IF. cbn [hm_find] in IF.
    destruct IF as [(b' & p' & a' & d' & El' & TF' & NB' & IF)|[_ IF]].
    - exists d', l, b', p', a'. auto.
    - rewrite IF in H. discriminate H.
  Qed.
  Lemma loaded_data ty d : tl_bits tls ty = Ok (Some d) -> type_data e root ty d.
  Proof.
    intros H. destruct (loaded_type_dir _ _ H) as (dir & TD). destruct (type_paths_total dir ty) as (a & b & c & TP).
    exists dir, a, b, c. split; [exact TD|]. split; [exact TP|].
    destruct (C69_tile_types _ _ _ _ _ ty SF SW LD) as [X _]. now apply (proj1 (X _ _ _ _ TD TP)).
  Qed.
  Lemma type_dir_fun ty d d' : type_dir e root ty d -> type_dir e root ty d' ->
    forall l, e_walk e root = Some l -> paths_of e d ty = paths_of e d' ty.
  Proof.
    intros H H' l El. pose proof (indexed_paths e root l ty d El (SW _ El) H) as A.
    pose proof (indexed_paths e root l ty d' El (SW _ El) H') as B. congruence.
  Qed.
  Lemma data_loaded ty d : type_data e root ty d -> exists d', tl_bits tls ty = Ok (Some d') /\ same_data d d'.
  Proof.
    intros (dir & a & b & c & TD & TP & S). destruct (C69_tile_types _ _ _ _ _ ty SF SW LD) as [X _].
    destruct (X _ _ _ _ TD TP) as [Y Z]. destruct (Z _ S) as (d' & E). exists d'. split; [exact E|].
    eapply type_says_fun; eauto.
  Qed.

  (** Entries. *)
  Lemma pip_same tile rest : pseudo_pip tls tile rest <-> listed_pip e root (tl_grid tls) tile rest.
  Proof.
    split.
    - intros (t & ty & seen & d & M & S & B & K). exists t, ty, seen, d. repeat (split; [assumption|]).
      split; [now apply loaded_data|exact K].
    - intros (t & ty & seen & d & M & S & B & K). apply data_loaded in B as (d' & E & SD & _).
      exists t, ty, seen, d'. repeat (split; [assumption|]). rewrite <- !SD. exact K.
  Qed.
  Lemma entry_same tile rest k bus b l : entry tls tile rest k bus b l <-> listed e root (tl_grid tls) tile rest k bus b l.
  Proof.
    split.
    - intros (t & ty & seen & d & segs & M & S & B & N1 & N2 & MB & MS & ML).
      exists t, ty, seen, d, segs. repeat (split; [assumption|]). split; [now apply loaded_data|]. auto.
    - intros (t & ty & seen & d & segs & M & S & B & N1 & N2 & MB & MS & ML).
      apply data_loaded in B as (d' & E & SD & SB).
      destruct (proj1 (SB bus (dotted ty seen, k) l)) as (segs' & MS' & ML'); [eauto|].
      exists t, ty, seen, d', segs'. repeat (split; [assumption|]). rewrite <- !SD. auto.
  Qed.
  Lemma requested_same f a w i : requested tls f a w i <-> sets_bit e root (tl_grid tls) f a w i.
  Proof.
    split.
    - intros (bus & b & sb & (tile & rest & k & l & FD & En & Ent & I) & S & L).
      exists tile, rest, k, bus, b, l, sb. apply entry_same in Ent. auto 10.
    - intros (tile & rest & k & bus & b & l & sb & FD & En & Ent & I & S & L). apply entry_same in Ent.
      exists bus, b, sb. split; [|auto]. exists tile, rest, k, l. auto.
  Qed.
  Lemma known_same f : known tls f /\ fits tls f <-> covered e root (tl_grid tls) f.
  Proof.
    split.
    - intros [(tile & rest & FD & K) F]. split.
      + exists tile, rest. split; [exact FD|]. intros k E. destruct (K k E) as [P|(bus & b & l & En)].
        * left. now apply pip_same.
        * right. exists bus, b, l. now apply entry_same.
      + intros a w i S. apply requested_same in S. exact (F _ _ _ S).
    - intros [(tile & rest & FD & K) F]. split.
      + exists tile, rest. split; [exact FD|]. intros k E. destruct (K k E) as [P|(bus & b & l & En)].
        * left. now apply pip_same.
        * right. exists bus, b, l. now apply entry_same.
      + intros a w i S. apply requested_same in S. exact (F _ _ _ S).
  Qed.
End Loaded.

(** ** Banks *)
Lemma bank_of_tile_spec p pins tile bank :
  bank_of_tile p pins tile bank <-> exists bs, entries_for (dp_iobanks p) pins tile = bank :: bs.
Proof.
  unfold bank_of_tile. set (io := dp_iobanks p).
  assert (E : entries_for io pins tile = map fst (filter (fun kv : N * text => text_eqb tile (snd kv)) (bank_pairs io pins))).
  { rewrite <- (C49_banks_of_a_tile (fun _ l => l)). apply reg_tile_banks_spec. }
  rewrite E. clear E. generalize (bank_pairs io pins) as l. clear. induction l as [|[b t] l IH].
  - split; [intros (l1 & l2 & E & _); destruct l1; discriminate E|intros (bs & E); discriminate E].
  - cbn [filter snd]. destruct (text_eqb tile t) eqn:Et.
    + apply text_eqb_eq in Et. subst t. cbn [map fst]. split.
      * intros (l1 & l2 & E & N). destruct l1 as [|x l1]; cbn [app] in E; injection E as E1 E2; [inversion E1; eauto|].
        exfalso. apply (N b). left. now rewrite <- E1.
      * intros (bs & E). injection E as -> _. exists [], l. split; [reflexivity|intros b' []].
    + rewrite <- IH. split.
      * intros (l1 & l2 & E & N). destruct l1 as [|x l1]; cbn [app] in E; injection E as E1 E2.
        -- exfalso. inversion E1; subst. rewrite (proj2 (text_eqb_eq _ _) eq_refl) in Et. discriminate Et.
        -- exists l1, l2. split; [exact E2|]. intros b' I. apply (N b'). now right.
      * intros (l1 & l2 & -> & N). exists ((b, t) :: l1), l2. split; [reflexivity|]. intros b' [I|I]; [|now apply (N b')].
        inversion I; subst. rewrite (proj2 (text_eqb_eq _ _) eq_refl) in Et. discriminate Et.
Qed.

Section Banks.
  Context (g : tilegrid) (p : db_part) (pins : list package_pin) (dord : N -> list text -> list text).
  Hypothesis OD : forall b l, Permutation (dord b l) l.
  Let banks := reg_create dord (dp_iobanks p) pins.

  Lemma wants_same fs bank tag : wants_stepdown banks fs bank tag <-> bank_steps_down p pins fs bank tag.
  Proof.
    unfold wants_stepdown, bank_steps_down, banks. split.
    - intros (f & tile & site & bs & I & U & C & E). exists f, tile, site. repeat (split; [assumption|]).
      apply bank_of_tile_spec. exists bs. now rewrite <- (C49_banks_of_a_tile dord).
    - intros (f & tile & site & I & U & C & E). apply bank_of_tile_spec in E as (bs & E).
      exists f, tile, site, bs. repeat (split; [assumption|]). now rewrite C49_banks_of_a_tile.
  Qed.
  Lemma tiles_same bank tile : (exists ts, reg_tiles banks bank = Some ts /\ In tile ts) <-> in_bank (dp_iobanks p) pins bank tile.
  Proof. apply (C49_registry_is_the_package dord _ _ bank tile OD). Qed.
  Lemma stepdown_same_name fs name : stepdown_name banks g fs name <-> implied g p pins fs name.
  Proof.
    split.
    - intros [bank tag ts tile t s fn label W R I C M Is L NU|bank tag ts tile W R I C].
      + apply (implied_site g p pins fs bank tag tile t s fn label); try assumption; [now apply wants_same|apply tiles_same; exists ts; auto].
      + apply (implied_clock g p pins fs bank tag tile); try assumption; [now apply wants_same|apply tiles_same; exists ts; auto].
    - intros [bank tag tile t s fn label W R C M Is L NU|bank tag tile W R C]; apply tiles_same in R as (ts & R & I).
      + apply (sd_site banks g fs bank tag ts tile t s fn label); try assumption. now apply wants_same.
      + apply (sd_clock banks g fs bank tag ts tile); try assumption. now apply wants_same.
  Qed.
  Lemma bank_has_tiles fs bank tag : bank_steps_down p pins fs bank tag -> exists ts, reg_tiles banks bank = Some ts.
  Proof.
    intros (f & tile & site & _ & _ & _ & (l1 & l2 & E & _)).
    assert (In (bank, tile) (bank_pairs (dp_iobanks p) pins)) by (rewrite E; apply in_or_app; right; now left).
    assert (X : in_bank (dp_iobanks p) pins bank tile) by (now apply bank_pairs_In).
    apply tiles_same in X as (ts & R & _). eauto.
  Qed.
  Lemma ready_same fs : numbered_grid g -> (stepdown_ready banks g fs <-> package_covers g p pins fs).
  Proof.
    intros [NG _]. split.
    - intros [A B]. split.
      + intros f tile site tag I U C. specialize (A _ _ _ _ I U C). unfold banks in A. rewrite C49_banks_of_a_tile in A.
        destruct (entries_for (dp_iobanks p) pins tile) as [|b bs] eqn:E; [contradiction|]. exists b. apply bank_of_tile_spec. eauto.
      + intros bank tag tile W R C. apply wants_same in W. apply tiles_same in R as (ts & R & I).
        destruct (B _ _ W) as (ts' & R' & X). assert (ts' = ts) as -> by congruence.
        destruct (X _ I C) as (t & M & _). eapply maps_to_key; eauto.
    - intros [A B]. split.
      + intros f tile site tag I U C. destruct (A _ _ _ _ I U C) as (bank & E). apply bank_of_tile_spec in E as (bs & E).
        unfold banks. rewrite C49_banks_of_a_tile, E. discriminate.
      + intros bank tag W. apply wants_same in W. destruct (bank_has_tiles _ _ _ W) as (ts & R). exists ts. split; [exact R|].
        intros tile I C. assert (K : has_key g tile) by (eapply B; eauto; apply tiles_same; eauto).
        destruct (key_maps_to _ text_eqb_eq _ _ K) as (t & M). exists t. split; [exact M|]. intros s fn Is. eapply NG; eauto.
  Qed.
End Banks.
