(** Property C116: only what the database says matters, not where and how it is written. *)
From Verif Require Import Base BaseFacts Absl Part PartSpec Frame Frames Fasm FasmSpec
  DbText DbJson Database Packet Writer WriterFacts ConfigSpec ContainerSpec Reader Encode EncodeSpec EncodeFacts
  Assembler AsmSpec LookupFacts AsmWhole DbSpec DbFacts JsonSpec JsonFacts JsonFacts2 LoadSpec LoadFacts P_Database4 P_Main P_Main2 EndSpec AsmExample P_EndToEnd SameSpec SameFacts
  OrderFacts P_Repro P_Equiv P_Place MapFacts EndFacts P_Local ResultSpec P_Result OpensSpec P_LoadLog GrowthSpec P_Growth ConflictSpec P_Conflict RewriteSpec.
From Coq Require Import Lia Permutation.

(** ** What the features mean *)
Section Same.
  Context (e : environment) (root : text) (g : tilegrid) (e' : environment) (root' : text) (g' : tilegrid).
  Hypothesis SG : same_grid g g'.
  Hypothesis ST : same_types e root e' root'.

  Lemma pip_rewritten tile rest : listed_pip e root g tile rest -> listed_pip e' root' g' tile rest.
  Proof.
    intros H. apply (listed_pip_same _ _ _ _ SG) in H as (t & ty & seen & d & M & S & D & K). destruct (proj1 ST _ _ D) as (d' & D' & SD).
    exists t, ty, seen, d'. split; [exact M|]. split; [exact S|]. split; [exact D'|]. destruct K as [K|K]; [left|right]; now apply (sd_pips _ _ SD).
  Qed.
  Lemma listed_rewritten tile rest k bus b l : listed e root g tile rest k bus b l ->
    exists b' l', listed e' root' g' tile rest k bus b' l' /\ same_block b b' /\ forall sb, In sb l <-> In sb l'.
  Proof.
    intros H. apply (listed_same _ _ _ _ SG) in H as (b' & (t & ty & seen & d & segs & M & S & D & N1 & N2 & B & MS & ML) & SB).
    destruct (proj1 ST _ _ D) as (d' & D' & SD).
    destruct (sd_bits _ _ SD (dotted ty seen) k bus l) as (l' & (segs' & MS' & ML') & E); [exists segs; auto|].
    exists b', l'. split; [|auto]. exists t, ty, seen, d', segs'. split; [exact M|]. split; [exact S|]. split; [exact D'|].
    split; [intros K; apply N1; now apply (sd_pips _ _ SD)|]. split; [intros K; apply N2; now apply (sd_pips _ _ SD)|]. auto.
  Qed.
  Lemma sets_rewritten f a w i : sets_bit e root g f a w i -> sets_bit e' root' g' f a w i.
  Proof.
    intros (tile & rest & k & bus & b & l & sb & F & En & L & I & St & La).
    destruct (listed_rewritten _ _ _ _ _ _ L) as (b' & l' & L' & SB & E).
    exists tile, rest, k, bus, b', l', sb. split; [exact F|]. split; [exact En|]. split; [exact L'|]. split; [now apply E|]. split; [exact St|].
    eapply lands_same; eauto.
  Qed.
End Same.
Lemma same_data_sym d d' : same_contents d d' -> same_contents d' d.
Proof.
  intros [A B C]. constructor.
  - intros n. symmetry. apply A.
  - intros n k bus l H. destruct (C _ _ _ _ H) as (l' & H' & E). exists l'. split; [exact H'|]. intros sb. symmetry. apply E.
  - intros n k bus l H. destruct (B _ _ _ _ H) as (l' & H' & E). exists l'. split; [exact H'|]. intros sb. symmetry. apply E.
Qed.
Lemma same_types_sym e root e' root' : same_types e root e' root' -> same_types e' root' e root.
Proof.
  intros [A B]. split; intros ty d D; [destruct (B _ _ D) as (d' & D' & S)|destruct (A _ _ D) as (d' & D' & S)]; exists d'; (split; [exact D'|now apply same_data_sym]).
Qed.
Lemma covered_rewritten e root g e' root' g' f : same_grid g g' -> same_types e root e' root' ->
  covered e root g f -> covered e' root' g' f.
Proof.
  intros SG ST [(tile & rest & F & K) W]. split.
  - exists tile, rest. split; [exact F|]. intros k En. destruct (K k En) as [P|(bus & b & l & L)].
    + left. eapply pip_rewritten; eauto.
    + right. destruct (listed_rewritten _ _ _ _ _ _ SG ST _ _ _ _ _ _ L) as (b' & l' & L' & _). eauto.
  - intros a w i S. apply (W a w i). apply (sets_rewritten _ _ _ _ _ _ (same_grid_sym _ _ SG) (same_types_sym _ _ _ _ ST)). exact S.
Qed.
Lemma consistent_rewritten e root g p e' root' g' p' : same_grid g g' -> same_part p p' -> same_types e root e' root' ->
  consistent_description e root g p -> consistent_description e' root' g' p'.
Proof.
  intros SG SP ST CD. pose proof (consistent_same _ _ _ _ _ _ SG SP CD) as [A B C D _]. constructor; try assumption.
  intros tile rest k bus b l sb L I.
  destruct (listed_rewritten _ _ _ _ _ _ (same_grid_sym _ _ SG) (same_types_sym _ _ _ _ ST) _ _ _ _ _ _ L) as (b' & l' & L' & SB & E).
  destruct SB as (_ & -> & _). eapply (cd_columns _ _ _ _ CD); [exact L'|now apply E].
Qed.

(** ** The package *)
Section Pins.
  Context (p : db_part) (pins pins' : list package_pin).
  Hypothesis S : same_pins pins pins'.
  Hypothesis D : distinct_banks p.
  Lemma in_bank_pins bank tile : in_bank (dp_iobanks p) pins bank tile -> in_bank (dp_iobanks p) pins' bank tile.
  Proof. destruct S as [->|[M _]]; [easy|]. intros [H|H]; [now left|right]. now apply M. Qed.
  Lemma bank_of_tile_pins tile bank : bank_of_tile p pins tile bank -> bank_of_tile p pins' tile bank.
  Proof.
    destruct S as [->|[M U]]; [easy|]. rewrite !bank_of_tile_split by exact D.
    intros [H|(N & l1 & l2 & E & F)]; [now left|right]. split; [exact N|].
    assert (I : in_pins pins bank tile).
    { assert (I : In (bank, tile) (map (fun q => (pp_bank q, pp_tile q)) pins)) by (rewrite E; apply in_or_app; right; now left).
      apply in_map_iff in I as (q & Eq & I). injection Eq as Eb Et. exists q. auto. }
    assert (I' : In (bank, tile) (map (fun q => (pp_bank q, pp_tile q)) pins')).
    { apply M in I as (q & I & <- & <-). apply in_map_iff. exists q. auto. }
    assert (O : forall b, In (b, tile) (map (fun q => (pp_bank q, pp_tile q)) pins') -> b = bank).
    { intros b X. apply in_map_iff in X as (q & Eq & X). injection Eq as Eb Et. apply (U b bank tile); [apply M; exists q; auto|exact I]. }
    revert I' O. generalize (map (fun q => (pp_bank q, pp_tile q)) pins'). clear. intros l I O.
    induction l as [|[b t] l IH]; [destruct I|].
    destruct (list_eq_dec ascii_dec t tile) as [->|Ne].
    - rewrite (O b (or_introl eq_refl)). exists [], l. split; [reflexivity|intros ? []].
    - destruct I as [X|I]; [congruence|]. destruct IH as (l1 & l2 & -> & F); [exact I|intros b0 X; apply O; now right|].
      exists ((b, t) :: l1), l2. split; [reflexivity|]. intros b0 [X|X]; [congruence|now apply (F b0)].
  Qed.
End Pins.
Lemma same_pins_sym pins pins' : same_pins pins pins' -> same_pins pins' pins.
Proof.
  intros [->|[M U]]; [now left|]. right. split; [intros; symmetry; apply M|]. intros b b' t H H'. apply M in H, H'. eauto.
Qed.
Lemma in_design_pins g p pins pins' fs f : same_pins pins pins' -> distinct_banks p -> in_design g p pins fs f -> in_design g p pins' fs f.
Proof.
  intros S D [I|(n & I & E)]; [now left|]. right. exists n. split; [|exact E].
  assert (B : forall bank tag, bank_steps_down p pins fs bank tag -> bank_steps_down p pins' fs bank tag).
  { intros bank tag (f0 & tile & site & If & U & C & B). exists f0, tile, site. repeat (split; [assumption|]). now apply (bank_of_tile_pins p pins). }
  destruct I as [bank tag tile t s fn label W R C M Is L NU|bank tag tile W R C].
  - apply (implied_site g p pins' fs bank tag tile t s fn label); try assumption; [now apply B|now apply (in_bank_pins p pins)].
  - apply (implied_clock g p pins' fs bank tag tile); try assumption; [now apply B|now apply (in_bank_pins p pins)].
Qed.
Lemma package_covers_pins g p pins pins' fs : same_pins pins pins' -> distinct_banks p -> package_covers g p pins fs -> package_covers g p pins' fs.
Proof.
  intros S D [A B]. split.
  - intros f tile site tag I U C. destruct (A _ _ _ _ I U C) as (bank & H). exists bank. now apply (bank_of_tile_pins p pins).
  - intros bank tag tile (f0 & tl & site & If & U & C0 & W) R C. apply (B bank tag); [|now apply (in_bank_pins p pins'); [apply same_pins_sym|]|exact C].
    exists f0, tl, site. repeat (split; [assumption|]). apply (bank_of_tile_pins p pins'); [now apply same_pins_sym|exact D|exact W].
Qed.
Lemma one_pudcb_same g g' : same_grid g g' -> one_pudcb g -> one_pudcb g'.
Proof. intros S O t s t' s' P P'. apply (pudcb_pin_same _ _ _ _ (same_grid_sym _ _ S)) in P, P'. eauto. Qed.

(** Property C116.  A run succeeds.  The run on a database that says the same (elsewhere, in another order, under another part name) succeeds
    too, and writes the same bytes. *)
Theorem C116_same_database_same_file :
  forall fuel ord ord' c c' root root' input g g' p p' pins pins' feats s,
  run_succeeds fuel ord c root input g p pins feats s ->
  e_walk (c_env c) root <> None -> inside_frames (c_env c) root g ->
  good_orders ord' -> sound_files (c_env c') -> (forall r, sound_walk (c_env c') r) -> e_walk (c_env c') root' <> None ->
  e_exists (c_env c') root' = true -> root' <> [] -> db_path c' = Some root' -> c_part c' <> [] ->
  (List.length (c_args c') <= 2)%nat -> input_text c' = Some input -> c_stdout c' = c_stdout c -> c_date c' = c_date c -> c_time c' = c_time c ->
  database_says (c_env c') root' (c_part c') g' p' pins' ->
  same_database (c_env c) root g p pins (c_env c') root' g' p' pins' ->
  exists fuel0 s', (forall fuel', (fuel0 <= fuel')%nat -> main_program fuel' Iso ord' c' = Ok (0, s')) /\ st_bytes s' = st_bytes s.
Proof.
  intros fuel ord ord' c c' root root' input g g' p p' pins pins' feats s R WK IF G' SF' SW' WK' EX' NR' ER' NP' LA' EI' EO ED ET DS' [SG SP PP ST].
  destruct (run_covered _ _ _ _ _ _ _ _ _ _ R WK IF) as (pud & PD & PK & CV).
  pose proof R as [G ES [HD LD] [HT LT] SF SW ER EI SL T DS CD DB OP H].
  pose proof (same_grid_sym _ _ SG) as SG'. pose proof (same_part_sym _ _ SP) as SP'. pose proof (same_types_sym _ _ _ _ ST) as ST'.
  pose proof (same_pins_sym _ _ PP) as PP'. pose proof (distinct_banks_same _ _ SP DB) as DB'.
  assert (IN : forall f, in_design g' p' pins' (pud ++ feats) f <-> in_design g p pins (pud ++ feats) f).
  { intros f. split; intros X.
    - apply (in_design_pins _ _ pins' pins) in X; [|exact PP'|exact DB']. eapply in_design_same; eauto.
    - apply (in_design_pins _ _ pins pins') in X; [|exact PP|exact DB]. eapply in_design_same; eauto. }
  pose proof (consistent_rewritten _ _ _ _ _ _ _ _ SG SP ST CD) as CD'.
  pose proof (pudcb_default_same _ _ _ SG PD) as PD'. pose proof (one_pudcb_same _ _ SG OP) as OP'.
  destruct (C71_covered_designs_are_written_for_any_reading ord' c' root' input g' p' pins' feats pud) as (fuel0 & s' & H'); try assumption.
  - rewrite EO. exact ES.
  - now rewrite ED.
  - now rewrite ET.
  - apply SW'.
  - apply (package_covers_pins _ _ pins pins' _ PP DB'). eapply package_covers_same; eauto.
  - intros f I. eapply covered_rewritten; eauto. apply CV. now apply IN.
  - exists fuel0, s'. split; [exact H'|]. specialize (H' fuel0 (le_n _)).
    assert (R' : run_succeeds fuel0 ord' c' root' input g' p' pins' feats s').
    { constructor; rewrite ?EO, ?ED, ?ET; try assumption; split; assumption. }
    destruct (run_file _ _ _ _ _ _ _ _ _ _ R) as (fs & S1 & F1 & C1 & B1 & ->).
    destruct (run_file _ _ _ _ _ _ _ _ _ _ R') as (fs' & S2 & F2 & C2 & B2 & ->).
    rewrite ED, ET. unfold PlaceFacts.the_file. rewrite <- (proj1 SP). replace fs' with fs; [reflexivity|]. apply frames_ext; auto.
    + intros a. rewrite F1, F2. split; apply frame_address_same; assumption.
    + intros a w i. unfold shows. rewrite B1, B2. split.
      * intros (q & f & Q & I & S). assert (E : q = pud) by (eapply pudcb_unique; [exact OP|exact Q|exact PD]). rewrite E in I.
        exists pud, f. split; [exact PD'|]. split; [now apply IN|]. eapply sets_rewritten; eauto.
      * intros (q & f & Q & I & S). assert (E : q = pud) by (eapply pudcb_unique; [exact OP'|exact Q|exact PD']). rewrite E in I.
        exists pud, f. split; [exact PD|]. split; [now apply IN|]. eapply sets_rewritten; eauto.
Qed.
Print Assumptions C116_same_database_same_file.

(** ** tilegrid.json with the members of its objects in another order *)
Lemma before_nul_spec s t : c_string s t -> t = before_nul s.
Proof.
  intros (N & [->|(r & ->)]).
  - induction t as [|c t IH]; [reflexivity|]. cbn [before_nul]. destruct (Ascii.eqb_spec c nul) as [->|_]; [destruct N; now left|].
    f_equal. apply IH. intros I. apply N. now right.
  - induction t as [|c t IH]; cbn [app before_nul].
    + reflexivity.
    + destruct (Ascii.eqb_spec c nul) as [->|_]; [destruct N; now left|]. f_equal. apply IH. intros I. apply N. now right.
Qed.
Lemma NoDup_before (l : list (text * json)) : NoDup (map (fun kv => before_nul (fst kv)) l) -> NoDup (map fst l).
Proof. rewrite <- (map_map fst before_nul). apply NoDup_map_inv. Qed.
Lemma re_keys (l l' : list (text * json)) : Forall2 (fun kv kv' => fst kv = fst kv' /\ reordered (snd kv) (snd kv')) l l' -> map fst l' = map fst l.
Proof. induction 1 as [|a b l l' [E _] F IH]; [reflexivity|]. cbn [map]. now rewrite E, IH. Qed.
Lemma re_member j j' name v : reordered j j' -> member j name v -> exists v', member j' name v' /\ reordered v v'.
Proof.
  intros R (l & -> & M). inversion R as [j|l0 l1 l2 ND F P]; subst; [exists v; split; [exists l; auto|constructor]|].
  apply maps_to_In in M. apply NoDup_before in ND.
  assert (X : exists v', In (name, v') l1 /\ reordered v v').
  { clear - M F. induction F as [|[k x] [k' x'] l l' [E H] F IH]; [destruct M|]. cbn [fst snd] in *. subst k'.
    destruct M as [M|M]; [injection M as -> ->; exists x'; split; [now left|exact H]|]. destruct (IH M) as (v' & I & H'). exists v'. split; [now right|exact H']. }
  destruct X as (v' & I & H). exists v'. split; [|exact H]. exists l2. split; [reflexivity|]. apply In_maps_to_nodup.
  - eapply Permutation_NoDup; [apply Permutation_map; exact P|]. now rewrite (re_keys _ _ F).
  - eapply Permutation_in; eauto.
Qed.
Lemma re_no_member j j' name : reordered j j' -> no_member j name -> no_member j' name.
Proof.
  intros R (l & -> & M). inversion R as [j|l0 l1 l2 ND F P]; subst; [exists l; auto|]. exists l2. split; [reflexivity|].
  intros K. apply M. unfold has_key in *. rewrite <- (re_keys _ _ F). eapply Permutation_in; [|exact K]. apply Permutation_map, Permutation_sym, P.
Qed.
Lemma re_field {A} name (R : json -> A -> Prop) (S : A -> A -> Prop) j j' x :
  (forall v v' x, reordered v v' -> R v x -> exists x', R v' x' /\ S x x') ->
  reordered j j' -> field name R j x -> exists x', field name R j' x' /\ S x x'.
Proof.
  intros H RE (v & M & V). destruct (re_member _ _ _ _ RE M) as (v' & M' & RV). destruct (H _ _ _ RV V) as (x' & V' & SX).
  exists x'. split; [exists v'; auto|exact SX].
Qed.
Lemma re_opt {A} name (R : json -> A -> Prop) (S : A -> A -> Prop) j j' o :
  (forall v v' x, reordered v v' -> R v x -> exists x', R v' x' /\ S x x') ->
  reordered j j' -> opt_field name R j o ->
  exists o', opt_field name R j' o' /\ match o, o' with Some x, Some x' => S x x' | None, None => True | _, _ => False end.
Proof.
  intros H RE [x F|N].
  - destruct (re_field _ _ _ _ _ _ H RE F) as (x' & F' & SX). exists (Some x'). split; [now constructor|exact SX].
  - exists None. split; [constructor; eapply re_no_member; eauto|exact Logic.I].
Qed.
Lemma re_plain (R : json -> Prop) v v' : (forall l, ~ R (JObj l)) -> reordered v v' -> R v -> R v'.
Proof. intros N RE H. inversion RE; subst; [exact H|]. now apply N in H. Qed.
Lemma re_value {A} (R : json -> A -> Prop) v v' x : (forall l y, ~ R (JObj l) y) -> reordered v v' -> R v x -> exists x', R v' x' /\ x = x'.
Proof. intros N RE H. exists x. split; [|reflexivity]. apply (re_plain (fun v => R v x) v); auto. Qed.

Lemma perm_Forall2 {A B} (R : A -> B -> Prop) l l' m : Permutation l l' -> Forall2 R l m -> exists m', Forall2 R l' m' /\ Permutation m m'.
Proof.
  intros P. revert m. induction P as [|x l l' P IH|x y l|l l' l'' P1 IH1 P2 IH2]; intros m F.
  - inversion F; subst. exists []. split; constructor.
  - inversion F as [|? b ? m0 H F0]; subst. destruct (IH _ F0) as (m' & F' & P'). exists (b :: m'). split; [now constructor|now constructor].
  - inversion F as [|? b ? m0 H F0]; subst. inversion F0 as [|? b' ? m1 H' F1]; subst. exists (b' :: b :: m1). split; [repeat constructor; assumption|constructor].
  - destruct (IH1 _ F) as (m' & F' & P'). destruct (IH2 _ F') as (m'' & F'' & P''). exists m''. split; [exact F''|eapply perm_trans; eauto].
Qed.
Lemma re_map {K A} (key : text -> K -> Prop) (value : json -> A -> Prop) (S : A -> A -> Prop) j j' m :
  (forall s s' k, key s k -> key s' k -> before_nul s = before_nul s') ->
  (forall v v' x, reordered v v' -> value v x -> exists x', value v' x' /\ S x x') ->
  (forall v x, value v x -> S x x) ->
  reordered j j' -> json_map key value j m -> exists m', json_map key value j' m' /\ same_entries S m m'.
Proof.
  intros KI VS VR RE (l & es & -> & F & N & C). inversion RE as [j|l0 l1 l2 ND F1 P]; subst.
  - exists m. split; [exists l, es; split; [reflexivity|split; [exact F|split; assumption]]|]. split; [exact N|]. split; [exact N|].
    assert (X : forall k x, maps_to m k x -> S x x).
    { intros k x M. apply C in M. apply maps_to_In in M. clear - F M VR. induction F as [|kv e l es [_ H] F IH]; [destruct M|]. destruct M as [->|M]; [eapply VR; exact H|auto]. }
    split; intros k x M; exists x; split; eauto.
  - assert (X : exists es', Forall2 (fun kv e => key (fst kv) (fst e) /\ value (snd kv) (snd e)) l1 es' /\ Forall2 (fun e e' : K * A => fst e = fst e' /\ S (snd e) (snd e')) es es').
    { clear - F F1 VS. revert l1 F1. induction F as [|kv e l es [H1 H2] F IH]; intros l1 F1; inversion F1 as [|? kv' ? l1' [E RV] F1']; subst.
      - exists []. split; constructor.
      - destruct (IH _ F1') as (es' & A1 & A2). destruct (VS _ _ _ RV H2) as (x' & V' & SX). exists ((fst e, x') :: es'). rewrite E in H1. split; constructor; auto. }
    destruct X as (es1 & F2 & G). destruct (perm_Forall2 _ _ _ _ P F2) as (es2 & F3 & P2).
    assert (NE : NoDup (map fst es)).
    { clear - KI F ND. induction F as [|kv e l es [H1 _] F IH]; [constructor|]. cbn [map] in *. inversion ND as [|? ? NI ND']; subst. constructor; [|auto].
      intros I. apply NI. apply in_map_iff in I as (e0 & E & I). clear - KI F I E H1. induction F as [|kv0 e1 l es [H _] F IH]; [destruct I|].
      destruct I as [->|I]; [left; apply (KI _ _ (fst e)); [rewrite <- E; exact H|exact H1]|right; auto]. }
    assert (K1 : map fst es1 = map fst es) by (clear - G; induction G as [|? ? ? ? [E _] ? IH]; [reflexivity|]; cbn [map]; now rewrite E, IH).
    assert (NE2 : NoDup (map fst es2)) by (eapply Permutation_NoDup; [apply Permutation_map; exact P2|]; now rewrite K1).
    exists es2. split; [exists l2, es2; split; [reflexivity|split; [exact F3|split; [exact NE2|reflexivity]]]|]. split; [exact N|]. split; [exact NE2|]. split.
    + intros k x M. apply C in M. apply maps_to_In in M.
      assert (Y : exists x', In (k, x') es1 /\ S x x').
      { clear - G M. induction G as [|[k1 x1] [k2 x2] es es1 [E H] G IH]; [destruct M|]. cbn [fst snd] in *. subst k2.
        destruct M as [M|M]; [injection M as -> ->; exists x2; split; [now left|exact H]|]. destruct (IH M) as (x' & I & H'). exists x'. split; [now right|exact H']. }
      destruct Y as (x' & I & H). exists x'. split; [|exact H]. apply In_maps_to_nodup; [exact NE2|]. eapply Permutation_in; eauto.
    + intros k x' M. apply maps_to_In in M. apply (Permutation_in _ (Permutation_sym P2)) in M.
      assert (Y : exists x, In (k, x) es /\ S x x').
      { clear - G M. induction G as [|[k1 x1] [k2 x2] es es1 [E H] G IH]; [destruct M|]. cbn [fst snd] in *. subst k2.
        destruct M as [M|M]; [injection M as -> ->; exists x1; split; [now left|exact H]|]. destruct (IH M) as (x0 & I & H'). exists x0. split; [now right|exact H']. }
      destruct Y as (x & I & H). exists x. split; [|exact H]. apply C. now apply In_maps_to_nodup.
Qed.

Lemma cs_inj s s' k : c_string s k -> c_string s' k -> before_nul s = before_nul s'.
Proof. intros H H'. apply before_nul_spec in H, H'. congruence. Qed.
Lemma bus_inj s s' k : bus_key s k -> bus_key s' k -> before_nul s = before_nul s'.
Proof.
  intros (t & H & B) (t' & H' & B'). apply before_nul_spec in H, H'. rewrite <- H, <- H'. destruct B; inversion B'; reflexivity.
Qed.
Lemma re_string_map v v' m : reordered v v' -> json_string_map v m -> exists m', json_string_map v' m' /\ same_entries eq m m'.
Proof.
  apply re_map; [intros s s' k E E'; unfold same_key in *; congruence| |reflexivity].
  intros w w' x R H. apply (re_value json_string w w' x); [intros l y E; discriminate E|exact R|exact H].
Qed.
Lemma re_u32 v v' x : reordered v v' -> json_u32 v x -> exists x', json_u32 v' x' /\ x = x'.
Proof. apply re_value. intros l y [E _]. discriminate E. Qed.
Lemma re_i32 v v' x : reordered v v' -> json_i32 v x -> exists x', json_i32 v' x' /\ x = x'.
Proof. apply re_value. intros l y [E _]. discriminate E. Qed.
Lemma re_string v v' x : reordered v v' -> json_string v x -> exists x', json_string v' x' /\ x = x'.
Proof. apply re_value. intros l y E. discriminate E. Qed.
Lemma re_address v v' x : reordered v v' -> json_address v x -> exists x', json_address v' x' /\ x = x'.
Proof. apply re_value. intros l y (s & E & _). discriminate E. Qed.
Lemma re_strings v v' x : reordered v v' -> json_strings v x -> exists x', json_strings v' x' /\ x = x'.
Proof. apply re_value. intros l y (s & E & _). discriminate E. Qed.
Lemma re_alias v v' a : reordered v v' -> json_alias v a -> exists a', json_alias v' a' /\ same_alias a a'.
Proof.
  intros R (A & B & C). destruct (re_field _ _ _ _ _ _ re_string_map R A) as (s & A' & SA).
  destruct (re_field _ _ _ _ _ _ re_u32 R B) as (o & B' & <-). destruct (re_field _ _ _ _ _ _ re_string R C) as (t & C' & <-).
  exists {| al_sites := s; al_start_offset := al_start_offset a; al_type := al_type a |}. repeat split; try assumption; apply SA.
Qed.
Lemma same_block_refl_of v b : json_block v b -> same_block b b.
Proof. intros H. eapply json_block_same; eauto. Qed.
Lemma re_block v v' b : reordered v v' -> json_block v b -> exists b', json_block v' b' /\ same_block b b'.
Proof.
  intros R (A & B & C & D & E). destruct (re_opt _ _ _ _ _ _ re_alias R A) as (al & A' & SA).
  destruct (re_field _ _ _ _ _ _ re_address R B) as (x1 & B' & <-). destruct (re_field _ _ _ _ _ _ re_u32 R C) as (x2 & C' & <-).
  destruct (re_field _ _ _ _ _ _ re_i32 R D) as (x3 & D' & <-). destruct (re_field _ _ _ _ _ _ re_u32 R E) as (x4 & E' & <-).
  exists {| bb_alias := al; bb_base := bb_base b; bb_frames := bb_frames b; bb_offset := bb_offset b; bb_words := bb_words b |}.
  split; [split; [exact A'|]; split; [exact B'|]; split; [exact C'|]; split; [exact D'|exact E']|].
  split; [reflexivity|]. split; [reflexivity|]. split; [reflexivity|]. split; [reflexivity|exact SA].
Qed.
Lemma re_bits v v' m : reordered v v' -> json_bits v m -> exists m', json_bits v' m' /\ same_entries same_block m m'.
Proof. apply re_map; [exact bus_inj|exact re_block|exact same_block_refl_of]. Qed.
Lemma re_tile v v' t : reordered v v' -> json_tile v t -> exists t', json_tile v' t' /\ same_tile t t'.
Proof.
  intros R (A & B & C & D & E & F & G & H).
  destruct (re_field _ _ _ _ _ _ re_string R A) as (x1 & A' & <-). destruct (re_field _ _ _ _ _ _ re_u32 R B) as (x2 & B' & <-).
  destruct (re_field _ _ _ _ _ _ re_u32 R C) as (x3 & C' & <-). destruct (re_opt _ _ _ _ _ _ re_string R D) as (o & D' & SD).
  destruct (re_field _ _ _ _ _ _ re_bits R E) as (m1 & E' & SE). destruct (re_field _ _ _ _ _ _ re_string_map R F) as (m2 & F' & SF).
  destruct (re_field _ _ _ _ _ _ re_string_map R G) as (m3 & G' & SGm). destruct (re_field _ _ _ _ _ _ re_strings R H) as (x4 & H' & <-).
  assert (o = t_clock_region t) as -> by (destruct o, (t_clock_region t); try contradiction; congruence).
  exists {| t_type := t_type t; t_x := t_x t; t_y := t_y t; t_clock_region := t_clock_region t; t_bits := m1; t_pin_functions := m2; t_sites := m3; t_prohibited := t_prohibited t |}.
  split.
  - split; [exact A'|]. split; [exact B'|]. split; [exact C'|]. split; [exact D'|]. split; [exact E'|]. split; [exact F'|]. split; [exact G'|exact H'].
  - split; [reflexivity|]. split; [reflexivity|]. split; [reflexivity|]. split; [reflexivity|]. split; [reflexivity|]. split; [exact SE|]. split; [exact SF|exact SGm].
Qed.

(** A grid with the members of its JSON objects in another order is read as the same grid. *)
Theorem C116_reordered_grid : forall j j' g, json_grid j g -> reordered j j' -> exists g', json_grid j' g' /\ same_grid g g'.
Proof.
  intros j j' g H R. revert R H. apply re_map; [exact cs_inj|exact re_tile|]. intros v t H. eapply json_tile_same; eauto.
Qed.
Print Assumptions C116_reordered_grid.

(** ** part.json *)
(** Two readings of a value and of the value re-ordered agree. *)
Definition two {A} (R : json -> A -> Prop) (S : A -> A -> Prop) : Prop :=
  forall v v' x x', reordered v v' -> R v x -> R v' x' -> S x x'.
Lemma two_value {A} (R : json -> A -> Prop) : (forall l y, ~ R (JObj l) y) -> (forall v x x', R v x -> R v x' -> x = x') -> two R eq.
Proof. intros N F v v' x x' RE H H'. destruct RE as [v|l l1 l2 ND F1 P]; [eapply F; eauto|]. now apply N in H. Qed.
Lemma two_field {A} name (R : json -> A -> Prop) S : two R S -> two (field name R) S.
Proof.
  intros T v v' x x' RE (w & M & H) (w' & M' & H'). destruct (re_member _ _ _ _ RE M) as (w2 & M2 & RW).
  rewrite (member_fun _ _ _ _ M2 M') in RW. exact (T _ _ _ _ RW H H').
Qed.
Lemma numbered_after {A} (R : json -> A -> Prop) l : forall n xs a, JsonSpec.numbered R n l xs -> In a l -> exists z, (n <= z)%Z /\ int_key (fst a) z.
Proof.
  induction l as [|b l IH]; intros n xs a H I; [destruct I|]. inversion H as [|? k v ? x xs0 K V H0]; subst. destruct I as [<-|I].
  - exists n. split; [lia|exact K].
  - destruct (IH _ _ _ H0 I) as (z & L & KZ). exists z. split; [lia|exact KZ].
Qed.
Lemma numbered_perm {A} (R : json -> A -> Prop) (T : text * json -> text * json -> Prop) l l2 : (forall a b, T a b -> fst a = fst b) ->
  forall l1 n xs xs2, JsonSpec.numbered R n l xs -> Forall2 T l l1 -> Permutation l1 l2 -> JsonSpec.numbered R n l2 xs2 -> l1 = l2.
Proof.
  intros TK. revert l2. induction l as [|a l IH]; intros l2 l1 n xs xs2 H F P H2; inversion F as [|? b ? l1' Tab F']; subst.
  - apply Permutation_nil in P. now subst.
  - inversion H as [|? k v ? x xs0 K V H0]; subst. destruct l2 as [|c l2]; [apply Permutation_sym, Permutation_nil in P; discriminate P|].
    inversion H2 as [|? k2 v2 ? x2 xs20 K2 V2 H20]; subst.
    assert (E : b = (k2, v2)).
    { destruct (Permutation_in _ P (or_introl eq_refl)) as [E|I]; [now symmetry|]. exfalso.
      destruct (numbered_after _ _ _ _ _ H20 I) as (z & L & KZ). apply TK in Tab. rewrite <- Tab in KZ. cbn [fst] in KZ.
      pose proof (int_key_fun _ _ _ K KZ). lia. }
    subst b. f_equal. apply Permutation_cons_inv in P. eapply IH; eauto.
Qed.
Lemma two_array {A} (R : json -> A -> Prop) S : two R S -> two (json_array R) (Forall2 S).
Proof.
  intros T v v' xs xs' RE H H'. destruct RE as [v|l l1 l2 ND F P].
  - eapply json_array_same; eauto. intros w x x' X X'. eapply T; eauto. constructor.
  - destruct H as (l0 & E & H). injection E as <-. destruct H' as (l0 & E & H'). injection E as <-.
    assert (X : l1 = l2). { eapply numbered_perm; [|exact H|exact F|exact P|exact H']. now intros a b [E _]. }
    subst l2. clear P ND. revert H xs' H'. generalize 0%Z. revert l1 F xs. induction l as [|a l IH]; intros l1 F xs n H xs' H'; inversion F as [|? b ? l1' [Ek Rv] F']; subst.
    + inversion H; inversion H'; subst. constructor.
    + inversion H as [|? k w ? x xs0 K V H0]; subst. inversion H' as [|? k2 w2 ? x2 xs20 K2 V2 H20]; subst. cbn [snd] in Rv. constructor; [eapply T; eauto|eapply IH; eauto].
Qed.
Lemma F2_left {X Y} (P : X -> Y -> Prop) l l' a : Forall2 P l l' -> In a l -> exists b, In b l' /\ P a b.
Proof. induction 1 as [|x y l l' H F IH]; intros I; [destruct I|]. destruct I as [<-|I]; [exists y; split; [now left|exact H]|]. destruct (IH I) as (b & J & Q). exists b. split; [now right|exact Q]. Qed.
Lemma F2_right {X Y} (P : X -> Y -> Prop) l l' b : Forall2 P l l' -> In b l' -> exists a, In a l /\ P a b.
Proof. induction 1 as [|x y l l' H F IH]; intros I; [destruct I|]. destruct I as [<-|I]; [exists x; split; [now left|exact H]|]. destruct (IH I) as (a & J & Q). exists a. split; [now right|exact Q]. Qed.
Lemma two_map_at {K A} (key : text -> K -> Prop) (R : json -> A -> Prop) S v v' m m' :
  (forall s k k', key s k -> key s k' -> k = k') -> one_name key v -> two R S ->
  reordered v v' -> json_map key R v m -> json_map key R v' m' -> same_entries S m m'.
Proof.
  intros KF ON T RE H H'. destruct RE as [v|l l1 l2 ND F P].
  - eapply json_map_same; eauto. intros w x x' X X'. eapply T; eauto. constructor.
  - destruct H as (l0 & es & E & FE & N1 & C). injection E as <-. destruct H' as (l0 & es' & E & FE' & N1' & C'). injection E as <-.
    specialize (ON l).
    assert (NE : NoDup (map fst es)).
    { assert (ON' : forall s s' k, In s (map fst l) -> In s' (map fst l) -> key s k -> key s' k -> before_nul s = before_nul s') by (intros; eapply ON; eauto).
      clear - ON' FE ND. induction FE as [|kv e l es [K1 _] FE IH]; [constructor|]. cbn [map] in *. inversion ND as [|? ? NI ND']; subst. constructor.
      - intros I. apply in_map_iff in I as (e' & E & I). destruct (F2_right _ _ _ _ FE I) as (kv' & I' & K2 & _). rewrite E in K2. apply NI.
        rewrite (ON' (fst kv) (fst kv') (fst e)); [now apply (in_map (fun kv => before_nul (fst kv)))|now left|right; now apply in_map|exact K1|exact K2].
      - apply IH; [exact ND'|]. intros; eapply ON'; eauto; now right. }
    assert (K2 : Permutation (map fst l) (map fst l2)).
    { assert (X : map fst l = map fst l1) by (clear - F; induction F as [|? ? ? ? [E _] ? IH]; [reflexivity|]; cbn [map]; now rewrite E, IH).
      rewrite X. now apply Permutation_map. }
    assert (ND2 : NoDup (map (fun kv : text * json => before_nul (fst kv)) l2)).
    { rewrite <- (map_map fst before_nul). eapply Permutation_NoDup; [apply Permutation_map; exact K2|]. now rewrite map_map. }
    assert (NE2 : NoDup (map fst es')).
    { assert (ON' : forall s s' k, In s (map fst l2) -> In s' (map fst l2) -> key s k -> key s' k -> before_nul s = before_nul s').
      { intros s s' k I I' K3 K4. eapply ON; eauto; eapply Permutation_in; try (apply Permutation_sym; exact K2); assumption. }
      clear - ON' FE' ND2. induction FE' as [|kv e l es [K1 _] FE IH]; [constructor|]. cbn [map] in *. inversion ND2 as [|? ? NI ND']; subst. constructor.
      - intros I. apply in_map_iff in I as (e' & E & I). destruct (F2_right _ _ _ _ FE I) as (kv' & I' & K2 & _). rewrite E in K2. apply NI.
        rewrite (ON' (fst kv) (fst kv') (fst e)); [now apply (in_map (fun kv => before_nul (fst kv)))|now left|right; now apply in_map|exact K1|exact K2].
      - apply IH; [exact ND'|]. intros; eapply ON'; eauto; now right. }
    split; [exact N1|]. split; [exact N1'|]. split.
    + intros k x M. apply C, maps_to_In in M. destruct (F2_right _ _ _ _ FE M) as (kv & I & Hk & Hv).
      destruct (F2_left _ _ _ _ F I) as (kv1 & I1 & Ek & RV). apply (Permutation_in _ P) in I1.
      destruct (F2_left _ _ _ _ FE' I1) as (e' & I' & Hk' & Hv'). rewrite <- Ek in Hk'. pose proof (KF _ _ _ Hk Hk') as Ke. cbn [fst snd] in Ke, Hv. subst k.
      exists (snd e'). split; [|eapply T; eauto]. apply C'. apply In_maps_to_nodup; [exact NE2|]. now rewrite <- surjective_pairing.
    + intros k x' M. apply C', maps_to_In in M. destruct (F2_right _ _ _ _ FE' M) as (kv1 & I1 & Hk' & Hv').
      apply (Permutation_in _ (Permutation_sym P)) in I1. destruct (F2_right _ _ _ _ F I1) as (kv & I & Ek & RV).
      destruct (F2_left _ _ _ _ FE I) as (e & I' & Hk & Hv). rewrite <- Ek in Hk'. pose proof (KF _ _ _ Hk' Hk) as Ke. cbn [fst snd] in Ke, Hv'. subst k.
      exists (snd e). split; [|eapply T; eauto]. apply C. apply In_maps_to_nodup; [exact NE|]. now rewrite <- surjective_pairing.
Qed.
Lemma two_map {K A} (key : text -> K -> Prop) (R : json -> A -> Prop) S :
  (forall s k k', key s k -> key s k' -> k = k') -> (forall s s' k, key s k -> key s' k -> before_nul s = before_nul s') ->
  two R S -> two (json_map key R) (same_entries S).
Proof. intros KF KI T v v' m m' RE H H'. eapply two_map_at; eauto. intros l s s' k _ _ _. apply KI. Qed.
Lemma two_half : two json_half (Forall2 (same_entries eq)).
Proof.
  apply two_array, two_field, two_map; [exact P_Database3.bus_key_fun|exact bus_inj|]. apply two_field.
  intros v v' x x' RE H H'. apply Forall2_eq. revert v v' x x' RE H H'. apply two_array, two_field, two_value; [intros l y [E _]; discriminate E|exact SameFacts.json_u32_fun].
Qed.
(** Members of part.json in another order: if the text can still be read (its rows and columns are in order), it is the same part, if no bank is
    given under two spellings of its number. *)
Theorem C116_reordered_part : forall j j' p p', json_part j p -> reordered j j' -> json_part j' p' ->
  (forall banks, member j (tx "iobanks") banks -> one_name bank_key banks) -> same_part p p'.
Proof.
  intros j j' p p' [o A B C G] R [o' A' B' C' G'] ON. split; [|split].
  - exact (two_field _ _ _ (two_value json_u32 ltac:(intros l y [E _]; discriminate E) SameFacts.json_u32_fun) _ _ _ _ R A A').
  - rewrite C, C'. destruct B as [m (v & M & H)|NM], B' as [m' (v' & M' & H')|NM'].
    + destruct (re_member _ _ _ _ R M) as (v2 & M2 & RV). rewrite (member_fun _ _ _ _ M2 M') in RV.
      eapply (two_map_at bank_key _ eq v v' m m'); [exact bank_key_fun|exact (ON _ M)| |exact RV|exact H|exact H'].
      apply two_value; [intros l y (s & E & _); discriminate E|]. intros w x x' (s & -> & X) (s' & E & X'). injection E as <-. eapply c_string_fun; eauto.
    + exfalso. destruct (re_member _ _ _ _ R M) as (v2 & (l & -> & M2) & _). destruct NM' as (l' & E & NK). injection E as <-. apply NK. eapply maps_to_key; eauto.
    + exfalso. destruct (re_no_member _ _ _ R NM) as (l & -> & NK). destruct M' as (l' & E & M'). injection E as <-. apply NK. eapply maps_to_key; eauto.
    + apply same_nil.
  - destruct G as (v & M & D1 & D2), G' as (v' & M' & D1' & D2'). destruct (re_member _ _ _ _ R M) as (v2 & M2 & RV).
    rewrite (member_fun _ _ _ _ M2 M') in RV. cbn [fst snd] in *.
    split; [exact (two_field _ _ _ (two_field _ _ _ two_half) _ _ _ _ RV D1 D1')|exact (two_field _ _ _ (two_field _ _ _ two_half) _ _ _ _ RV D2 D2')].
Qed.
Print Assumptions C116_reordered_part.

(** ** Lines in another order *)
Lemma perm_concat {A} (l l' : list (list A)) : Permutation l l' -> Permutation (concat l) (concat l').
Proof.
  induction 1 as [|x l l' P IH|x y l|l l' l'' P1 IH1 P2 IH2]; cbn [concat].
  - constructor.
  - now apply Permutation_app_head.
  - rewrite !app_assoc. apply Permutation_app_tail, Permutation_app_comm.
  - eapply perm_trans; eauto.
Qed.
Definition content_of {K A} (line : text -> list (K * A) -> Prop) (content : text) (m : list (K * A)) : Prop :=
  exists ls es, text_lines content ls /\ Forall2 line ls es /\ collects (concat es) m.
Lemma moved_content {K A} (eqb : K -> K -> bool) (Q : forall a b, eqb a b = true <-> a = b) (line : text -> list (K * A) -> Prop) c c' m :
  no_repeats line c -> lines_moved c c' -> content_of line c m -> exists m', content_of line c' m' /\ same_map m m'.
Proof.
  intros NR (ls & ls' & T & T' & P) (ls0 & es & T0 & F & N & C). rewrite (text_lines_fun _ _ _ T0 T) in *. clear T0 ls0.
  destruct (perm_Forall2 _ _ _ _ P F) as (es' & F' & P'). exists (insert_all eqb (concat es') []).
  split; [exists ls', es'; split; [exact T'|split; [exact F'|now apply collects_insert_all]]|].
  intros k v. rewrite (C k v). pose proof (proj2 (collects_insert_all eqb Q (concat es')) k v) as X. rewrite X.
  pose proof (NR _ _ T F) as ND. assert (ND' : NoDup (map fst (concat es'))) by (eapply Permutation_NoDup; [apply Permutation_map, perm_concat, P'|exact ND]).
  split; intros M; apply maps_to_In in M; apply In_maps_to_nodup; try assumption; eapply Permutation_in; try exact M; [apply perm_concat, P'|apply perm_concat, Permutation_sym, P'].
Qed.
Lemma lines_moved_sym c c' : lines_moved c c' -> lines_moved c' c.
Proof. intros (ls & ls' & T & T' & P). exists ls', ls. auto using Permutation_sym. Qed.
Lemma no_repeats_moved {K A} (line : text -> list (K * A) -> Prop) c c' : lines_moved c c' -> no_repeats line c -> no_repeats line c'.
Proof.
  intros (ls & ls' & T & T' & P) NR ls0 es' T0 F. rewrite (text_lines_fun _ _ _ T0 T') in F.
  destruct (perm_Forall2 _ _ _ _ (Permutation_sym P) F) as (es & F' & P'). eapply Permutation_NoDup; [apply Permutation_map, perm_concat, Permutation_sym, P'|]. exact (NR _ _ T F').
Qed.
Lemma moved_file_sym {K A} (line : text -> list (K * A) -> Prop) e q e' q' : moved_file line e q e' q' -> moved_file line e' q' e q.
Proof.
  intros (E & H1 & H2). split; [now symmetry|]. split.
  - intros c' F'. destruct (H2 _ F') as (c & F & M). destruct (H1 _ F) as (NR & _). split; [now apply (no_repeats_moved line c)|]. exists c. split; [exact F|now apply lines_moved_sym].
  - intros c F. destruct (H1 _ F) as (_ & c' & F' & M). exists c'. split; [exact F'|now apply lines_moved_sym].
Qed.
Lemma moved_opt {K A} (eqb : K -> K -> bool) (Q : forall a b, eqb a b = true <-> a = b) (line : text -> list (K * A) -> Prop) e q e' q' o :
  moved_file line e q e' q' -> opt_file e q (content_of line) o ->
  exists o', opt_file e' q' (content_of line) o' /\ match o, o' with Some m, Some m' => same_map m m' | None, None => True | _, _ => False end.
Proof.
  intros (E & H1 & _) O. destruct O as [EX|c m EX F S].
  - exists None. split; [constructor; congruence|exact Logic.I].
  - destruct (H1 _ F) as (NR & c' & F' & M). destruct (moved_content eqb Q line c c' m NR M S) as (m' & S' & SM).
    exists (Some m'). split; [apply (file_present _ _ _ c'); congruence|exact SM].
Qed.
Lemma same_data_of e clb bram pips e' clb' bram' pips' d :
  moved_file seg_line e clb e' clb' -> moved_file seg_line e bram e' bram' -> moved_file pip_line e pips e' pips' ->
  type_says e clb bram pips d -> exists d', type_says e' clb' bram' pips' d' /\ same_contents d d'.
Proof.
  intros M1 M2 M3 (oc & ob & op & OC & OB & OP & EP & EB).
  destruct (moved_opt tf_eqb tf_eqb_eq _ _ _ _ _ _ M1 OC) as (oc' & OC' & SC). destruct (moved_opt tf_eqb tf_eqb_eq _ _ _ _ _ _ M2 OB) as (ob' & OB' & SB).
  destruct (moved_opt text_eqb text_eqb_eq _ _ _ _ _ _ M3 OP) as (op' & OP' & SP).
  destruct (data_from clb' bram' pips' e' oc' ob' op' OC' OB' OP') as (d' & D'). exists d'. split; [exact D'|].
  destruct D' as (oc2 & ob2 & op2 & OC2 & OB2 & OP2 & EP2 & EB2).
  assert (SC2 : match oc, oc2 with Some m, Some m' => same_map m m' | None, None => True | _, _ => False end).
  { pose proof (opt_file_fun _ _ _ _ segbits_content_fun _ _ OC' OC2) as X. destruct oc, oc', oc2; try contradiction; try exact Logic.I.
    intros k v. rewrite (SC k v). apply X. }
  assert (SB2 : match ob, ob2 with Some m, Some m' => same_map m m' | None, None => True | _, _ => False end).
  { pose proof (opt_file_fun _ _ _ _ segbits_content_fun _ _ OB' OB2) as X. destruct ob, ob', ob2; try contradiction; try exact Logic.I.
    intros k v. rewrite (SB k v). apply X. }
  assert (SP2 : match op, op2 with Some m, Some m' => same_map m m' | None, None => True | _, _ => False end).
  { pose proof (opt_file_fun _ _ _ _ pips_content_fun _ _ OP' OP2) as X. destruct op, op', op2; try contradiction; try exact Logic.I.
    intros k v. rewrite (SP k v). apply X. }
  clear - EP EB EP2 EB2 SC2 SB2 SP2.
  assert (HB : forall n k bus l, has_bits d n k bus l <-> has_bits d' n k bus l).
  { intros n k bus l. split.
    - intros (segs & M & L). apply EB in M as [[-> ->]|[-> ->]].
      + destruct oc2 as [x|]; [|contradiction]. exists x. split; [apply EB2; auto|]. now apply SC2.
      + destruct ob2 as [x|]; [|contradiction]. exists x. split; [apply EB2; auto|]. now apply SB2.
    - intros (segs & M & L). apply EB2 in M as [[-> ->]|[-> ->]].
      + destruct oc as [x|]; [|contradiction]. exists x. split; [apply EB; auto|]. now apply SC2.
      + destruct ob as [x|]; [|contradiction]. exists x. split; [apply EB; auto|]. now apply SB2. }
  constructor.
  - intros n. unfold is_pip. rewrite EP, EP2. destruct op as [y|], op2 as [y'|]; cbn [of_option]; try contradiction; [|reflexivity].
    split; apply same_keys; [exact SP2|]. intros a b. symmetry. apply SP2.
  - intros n k bus l H. exists l. split; [now apply HB|reflexivity].
  - intros n k bus l H. exists l. split; [now apply HB|reflexivity].
Qed.
Lemma moved_types_one e root e' root' : moved_types e root e' root' ->
  forall ty d, type_data e root ty d -> exists d', type_data e' root' ty d' /\ same_contents d d'.
Proof.
  intros (T1 & T2 & MF) ty d (dir & clb & bram & pips & TD & TP & TS). destruct (T1 _ _ TD) as (dir' & TD').
  assert (X : exists clb' bram' pips', type_paths dir' ty clb' bram' pips').
  { destruct TP as (low & L & _). exists (path_join dir' (tx "segbits_" ++ low ++ tx ".db")), (path_join dir' (tx "segbits_" ++ low ++ tx ".block_ram.db")), (path_join dir' (tx "ppips_" ++ low ++ tx ".db")).
    exists low. split; [exact L|]. split; [apply path_join_inside|]. split; apply path_join_inside. }
  destruct X as (clb' & bram' & pips' & TP'). destruct (MF _ _ _ _ _ _ _ _ _ TD TD' TP TP') as (M1 & M2 & M3).
  destruct (same_data_of _ _ _ _ _ _ _ _ _ M1 M2 M3 TS) as (d' & S' & SD). exists d'. split; [|exact SD]. exists dir', clb', bram', pips'. auto.
Qed.
(** Directories with the same lines in their files, in another order, have the same tile types. *)
Theorem C116_reordered_types : forall e root e' root', moved_types e root e' root' -> same_types e root e' root'.
Proof.
  intros e root e' root' M. split; [now apply moved_types_one|]. intros ty d' D'.
  assert (M' : moved_types e' root' e root).
  { destruct M as (T1 & T2 & MF). split; [exact T2|]. split; [exact T1|]. intros ty0 dir' dir clb' bram' pips' clb bram pips TD' TD TP' TP.
    destruct (MF _ _ _ _ _ _ _ _ _ TD TD' TP TP') as (M1 & M2 & M3). split; [|split]; now apply moved_file_sym. }
  destruct (moved_types_one _ _ _ _ M' _ _ D') as (d & D & SD). exists d. split; [exact D|now apply same_data_sym].
Qed.
Print Assumptions C116_reordered_types.

(** The same rows of a package file in another order are the same package, if no tile is in two banks. *)
Theorem C116_reordered_pins : forall c c' h ls ls' pins, text_lines c (h :: ls) -> text_lines c' (h :: ls') -> Permutation ls ls' ->
  pins_content c pins -> (forall bank bank' tile, in_pins pins bank tile -> in_pins pins bank' tile -> bank = bank') ->
  exists pins', pins_content c' pins' /\ same_pins pins pins'.
Proof.
  intros c c' h ls ls' pins T T' P PC U. destruct PC as [[-> _]|(h0 & ls0 & es & T0 & H & F & ->)].
  - exfalso. assert (X : h :: ls = []) by (eapply text_lines_fun; [exact T|constructor]). discriminate X.
  - assert (X : h0 :: ls0 = h :: ls) by (eapply text_lines_fun; eauto). injection X as -> ->.
    destruct (perm_Forall2 _ _ _ _ P F) as (es' & F' & P'). exists (concat es'). split; [right; exists h, ls', es'; auto|].
    right. split; [|exact U]. intros bank tile. unfold in_pins.
    split; intros (q & I & E); exists q; (split; [|exact E]); (eapply Permutation_in; [|exact I]); apply perm_concat; [exact P'|apply Permutation_sym, P'].
Qed.
Print Assumptions C116_reordered_pins.

(** ** If an entry is given twice the order of the lines does matter: the first of the two counts. *)
Definition twice_file : text := tx "db/segbits_clbll_l".
Definition twice_lines : list text := [tx "CLBLL_L.SLICEL_X0.ALUT.INIT[00] 02_15"; tx "CLBLL_L.SLICEL_X0.ALUT.INIT[01] 01_15 !02_14"; tx "CLBLL_L.SLICEL_X0.ALUT.INIT[01] 01_16"].
Definition twice_moved : list text := [tx "CLBLL_L.SLICEL_X0.ALUT.INIT[00] 02_15"; tx "CLBLL_L.SLICEL_X0.ALUT.INIT[01] 01_16"; tx "CLBLL_L.SLICEL_X0.ALUT.INIT[01] 01_15 !02_14"].
Lemma unlines_lines ls : Forall (fun l => ~ In DbSpec.newline l) ls -> text_lines (unlines ls) ls.
Proof.
  induction 1 as [|l ls N F IH]; [constructor|]. change (unlines (l :: ls)) with ((l ++ [DbSpec.newline]) ++ unlines ls).
  rewrite <- app_assoc. now constructor.
Qed.
Definition no_newlines (ls : list text) : bool := forallb (forallb (fun c => negb (Ascii.eqb c DbSpec.newline))) ls.
Lemma no_newlines_ok ls : no_newlines ls = true -> Forall (fun l => ~ In DbSpec.newline l) ls.
Proof.
  intros H. apply Forall_forall. intros l I J. unfold no_newlines in H. rewrite forallb_forall in H. specialize (H _ I).
  rewrite forallb_forall in H. specialize (H _ J). rewrite Ascii.eqb_refl in H. discriminate H.
Qed.
Theorem C116_repeated_entries_refuted :
  ~ (forall fuel fuel' ord c path old new root input g p pins feats s s', run_succeeds fuel ord c root input g p pins feats s ->
     e_read (c_env c) path = Some old -> lines_moved old new ->
     main_program fuel' Iso ord (with_env (with_file path new (c_env c)) c) = Ok (0, s') -> st_bytes s' = st_bytes s).
Proof.
  intros F. destruct (edited_run twice_file (unlines twice_lines) demo_input) as (s & pins & feats & RS & _).
  - vm_compute. reflexivity.
  - apply unlines_full. vm_compute. reflexivity.
  - vm_compute. reflexivity.
  - vm_compute. reflexivity.
  - vm_compute. reflexivity.
  - vm_compute. reflexivity.
  - vm_compute. reflexivity.
  - vm_compute. reflexivity.
  - pose proof (rs_exit _ _ _ _ _ _ _ _ _ _ RS) as R.
    assert (X : match main_program 3000 Iso ex_orders (with_env (edited_env twice_file (unlines twice_lines)) (demo_command demo_input)),
        main_program 3000 Iso ex_orders (with_env (with_file (twice_file ++ tx ".db") (unlines twice_moved) (edited_env twice_file (unlines twice_lines))) (demo_command demo_input)) with
       | Ok (_, s), Ok (n, s1) => (n =? 0) && (if list_eq_dec N.eq_dec (st_bytes s1) (st_bytes s) then false else true)
       | _, _ => false end = true) by (vm_compute; reflexivity).
    rewrite R in X.
    destruct (main_program 3000 Iso ex_orders (with_env (with_file (twice_file ++ tx ".db") (unlines twice_moved) (edited_env twice_file (unlines twice_lines))) (demo_command demo_input)))
      as [[n s1]| | | |] eqn:E; try discriminate X.
    apply andb_true_iff in X as [X1 X2]. apply N.eqb_eq in X1. subst n.
    destruct (list_eq_dec N.eq_dec (st_bytes s1) (st_bytes s)) as [|NE]; [discriminate X2|]. apply NE.
    refine (F _ _ _ _ (twice_file ++ tx ".db") (unlines twice_lines) (unlines twice_moved) _ _ _ _ _ _ _ _ RS _ _ E).
    + vm_compute. reflexivity.
    + exists twice_lines, twice_moved. split; [apply unlines_lines, no_newlines_ok; vm_compute; reflexivity|].
      split; [apply unlines_lines, no_newlines_ok; vm_compute; reflexivity|]. unfold twice_lines, twice_moved. repeat constructor.
Qed.
Print Assumptions C116_repeated_entries_refuted.

(** ** A case: the demonstration database in another directory, under another part name, with the members of the grid, the entries of the
    directory and the lines of one file in another order. *)
Definition moved_grid_json : json := match demo_grid_json with JObj l => JObj (rev l) | j => j end.
Definition moved_part_json : json := match demo_part_json with JObj l => JObj (rev l) | j => j end.
Definition liob_lines : list text :=
  [tx "LIOB33.IOB_Y0.STEPDOWN 01_100"; tx "LIOB33.IOB_Y1.STEPDOWN 01_22";
   tx "LIOB33.IOB_Y1.LVCMOS12_LVCMOS15_LVCMOS18_LVCMOS25_LVCMOS33_LVDS_25_LVTTL_SSTL135_SSTL15_TMDS_33.IN_ONLY 00_01";
   tx "LIOB33.IOB_Y1.LVCMOS25_LVCMOS33_LVTTL.IN 00_09"; tx "LIOB33.IOB_Y1.PULLTYPE.PULLUP 00_33"].
Definition moved_files : list (text * text) :=
  [(tx "new/segbits_hclk_ioi3.db", unlines [tx "HCLK_IOI3.STEPDOWN 00_17"]);
   (tx "new/tile_type_HCLK_IOI3.json", tx "{}");
   (tx "new/segbits_liob33.db", unlines (rev liob_lines));
   (tx "new/tile_type_LIOB33.json", tx "{}");
   (tx "new/ppips_clbll_l.db", unlines [tx "CLBLL_L.CLBLL_L_A1.IMUX_L6 always"]);
   (tx "new/segbits_clbll_l.db",
    unlines [tx "CLBLL_L.SLICEL_X0.ALUT.INIT[01] 01_15 !02_14"; tx "CLBLL_L.SLICEL_X0.ALUT.INIT[00] 02_15"]);
   (tx "new/tile_type_CLBLL_L.json", tx "{}");
   (tx "new/board/package_pins.csv",
    unlines [tx "pin,bank,site,tile,pin_function"; tx "A1,14,IOB_X0Y1,LIOB33_X0Y1,IO_L3P_T0_DQS_PUDC_B_14"]);
   (tx "new/board/part.json", tx "<part>");
   (tx "new/fab/tilegrid.json", tx "<grid>");
   (tx "new/mapping/devices.yaml", unlines [tx "dev:"; tx "  fabric: ""fab"""]);
   (tx "new/mapping/parts.yaml",
    unlines [tx """board"":"; tx "  speedgrade: ""1"""; tx "  package: 'csg'"; tx "  device: dev"])].
Definition moved_env : environment :=
  {| e_read := fun p => hm_find text_eqb p moved_files;
     e_exists := fun p => text_eqb p (tx "new") || hm_contains text_eqb p moved_files;
     e_walk := fun p => if text_eqb p (tx "new") then Some (map fst moved_files) else None;
     e_json := fun s => if text_eqb s (tx "<grid>") then Some moved_grid_json
                        else if text_eqb s (tx "<part>") then Some moved_part_json else None |}.
Definition moved_command : command :=
  {| c_args := [tx "fpga-as"]; c_db_flag := Some (tx "new"); c_db_env := Some (tx "db"); c_part := tx "board";
     c_stdin := demo_input; c_open := fun _ => None; c_env := moved_env;
     c_date := tx "2024/10/01"; c_time := tx "12:00:00"; c_stdout := file_at_end [] |}.
Definition moved_tls : outcome tiles := parse_database moved_env document_order (tx "new") (tx "board").
Definition moved_db : tiles := match moved_tls with Ok t => t | _ => ex_db end.
Lemma moved_db_parsed : parse_database moved_env document_order (tx "new") (tx "board") = Ok moved_db.
Proof.
  assert (H : match moved_tls with Ok _ => true | _ => false end = true) by (vm_compute; reflexivity).
  unfold moved_db, moved_tls in *. destruct (parse_database moved_env document_order (tx "new") (tx "board")); first [reflexivity|discriminate H].
Qed.
Lemma moved_sound_files : sound_files moved_env.
Proof.
  intros p c F. unfold file, moved_env in F. cbn [e_read] in F. apply (hm_find_maps _ text_eqb_eq) in F. apply maps_to_In in F.
  assert (X : Forall (fun pc : text * text => N.of_nat (List.length (snd pc)) < 2 ^ 32 - 1 /\ splittable (after_mapping (snd pc)) (snd pc)) moved_files).
  { repeat apply Forall_cons; [..|apply Forall_nil]; (split; [vm_compute; reflexivity|right; right; vm_compute; discriminate]). }
  rewrite Forall_forall in X. exact (X _ F).
Qed.
Lemma moved_sound_walk root : sound_walk moved_env root.
Proof.
  intros l E. cbn [moved_env e_walk] in E. destruct (text_eqb root (tx "new")); [|discriminate E].
  assert (l = map fst moved_files) as -> by congruence.
  repeat apply Forall_cons; [..|apply Forall_nil]; do 3 right; now left.
Qed.
Lemma rev_entries {K A} (R : A -> A -> Prop) (m : list (K * A)) : same_entries R m m -> same_entries R m (rev m).
Proof.
  intros (N & _ & F & B). assert (N' : NoDup (map fst (rev m))) by (rewrite map_rev; now apply NoDup_rev). split; [exact N|]. split; [exact N'|].
  assert (X : forall k x, maps_to m k x <-> maps_to (rev m) k x).
  { intros k x. split; intros M; apply maps_to_In in M; apply In_maps_to_nodup; try assumption.
    - exact (proj1 (in_rev _ _) M).
    - exact (proj2 (in_rev _ _) M). }
  split.
  - intros k x M. destruct (F _ _ M) as (x' & M' & H). exists x'. split; [now apply X|exact H].
  - intros k x' M. apply X in M. exact (B _ _ M).
Qed.
Lemma moved_grid : tl_grid moved_db = rev (tl_grid demo_db).
Proof. vm_compute. reflexivity. Qed.
Lemma moved_same_grid : same_grid (tl_grid demo_db) (tl_grid moved_db).
Proof.
  rewrite moved_grid. apply rev_entries. destruct C71_case_database as (pins & (info & fd & pd & gc & gj & pc & pj & csv & _ & _ & _ & _ & _ & G & _) & _).
  clear - G. exact (json_grid_same _ _ _ G G).
Qed.
Fixpoint apart {K} (eqb : K -> K -> bool) (l : list K) : bool := match l with [] => true | x :: r => negb (existsb (eqb x) r) && apart eqb r end.
Lemma apart_ok {K} (eqb : K -> K -> bool) l : (forall x y, eqb x y = true <-> x = y) -> apart eqb l = true -> NoDup l.
Proof.
  intros E. induction l as [|x r IH]; cbn [apart]; [constructor|]. intros H. apply andb_true_iff in H as [H K0]. constructor; [|auto].
  intros I. apply negb_true_iff in H. assert (X : existsb (eqb x) r = true) by (apply existsb_exists; exists x; split; [exact I|now apply E]). congruence.
Qed.
Lemma part_is j p : match parse_part_json (Some j) with Ok q => q = p | _ => False end -> json_part j p.
Proof. intros H. destruct (parse_part_json (Some j)) as [q| | | |] eqn:E; try contradiction. subst q. now apply P_Database3.C59_part_is_read. Qed.
Lemma demo_part_reordered : reordered demo_part_json moved_part_json.
Proof.
  unfold moved_part_json, demo_part_json. eapply re_members; [apply (apart_ok text_eqb); [exact text_eqb_eq|vm_compute; reflexivity]| |apply Permutation_rev].
  repeat (constructor; [split; [reflexivity|apply re_same]|]). constructor.
Qed.
Lemma moved_same_part : same_part (tl_part demo_db) (tl_part moved_db).
Proof.
  apply (C116_reordered_part demo_part_json moved_part_json).
  - apply part_is. vm_compute. reflexivity.
  - exact demo_part_reordered.
  - apply part_is. vm_compute. reflexivity.
  - intros banks M l s s' k -> I I' _ _. destruct M as (l' & E & M). unfold demo_part_json in E. injection E as <-. apply maps_to_In in M.
    destruct M as [M|[M|[M|[]]]]; try discriminate M. injection M as <-. destruct I as [<-|[]], I' as [<-|[]]. reflexivity.
Qed.
Lemma moved_pins g p pins : database_says moved_env (tx "new") (tx "board") g p pins -> pins = [demo_pin].
Proof.
  intros (info & fd & pd & gc & gj & pc & pj & csv & _ & _ & Ip & _ & _ & _ & _ & _ & _ & (q & Iq & F) & PC).
  rewrite (LoadFacts.inside_fun _ _ _ _ Ip (LoadFacts.path_join_inside _ _)) in Iq.
  rewrite (LoadFacts.inside_fun _ _ _ _ Iq (LoadFacts.path_join_inside _ _)) in F.
  destruct (moved_sound_files _ _ F) as [L S].
  pose proof (pins_complete _ _ _ S L PC) as E. unfold file in F.
  assert (F' : e_read moved_env (path_join (path_join (tx "new") (tx "board")) (tx "package_pins.csv"))
     = Some (unlines [tx "pin,bank,site,tile,pin_function"; tx "A1,14,IOB_X0Y1,LIOB33_X0Y1,IO_L3P_T0_DQS_PUDC_B_14"])) by (vm_compute; reflexivity).
  rewrite F' in F. assert (Ec : csv = unlines [tx "pin,bank,site,tile,pin_function"; tx "A1,14,IOB_X0Y1,LIOB33_X0Y1,IO_L3P_T0_DQS_PUDC_B_14"]) by congruence.
  rewrite Ec in E. match type of E with parse_pins ?a ?b = _ => assert (V : parse_pins a b = Ok [demo_pin]) by (vm_compute; reflexivity) end.
  congruence.
Qed.

(** The tile types of a directory that is listed. *)
Definition the_types : list text := [tx "CLBLL_L"; tx "LIOB33"; tx "HCLK_IOI3"].
Definition type_of_path (root path : text) : bool :=
  existsb (fun ty => text_eqb (path_filename path) (tx "tile_type_" ++ ty ++ tx ".json")) the_types && text_eqb (path_parent path) root
  || negb (starts_with (tx "tile_type_") (path_filename path)).
Lemma listed_types e root all : e_walk e root = Some all -> Forall (fun p => In slash p) all ->
  forallb (type_of_path root) all = true ->
  forallb (fun ty => existsb (fun path => text_eqb (path_filename path) (tx "tile_type_" ++ ty ++ tx ".json")) all) the_types = true ->
  forall ty dir, type_dir e root ty dir <-> In ty the_types /\ dir = root.
Proof.
  intros W SL A B ty dir. rewrite Forall_forall in SL. split.
  - intros (all' & before & path & after & W' & E & T & _). assert (all' = all) as -> by congruence. clear W'.
    assert (I : In path all) by (rewrite E; apply in_or_app; right; now left). clear E.
    rewrite forallb_forall in A. pose proof (A _ I) as X. apply tile_type_path in T as [F P]; [|exact (SL _ I)].
    unfold type_of_path in X. apply orb_true_iff in X as [X|X].
    + apply andb_true_iff in X as [X Y]. apply text_eqb_eq in Y. apply existsb_exists in X as (ty' & J & X). apply text_eqb_eq in X.
      rewrite X in F. apply app_inv_head in F. apply app_inv_tail in F. subst ty'. split; [exact J|congruence].
    + exfalso. apply negb_true_iff in X. rewrite F in X. assert (Y : starts_with (tx "tile_type_") (tx "tile_type_" ++ ty ++ tx ".json") = true) by (apply starts_with_spec; eauto). congruence.
  - intros [J ->]. rewrite forallb_forall in B. pose proof (B _ J) as X. apply existsb_exists in X as (path & I & F). apply text_eqb_eq in F.
    assert (T : tile_type_file path (path_parent path) ty) by (apply tile_type_path; [exact (SL _ I)|auto]).
    destruct (index_find e ty all (proj2 (Forall_forall _ _) SL) []) as [(before & path' & after & dir & E & T' & N & _)|[N _]].
    + assert (I' : In path' all) by (rewrite E; apply in_or_app; right; now left).
      assert (D : dir = root).
      { pose proof T' as T2. apply tile_type_path in T2 as [F2 P2]; [|exact (SL _ I')].
        rewrite forallb_forall in A. specialize (A _ I'). unfold type_of_path in A. apply orb_true_iff in A as [A|A].
        - apply andb_true_iff in A as [_ A]. apply text_eqb_eq in A. congruence.
        - exfalso. apply negb_true_iff in A. rewrite F2 in A.
          assert (Y : starts_with (tx "tile_type_") (tx "tile_type_" ++ ty ++ tx ".json") = true) by (apply starts_with_spec; eauto). congruence. }
      subst dir. exists all, before, path', after. auto.
    + exfalso. exact (N _ _ I T).
Qed.
Lemma demo_type_dir ty dir : type_dir demo_env (tx "db") ty dir <-> In ty the_types /\ dir = tx "db".
Proof.
  apply (listed_types _ _ (map fst demo_files)); [reflexivity| |vm_compute; reflexivity|vm_compute; reflexivity].
  apply Forall_forall. intros p I. assert (X : forallb (fun p => existsb (Ascii.eqb slash) p) (map fst demo_files) = true) by (vm_compute; reflexivity).
  rewrite forallb_forall in X. specialize (X _ I). apply existsb_exists in X as (c & J & E). apply Ascii.eqb_eq in E. now subst.
Qed.
Lemma moved_type_dir ty dir : type_dir moved_env (tx "new") ty dir <-> In ty the_types /\ dir = tx "new".
Proof.
  apply (listed_types _ _ (map fst moved_files)); [reflexivity| |vm_compute; reflexivity|vm_compute; reflexivity].
  apply Forall_forall. intros p I. assert (X : forallb (fun p => existsb (Ascii.eqb slash) p) (map fst moved_files) = true) by (vm_compute; reflexivity).
  rewrite forallb_forall in X. specialize (X _ I). apply existsb_exists in X as (c & J & E). apply Ascii.eqb_eq in E. now subst.
Qed.

(** The names of the entries of a line. *)
Definition seg_keys (l : text) : list tile_feature := match words l with name :: _ => [feature_name_address name] | [] => [] end.
Lemma seg_keys_ok l es : seg_line l es -> map fst es = seg_keys l.
Proof.
  intros H. unfold seg_keys. destruct H as [l S|l name bits nf sbs W NE N F].
  - apply words_none in S. apply words_spec in S. now rewrite S.
  - apply words_spec in W. rewrite W. apply seg_name_spec in N. cbn [map fst]. now rewrite N.
Qed.
Definition pip_keys (l : text) : list text := match words l with name :: _ => [name] | [] => [] end.
Lemma pip_keys_ok l es : pip_line l es -> map fst es = pip_keys l.
Proof.
  intros H. unfold pip_keys. destruct H as [|l name k t W T]; [reflexivity|]. apply words_spec in W. now rewrite W.
Qed.
Lemma repeats_ok {A K} (line : text -> list (K * A) -> Prop) (keys : text -> list K) (eqb : K -> K -> bool) ls :
  (forall l es, line l es -> map fst es = keys l) -> (forall x y, eqb x y = true <-> x = y) ->
  no_newlines ls = true -> apart eqb (flat_map keys ls) = true -> no_repeats line (unlines ls).
Proof.
  intros K1 E N A1 ls' es T F. assert (ls' = ls) as -> by (eapply text_lines_fun; [exact T|apply unlines_lines, no_newlines_ok, N]).
  apply (apart_ok eqb _ E) in A1. assert (X : map fst (concat es) = flat_map keys ls); [|now rewrite X].
  clear - F K1. induction F as [|l e ls es H F IH]; [reflexivity|]. cbn [concat flat_map]. rewrite map_app, IH. now rewrite (K1 _ _ H).
Qed.
Lemma moved_file_ok {A K} (line : text -> list (K * A) -> Prop) (keys : text -> list K) (eqb : K -> K -> bool) e q e' q' ls ls' :
  (forall l es, line l es -> map fst es = keys l) -> (forall x y, eqb x y = true <-> x = y) ->
  e_exists e q = e_exists e' q' -> e_read e q = Some (unlines ls) -> e_read e' q' = Some (unlines ls') -> no_newlines ls = true ->
  apart eqb (flat_map keys ls) = true -> Permutation ls ls' -> moved_file line e q e' q'.
Proof.
  intros K1 E X R R' N A1 P.
  assert (LM : lines_moved (unlines ls) (unlines ls')).
  { exists ls, ls'. split; [apply unlines_lines, no_newlines_ok, N|]. split; [|exact P]. apply unlines_lines. apply no_newlines_ok in N.
    rewrite Forall_forall in *. intros l I. apply N. eapply Permutation_in; [apply Permutation_sym, P|exact I]. }
  split; [exact X|]. split.
  - intros c F. unfold file in F. assert (c = unlines ls) as -> by congruence. split; [eapply repeats_ok; eauto|]. exists (unlines ls'). split; [exact R'|exact LM].
  - intros c F. unfold file in F. assert (c = unlines ls') as -> by congruence. exists (unlines ls). split; [exact R|exact LM].
Qed.
Lemma moved_file_none {A K} (line : text -> list (K * A) -> Prop) e q e' q' :
  e_exists e q = e_exists e' q' -> e_read e q = None -> e_read e' q' = None -> moved_file line e q e' q'.
Proof.
  intros X R R'. split; [exact X|]. unfold file. split; [intros c F|intros c F]; exfalso; congruence.
Qed.
Lemma demo_moved_types : moved_types demo_env (tx "db") moved_env (tx "new").
Proof.
  split; [|split].
  - intros ty dir H. apply demo_type_dir in H as [I _]. exists (tx "new"). now apply moved_type_dir.
  - intros ty dir H. apply moved_type_dir in H as [I _]. exists (tx "db"). now apply demo_type_dir.
  - intros ty dir dir' clb bram pips clb' bram' pips' TD TD' TP TP'. apply demo_type_dir in TD as [I ->]. apply moved_type_dir in TD' as [_ ->].
    apply type_paths_of in TP as (-> & -> & ->). apply type_paths_of in TP' as (-> & -> & ->).
    assert (ET : forall x y, tf_eqb x y = true <-> x = y) by exact tf_eqb_eq. assert (EX : forall x y, text_eqb x y = true <-> x = y) by exact text_eqb_eq.
    unfold the_types in I. destruct I as [<-|[<-|[<-|[]]]]; (split; [|split]).
    + apply (moved_file_ok seg_line seg_keys tf_eqb _ _ _ _ [tx "CLBLL_L.SLICEL_X0.ALUT.INIT[00] 02_15"; tx "CLBLL_L.SLICEL_X0.ALUT.INIT[01] 01_15 !02_14"]
        [tx "CLBLL_L.SLICEL_X0.ALUT.INIT[01] 01_15 !02_14"; tx "CLBLL_L.SLICEL_X0.ALUT.INIT[00] 02_15"] seg_keys_ok ET);
        [vm_compute; reflexivity..|]. apply perm_swap.
    + apply moved_file_none; vm_compute; reflexivity.
    + apply (moved_file_ok pip_line pip_keys text_eqb _ _ _ _ [tx "CLBLL_L.CLBLL_L_A1.IMUX_L6 always"] [tx "CLBLL_L.CLBLL_L_A1.IMUX_L6 always"] pip_keys_ok EX);
        [vm_compute; reflexivity..|]. apply Permutation_refl.
    + apply (moved_file_ok seg_line seg_keys tf_eqb _ _ _ _ liob_lines (rev liob_lines) seg_keys_ok ET); [vm_compute; reflexivity..|]. apply Permutation_rev.
    + apply moved_file_none; vm_compute; reflexivity.
    + apply moved_file_none; vm_compute; reflexivity.
    + apply (moved_file_ok seg_line seg_keys tf_eqb _ _ _ _ [tx "HCLK_IOI3.STEPDOWN 00_17"] [tx "HCLK_IOI3.STEPDOWN 00_17"] seg_keys_ok ET);
        [vm_compute; reflexivity..|]. apply Permutation_refl.
    + apply moved_file_none; vm_compute; reflexivity.
    + apply moved_file_none; vm_compute; reflexivity.
Qed.
Example C116_case : exists s s' fuel,
  runs demo_input s /\ main_program fuel Iso ex_orders moved_command = Ok (0, s') /\ st_bytes s' = st_bytes s.
Proof.
  destruct C81_case as (s & _ & _ & R & _). destruct (demo_run _ _ R) as (pins & feats & RS).
  pose proof (demo_pins _ _ _ (rs_says _ _ _ _ _ _ _ _ _ _ RS)) as ->.
  destruct (loaded_registry _ _ _ _ _ moved_sound_files document_order_good moved_db_parsed) as (pins' & DS & _).
  pose proof (moved_pins _ _ _ DS) as ->.
  destruct (C116_same_database_same_file _ _ ex_orders _ moved_command _ (tx "new") _ _ (tl_grid moved_db) _ (tl_part moved_db) _ [demo_pin] _ _ RS)
    as (fuel0 & s' & M & B).
  - vm_compute. discriminate.
  - exact demo_inside.
  - exact ex_orders_good.
  - exact moved_sound_files.
  - exact moved_sound_walk.
  - vm_compute. discriminate.
  - vm_compute. reflexivity.
  - discriminate.
  - reflexivity.
  - discriminate.
  - cbn. lia.
  - reflexivity.
  - reflexivity.
  - reflexivity.
  - reflexivity.
  - exact DS.
  - constructor.
    + exact moved_same_grid.
    + exact moved_same_part.
    + left. reflexivity.
    + apply C116_reordered_types. exact demo_moved_types.
  - exists s, s', fuel0. split; [exact R|]. split; [apply M; lia|exact B].
Qed.
Print Assumptions C116_case.
