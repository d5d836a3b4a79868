(** Descriptions that differ only in iteration order say the same. *)
From Verif Require Import Base BaseFacts Absl Part PartSpec PartFacts PartFromFacts DbText DbJson Database AsmSpec MapFacts DbSpec JsonSpec
  JsonFacts JsonFacts2 LoadSpec LoadFacts OrderFacts DbFacts Fasm Assembler EncodeSpec P_Database3 P_Database4 EndSpec SameSpec.

(** ** Reading the same document twice *)
Lemma json_map_same {K A} (key : text -> K -> Prop) (value : json -> A -> Prop) (R : A -> A -> Prop) j m m' :
  (forall s k k', key s k -> key s k' -> k = k') -> (forall v x x', value v x -> value v x' -> R x x') ->
  json_map key value j m -> json_map key value j m' -> same_entries R m m'.
Proof.
  intros KF VF (l & es & -> & F & N & C) (l' & es' & E & F' & N' & C'). injection E as <-.
  assert (X : forall (l : list (text * json)) es es',
      Forall2 (fun kv e => key (fst kv) (fst e) /\ value (snd kv) (snd e)) l es ->
      Forall2 (fun kv e => key (fst kv) (fst e) /\ value (snd kv) (snd e)) l es' ->
      map fst es = map fst es' /\ Forall2 (fun e e' : K * A => fst e = fst e' /\ R (snd e) (snd e')) es es').
  { clear - KF VF. intros l es es' H. revert es'. induction H as [|kv e l es [H1 H2] H IH]; intros es' H'; inversion H' as [|? e' ? es1 [H1' H2'] HT]; subst.
    - split; [reflexivity|constructor].
    - destruct (IH _ HT) as [A1 A2]. cbn [map]. split; [f_equal; eauto|]. constructor; eauto. }
  destruct (X _ _ _ F F') as [_ G]. split; [exact N|]. split; [exact N'|].
  assert (Y : forall (es es' : list (K * A)), Forall2 (fun e e' : K * A => fst e = fst e' /\ R (snd e) (snd e')) es es' ->
    forall k x, maps_to es k x -> exists x', maps_to es' k x' /\ R x x').
  { clear. intros es es' G k x (l1 & l2 & -> & N). apply Forall2_app_inv_l in G as (m1 & m2 & G1 & G2 & ->).
    inversion G2 as [|? [k' x'] ? ? [E1 E2] G3]; subst. cbn [fst snd] in *. subst k'.
    exists x'. split; [|exact E2]. exists m1, l'. split; [reflexivity|].
    assert (map fst m1 = map fst l1) as ->; [|exact N]. clear - G1. induction G1 as [|? ? ? ? [E _] ? IH]; [reflexivity|]. cbn [map]. now rewrite E, IH. }
  assert (Y' : forall (es es' : list (K * A)), Forall2 (fun e e' : K * A => fst e = fst e' /\ R (snd e) (snd e')) es es' ->
    forall k x, maps_to es' k x -> exists x', maps_to es k x' /\ R x' x).
  { clear. intros es es' G k x (l1 & l2 & -> & N). apply Forall2_app_inv_r in G as (m1 & m2 & G1 & G2 & ->).
    inversion G2 as [|[k' x'] ? ? ? [E1 E2] G3]; subst. cbn [fst snd] in *. subst k'.
    exists x'. split; [|exact E2]. exists m1, l. split; [reflexivity|].
    assert (map fst m1 = map fst l1) as ->; [|exact N]. clear - G1. induction G1 as [|? ? ? ? [E _] ? IH]; [reflexivity|]. cbn [map]. now rewrite E, IH. }
  split.
  - intros k x M. apply C in M. destruct (Y _ _ G _ _ M) as (x' & M' & Rx). exists x'. split; [now apply C'|exact Rx].
  - intros k x M. apply C' in M. destruct (Y' _ _ G _ _ M) as (x' & M' & Rx). exists x'. split; [now apply C|exact Rx].
Qed.

Lemma field_same {A} name (R : json -> A -> Prop) (S : A -> A -> Prop) j x x' :
  (forall v x x', R v x -> R v x' -> S x x') -> field name R j x -> field name R j x' -> S x x'.
Proof. intros F (v & M & H) (v' & M' & H'). rewrite (member_fun _ _ _ _ M' M) in H'. eauto. Qed.
Lemma opt_field_same {A} name (R : json -> A -> Prop) (S : A -> A -> Prop) j o o' :
  (forall v x x', R v x -> R v x' -> S x x') -> opt_field name R j o -> opt_field name R j o' ->
  match o, o' with Some x, Some x' => S x x' | None, None => True | _, _ => False end.
Proof.
  intros F [x H|N] [x' H'|N']; try exact I.
  - eapply field_same; eauto.
  - destruct H as (v & M & _). eapply member_missing; eauto.
  - destruct H' as (v & M & _). eapply member_missing; eauto.
Qed.
Lemma json_array_same {A} (R : json -> A -> Prop) (S : A -> A -> Prop) j xs xs' :
  (forall v x x', R v x -> R v x' -> S x x') -> json_array R j xs -> json_array R j xs' -> Forall2 S xs xs'.
Proof.
  intros F (l & -> & N) (l' & E & N'). injection E as <-. revert xs' N'.
  induction N as [n|n k v l x xs K V N IH]; intros xs' N'; inversion N'; subst; constructor; eauto.
Qed.
Lemma Forall2_eq {A} (l l' : list A) : Forall2 eq l l' -> l = l'.
Proof. induction 1; congruence. Qed.

Lemma json_u32_fun v (x x' : N) : json_u32 v x -> json_u32 v x' -> x = x'.
Proof. intros [-> _] [E _]. injection E as E. now apply N2Z.inj. Qed.
Lemma json_i32_fun v (x x' : Z) : json_i32 v x -> json_i32 v x' -> x = x'.
Proof. intros [-> _] [E _]. now injection E. Qed.
Lemma json_string_fun v (x x' : text) : json_string v x -> json_string v x' -> x = x'.
Proof. intros -> E. now injection E. Qed.
Lemma json_address_fun v (x x' : N) : json_address v x -> json_address v x' -> x = x'.
Proof. intros (s & -> & A) (s' & E & A'). injection E as <-. apply base_address_spec in A. apply base_address_spec in A'. congruence. Qed.
Lemma json_strings_fun v (x x' : list text) : json_strings v x -> json_strings v x' -> x = x'.
Proof.
  intros (l & -> & F) (l' & E & F'). injection E as <-. revert x' F'. induction F as [|a b l m (s & -> & C) F IH]; intros x' F'; inversion F' as [|? ? ? ? (s' & E & C') F1]; subst; [reflexivity|].
  injection E as <-. f_equal; [eapply c_string_fun; eauto|auto].
Qed.
Lemma json_string_map_same v m m' : json_string_map v m -> json_string_map v m' -> same_entries eq m m'.
Proof. apply json_map_same; [unfold same_key; congruence|apply json_string_fun]. Qed.
Lemma json_alias_same v a a' : json_alias v a -> json_alias v a' -> same_alias a a'.
Proof.
  intros (A & B & C) (A' & B' & C'). split; [|split].
  - eapply (field_same _ json_string_map (same_entries eq)); eauto using json_string_map_same.
  - eapply (field_same _ json_u32 eq); eauto using json_u32_fun.
  - eapply (field_same _ json_string eq); eauto using json_string_fun.
Qed.
Lemma json_block_same v b b' : json_block v b -> json_block v b' -> same_block b b'.
Proof.
  intros (A & B & C & D & E) (A' & B' & C' & D' & E'). split; [|split; [|split; [|split]]].
  - eapply (field_same _ json_address eq); eauto using json_address_fun.
  - eapply (field_same _ json_u32 eq); eauto using json_u32_fun.
  - eapply (field_same _ json_i32 eq); eauto using json_i32_fun.
  - eapply (field_same _ json_u32 eq); eauto using json_u32_fun.
  - eapply (opt_field_same _ json_alias same_alias); eauto using json_alias_same.
Qed.
Lemma json_tile_same v t t' : json_tile v t -> json_tile v t' -> same_tile t t'.
Proof.
  intros (A & B & C & D & E & F & G & H) (A' & B' & C' & D' & E' & F' & G' & H').
  split; [eapply (field_same _ json_string eq); eauto using json_string_fun|].
  split; [eapply (field_same _ json_u32 eq); eauto using json_u32_fun|].
  split; [eapply (field_same _ json_u32 eq); eauto using json_u32_fun|].
  split. { pose proof (opt_field_same _ json_string eq _ _ _ json_string_fun D D') as X.
    destruct (t_clock_region t), (t_clock_region t'); try contradiction; congruence. }
  split; [eapply (field_same _ json_strings eq); eauto using json_strings_fun|].
  split; [eapply (field_same _ json_bits (same_entries same_block)); eauto; intros ? ? ?; apply json_map_same; eauto using bus_key_fun, json_block_same|].
  split; eapply (field_same _ json_string_map (same_entries eq)); eauto using json_string_map_same.
Qed.
Lemma json_grid_same j g g' : json_grid j g -> json_grid j g' -> same_grid g g'.
Proof. apply json_map_same; [apply c_string_fun|apply json_tile_same]. Qed.
Lemma bank_key_fun k b b' : bank_key k b -> bank_key k b' -> b = b'.
Proof. intros H H'. apply bank_of_key_spec in H. apply bank_of_key_spec in H'. congruence. Qed.
Lemma json_banks_same v m m' : json_banks v m -> json_banks v m' -> same_entries eq m m'.
Proof.
  apply json_map_same; [apply bank_key_fun|]. intros w x x' (s & -> & C) (s' & E & C'). injection E as <-. eapply c_string_fun; eauto.
Qed.
Lemma json_row_same v m m' : json_row v m -> json_row v m' -> same_entries eq m m'.
Proof.
  apply json_map_same; [apply bus_key_fun|]. intros w x x' H H'. eapply (field_same _ json_columns eq); eauto.
  clear. intros w x x' H H'. apply Forall2_eq. eapply json_array_same; eauto. clear. intros w x x' H H'.
  eapply (field_same _ json_u32 eq); eauto using json_u32_fun.
Qed.
Lemma json_half_same v h h' : json_half v h -> json_half v h' -> Forall2 (same_entries eq) h h'.
Proof.
  apply json_array_same. intros w x x' H H'. eapply (field_same _ json_row (same_entries eq)); eauto using json_row_same.
Qed.
Lemma same_nil {K A} (R : A -> A -> Prop) : same_entries R (@nil (K * A)) [].
Proof. split; [constructor|]. split; [constructor|]. split; intros k x ([|] & ? & E & _); discriminate E. Qed.
Lemma json_part_same j p p' : json_part j p -> json_part j p' -> same_part p p'.
Proof.
  intros [o A B C (r & M & (D1 & D2))] [o' A' B' C' (r' & M' & (D1' & D2'))].
  rewrite (member_fun _ _ _ _ M' M) in *. cbn [fst snd] in *. split; [|split; [|split]].
  - eapply (field_same _ json_u32 eq); eauto using json_u32_fun.
  - rewrite C, C'. pose proof (opt_field_same _ json_banks (same_entries eq) _ _ _ json_banks_same B B') as X.
    destruct o, o'; try contradiction; [exact X|apply same_nil].
  - eapply (field_same _ _ (Forall2 (same_entries eq))); [|exact D1|exact D1']. intros v x x' H H'.
    eapply (field_same _ json_half (Forall2 (same_entries eq))); eauto using json_half_same.
  - eapply (field_same _ _ (Forall2 (same_entries eq))); [|exact D2|exact D2']. intros v x x' H H'.
    eapply (field_same _ json_half (Forall2 (same_entries eq))); eauto using json_half_same.
Qed.

Lemma file_in_fun e dir name c c' : file_in e dir name c -> file_in e dir name c' -> c = c'.
Proof. intros H H'. apply map_file_in in H. apply map_file_in in H'. congruence. Qed.
Lemma database_says_same e root part g p pins g' p' pins' : sound_files e ->
  database_says e root part g p pins -> database_says e root part g' p' pins' ->
  same_grid g g' /\ same_part p p' /\ pins = pins'.
Proof.
  intros SF (i & fd & pd & gc & gj & pc & pj & csv & PL & F1 & F2 & F3 & F4 & F5 & F6 & F7 & F8 & F9 & F10)
    (i' & fd' & pd' & gc' & gj' & pc' & pj' & csv' & PL' & F1' & F2' & F3' & F4' & F5' & F6' & F7' & F8' & F9' & F10').
  assert (i' = i) as -> by (apply part_info_spec in PL; apply part_info_spec in PL'; congruence).
  rewrite (inside_fun _ _ _ _ F1' F1), (inside_fun _ _ _ _ F2' F2) in *.
  rewrite (file_in_fun _ _ _ _ _ F3' F3) in *. rewrite (file_in_fun _ _ _ _ _ F6' F6) in *.
  rewrite (file_in_fun _ _ _ _ _ F9' F9) in *.
  assert (gj' = gj) as -> by congruence. assert (pj' = pj) as -> by congruence.
  split; [eapply json_grid_same; eauto|]. split; [eapply json_part_same; eauto|].
  destruct F9 as (cp & _ & F). destruct (SF _ _ F) as [B S].
  pose proof (pins_complete _ _ _ S B F10). pose proof (pins_complete _ _ _ S B F10'). congruence.
Qed.

(** ** The relations are symmetric *)
Lemma same_entries_sym {K A} (R R' : A -> A -> Prop) (m m' : list (K * A)) :
  (forall x y, R x y -> R' y x) -> same_entries R m m' -> same_entries R' m' m.
Proof.
  intros S (N & N' & F & B). split; [exact N'|]. split; [exact N|]. split.
  - intros k x M. destruct (B _ _ M) as (y & My & Ry). eauto.
  - intros k x M. destruct (F _ _ M) as (y & My & Ry). eauto.
Qed.
Lemma eq_entries_sym {K A} (m m' : list (K * A)) : same_entries eq m m' -> same_entries eq m' m.
Proof. apply same_entries_sym. congruence. Qed.
Lemma same_alias_sym a a' : same_alias a a' -> same_alias a' a.
Proof. intros (A & B & C). split; [now apply eq_entries_sym|]. split; congruence. Qed.
Lemma same_block_sym b b' : same_block b b' -> same_block b' b.
Proof.
  intros (A & B & C & D & E). repeat (split; [congruence|]). destruct (bb_alias b), (bb_alias b'); try contradiction; [now apply same_alias_sym|exact I].
Qed.
Lemma same_tile_sym t t' : same_tile t t' -> same_tile t' t.
Proof.
  intros (A & B & C & D & E & F & G & H). repeat (split; [congruence|]).
  split; [exact (same_entries_sym _ _ _ _ same_block_sym F)|]. split; now apply eq_entries_sym.
Qed.
Lemma same_grid_sym g g' : same_grid g g' -> same_grid g' g.
Proof. apply same_entries_sym. apply same_tile_sym. Qed.
Lemma same_part_sym p p' : same_part p p' -> same_part p' p.
Proof.
  intros (A & B & C & D). split; [congruence|]. split; [now apply eq_entries_sym|].
  split; [clear - C; induction C|clear - D; induction D]; constructor; auto using eq_entries_sym.
Qed.

(** Maps with equal values are permutations of each other. *)
Lemma same_entries_In {K A} (R : A -> A -> Prop) (m m' : list (K * A)) k x :
  same_entries R m m' -> In (k, x) m -> exists x', In (k, x') m' /\ R x x'.
Proof.
  intros (N & N' & F & _) I. destruct (F k x) as (x' & M & H); [now apply In_maps_to_nodup|]. exists x'. split; [now apply maps_to_In|exact H].
Qed.
Lemma same_entries_perm {K A} (m m' : list (K * A)) : same_entries eq m m' -> Permutation m m'.
Proof.
  intros S. pose proof S as (N & N' & _). apply NoDup_Permutation; [eapply NoDup_map_inv; exact N|eapply NoDup_map_inv; exact N'|].
  intros [k x]. split; intros I.
  - destruct (same_entries_In _ _ _ _ _ S I) as (x' & I' & ->). exact I'.
  - destruct (same_entries_In _ _ _ _ _ (eq_entries_sym _ _ S) I) as (x' & I' & ->). exact I'.
Qed.
Lemma same_entries_key {K A} (R : A -> A -> Prop) (m m' : list (K * A)) k : same_entries R m m' -> has_key m k -> has_key m' k.
Proof.
  intros S H. unfold has_key in *. apply in_map_iff in H as ([k' x] & E & I). cbn [fst] in E. subst k'.
  destruct (same_entries_In _ _ _ _ _ S I) as (x' & I' & _). apply in_map_iff. exists (k, x'). auto.
Qed.
Lemma eq_entries_maps {K A} (m m' : list (K * A)) k x : same_entries eq m m' -> maps_to m k x -> maps_to m' k x.
Proof. intros (_ & _ & F & _) M. destruct (F _ _ M) as (x' & M' & ->). exact M'. Qed.

(** ** Tiles *)
Lemma renamed_same al al' f f' : same_alias al al' -> renamed al f f' -> renamed al' f f'.
Proof.
  intros (S & _) [a site site' D M|a site D N|D].
  - apply (renamed_listed _ _ a site); [exact D|]. eapply eq_entries_maps; eauto.
  - apply (renamed_unlisted _ _ a site); [exact D|]. intros K. apply N. eapply same_entries_key; [apply eq_entries_sym, S|exact K].
  - now apply renamed_plain.
Qed.
Lemma seen_same t t' f ty s : same_tile t t' -> seen_as t f ty s -> seen_as t' f ty s.
Proof.
  intros (A & _ & _ & _ & _ & B & _) [H|bus b al f' I E R].
  - rewrite A. apply seen_plain. intros bus b' I'.
    destruct (same_entries_In _ _ _ _ _ (same_entries_sym _ _ _ _ same_block_sym B) I') as (b & Ib & (_ & _ & _ & _ & X)).
    rewrite (H _ _ Ib) in X. destruct (bb_alias b'); [contradiction|reflexivity].
  - destruct (same_entries_In _ _ _ _ _ B I) as (b' & I' & (_ & _ & _ & _ & X)). rewrite E in X.
    destruct (bb_alias b') as [al'|] eqn:E'; [|contradiction]. rewrite (proj2 (proj2 X)).
    apply (seen_alias _ _ bus b'); auto. eapply renamed_same; eauto.
Qed.
Lemma usable_tile_same t t' : same_tile t t' -> usable_tile t -> usable_tile t'.
Proof.
  intros S [_ U]. split; [apply S|]. intros f ty1 f1 ty2 f2 A B. apply same_tile_sym in S.
  exact (U _ _ _ _ _ (seen_same _ _ _ _ _ S A) (seen_same _ _ _ _ _ S B)).
Qed.
Lemma first_word_same b b' : same_block b b' -> first_word b = first_word b'.
Proof.
  intros (_ & _ & O & _ & A). unfold first_word. rewrite O. destruct (bb_alias b), (bb_alias b'); try contradiction; [|reflexivity].
  now rewrite (proj1 (proj2 A)).
Qed.
Lemma lands_same b b' sb a w i : same_block b b' -> lands_at b sb a w i -> lands_at b' sb a w i.
Proof. intros S (A & B & C). split; [rewrite <- (proj1 S); exact A|]. split; [exact B|]. now rewrite <- (first_word_same _ _ S). Qed.

Lemma same_grid_maps g g' n t : same_grid g g' -> maps_to g n t -> exists t', maps_to g' n t' /\ same_tile t t'.
Proof. intros S. apply S. Qed.
Lemma pudcb_pin_same g g' tile site : same_grid g g' -> pudcb_pin g tile site -> pudcb_pin g' tile site.
Proof.
  intros S (t & fn & I & If & C). destruct (same_entries_In _ _ _ _ _ S I) as (t' & I' & (_ & _ & _ & _ & _ & _ & P & _)).
  exists t', fn. split; [exact I'|]. split; [|exact C]. exact (Permutation_in _ (same_entries_perm _ _ P) If).
Qed.
Lemma pudcb_default_same g g' l : same_grid g g' -> pudcb_default g l -> pudcb_default g' l.
Proof.
  intros S [[-> N]|(tile & site & label & P & L & ->)].
  - left. split; [reflexivity|]. intros tile site P. apply (N tile site). eapply pudcb_pin_same; [apply same_grid_sym, S|exact P].
  - right. exists tile, site, label. split; [eapply pudcb_pin_same; eauto|auto].
Qed.
Lemma site_label_fun s l l' : site_label s l -> site_label s l' -> l = l'.
Proof.
  intros [p d I|p d I] H; inversion H as [p' d' I' E|p' d' I' E]; subst; try reflexivity; exfalso;
    apply app_inj_tail in E; destruct E as [_ ->]; cbn in I, I'; repeat destruct I as [<-|I]; try contradiction;
    repeat destruct I' as [I'|I']; try contradiction; discriminate I'.
Qed.
Lemma pudcb_unique g l l' : one_pudcb g -> pudcb_default g l -> pudcb_default g l' -> l = l'.
Proof.
  intros O [[-> N]|(tile & site & label & P & L & ->)] [[-> N']|(tile' & site' & label' & P' & L' & ->)]; auto.
  - exfalso. eapply N; eauto.
  - exfalso. eapply N'; eauto.
  - destruct (O _ _ _ _ P P') as [-> ->]. now rewrite (site_label_fun _ _ _ L L').
Qed.

(** ** What the features mean *)
Section Grids.
  Context (e : environment) (root : text) (g g' : tilegrid).
  Hypothesis S : same_grid g g'.
  Lemma listed_pip_same tile rest : listed_pip e root g tile rest -> listed_pip e root g' tile rest.
  Proof.
    intros (t & ty & seen & d & M & A & D & K). destruct (same_grid_maps _ _ _ _ S M) as (t' & M' & T).
    exists t', ty, seen, d. split; [exact M'|]. split; [eapply seen_same; eauto|auto].
  Qed.
  Lemma listed_same tile rest k bus b l : listed e root g tile rest k bus b l ->
    exists b', listed e root g' tile rest k bus b' l /\ same_block b b'.
  Proof.
    intros (t & ty & seen & d & segs & M & A & D & N1 & N2 & MB & MS & ML).
    destruct (same_grid_maps _ _ _ _ S M) as (t' & M' & T).
    destruct (proj1 (proj2 (proj2 (proj1 (proj2 (proj2 (proj2 (proj2 (proj2 T)))))))) _ _ MB) as (b' & MB' & SB).
    exists b'. split; [|exact SB]. exists t', ty, seen, d, segs. split; [exact M'|]. split; [eapply seen_same; eauto|auto 10].
  Qed.
  Lemma sets_bit_same f a w i : sets_bit e root g f a w i -> sets_bit e root g' f a w i.
  Proof.
    intros (tile & rest & k & bus & b & l & sb & FD & En & L & I & St & La).
    destruct (listed_same _ _ _ _ _ _ L) as (b' & L' & SB). exists tile, rest, k, bus, b', l, sb.
    repeat (split; [assumption|]). eapply lands_same; eauto.
  Qed.
End Grids.
Lemma covered_same e root g g' f : same_grid g g' -> covered e root g f -> covered e root g' f.
Proof.
  intros S [(tile & rest & FD & K) W]. split.
  - exists tile, rest. split; [exact FD|]. intros k E. destruct (K k E) as [P|(bus & b & l & L)].
    + left. eapply listed_pip_same; eauto.
    + right. destruct (listed_same _ _ _ _ S _ _ _ _ _ _ L) as (b' & L' & _). eauto.
  - intros a w i Q. apply (W a w i). eapply sets_bit_same; [apply same_grid_sym, S|exact Q].
Qed.

(** ** The device *)
Lemma has_frame_same p p' t bottom r c m : same_part p p' -> has_frame p t bottom r c m -> has_frame p' t bottom r c m.
Proof.
  intros (_ & _ & B & T) (row & cols & count & R & I & C & L).
  assert (F : Forall2 (same_entries eq) (half p bottom) (half p' bottom)) by (destruct bottom; assumption).
  assert (X : exists row', nth_error (half p' bottom) (N.to_nat r) = Some row' /\ same_entries eq row row').
  { clear - F R. revert R. generalize (N.to_nat r). induction F as [|x y l l' H F IH]; intros [|n] R; try discriminate R; cbn [nth_error] in *.
    - injection R as <-. eauto.
    - eauto. }
  destruct X as (row' & R' & Sr). exists row', cols, count. split; [exact R'|]. split; [|auto].
  exact (Permutation_in _ (same_entries_perm _ _ Sr) I).
Qed.
Lemma frame_address_same p p' a : same_part p p' -> is_frame_address p a -> is_frame_address p' a.
Proof. intros S (t & b & r & c & m & H & ->). exists t, b, r, c, m. split; [eapply has_frame_same; eauto|reflexivity]. Qed.
Lemma device_frames_perm p p' : same_part p p' -> Permutation (device_frames p) (device_frames p').
Proof.
  intros (_ & _ & B & T). unfold device_frames.
  assert (X : forall bottom h h', Forall2 (same_entries eq) h h' -> Permutation (half_frames bottom h) (half_frames bottom h')).
  { clear. intros bottom h h' H. unfold half_frames.
    match goal with |- Permutation (flat_map ?F (enum 0 h)) _ =>
      assert (G : forall i, Permutation (flat_map F (enum i h)) (flat_map F (enum i h'))); [|apply G] end.
    induction H as [|r r' h h' R H IH]; intros i; cbn [enum flat_map]; [constructor|].
    apply Permutation_app; [|apply IH]. cbn [fst snd]. apply Permutation_flat_map. now apply same_entries_perm. }
  apply Permutation_app; apply X; assumption.
Qed.
Lemma usable_device_same p p' : same_part p p' -> usable_device p -> usable_device p'.
Proof.
  intros S (F & H & Z & I & L). split; [|split; [|split; [|split]]].
  - intros bottom. destruct (F bottom) as [F1 F2].
    assert (X : Forall2 (same_entries eq) (half p bottom) (half p' bottom)) by (destruct S as (_ & _ & B & T); destruct bottom; assumption).
    split; [assert (EL : List.length (half p bottom) = List.length (half p' bottom)) by (clear - X; induction X; cbn [List.length]; congruence); now rewrite <- EL|]. clear - X F2. induction X as [|r r' h h' R X IH]; [constructor|].
    inversion F2 as [|? ? [_ Fr] Fs]; subst. constructor; [|auto]. split; [apply R|]. intros t cols Ic. apply Fr.
    exact (Permutation_in _ (Permutation_sym (same_entries_perm _ _ R)) Ic).
  - intros t b r c m Hf. apply same_part_sym in S as S'. apply (has_frame_same _ _ _ _ _ _ _ S') in Hf. destruct (H _ _ _ _ _ Hf) as (H1 & H2 & H3).
    split; [|split]; [intros c' Lc|intros r' Lr|]; eapply has_frame_same; eauto.
  - eapply frame_address_same; eauto.
  - now rewrite <- (proj1 S).
  - now rewrite <- (Permutation_length (device_frames_perm _ _ S)).
Qed.
Lemma consistent_same e root g p g' p' : same_grid g g' -> same_part p p' ->
  consistent_description e root g p -> consistent_description e root g' p'.
Proof.
  intros S P [A [B1 B2] C D E]. pose proof (same_grid_sym _ _ S) as S'. constructor.
  - intros n t M. destruct (same_grid_maps _ _ _ _ S' M) as (t' & M' & T). apply (usable_tile_same t'); [now apply same_tile_sym|eauto].
  - split.
    + intros tile t s fn M K I. destruct (same_grid_maps _ _ _ _ S' M) as (t' & M' & T). eapply B1; eauto.
      apply (Permutation_in _ (same_entries_perm _ _ (proj2 (proj2 (proj2 (proj2 (proj2 (proj2 (proj2 T))))))))). exact I.
    + intros tile site Q. eapply B2. eapply pudcb_pin_same; eauto.
  - eapply usable_device_same; eauto.
  - intros tile t bus b j M MB L. destruct (same_grid_maps _ _ _ _ S' M) as (t' & M' & T).
    destruct (proj1 (proj2 (proj2 (proj1 (proj2 (proj2 (proj2 (proj2 (proj2 T)))))))) _ _ MB) as (b' & MB' & SB).
    eapply frame_address_same; [exact P|]. rewrite (proj1 SB). eapply D; eauto. now rewrite <- (proj1 (proj2 SB)).
  - intros tile rest k bus b l sb L I. destruct (listed_same _ _ _ _ S' _ _ _ _ _ _ L) as (b' & L' & SB).
    rewrite (proj1 (proj2 SB)). eapply E; eauto.
Qed.

(** ** Banks and implied features *)
Lemma in_bank_same p p' pins bank tile : same_part p p' -> in_bank (dp_iobanks p) pins bank tile -> in_bank (dp_iobanks p') pins bank tile.
Proof.
  intros (_ & I & _) [(s & H & E)|H]; [left|now right]. exists s. split; [|exact E]. exact (Permutation_in _ (same_entries_perm _ _ I) H).
Qed.
Lemma first_of_pairs {A} (x : list (A * text)) l1 l2 b tile : x = l1 ++ (b, tile) :: l2 -> (forall b, ~ In (b, tile) l1) ->
  forall l1' l2' b', x = l1' ++ (b', tile) :: l2' -> (forall b, ~ In (b, tile) l1') -> b = b'.
Proof.
  intros -> N l1' l2' b' E N'. revert l1' E N N'. induction l1 as [|y l1 IH]; intros [|y' l1'] E N N'; cbn [app] in E.
  - now injection E.
  - exfalso. injection E as E _. apply (N' b). left. now symmetry.
  - exfalso. injection E as E _. apply (N b'). now left.
  - injection E as -> E. apply (IH l1' E); intros b0 I; [apply (N b0)|apply (N' b0)]; now right.
Qed.
Lemma bank_of_tile_split p pins tile bank : distinct_banks p ->
  (bank_of_tile p pins tile bank <->
   (exists s, In (bank, s) (dp_iobanks p) /\ tile = tx "HCLK_IOI3_" ++ s) \/
   ((forall b s, In (b, s) (dp_iobanks p) -> tile <> tx "HCLK_IOI3_" ++ s) /\
    exists l1 l2, map (fun q => (pp_bank q, pp_tile q)) pins = l1 ++ (bank, tile) :: l2 /\ forall b, ~ In (b, tile) l1)).
Proof.
  intros D. unfold bank_of_tile, bank_pairs. set (h := tx "HCLK_IOI3_"). clearbody h. set (ps := map (fun q => (pp_bank q, pp_tile q)) pins).
  unfold distinct_banks in D. revert D. generalize (dp_iobanks p). intros io D.
  assert (First : forall b s, In (b, s) io -> exists l1 l2,
     map (fun kv : N * text => (fst kv, h ++ snd kv)) io ++ ps = l1 ++ (b, h ++ s) :: l2 /\ forall b', ~ In (b', h ++ s) l1).
  { intros b s I. apply in_split in I as (i1 & i2 & ->). exists (map (fun kv : N * text => (fst kv, h ++ snd kv)) i1), (map (fun kv : N * text => (fst kv, h ++ snd kv)) i2 ++ ps).
    split; [rewrite map_app, <- app_assoc; reflexivity|]. intros b' I. apply in_map_iff in I as ([b2 s2] & E & I). cbn [fst snd] in E.
    injection E as _ E. apply app_inv_head in E. subst s2. rewrite map_app in D. cbn [map snd] in D. apply NoDup_remove_2 in D. apply D.
    apply in_or_app. left. apply in_map_iff. exists (b2, s). auto. }
  split.
  - intros (l1 & l2 & E & N).
    assert (X : (exists b s, In (b, s) io /\ tile = h ++ s) \/ forall b s, In (b, s) io -> tile <> h ++ s).
    { clear. induction io as [|[b s] io IH]; [right; intros ? ? []|]. destruct (list_eq_dec ascii_dec tile (h ++ s)) as [->|Ne].
      - left. exists b, s. split; [now left|reflexivity].
      - destruct IH as [(b' & s' & I & E)|N]; [left; exists b', s'; split; [now right|exact E]|].
        right. intros b' s' [I|I]; [injection I as <- <-; exact Ne|now apply (N b')]. }
    destruct X as [(b & s & I & ->)|X].
    + left. exists s. split; [|reflexivity]. destruct (First b s I) as (m1 & m2 & E' & N').
      now rewrite (first_of_pairs _ _ _ _ _ E N _ _ _ E' N').
    + right. split; [exact X|].
      assert (Y : exists l3, ps = l3 ++ (bank, tile) :: l2 /\ incl l3 l1).
      { clear - E X. revert l1 E. induction io as [|[b s] io IH]; intros l1 E; cbn [map app fst snd] in E; [exists l1; split; [exact E|apply incl_refl]|].
        destruct l1 as [|y l1]; cbn [app] in E.
        - exfalso. apply (X b s); [now left|]. congruence.
        - injection E as E1 E2. destruct (IH (fun b s I => X b s (or_intror I)) l1 E2) as (l3 & E3 & I3). exists l3. split; [exact E3|]. now apply incl_tl. }
      destruct Y as (l3 & E3 & I3). exists l3, l2. split; [exact E3|]. intros b I. apply (N b). now apply I3.
  - intros [(s & I & ->)|(X & l1 & l2 & E & NI)]; [now apply First|].
    exists (map (fun kv : N * text => (fst kv, h ++ snd kv)) io ++ l1), l2. rewrite E, app_assoc. split; [reflexivity|].
    intros b I. apply in_app_or in I as [I|I]; [|now apply (NI b)]. apply in_map_iff in I as ([b2 s2] & E' & I). cbn [fst snd] in E'.
    injection E' as _ E'. apply (X b2 s2 I). now symmetry.
Qed.
Lemma distinct_banks_same p p' : same_part p p' -> distinct_banks p -> distinct_banks p'.
Proof. intros (_ & I & _) D. eapply Permutation_NoDup; [apply Permutation_map, same_entries_perm, I|exact D]. Qed.
Lemma bank_of_tile_same p p' pins tile bank : same_part p p' -> distinct_banks p ->
  bank_of_tile p pins tile bank -> bank_of_tile p' pins tile bank.
Proof.
  intros S D. pose proof (distinct_banks_same _ _ S D) as D'. rewrite !bank_of_tile_split by assumption.
  destruct S as (_ & I & _). apply same_entries_perm in I. intros [(s & H & E)|[N H]].
  - left. exists s. split; [|exact E]. exact (Permutation_in _ I H).
  - right. split; [|exact H]. intros b s Hb. apply (N b s). exact (Permutation_in _ (Permutation_sym I) Hb).
Qed.
Lemma steps_down_same p p' pins fs bank tag : same_part p p' -> distinct_banks p ->
  bank_steps_down p pins fs bank tag -> bank_steps_down p' pins fs bank tag.
Proof.
  intros S D (f & tile & site & I & U & C & B). exists f, tile, site. repeat (split; [assumption|]). eapply bank_of_tile_same; eauto.
Qed.
Lemma in_design_same g g' p p' pins fs f : same_grid g g' -> same_part p p' -> distinct_banks p ->
  in_design g p pins fs f -> in_design g' p' pins fs f.
Proof.
  intros S P D [I|(n & I & E)]; [now left|]. right. exists n. split; [|exact E].
  destruct I as [bank tag tile t s fn label W R C M Is L NU|bank tag tile W R C].
  - destruct (same_grid_maps _ _ _ _ S M) as (t' & M' & T).
    apply (implied_site g' p' pins fs bank tag tile t' s fn label); try assumption.
    + eapply steps_down_same; eauto.
    + eapply in_bank_same; eauto.
    + apply (Permutation_in _ (same_entries_perm _ _ (proj2 (proj2 (proj2 (proj2 (proj2 (proj2 (proj2 T))))))))). exact Is.
  - apply (implied_clock g' p' pins fs bank tag tile); try assumption; [eapply steps_down_same; eauto|eapply in_bank_same; eauto].
Qed.
Lemma package_covers_same g g' p p' pins fs : same_grid g g' -> same_part p p' -> distinct_banks p ->
  package_covers g p pins fs -> package_covers g' p' pins fs.
Proof.
  intros S P D [A B]. pose proof (same_part_sym _ _ P) as P'. pose proof (distinct_banks_same _ _ P D) as D'. split.
  - intros f tile site tag I U C. destruct (A _ _ _ _ I U C) as (bank & H). exists bank. eapply bank_of_tile_same; eauto.
  - intros bank tag tile W R C. eapply same_entries_key; [exact S|].
    apply (B bank tag); [eapply steps_down_same; eauto|eapply in_bank_same; eauto|exact C].
Qed.
Lemma configuration_same e root g g' p p' pins feats fs : same_grid g g' -> same_part p p' -> distinct_banks p ->
  configuration_of e root g p pins feats fs -> configuration_of e root g' p' pins feats fs.
Proof.
  intros S P D (A & B & C & E). pose proof (same_part_sym _ _ P) as P'. pose proof (distinct_banks_same _ _ P D) as D'.
  pose proof (same_grid_sym _ _ S) as S'. split; [exact A|]. split; [|split; [exact C|]].
  - intros a. rewrite B. split; apply frame_address_same; assumption.
  - intros a w i. rewrite E. split; intros (f & I & Q); exists f; (split; [eapply in_design_same; eauto|eapply sets_bit_same; eauto]).
Qed.

(** ** A configuration is determined by its bits *)
Lemma words_ext (f f' : list N) : is_frame_content f -> is_frame_content f' ->
  (forall w i x, nth_error f w = Some x -> N.testbit x i = true -> exists x', nth_error f' w = Some x' /\ N.testbit x' i = true) ->
  (forall w i x, nth_error f' w = Some x -> N.testbit x i = true -> exists x', nth_error f w = Some x' /\ N.testbit x' i = true) -> f = f'.
Proof.
  intros [L _] [L' _] A B. apply nth_ext with 0 0; [congruence|]. intros n Hn.
  destruct (nth_error f n) as [x|] eqn:E; [|apply nth_error_None in E; lia].
  destruct (nth_error f' n) as [x'|] eqn:E'; [|apply nth_error_None in E'; lia].
  rewrite (nth_error_nth _ _ 0 E), (nth_error_nth _ _ 0 E'). apply N.bits_inj. intros i.
  destruct (N.testbit x i) eqn:T, (N.testbit x' i) eqn:T'; try reflexivity.
  - destruct (A _ _ _ E T) as (y & Ey & Ty). congruence.
  - destruct (B _ _ _ E' T') as (y & Ey & Ty). congruence.
Qed.
Lemma sorted_keys_eq (l l' : list N) : StronglySorted N.lt l -> StronglySorted N.lt l' -> (forall x, In x l <-> In x l') -> l = l'.
Proof.
  intros S. revert l'. induction S as [|x l S IH F]; intros l' S' E.
  - destruct l' as [|y l']; [reflexivity|]. exfalso. apply (E y). now left.
  - destruct S' as [|y l' S' F']; [exfalso; apply (E x); now left|]. rewrite Forall_forall in *.
    assert (x = y). { destruct (proj1 (E x) (or_introl eq_refl)) as [->|I]; [reflexivity|].
      destruct (proj2 (E y) (or_introl eq_refl)) as [->|I']; [reflexivity|]. specialize (F _ I'). specialize (F' _ I). lia. }
    subst y. f_equal. apply IH; [exact S'|]. intros z. split; intros I.
    + destruct (proj1 (E z) (or_intror I)) as [<-|I']; [specialize (F _ I); lia|exact I'].
    + destruct (proj2 (E z) (or_intror I)) as [<-|I']; [specialize (F' _ I); lia|exact I'].
Qed.
Definition shows (fs : list (N * list N)) (a w i : N) : Prop :=
  exists ws x, In (a, ws) fs /\ nth_error ws (N.to_nat w) = Some x /\ N.testbit x i = true.
Lemma frames_ext fs fs' :
  StronglySorted N.lt (map fst fs) -> StronglySorted N.lt (map fst fs') -> (forall a, In a (map fst fs) <-> In a (map fst fs')) ->
  Forall (fun kv => is_frame_content (snd kv)) fs -> Forall (fun kv => is_frame_content (snd kv)) fs' ->
  (forall a w i, shows fs a w i <-> shows fs' a w i) -> fs = fs'.
Proof.
  intros A A' B C C' E.
  assert (K : map fst fs = map fst fs') by (apply sorted_keys_eq; auto).
  assert (ND : NoDup (map fst fs)).
  { clear - A. induction A as [|x l S IH F]; constructor; [|exact IH]. intros I. rewrite Forall_forall in F. specialize (F _ I). lia. }
  assert (W : forall a f f', In (a, f) fs -> In (a, f') fs' -> f = f').
  { rewrite Forall_forall in C, C'. intros a f f' I I'. apply words_ext; [exact (C _ I)|exact (C' _ I')|..].
    - intros w i x Ex T. destruct (proj1 (E a (N.of_nat w) i)) as (ws & y & J & Ey & Ty).
      { exists f, x. rewrite Nat2N.id. auto. }
      rewrite Nat2N.id in Ey. assert (ws = f') as ->; [|eauto]. rewrite K in ND.
      apply (In_maps_to_nodup _ _ _ ND) in J. apply (In_maps_to_nodup _ _ _ ND) in I'.
      exact (maps_to_fun _ N.eqb_eq _ _ _ _ J I').
    - intros w i x Ex T. destruct (proj2 (E a (N.of_nat w) i)) as (ws & y & J & Ey & Ty).
      { exists f', x. rewrite Nat2N.id. auto. }
      rewrite Nat2N.id in Ey. assert (ws = f) as ->; [|eauto].
      apply (In_maps_to_nodup _ _ _ ND) in J. apply (In_maps_to_nodup _ _ _ ND) in I.
      exact (maps_to_fun _ N.eqb_eq _ _ _ _ J I). }
  clear - K W. revert fs' K W. induction fs as [|[a f] fs IH]; intros [|[a' f'] fs'] K W; try discriminate K; [reflexivity|].
  cbn [map fst] in K. injection K as <- K. f_equal.
  - f_equal. apply (W a); now left.
  - apply IH; [exact K|]. intros a0 g g' I I'. apply (W a0); now right.
Qed.
Lemma configuration_fun e root g p pins feats fs fs' :
  configuration_of e root g p pins feats fs -> configuration_of e root g p pins feats fs' -> fs = fs'.
Proof.
  intros (A & B & C & E) (A' & B' & C' & E'). apply frames_ext; auto.
  - intros a. now rewrite B, B'.
  - intros a w i. unfold shows. now rewrite E, E'.
Qed.

(** ** The part built from the description *)
Lemma row_from_same r r' : row_fits r -> same_entries eq r r' -> row_from r = row_from r'.
Proof.
  intros F S. assert (F' : row_fits r').
  { destruct F as [_ F]. split; [apply S|]. intros t cols I. apply F. exact (Permutation_in _ (Permutation_sym (same_entries_perm _ _ S)) I). }
  apply bt_ext; try apply row_from_sorted. intros b. rewrite !row_from_find.
  assert (X : forall r r', row_fits r -> row_fits r' -> same_entries eq r r' -> forall bus, first_bus b r = Some bus -> first_bus b r' = Some bus).
  { clear. intros r r' F F' S bus E. destruct (first_bus_In _ _ _ E) as (t & cols & I & Ne & -> & ->).
    rewrite (row_fits_block r t cols F I). apply first_bus_find; auto. exact (Permutation_in _ (same_entries_perm _ _ S) I). }
  destruct (first_bus b r) as [x|] eqn:E.
  - symmetry. exact (X r r' F F' S _ E).
  - destruct (first_bus b r') as [x|] eqn:E'; [|reflexivity]. rewrite (X r' r F' F (eq_entries_sym _ _ S) _ E') in E. discriminate E.
Qed.
Lemma part_from_same p p' : part_fits p -> same_part p p' -> part_from p = part_from p'.
Proof.
  intros F (I & _ & B & T).
  assert (X : forall h h', Forall row_fits h -> Forall2 (same_entries eq) h h' -> region_from h = region_from h').
  { clear. intros h h' F H. unfold region_from. generalize (@nil (N * cfg_row)). generalize 0. induction H as [|r r' h h' R H IH]; intros i m; [reflexivity|].
    inversion F; subst. cbn [region_from_aux]. rewrite (row_from_same r r') by assumption. now apply IH. }
  unfold part_from. rewrite I. f_equal; apply X; try assumption; [apply (F false)|apply (F true)].
Qed.
