(** Putting the containers of a loaded database in another iteration order keeps what the files say. *)
From Verif Require Import Base BaseFacts Absl Part DbText DbJson Database AsmSpec MapFacts DbSpec JsonSpec.

Lemma maps_to_In {K A} (l : list (K * A)) k v : maps_to l k v -> In (k, v) l.
Proof. intros (l1 & l2 & -> & _). apply in_or_app. right. now left. Qed.
Lemma In_maps_to_nodup {K A} (l : list (K * A)) k v : NoDup (map fst l) -> In (k, v) l -> maps_to l k v.
Proof.
  intros N I. apply in_split in I as (l1 & l2 & ->). exists l1, l2. split; [reflexivity|].
  rewrite map_app in N. cbn [map fst] in N. apply NoDup_remove_2 in N. intros X. apply N. apply in_or_app. now left.
Qed.
(** A map without repeated keys is determined by its pairs. *)
Lemma maps_to_nodup {K A} (l : list (K * A)) k v : NoDup (map fst l) -> (maps_to l k v <-> In (k, v) l).
Proof. intros N. split; [apply maps_to_In|now apply In_maps_to_nodup]. Qed.
Lemma maps_to_perm {K A} (l l' : list (K * A)) k v : NoDup (map fst l) -> Permutation l' l -> (maps_to l' k v <-> maps_to l k v).
Proof.
  intros N P. assert (N' : NoDup (map fst l')) by (eapply Permutation_NoDup; [apply Permutation_sym, Permutation_map, P|exact N]).
  rewrite !maps_to_nodup by assumption. split; intros I; [exact (Permutation_in _ P I)|exact (Permutation_in _ (Permutation_sym P) I)].
Qed.
Lemma collects_perm {K A} (es m m' : list (K * A)) : collects es m -> Permutation m' m -> collects es m'.
Proof.
  intros [N C] P. split; [eapply Permutation_NoDup; [apply Permutation_sym, Permutation_map, P|exact N]|].
  intros k v. rewrite <- C. now apply maps_to_perm.
Qed.
Lemma json_map_perm {K A} key value j (m m' : list (K * A)) : json_map key value j m -> Permutation m' m -> json_map key value j m'.
Proof. intros (l & es & -> & F & C) P. exists l, es. split; [reflexivity|]. split; [exact F|]. eapply collects_perm; eauto. Qed.

(** Values changed key by key. *)
Definition remap {K A B} (f : K -> A -> B) (l : list (K * A)) : list (K * B) := map (fun kv => (fst kv, f (fst kv) (snd kv))) l.
Lemma remap_keys {K A B} (f : K -> A -> B) l : map fst (remap f l) = map fst l.
Proof. unfold remap. rewrite map_map. reflexivity. Qed.
Lemma remap_maps_to {K A B} (f : K -> A -> B) l k v : maps_to (remap f l) k v <-> exists x, maps_to l k x /\ v = f k x.
Proof.
  split.
  - intros (l1 & l2 & E & N). unfold remap in E. apply map_eq_app in E as (a & b & -> & Ea & Eb).
    apply map_eq_cons in Eb as ([k' x] & b' & -> & Ec & _). cbn [fst snd] in Ec. injection Ec as -> <-.
    exists x. split; [|reflexivity]. exists a, b'. split; [reflexivity|]. rewrite <- Ea in N. fold (remap f a) in N. now rewrite remap_keys in N.
  - intros (x & (l1 & l2 & -> & N) & ->). exists (remap f l1), (remap f l2). unfold remap at 1. rewrite map_app. cbn [map fst snd].
    split; [reflexivity|]. now rewrite remap_keys.
Qed.
Lemma collects_remap {K A B} (f : K -> A -> B) es m : collects es m -> collects (remap f es) (remap f m).
Proof.
  intros [N C]. split; [now rewrite remap_keys|]. intros k v. rewrite !remap_maps_to.
  split; intros (x & M & ->); exists x; (split; [now apply C|reflexivity]).
Qed.
Lemma json_map_remap {K A} (key : text -> K -> Prop) (value : json -> A -> Prop) (f : K -> A -> A) j m :
  (forall k v x, value v x -> value v (f k x)) -> json_map key value j m -> json_map key value j (remap f m).
Proof.
  intros H (l & es & -> & F & C). exists l, (remap f es). split; [reflexivity|]. split; [|now apply collects_remap].
  clear C. induction F as [|kv [k x] l es [KA VB] F IH]; [constructor|]. cbn [remap map fst snd] in *. constructor; [split; cbn [fst snd]; auto|exact IH].
Qed.

Section Good.
  Context (lo : load_orders) (G : good_load lo).
  Lemma order_tile_json n v t : json_tile v t -> json_tile v (order_tile lo n t).
  Proof.
    destruct G as (_ & _ & GB & GP & GS & _). intros (A & B & C & D & (b & Mb & Jb) & (p & Mp & Jp) & (s & Ms & Js) & E).
    repeat (split; [assumption|]). cbn [order_tile t_bits t_pin_functions t_sites t_prohibited].
    split; [exists b; split; [exact Mb|eapply json_map_perm; eauto]|].
    split; [exists p; split; [exact Mp|eapply json_map_perm; eauto]|].
    split; [exists s; split; [exact Ms|eapply json_map_perm; eauto]|exact E].
  Qed.
  Lemma order_grid_json j g : json_grid j g -> json_grid j (order_grid lo g).
  Proof.
    intros H. eapply json_map_perm; [|apply G]. eapply json_map_remap; [|exact H]. intros k v x. apply order_tile_json.
  Qed.
  Lemma order_rows_json b i n l h : numbered (field (tx "configuration_buses") json_row) n l h ->
    numbered (field (tx "configuration_buses") json_row) n l (order_rows (lo_row lo b) i h).
  Proof.
    intros H. revert i. induction H as [n|n k v l x xs K (w & M & V) N IH]; intros i; cbn [order_rows]; constructor; auto.
    exists w. split; [exact M|]. eapply json_map_perm; [exact V|apply G].
  Qed.
  Lemma order_half_json b j h : json_half j h -> json_half j (order_rows (lo_row lo b) 0 h).
  Proof. intros (l & -> & N). exists l. split; [reflexivity|]. now apply order_rows_json. Qed.
  Lemma order_part_json j p : json_part j p -> json_part j (order_part lo p).
  Proof.
    intros [banks A B C (r & Mr & (b & Mb & (b' & Mb' & Hb)) & (t & Mt & (t' & Mt' & Ht)))]. cbn [fst snd] in *.
    apply (part_read _ _ (option_map (lo_banks lo) banks)); cbn [order_part dp_idcode dp_iobanks dp_bottom_rows dp_top_rows].
    - exact A.
    - destruct B as [x (v & M & V)|N]; cbn [option_map]; constructor; [|exact N]. exists v. split; [exact M|]. eapply json_map_perm; [exact V|apply G].
    - rewrite C. destruct banks; [reflexivity|]. cbn [option_map]. apply Permutation_nil. apply Permutation_sym. apply (proj1 (proj2 (proj2 (proj2 (proj2 (proj2 G)))))).
    - exists r. split; [exact Mr|]. split; cbn [fst snd].
      + exists b. split; [exact Mb|]. exists b'. split; [exact Mb'|]. now apply order_half_json.
      + exists t. split; [exact Mt|]. exists t'. split; [exact Mt'|]. now apply order_half_json.
  Qed.
End Good.
