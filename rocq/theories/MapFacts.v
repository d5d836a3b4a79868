(** Facts about hash maps and about the string helpers. *)
From Verif Require Import Base BaseFacts Absl Part DbText AsmSpec.

Section HM.
  Context {K A : Type} (eqb : K -> K -> bool) (Heq : forall a b, eqb a b = true <-> a = b).
  Implicit Types m : list (K * A).

  Lemma eqb_neq a b : eqb a b = false <-> a <> b.
  Proof. rewrite <- Heq. destruct (eqb a b); split; congruence. Qed.
  Lemma eqb_refl' a : eqb a a = true.
  Proof. apply Heq. reflexivity. Qed.

  Lemma hm_find_maps k v m : hm_find eqb k m = Some v <-> maps_to m k v.
  Proof.
    induction m as [|[k' v'] m IH]; cbn [hm_find].
    - split; [discriminate|]. intros (l1 & l2 & E & _). destruct l1; discriminate.
    - destruct (eqb k k') eqn:E.
      + apply Heq in E. subst k'. split.
        * intros [= ->]. exists [], m. split; [reflexivity|intros []].
        * intros (l1 & l2 & E & N). destruct l1 as [|[k1 v1] l1].
          -- cbn in E. congruence.
          -- cbn in E. inversion E; subst. cbn in N. exfalso. apply N. now left.
      + apply eqb_neq in E. rewrite IH. split.
        * intros (l1 & l2 & -> & N). exists ((k', v') :: l1), l2. split; [reflexivity|].
          cbn. intros [X|X]; [congruence|contradiction].
        * intros (l1 & l2 & X & N). destruct l1 as [|[k1 v1] l1].
          -- cbn in X. congruence.
          -- cbn in X. inversion X; subst. exists l1, l2. split; [reflexivity|].
             intros Y. apply N. now right.
  Qed.

  Lemma hm_find_none k m : hm_find eqb k m = None <-> ~ has_key m k.
  Proof.
    unfold has_key. induction m as [|[k' v'] m IH]; cbn [hm_find map fst In]; [tauto|].
    destruct (eqb k k') eqn:E.
    - apply Heq in E. subst. split; [discriminate|]. intros N. exfalso. apply N. now left.
    - apply eqb_neq in E. rewrite IH. split.
      + intros N [X|X]; [congruence|contradiction].
      + intros N X. apply N. now right.
  Qed.

  Lemma hm_contains_key k m : hm_contains eqb k m = true <-> has_key m k.
  Proof.
    unfold hm_contains. destruct (hm_find eqb k m) eqn:E.
    - split; [intros _|reflexivity]. apply hm_find_maps in E. destruct E as (l1 & l2 & -> & _).
      unfold has_key. rewrite map_app. apply in_or_app. right. now left.
    - apply hm_find_none in E. split; [discriminate|contradiction].
  Qed.
  Lemma hm_contains_not k m : hm_contains eqb k m = false <-> ~ has_key m k.
  Proof. rewrite <- hm_contains_key. destruct (hm_contains eqb k m); split; congruence. Qed.

  Lemma maps_to_key m k v : maps_to m k v -> has_key m k.
  Proof. intros (l1 & l2 & -> & _). unfold has_key. rewrite map_app. apply in_or_app. right. now left. Qed.
  Lemma key_maps_to m k : has_key m k -> exists v, maps_to m k v.
  Proof.
    intros H. apply hm_contains_key in H. unfold hm_contains in H.
    destruct (hm_find eqb k m) eqn:E; [|discriminate]. exists a. now apply hm_find_maps.
  Qed.
  Lemma maps_to_fun m k v v' : maps_to m k v -> maps_to m k v' -> v = v'.
  Proof. intros H H'. apply hm_find_maps in H. apply hm_find_maps in H'. congruence. Qed.
  Lemma maps_to_In m k v : maps_to m k v -> In (k, v) m.
  Proof. intros (l1 & l2 & -> & _). apply in_or_app. right. now left. Qed.
  Lemma In_maps_to m k v : NoDup (map fst m) -> In (k, v) m -> maps_to m k v.
  Proof.
    induction m as [|[k' v'] m IH]; cbn [map fst In]; [intros _ []|].
    intros N [E|I].
    - inversion E; subst. exists [], m. split; [reflexivity|intros []].
    - inversion N as [|? ? N1 N2]; subst. destruct (IH N2 I) as (l1 & l2 & -> & X).
      exists ((k', v') :: l1), l2. split; [reflexivity|]. cbn. intros [Y|Y]; [|contradiction].
      subst. apply N1. change k with (fst (k, v)). now apply in_map.
  Qed.

  Lemma hm_find_app k m1 m2 :
    hm_find eqb k (m1 ++ m2) = match hm_find eqb k m1 with Some v => Some v | None => hm_find eqb k m2 end.
  Proof.
    induction m1 as [|[k' v'] m IH]; cbn [app hm_find]; [reflexivity|].
    destruct (eqb k k'); auto.
  Qed.

  Lemma hm_find_insert k v m x :
    hm_find eqb x (hm_insert eqb k v m)
    = if eqb x k then match hm_find eqb k m with Some w => Some w | None => Some v end
      else hm_find eqb x m.
  Proof.
    unfold hm_insert, hm_contains. destruct (eqb x k) eqn:E.
    - apply Heq in E. subst x. destruct (hm_find eqb k m) eqn:F; [exact F|].
      rewrite hm_find_app, F. cbn. now rewrite eqb_refl'.
    - destruct (hm_find eqb k m) eqn:F; [reflexivity|]. rewrite hm_find_app. cbn. rewrite E.
      destruct (hm_find eqb x m); reflexivity.
  Qed.

  Lemma hm_find_set k v m x :
    hm_find eqb x (hm_set eqb k v m) = if eqb x k then Some v else hm_find eqb x m.
  Proof.
    induction m as [|[k' v'] m IH]; cbn [hm_set hm_find]; [reflexivity|].
    destruct (eqb k k') eqn:E.
    - apply Heq in E. subst k'. cbn [hm_find]. destruct (eqb x k); reflexivity.
    - cbn [hm_find]. rewrite IH. destruct (eqb x k') eqn:F; [|reflexivity].
      apply Heq in F. subst k'. destruct (eqb x k) eqn:G; [|reflexivity].
      apply Heq in G. subst x. rewrite eqb_refl' in E. discriminate.
  Qed.

  Lemma hm_set_keys k v m x : has_key (hm_set eqb k v m) x <-> x = k \/ has_key m x.
  Proof.
    unfold has_key. induction m as [|[k' v'] m IH]; cbn [hm_set map fst In]; [intuition|].
    destruct (eqb k k') eqn:E.
    - apply Heq in E. subst. cbn [map fst In]. intuition.
    - cbn [map fst In]. rewrite IH. intuition.
  Qed.
  Lemma hm_insert_keys k v m x : has_key (hm_insert eqb k v m) x <-> x = k \/ has_key m x.
  Proof.
    unfold hm_insert. destruct (hm_contains eqb k m) eqn:E.
    - apply hm_contains_key in E. intuition; subst; assumption.
    - unfold has_key. rewrite map_app, in_app_iff. cbn. intuition.
  Qed.
  Lemma hm_set_NoDup k v m : NoDup (map fst m) -> NoDup (map fst (hm_set eqb k v m)).
  Proof.
    induction m as [|[k' v'] m IH]; cbn [hm_set map fst].
    - intros _. constructor; [intros []|constructor].
    - intros N. destruct (eqb k k') eqn:E; [exact N|]. cbn [map fst].
      inversion N as [|? ? N1 N2]; subst. constructor; [|auto].
      intros I. apply hm_set_keys in I as [X|X]; [|contradiction].
      subst. rewrite eqb_refl' in E. discriminate.
  Qed.
  Lemma hm_insert_NoDup k v m : NoDup (map fst m) -> NoDup (map fst (hm_insert eqb k v m)).
  Proof.
    intros N. unfold hm_insert. destruct (hm_contains eqb k m) eqn:E; [exact N|].
    apply hm_contains_not in E. rewrite map_app. cbn [map fst].
    apply NoDup_snoc; assumption.
  Qed.
End HM.

Lemma bus_eqb_eq a b : bus_eqb a b = true <-> a = b.
Proof. destruct a, b; cbn; split; congruence. Qed.

Lemma tf_eqb_eq a b : tf_eqb a b = true <-> a = b.
Proof.
  destruct a as [a x], b as [b y]. unfold tf_eqb. cbn [fst snd].
  rewrite andb_true_iff, text_eqb_eq, N.eqb_eq. split; [intros [-> ->]; reflexivity|].
  intros E. inversion E; auto.
Qed.

(** ** Strings *)
Lemma starts_with_spec p s : starts_with p s = true <-> exists b, s = p ++ b.
Proof.
  revert s. induction p as [|a p IH]; intros s; cbn [starts_with].
  - split; [intros _; now exists s|reflexivity].
  - destruct s as [|b s].
    + split; [discriminate|]. intros (x & E). discriminate.
    + rewrite andb_true_iff, Ascii.eqb_eq, IH. split.
      * intros [-> (x & ->)]. now exists x.
      * intros (x & E). cbn in E. inversion E; subst. split; [reflexivity|now exists x].
Qed.

Lemma str_contains_spec n s : str_contains n s = true <-> contains n s.
Proof.
  unfold contains. induction s as [|c s IH]; cbn [str_contains].
  - rewrite orb_true_iff, starts_with_spec. split.
    + intros [(b & E)|E]; [|discriminate]. exists [], b. exact E.
    + intros (a & b & E). left. symmetry in E. apply app_eq_nil in E as [_ E]. now exists b.
  - rewrite orb_true_iff, starts_with_spec, IH. split.
    + intros [(b & E)|(a & b & E)].
      * exists [], b. exact E.
      * exists (c :: a), b. rewrite E. reflexivity.
    + intros (a & b & E). destruct a as [|x a].
      * left. now exists b.
      * right. cbn in E. inversion E; subst. now exists a, b.
Qed.
Lemma str_contains_not n s : str_contains n s = false <-> ~ contains n s.
Proof. rewrite <- str_contains_spec. destruct (str_contains n s); split; congruence. Qed.

Lemma split_max_ne n d s : split_max n d s <> [].
Proof.
  revert n. induction s as [|c s IH]; intros n; cbn [split_max]; [discriminate|].
  destruct n; [discriminate|]. destruct (Ascii.eqb d c); [discriminate|].
  destruct (split_max (S n) d s); discriminate.
Qed.

Lemma split_max_0 d s : split_max 0 d s = [s].
Proof. destruct s; reflexivity. Qed.

Lemma split_max_nodot n d s : ~ In d s -> split_max n d s = [s].
Proof.
  revert n. induction s as [|c s IH]; intros n N; cbn [split_max]; [reflexivity|].
  destruct n as [|n]; [reflexivity|].
  destruct (Ascii.eqb d c) eqn:E.
  - apply Ascii.eqb_eq in E. subst. exfalso. apply N. now left.
  - rewrite IH; [reflexivity|]. intros I. apply N. now right.
Qed.

Lemma split_max_cut n d a b : ~ In d a -> split_max (S n) d (a ++ d :: b) = a :: split_max n d b.
Proof.
  induction a as [|c a IH]; intros N; cbn [app split_max].
  - now rewrite Ascii.eqb_refl.
  - destruct (Ascii.eqb d c) eqn:E.
    + apply Ascii.eqb_eq in E. subst. exfalso. apply N. now left.
    + rewrite IH; [reflexivity|]. intros I. apply N. now right.
Qed.

(** Every text has a first delimiter or none. *)
Lemma first_delim (d : ascii) (s : text) :
  ~ In d s \/ exists a b, s = a ++ d :: b /\ ~ In d a.
Proof.
  induction s as [|c s IH]; [left; intros []|].
  destruct (Ascii.eqb d c) eqn:E.
  - apply Ascii.eqb_eq in E. subst. right. exists [], s. split; [reflexivity|intros []].
  - apply Ascii.eqb_neq in E. destruct IH as [N|(a & b & -> & N)].
    + left. intros [X|X]; [congruence|contradiction].
    + right. exists (c :: a), b. split; [reflexivity|]. intros [X|X]; [congruence|contradiction].
Qed.

Lemma cut_unique (d : ascii) (a b a' b' : text) :
  a ++ d :: b = a' ++ d :: b' -> ~ In d a -> ~ In d a' -> a = a' /\ b = b'.
Proof.
  revert a'. induction a as [|c a IH]; intros [|c' a'] E N N'; cbn in E; inversion E; subst.
  - auto.
  - exfalso. apply N'. now left.
  - exfalso. apply N. now left.
  - destruct (IH a') as [-> ->]; auto.
    + intros X. apply N. now right.
    + intros X. apply N'. now right.
Qed.

Lemma first_dot_fun name a b a' b' :
  first_dot name a b -> first_dot name a' b' -> a = a' /\ b = b'.
Proof. intros [E N] [E' N']. apply (cut_unique dot); auto. unfold dotted in *. congruence. Qed.

Lemma split1_spec name :
  (exists a b, first_dot name a b /\ split_max 1 "." name = [a; b])
  \/ (~ In dot name /\ split_max 1 "." name = [name]).
Proof.
  destruct (first_delim dot name) as [N|(a & b & E & N)].
  - right. split; [exact N|]. now apply split_max_nodot.
  - left. exists a, b. split; [split; assumption|]. rewrite E.
    change (split_max 1 dot (a ++ dot :: b) = [a; b]). rewrite split_max_cut by exact N.
    now rewrite split_max_0.
Qed.

Lemma join_dotted a b : join (tx ".") [a; b] = dotted a b.
Proof. reflexivity. Qed.

(** ** hs_insert and folds *)
Lemma existsb_text (x : text) l : existsb (text_eqb x) l = true <-> In x l.
Proof.
  rewrite existsb_exists. split.
  - intros (y & I & E). apply text_eqb_eq in E. now subst.
  - intros I. exists x. split; [exact I|apply text_eqb_refl].
Qed.
