(** Facts about the containers of Base.v. *)
From Verif Require Import Base.
From Coq Require Import ZifyBool ZifyN ZifyNat.

(** ** Outcomes *)
Lemma obind_Ok {A B} (o : outcome A) (f : A -> outcome B) b :
  obind o f = Ok b -> exists a, o = Ok a /\ f a = Ok b.
Proof. destruct o; simpl; intros H; try discriminate; eauto. Qed.

Lemma ofold_app {A S} (body : S -> A -> outcome S) l1 l2 s :
  ofold body (l1 ++ l2) s = obind (ofold body l1 s) (fun s' => ofold body l2 s').
Proof.
  revert s; induction l1 as [|a l1 IH]; intros s; cbn [app ofold obind]; [reflexivity|].
  destruct (body s a) as [s'| | | |]; cbn [obind]; auto.
Qed.

(** ** Text *)
Lemma text_eqb_eq a b : text_eqb a b = true <-> a = b.
Proof.
  revert b; induction a as [|x a IH]; intros [|y b]; cbn [text_eqb];
    try (split; intros H; try discriminate; reflexivity).
  rewrite andb_true_iff, Ascii.eqb_eq, IH. split.
  - intros [-> ->]; reflexivity.
  - intros H; injection H; auto.
Qed.

Lemma text_eqb_refl a : text_eqb a a = true.
Proof. apply text_eqb_eq; reflexivity. Qed.

Lemma text_eqb_neq a b : text_eqb a b = false <-> a <> b.
Proof. rewrite <- text_eqb_eq. destruct (text_eqb a b); split; congruence. Qed.

Lemma text_eqb_sym a b : text_eqb a b = text_eqb b a.
Proof.
  destruct (text_eqb a b) eqn:E; symmetry.
  - apply text_eqb_eq in E; subst; apply text_eqb_refl.
  - apply text_eqb_neq in E. apply text_eqb_neq. congruence.
Qed.

(** ** btree maps *)
Section BT.
  Context {A : Type}.
  Implicit Types (m : btmap A) (k : N).

  Lemma bt_sorted_nil : bt_sorted (@nil (N * A)).
  Proof. constructor. Qed.

  Lemma bt_sorted_cons k v m :
    bt_sorted ((k, v) :: m) <-> bt_sorted m /\ Forall (N.lt k) (bt_keys m).
  Proof.
    unfold bt_sorted, bt_keys; simpl; split.
    - intros H; inversion H; auto.
    - intros [H1 H2]; constructor; auto.
  Qed.

  Lemma bt_find_In k v m : bt_find k m = Some v -> In (k, v) m.
  Proof.
    induction m as [|[k' v'] m IH]; simpl; [discriminate|].
    destruct (N.eqb_spec k k'); [intros [= ->]; subst; auto | auto].
  Qed.

  Lemma bt_find_key k m : bt_find k m <> None <-> In k (bt_keys m).
  Proof.
    induction m as [|[k' v'] m IH]; cbn [bt_find bt_keys map fst In]; [tauto|].
    destruct (N.eqb_spec k k') as [->|Hn].
    - split; [auto | discriminate].
    - unfold bt_keys in IH; rewrite IH. split; [auto | intros [E|E]; [congruence | auto]].
  Qed.

  Lemma bt_find_none k m : bt_find k m = None <-> ~ In k (bt_keys m).
  Proof. rewrite <- bt_find_key. destruct (bt_find k m); split; try congruence; intros H; exfalso; apply H; discriminate. Qed.

  Lemma bt_In_find k v m : bt_sorted m -> In (k, v) m -> bt_find k m = Some v.
  Proof.
    induction m as [|[k' v'] m IH]; [intros _ []|].
    rewrite bt_sorted_cons; intros [Hs Hf]; cbn [In bt_find]; intros [E|Hin].
    - injection E as -> ->. rewrite N.eqb_refl; reflexivity.
    - destruct (N.eqb_spec k k') as [->|Hn]; [|auto].
      exfalso. rewrite Forall_forall in Hf.
      assert (In k' (bt_keys m)) by (apply in_map_iff; exists (k', v); auto).
      specialize (Hf _ H); lia.
  Qed.

  Lemma bt_keys_insert k v m x :
    In x (bt_keys (bt_insert k v m)) <-> x = k \/ In x (bt_keys m).
  Proof.
    induction m as [|[k' v'] m IH]; cbn [bt_insert]; [simpl; intuition|].
    destruct (N.ltb_spec k k'); [simpl; intuition|].
    destruct (N.eqb_spec k k').
    - subst; simpl; intuition.
    - unfold bt_keys in *; cbn [map fst In] in *; rewrite IH. intuition.
  Qed.

  Lemma bt_keys_set k v m x :
    In x (bt_keys (bt_set k v m)) <-> x = k \/ In x (bt_keys m).
  Proof.
    induction m as [|[k' v'] m IH]; cbn [bt_set]; [simpl; intuition|].
    destruct (N.ltb_spec k k'); [simpl; intuition|].
    destruct (N.eqb_spec k k').
    - subst; simpl; intuition.
    - unfold bt_keys in *; cbn [map fst In] in *; rewrite IH. intuition.
  Qed.

  Lemma Forall_lt_keys k m : Forall (N.lt k) (bt_keys m) <-> forall x, In x (bt_keys m) -> k < x.
  Proof. apply Forall_forall. Qed.

  Lemma Forall_lt_weaken k k' m :
    k < k' -> Forall (N.lt k') (bt_keys m) -> Forall (N.lt k) (bt_keys m).
  Proof. intros L; apply Forall_impl; intros a Ha; lia. Qed.

  Lemma bt_insert_sorted k v m : bt_sorted m -> bt_sorted (bt_insert k v m).
  Proof.
    induction m as [|[k' v'] m IH]; intros Hs; cbn [bt_insert].
    - apply bt_sorted_cons; split; [constructor | constructor].
    - pose proof Hs as Hs0. apply bt_sorted_cons in Hs as [Hs Hf].
      rewrite Forall_lt_keys in Hf.
      destruct (N.ltb_spec k k').
      + apply bt_sorted_cons; split; [exact Hs0|].
        apply Forall_lt_keys; intros x [<-|Hx]; [exact H | specialize (Hf _ Hx); lia].
      + destruct (N.eqb_spec k k'); [exact Hs0|].
        apply bt_sorted_cons; split; [auto|].
        apply Forall_lt_keys; intros x Hx; apply bt_keys_insert in Hx as [->|Hx]; [lia|auto].
  Qed.

  Lemma bt_set_sorted k v m : bt_sorted m -> bt_sorted (bt_set k v m).
  Proof.
    induction m as [|[k' v'] m IH]; intros Hs; cbn [bt_set].
    - apply bt_sorted_cons; split; [constructor | constructor].
    - pose proof Hs as Hs0. apply bt_sorted_cons in Hs as [Hs Hf].
      rewrite Forall_lt_keys in Hf.
      destruct (N.ltb_spec k k').
      + apply bt_sorted_cons; split; [exact Hs0|].
        apply Forall_lt_keys; intros x [<-|Hx]; [exact H | specialize (Hf _ Hx); lia].
      + destruct (N.eqb_spec k k').
        * subst. apply bt_sorted_cons; split; [auto | apply Forall_lt_keys; auto].
        * apply bt_sorted_cons; split; [auto|].
          apply Forall_lt_keys; intros x Hx; apply bt_keys_set in Hx as [->|Hx]; [lia|auto].
  Qed.

  Lemma bt_find_lt k m : Forall (N.lt k) (bt_keys m) -> bt_find k m = None.
  Proof.
    intros H; apply bt_find_none; intros Hin. rewrite Forall_forall in H.
    pose proof (H _ Hin); lia.
  Qed.

  Lemma bt_find_insert k v m x :
    bt_sorted m ->
    bt_find x (bt_insert k v m) =
    if x =? k then match bt_find k m with Some w => Some w | None => Some v end
    else bt_find x m.
  Proof.
    induction m as [|[k' v'] m IH]; intros Hs; cbn [bt_insert bt_find].
    - reflexivity.
    - apply bt_sorted_cons in Hs as [Hs Hf].
      destruct (N.ltb_spec k k').
      + cbn [bt_find]. destruct (N.eqb_spec x k) as [Exk|].
        * rewrite ?Exk. destruct (N.eqb_spec k k'); [lia|].
          rewrite bt_find_lt; [reflexivity|].
          eapply Forall_lt_weaken; [exact H | exact Hf].
        * reflexivity.
      + destruct (N.eqb_spec k k') as [->|].
        * cbn [bt_find]. destruct (N.eqb_spec x k'); reflexivity.
        * cbn [bt_find]. rewrite (IH Hs).
          destruct (N.eqb_spec x k'); [|reflexivity].
          destruct (N.eqb_spec x k); [congruence|reflexivity].
  Qed.

  Lemma bt_find_set k v m x :
    bt_sorted m ->
    bt_find x (bt_set k v m) = if x =? k then Some v else bt_find x m.
  Proof.
    induction m as [|[k' v'] m IH]; intros Hs; cbn [bt_set bt_find].
    - reflexivity.
    - apply bt_sorted_cons in Hs as [Hs Hf].
      destruct (N.ltb_spec k k').
      + reflexivity.
      + destruct (N.eqb_spec k k') as [->|].
        * cbn [bt_find]. destruct (N.eqb_spec x k'); reflexivity.
        * cbn [bt_find]. rewrite (IH Hs).
          destruct (N.eqb_spec x k'); [|reflexivity].
          destruct (N.eqb_spec x k); [congruence|reflexivity].
  Qed.

  (** Extensionality: a sorted map is determined by its lookups. *)
  Lemma bt_ext m1 m2 :
    bt_sorted m1 -> bt_sorted m2 -> (forall k, bt_find k m1 = bt_find k m2) -> m1 = m2.
  Proof.
    revert m2; induction m1 as [|[k1 v1] m1 IH]; intros [|[k2 v2] m2] H1 H2 E.
    - reflexivity.
    - specialize (E k2); cbn [bt_find] in E; rewrite N.eqb_refl in E; discriminate.
    - specialize (E k1); cbn [bt_find] in E; rewrite N.eqb_refl in E; discriminate.
    - apply bt_sorted_cons in H1 as [H1 F1]. apply bt_sorted_cons in H2 as [H2 F2].
      assert (k1 = k2) as ->.
      { pose proof (E k1) as Ea; pose proof (E k2) as Eb; cbn [bt_find] in Ea, Eb.
        rewrite N.eqb_refl in Ea, Eb.
        destruct (N.eqb_spec k1 k2); [assumption|].
        destruct (N.eqb_spec k2 k1); [congruence|].
        destruct (N.lt_ge_cases k1 k2) as [L|L].
        - rewrite (bt_find_lt k1 m2) in Ea; [discriminate|].
          eapply Forall_lt_weaken; [exact L | exact F2].
        - rewrite (bt_find_lt k2 m1) in Eb; [discriminate|].
          eapply (Forall_lt_weaken k2 k1); [lia | exact F1]. }
      pose proof (E k2) as Ea; cbn [bt_find] in Ea; rewrite N.eqb_refl in Ea.
      injection Ea as ->. f_equal. apply IH; auto.
      intros k. specialize (E k); cbn [bt_find] in E.
      destruct (N.eqb_spec k k2) as [Ek|]; [|exact E].
      rewrite ?Ek, !bt_find_lt; auto.
  Qed.

  Lemma bt_after_In k m k' v' : bt_after k m = Some (k', v') -> In (k', v') m.
  Proof.
    induction m as [|[k1 v1] m IH]; cbn [bt_after]; [discriminate|].
    destruct (k =? k1); [|right; auto].
    destruct m as [|x m]; cbn [hd_error]; [discriminate|]. intros [= ->]; right; left; reflexivity.
  Qed.

  (** [bt_after k m] is the least key above [k], when [k] is a key. *)
  Lemma bt_after_spec k m k' v' :
    bt_sorted m -> bt_after k m = Some (k', v') ->
    k < k' /\ bt_find k' m = Some v' /\ (forall x, In x (bt_keys m) -> k < x -> k' <= x).
  Proof.
    induction m as [|[k1 v1] m IH]; intros Hs; cbn [bt_after]; [discriminate|].
    apply bt_sorted_cons in Hs as [Hs Hf]. rewrite Forall_lt_keys in Hf.
    destruct (N.eqb_spec k k1) as [->|Hn].
    - destruct m as [|[k2 v2] m]; cbn [hd_error]; [discriminate|]. intros [= -> ->].
      assert (k1 < k') by (apply Hf; left; reflexivity).
      split; [assumption|]. split.
      + cbn [bt_find]. destruct (N.eqb_spec k' k1); [lia|]. rewrite N.eqb_refl; reflexivity.
      + intros x [Hx|[Hx|Hx]] Hlt; cbn [fst] in *; [lia | lia|].
        apply bt_sorted_cons in Hs as [Hs Hf2]. rewrite Forall_lt_keys in Hf2.
        specialize (Hf2 _ Hx); lia.
    - intros E. destruct (IH Hs E) as (L & F & M).
      split; [exact L|].
      assert (Hin : In k (bt_keys m)).
      { clear -E. induction m as [|[k2 v2] m IH]; cbn [bt_after] in E; [discriminate|].
        destruct (N.eqb_spec k k2); [left; auto | right; auto]. }
      pose proof (Hf _ Hin) as Hk.
      split.
      + cbn [bt_find]. destruct (N.eqb_spec k' k1); [lia|exact F].
      + intros x [Hx|Hx] Hlt; cbn [fst] in *; [lia | apply M; assumption].
  Qed.

  Lemma bt_after_none k m :
    bt_sorted m -> In k (bt_keys m) -> bt_after k m = None ->
    forall x, In x (bt_keys m) -> x <= k.
  Proof.
    induction m as [|[k1 v1] m IH]; intros Hs Hk; cbn [bt_after]; [destruct Hk|].
    apply bt_sorted_cons in Hs as [Hs Hf]. rewrite Forall_lt_keys in Hf.
    destruct (N.eqb_spec k k1) as [->|Hn].
    - destruct m as [|[k2 v2] m]; cbn [hd_error]; [|discriminate].
      intros _ x [Hx|[]]; cbn [fst] in *; lia.
    - destruct Hk as [Hk|Hk]; cbn [fst] in Hk; [congruence|].
      intros E x [Hx|Hx]; cbn [fst] in *.
      + subst. specialize (Hf _ Hk); lia.
      + apply IH; auto.
  Qed.

  Lemma bt_keys_NoDup m : bt_sorted m -> NoDup (bt_keys m).
  Proof.
    induction m as [|[k v] m IH]; intros Hs; [constructor|].
    apply bt_sorted_cons in Hs as [Hs Hf]. rewrite Forall_lt_keys in Hf.
    unfold bt_keys; cbn [map fst]; constructor; [|apply IH, Hs].
    intros Hin; specialize (Hf _ Hin); lia.
  Qed.
End BT.

(** ** Hash maps *)
  Lemma NoDup_snoc {K} (l : list K) (x : K) : NoDup l -> ~ In x l -> NoDup (l ++ [x]).
  Proof.
    intros Hn Hx. induction Hn as [|y l Hy Hn IH]; simpl.
    - constructor; [auto | constructor].
    - constructor.
      + rewrite in_app_iff; simpl. intros [H|[H|[]]]; [tauto | subst; apply Hx; left; reflexivity].
      + apply IH. intros H; apply Hx; right; exact H.
  Qed.

Section HM.
  Context {K A : Type} (eqb : K -> K -> bool).
  Hypothesis eqb_spec : forall a b, eqb a b = true <-> a = b.
  Implicit Types m : list (K * A).

  Lemma eqb_rfl a : eqb a a = true.
  Proof. apply eqb_spec; reflexivity. Qed.
  Lemma eqb_neq a b : eqb a b = false <-> a <> b.
  Proof. rewrite <- eqb_spec. destruct (eqb a b); split; congruence. Qed.

  Lemma hm_find_In k v m : hm_find eqb k m = Some v -> In (k, v) m.
  Proof.
    induction m as [|[k' v'] m IH]; cbn [hm_find]; [discriminate|].
    destruct (eqb k k') eqn:E; [|right; auto].
    apply eqb_spec in E; subst. intros [= ->]; left; reflexivity.
  Qed.

  Lemma hm_find_none k m : hm_find eqb k m = None <-> ~ In k (map fst m).
  Proof.
    induction m as [|[k' v'] m IH]; cbn [hm_find map fst In]; [tauto|].
    destruct (eqb k k') eqn:E.
    - apply eqb_spec in E; subst. split; [discriminate | tauto].
    - rewrite IH. apply eqb_neq in E. split; intros H; [intros [X|X]; [congruence|tauto] | tauto].
  Qed.

  Lemma hm_contains_iff k m : hm_contains eqb k m = true <-> In k (map fst m).
  Proof.
    unfold hm_contains. destruct (hm_find eqb k m) eqn:E.
    - split; [intros _ | reflexivity]. apply hm_find_In in E. apply in_map_iff; exists (k, a); auto.
    - apply hm_find_none in E. split; [discriminate | tauto].
  Qed.

  Lemma hm_In_find k v m : NoDup (map fst m) -> In (k, v) m -> hm_find eqb k m = Some v.
  Proof.
    induction m as [|[k' v'] m IH]; [intros _ []|].
    cbn [map fst]; intros Hnd; inversion Hnd as [|? ? Hni Hnd']; subst. cbn [hm_find].
    intros [E|Hin].
    - injection E as -> ->. rewrite eqb_rfl; reflexivity.
    - destruct (eqb k k') eqn:E; [|auto].
      apply eqb_spec in E; subst. exfalso; apply Hni. apply in_map_iff; exists (k', v); auto.
  Qed.

  Lemma hm_find_app k m1 m2 :
    hm_find eqb k (m1 ++ m2) =
    match hm_find eqb k m1 with Some v => Some v | None => hm_find eqb k m2 end.
  Proof.
    induction m1 as [|[k' v'] m1 IH]; cbn [app hm_find]; [reflexivity|].
    destruct (eqb k k'); auto.
  Qed.

  Lemma hm_find_insert k v m x :
    hm_find eqb x (hm_insert eqb k v m) =
    if eqb x k then match hm_find eqb k m with Some w => Some w | None => Some v end
    else hm_find eqb x m.
  Proof.
    unfold hm_insert, hm_contains.
    destruct (hm_find eqb k m) eqn:E.
    - destruct (eqb x k) eqn:X; [|reflexivity]. apply eqb_spec in X; subst; exact E.
    - rewrite hm_find_app. cbn [hm_find].
      destruct (eqb x k) eqn:X.
      + apply eqb_spec in X; subst. rewrite E. reflexivity.
      + destruct (hm_find eqb x m); reflexivity.
  Qed.

  Lemma hm_insert_NoDup k v m : NoDup (map fst m) -> NoDup (map fst (hm_insert eqb k v m)).
  Proof.
    unfold hm_insert, hm_contains. destruct (hm_find eqb k m) eqn:E; [auto|].
    intros H. apply hm_find_none in E. rewrite map_app. cbn [map fst].
    apply NoDup_snoc; auto.
  Qed.

  Lemma hm_find_set k v m x :
    hm_find eqb x (hm_set eqb k v m) = if eqb x k then Some v else hm_find eqb x m.
  Proof.
    induction m as [|[k' v'] m IH]; cbn [hm_set hm_find].
    - reflexivity.
    - destruct (eqb k k') eqn:E.
      + apply eqb_spec in E; subst. cbn [hm_find]. destruct (eqb x k'); reflexivity.
      + cbn [hm_find]. rewrite IH. destruct (eqb x k') eqn:X; [|reflexivity].
        apply eqb_spec in X; subst. destruct (eqb k' k) eqn:Y; [|reflexivity].
        apply eqb_spec in Y; subst. rewrite eqb_rfl in E; discriminate.
  Qed.

  (** Lookup in a hash map does not depend on the iteration order. *)
  Lemma hm_find_perm k m1 m2 :
    Permutation m1 m2 -> NoDup (map fst m1) -> hm_find eqb k m1 = hm_find eqb k m2.
  Proof.
    intros P Hn.
    assert (Hn2 : NoDup (map fst m2)) by (eapply Permutation_NoDup; [apply Permutation_map, P | exact Hn]).
    destruct (hm_find eqb k m1) eqn:E1.
    - apply hm_find_In in E1. symmetry. apply hm_In_find; [exact Hn2|].
      eapply Permutation_in; [exact P | exact E1].
    - apply hm_find_none in E1. symmetry. apply hm_find_none. intros H; apply E1.
      eapply Permutation_in; [apply Permutation_map, Permutation_sym, P | exact H].
  Qed.
End HM.

Lemma hs_insert_In {K} (eqb : K -> K -> bool) (Hs : forall a b, eqb a b = true <-> a = b) k s x :
  In x (hs_insert eqb k s) <-> x = k \/ In x s.
Proof.
  unfold hs_insert. destruct (existsb (eqb k) s) eqn:E.
  - apply existsb_exists in E as (y & Hy & Ey). apply Hs in Ey; subst. intuition; subst; auto.
  - rewrite in_app_iff; simpl. intuition.
Qed.

Lemma hs_insert_NoDup {K} (eqb : K -> K -> bool) (Hs : forall a b, eqb a b = true <-> a = b) k s :
  NoDup s -> NoDup (hs_insert eqb k s).
Proof.
  unfold hs_insert. destruct (existsb (eqb k) s) eqn:E; [auto|].
  intros Hn. apply NoDup_snoc; [exact Hn|]. intros Hin.
  assert (existsb (eqb k) s = true); [|congruence].
  apply existsb_exists; exists k; split; [exact Hin | apply Hs; reflexivity].
Qed.
