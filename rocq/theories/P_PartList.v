(** Property C72: parts built from lists of frame addresses. *)
From Verif Require Import Base BaseFacts BitOps Frame FrameFacts Part PartSpec PartFacts PartFromFacts
  PartList PartListSpec P_Part.
From Coq Require Import ZifyBool ZifyN ZifyNat.

Section Groups.
  Context (key : N -> N).
  Let le_key (x y : N) : Prop := key x <= key y.

  Lemma upper_bound_spec v l : StronglySorted le_key l -> forall a b, upper_bound key v l = (a, b) ->
    l = a ++ b /\ Forall (fun x => key x <= v) a /\ Forall (fun x => v < key x) b.
  Proof.
    induction l as [|x l IH]; intros S a b E; cbn [upper_bound] in E.
    - injection E as <- <-. auto.
    - inversion S as [|? ? S' F]; subst. destruct (N.ltb_spec v (key x)) as [L|L].
      + injection E as <- <-. split; [reflexivity|]. split; [constructor|]. constructor; [exact L|].
        eapply Forall_impl; [|exact F]. intros y H. unfold le_key in H. lia.
      + destruct (upper_bound key v l) as [a' b'] eqn:E'. injection E as <- <-.
        destruct (IH S' _ _ eq_refl) as (-> & A & B). split; [reflexivity|]. split; [constructor; [lia|exact A]|exact B].
  Qed.

  Context {A : Type} (make : list N -> outcome A).
  (** [g] lists the elements of [l] with key [k]. *)
  Definition group_of (l : list N) (k : N) (g : list N) : Prop :=
    g <> [] /\ forall x, In x g <-> In x l /\ key x = k.

  Lemma SS_app {B} (R : B -> B -> Prop) l1 l2 : StronglySorted R (l1 ++ l2) -> StronglySorted R l2.
  Proof. induction l1 as [|x l1 IH]; [auto|]. intros H. inversion H; subst. auto. Qed.

  Lemma emplace_groups_spec : forall fuel l m,
    StronglySorted le_key l -> (List.length l <= fuel)%nat -> bt_sorted m ->
    (forall x, In x l -> bt_find (key x) m = None) ->
    (forall k g, group_of l k g -> exists y, make g = Ok y) ->
    exists m', emplace_groups fuel key make l m = Ok m' /\ bt_sorted m' /\
      forall k, (exists y g, bt_find k m' = Some y /\ group_of l k g /\ make g = Ok y) \/
                ((forall x, In x l -> key x <> k) /\ bt_find k m' = bt_find k m).
  Proof.
    induction fuel as [|fuel IH]; intros [|x l] m S L BS N M; cbn [emplace_groups].
    - exists m. split; [reflexivity|]. split; [exact BS|]. intros k. right. split; [intros ? []|reflexivity].
    - cbn [List.length] in L. lia.
    - exists m. split; [reflexivity|]. split; [exact BS|]. intros k. right. split; [intros ? []|reflexivity].
    - destruct (upper_bound key (key x) (x :: l)) as [g r] eqn:E.
      destruct (upper_bound_spec (key x) (x :: l) S _ _ E) as (El & Fg & Fr).
      assert (G0 : exists g', g = x :: g').
      { destruct g as [|y g']; [|injection El as -> _; eauto]. exfalso. cbn [app] in El. subst r.
        inversion Fr. lia. }
      destruct G0 as (g' & Eg).
      assert (GO : group_of (x :: l) (key x) g).
      { split; [rewrite Eg; discriminate|]. intros y. rewrite El. split.
        - intros I. split; [apply in_or_app; now left|]. rewrite Forall_forall in Fg. specialize (Fg y I).
          pose proof (StronglySorted_inv S) as [_ F]. rewrite Eg in I. destruct I as [->|I]; [reflexivity|].
          rewrite Forall_forall in F. assert (Il : In y l).
          { rewrite Eg in El. injection El as ->. apply in_or_app. now left. }
          specialize (F y Il). unfold le_key in F. lia.
        - intros [I K]. apply in_app_or in I as [I|I]; [exact I|]. rewrite Forall_forall in Fr. specialize (Fr y I). lia. }
      destruct (M _ _ GO) as (y & Ey). rewrite Ey. cbn [obind].
      assert (Sr : StronglySorted le_key r) by (apply (SS_app _ g); rewrite <- El; exact S).
      assert (GR : forall k h, key x <> k -> (group_of r k h <-> group_of (x :: l) k h)).
      { intros k h NK. unfold group_of. rewrite El. split; intros [H1 H2]; (split; [exact H1|]); intros z; rewrite H2; rewrite in_app_iff.
        - split; [intros [I K]; auto|]. intros [[I|I] K]; [|auto]. exfalso. apply GO in I as [_ K']. congruence.
        - split; [intros [[I|I] K]; [|auto]; exfalso; apply GO in I as [_ K']; congruence|intros [I K]; auto]. }
      destruct (IH r (bt_insert (key x) y m) Sr) as (m' & Em & BS' & C).
      + rewrite Eg in El. cbn [app] in El. injection El as ->. cbn [List.length] in L. rewrite app_length in L. lia.
      + now apply bt_insert_sorted.
      + intros z I. rewrite bt_find_insert by exact BS. rewrite Forall_forall in Fr. pose proof (Fr z I) as K.
        destruct (N.eqb_spec (key z) (key x)) as [Q|_]; [lia|]. apply N. rewrite El. apply in_or_app. now right.
      + intros k h GH. apply (M k h). apply GR; [|exact GH]. intros K. destruct GH as [H1 H2].
        destruct h as [|z h]; [contradiction|]. destruct (proj1 (H2 z) (or_introl eq_refl)) as [I Kz].
        rewrite Forall_forall in Fr. specialize (Fr z I). lia.
      + exists m'. split; [exact Em|]. split; [exact BS'|]. intros k.
        assert (NX : bt_find (key x) m = None) by (apply N; now left).
        destruct (C k) as [(y' & h & F & GH & Mh)|[NI F]].
        * left. exists y', h. split; [exact F|]. split; [|exact Mh]. apply GR; [|exact GH]. intros K. destruct GH as [H1 H2].
          destruct h as [|z h]; [contradiction|]. destruct (proj1 (H2 z) (or_introl eq_refl)) as [I Kz].
          rewrite Forall_forall in Fr. specialize (Fr z I). lia.
        * rewrite bt_find_insert in F by exact BS. destruct (N.eqb_spec k (key x)) as [->|NK].
          -- left. rewrite NX in F. exists y, g. auto.
          -- right. split; [|exact F]. intros z I K. rewrite El in I. apply in_app_or in I as [I|I]; [|now apply (NI z I)].
             apply GO in I as [_ K']. congruence.
  Qed.
End Groups.

Section Build.
  Context (sorted_by : (N -> N) -> list N -> list N) (GS : good_sort sorted_by).

  Lemma build_spec {A} same key (make : list N -> outcome A) l :
    agree_with_first same l = true ->
    (forall k g, group_of key l k g -> exists y, make g = Ok y) ->
    exists m, build sorted_by same key make l = Ok m /\ bt_sorted m /\
      forall k, (exists y g, bt_find k m = Some y /\ group_of key l k g /\ make g = Ok y) \/
                ((forall x, In x l -> key x <> k) /\ bt_find k m = None).
  Proof.
    intros AG M. unfold build. rewrite AG. destruct (GS key l) as [P S].
    assert (G : forall k g, group_of key (sorted_by key l) k g <-> group_of key l k g).
    { intros k g. unfold group_of. split; intros [H1 H2]; (split; [exact H1|]); intros x; rewrite H2.
      - split; intros [I K]; (split; [|exact K]); [eapply Permutation_in; eauto|eapply Permutation_in; [apply Permutation_sym|]; eauto].
      - split; intros [I K]; (split; [|exact K]); [eapply Permutation_in; [apply Permutation_sym|]; eauto|eapply Permutation_in; eauto]. }
    destruct (emplace_groups_spec key make (List.length (sorted_by key l)) (sorted_by key l) [] S (le_n _)) as (m & E & BS & C).
    - constructor.
    - reflexivity.
    - intros k g H. apply (M k). now apply G.
    - exists m. split; [exact E|]. split; [exact BS|]. intros k. destruct (C k) as [(y & g & F & H & Mg)|[N F]].
      + left. exists y, g. split; [exact F|]. split; [now apply G|exact Mg].
      + right. split; [|exact F]. intros x I. apply N. eapply Permutation_in; [apply Permutation_sym|]; eauto.
  Qed.

  Lemma agree_spec same l : (forall x, In x l -> forall y, In y l -> same x y = true) -> agree_with_first same l = true.
  Proof.
    intros H. destruct l as [|a l]; [reflexivity|]. cbn [agree_with_first]. apply forallb_forall. intros x I.
    apply H; [exact I|now left].
  Qed.

  Lemma max_minor_spec l : forall a, In (max_minor a l) (a :: l) /\ forall x, In x (a :: l) -> fa_minor x <= fa_minor (max_minor a l).
  Proof.
    induction l as [|y l IH]; intros a; cbn [max_minor fold_left].
    - split; [now left|]. intros x [->|[]]. lia.
    - fold (max_minor (if fa_minor a <? fa_minor y then y else a) l).
      destruct (IH (if fa_minor a <? fa_minor y then y else a)) as [I M]. split.
      + destruct I as [I|I]; [|right; now right]. rewrite <- I at 1. destruct (fa_minor a <? fa_minor y); [right; now left|now left].
      + intros x [->|[->|Ix]].
        * etransitivity; [|apply M; left; reflexivity]. destruct (N.ltb_spec (fa_minor x) (fa_minor y)); lia.
        * etransitivity; [|apply M; left; reflexivity]. destruct (N.ltb_spec (fa_minor a) (fa_minor x)); lia.
        * apply M. now right.
  Qed.

  (** Columns. *)
  Lemma column_of_spec l : l <> [] -> agree_with_first same_column l = true ->
    exists n, column_of l = Ok n /\ n <= 128 /\ forall m, m < n <-> exists x, In x l /\ m <= fa_minor x.
  Proof.
    intros NE AG. unfold column_of. rewrite AG. destruct l as [|a l]; [contradiction|].
    destruct (max_minor_spec l a) as [I M]. set (b := max_minor a l) in *. clearbody b.
    destruct (fa_ranges b) as (_ & _ & _ & R). exists (fa_minor b + 1). split; [|split; [lia|]].
    - f_equal. unfold u32. apply N.mod_small. change (2 ^ 32) with 4294967296. lia.
    - intros m. split.
      + intros L. exists b. split; [exact I|lia].
      + intros (x & Ix & L). specialize (M x Ix). lia.
  Qed.

  Lemma same_bus_spec x y : same_bus x y = true <->
    fa_block_type x = fa_block_type y /\ fa_is_bottom x = fa_is_bottom y /\ fa_row x = fa_row y.
  Proof. unfold same_bus. rewrite !andb_true_iff, !N.eqb_eq, Bool.eqb_true_iff. tauto. Qed.
  Lemma same_row_spec x y : same_row x y = true <-> fa_is_bottom x = fa_is_bottom y /\ fa_row x = fa_row y.
  Proof. unfold same_row. rewrite !andb_true_iff, !N.eqb_eq, Bool.eqb_true_iff. tauto. Qed.
  Lemma same_column_spec x y : same_column x y = true <->
    fa_block_type x = fa_block_type y /\ fa_is_bottom x = fa_is_bottom y /\ fa_row x = fa_row y /\ fa_column x = fa_column y.
  Proof. unfold same_column. rewrite !andb_true_iff, !N.eqb_eq, Bool.eqb_true_iff. tauto. Qed.

  Lemma bus_of_spec l : (forall x y, In x l -> In y l -> same_bus x y = true) ->
    exists m, bus_of sorted_by l = Ok m /\ bus_wf m /\
      forall c mi, (exists fc, bt_find c m = Some fc /\ mi < fc) <-> exists x, In x l /\ fa_column x = c /\ mi <= fa_minor x.
  Proof.
    intros SB.
    assert (GC : forall k g, group_of fa_column l k g -> agree_with_first same_column g = true).
    { intros k g [_ G]. apply agree_spec. intros x Ix y Iy. apply G in Ix as [Ix Kx]. apply G in Iy as [Iy Ky].
      apply same_column_spec. pose proof (SB x y Ix Iy) as S. apply same_bus_spec in S. intuition congruence. }
    destruct (build_spec same_bus fa_column column_of l) as (m & E & BS & C).
    - apply agree_spec. intros; now apply SB.
    - intros k g G. destruct (column_of_spec g (proj1 G) (GC _ _ G)) as (n & En & _). eauto.
    - exists m. split; [exact E|]. split.
      + split; [exact BS|]. intros c fc F. destruct (C c) as [(y & g & F' & G & M)|[_ F']]; [|congruence].
        assert (y = fc) as -> by congruence. destruct (column_of_spec g (proj1 G) (GC _ _ G)) as (n & En & Ln & _).
        assert (n = fc) as -> by congruence. split; [|exact Ln]. destruct G as [NE G]. destruct g as [|x g]; [contradiction|].
        destruct (proj1 (G x) (or_introl eq_refl)) as [_ <-]. apply fa_ranges.
      + intros c mi. destruct (C c) as [(y & g & F & G & M)|[N F]].
        * destruct (column_of_spec g (proj1 G) (GC _ _ G)) as (n & En & _ & Hn). assert (n = y) as -> by congruence. split.
          -- intros (fc & F' & L). assert (fc = y) as -> by congruence. apply Hn in L as (x & Ix & L). apply G in Ix as [Ix K]. eauto.
          -- intros (x & Ix & K & L). exists y. split; [exact F|]. apply Hn. exists x. split; [apply G; auto|exact L].
        * split; [intros (fc & F' & _); congruence|]. intros (x & Ix & K & _). exfalso. now apply (N x).
  Qed.

  Lemma row_of_spec l : (forall x y, In x l -> In y l -> same_row x y = true) ->
    exists m, row_of sorted_by l = Ok m /\ row_wf m /\
      forall b c mi, (exists bus fc, bt_find b m = Some bus /\ bt_find c bus = Some fc /\ mi < fc) <->
        exists x, In x l /\ fa_block_type x = b /\ fa_column x = c /\ mi <= fa_minor x.
  Proof.
    intros SB.
    assert (GC : forall k g, group_of fa_block_type l k g -> forall x y, In x g -> In y g -> same_bus x y = true).
    { intros k g [_ G] x y Ix Iy. apply G in Ix as [Ix Kx]. apply G in Iy as [Iy Ky].
      apply same_bus_spec. pose proof (SB x y Ix Iy) as S. apply same_row_spec in S. intuition congruence. }
    destruct (build_spec same_row fa_block_type (bus_of sorted_by) l) as (m & E & BS & C).
    - apply agree_spec. intros; now apply SB.
    - intros k g G. destruct (bus_of_spec g (GC _ _ G)) as (n & En & _). eauto.
    - exists m. split; [exact E|]. split.
      + split; [exact BS|]. intros c fc F. destruct (C c) as [(y & g & F' & G & M)|[_ F']]; [|congruence].
        assert (y = fc) as -> by congruence. destruct (bus_of_spec g (GC _ _ G)) as (n & En & Ln & _).
        assert (n = fc) as -> by congruence. split; [|exact Ln]. destruct G as [NE G]. destruct g as [|x g]; [contradiction|].
        destruct (proj1 (G x) (or_introl eq_refl)) as [_ <-]. apply fa_ranges.
      + intros b c mi. destruct (C b) as [(y & g & F & G & M)|[N F]].
        * destruct (bus_of_spec g (GC _ _ G)) as (n & En & _ & Hn). assert (n = y) as -> by congruence. split.
          -- intros (bus & fc & F' & L). assert (bus = y) as -> by congruence.
             destruct (proj1 (Hn c mi)) as (x & Ix & Kc & Lm); [exists fc; exact L|]. apply G in Ix as [Ix K]. eauto 6.
          -- intros (x & Ix & K & Kc & L). destruct (proj2 (Hn c mi)) as (fc & H); [exists x; split; [apply G; auto|auto]|].
             exists y, fc. split; [exact F|exact H].
        * split; [intros (bus & fc & F' & _); congruence|]. intros (x & Ix & K & _). exfalso. now apply (N x).
  Qed.

  Lemma region_of_spec l : (forall x y, In x l -> In y l -> fa_is_bottom x = fa_is_bottom y) ->
    exists m, region_of_list sorted_by l = Ok m /\ region_wf m /\
      forall r b c mi, (exists row bus fc, bt_find r m = Some row /\ bt_find b row = Some bus /\ bt_find c bus = Some fc /\ mi < fc) <->
        exists x, In x l /\ fa_row x = r /\ fa_block_type x = b /\ fa_column x = c /\ mi <= fa_minor x.
  Proof.
    intros SB.
    assert (GC : forall k g, group_of fa_row l k g -> forall x y, In x g -> In y g -> same_row x y = true).
    { intros k g [_ G] x y Ix Iy. apply G in Ix as [Ix Kx]. apply G in Iy as [Iy Ky].
      apply same_row_spec. pose proof (SB x y Ix Iy) as S. intuition congruence. }
    destruct (build_spec same_half fa_row (row_of sorted_by) l) as (m & E & BS & C).
    - apply agree_spec. intros x Ix y Iy. unfold same_half. apply Bool.eqb_true_iff. now apply SB.
    - intros k g G. destruct (row_of_spec g (GC _ _ G)) as (n & En & _). eauto.
    - exists m. split; [exact E|]. split.
      + split; [exact BS|]. intros c fc F. destruct (C c) as [(y & g & F' & G & M)|[_ F']]; [|congruence].
        assert (y = fc) as -> by congruence. destruct (row_of_spec g (GC _ _ G)) as (n & En & Ln & _).
        assert (n = fc) as -> by congruence. split; [|exact Ln]. destruct G as [NE G]. destruct g as [|x g]; [contradiction|].
        destruct (proj1 (G x) (or_introl eq_refl)) as [_ <-]. apply fa_ranges.
      + intros r b c mi. destruct (C r) as [(y & g & F & G & M)|[N F]].
        * destruct (row_of_spec g (GC _ _ G)) as (n & En & _ & Hn). assert (n = y) as -> by congruence. split.
          -- intros (row & bus & fc & F' & L). assert (row = y) as -> by congruence.
             destruct (proj1 (Hn b c mi)) as (x & Ix & Kb & Kc & Lm); [exists bus, fc; exact L|]. apply G in Ix as [Ix K]. eauto 8.
          -- intros (x & Ix & K & Kb & Kc & L). destruct (proj2 (Hn b c mi)) as (bus & fc & H); [exists x; split; [apply G; auto|auto]|].
             exists y, bus, fc. split; [exact F|exact H].
        * split; [intros (row & bus & fc & F' & _); congruence|]. intros (x & Ix & K & _). exfalso. now apply (N x).
  Qed.

  Context (split_by : (N -> bool) -> list N -> list N * list N) (GP : good_split split_by).
  Lemma part_of_spec id l : exists p, part_of sorted_by split_by id l = Ok p /\ p_idcode p = id /\ part_wf p /\
    forall b h r c mi, part_has p b h r c mi <->
      exists x, In x l /\ fa_block_type x = b /\ fa_is_bottom x = h /\ fa_row x = r /\ fa_column x = c /\ mi <= fa_minor x.
  Proof.
    pose proof (GP fa_is_bottom l) as G. unfold part_of. destruct (split_by fa_is_bottom l) as [bot top].
    destruct G as (P & Fb & Ft). rewrite Forall_forall in Fb, Ft.
    destruct (region_of_spec top) as (t & Et & Wt & Ht); [intros x y Ix Iy; now rewrite (Ft x Ix), (Ft y Iy)|].
    destruct (region_of_spec bot) as (b & Eb & Wb & Hb); [intros x y Ix Iy; now rewrite (Fb x Ix), (Fb y Iy)|].
    rewrite Et. cbn [obind]. rewrite Eb. cbn [obind].
    exists {| p_idcode := id; p_top := t; p_bottom := b |}. split; [reflexivity|]. split; [reflexivity|].
    split; [split; assumption|]. intros bl h r c mi. unfold part_has, region_of.
    assert (IL : forall x, In x l <-> In x bot \/ In x top).
    { intros x. rewrite <- in_app_iff. split; [eapply Permutation_in, Permutation_sym; eauto|eapply Permutation_in; eauto]. }
    destruct h; cbn [p_top p_bottom].
    - rewrite Hb. split.
      + intros (x & I & R). exists x. split; [apply IL; now left|]. rewrite (Fb x I). tauto.
      + intros (x & I & Q). exists x. apply IL in I as [I|I]; [tauto|]. rewrite (Ft x I) in Q. destruct Q as (_ & Q & _). discriminate Q.
    - rewrite Ht. split.
      + intros (x & I & R). exists x. split; [apply IL; now right|]. rewrite (Ft x I). tauto.
      + intros (x & I & Q). exists x. apply IL in I as [I|I]; [|tauto]. rewrite (Fb x I) in Q. destruct Q as (_ & Q & _). discriminate Q.
  Qed.
End Build.

Lemma fields_spec x : fa_block_type x = block_field x /\ fa_row x = row_field x /\ fa_column x = column_field x /\
  fa_minor x = minor_field x /\ (fa_is_bottom x = true <-> half_field x = 1) /\ (fa_is_bottom x = false <-> half_field x = 0).
Proof.
  unfold block_field, row_field, column_field, minor_field, half_field.
  rewrite fa_block_type_value, fa_row_value, fa_column_value, fa_minor_value, fa_is_bottom_value.
  repeat (split; [reflexivity|]). change (2 ^ 22) with 4194304.
  pose proof (N.mod_lt (x / 4194304) 2). split.
  - rewrite negb_true_iff, N.eqb_neq. lia.
  - rewrite negb_false_iff, N.eqb_eq. reflexivity.
Qed.
Lemma half_same x y : fa_is_bottom x = fa_is_bottom y <-> half_field x = half_field y.
Proof.
  destruct (fields_spec x) as (_ & _ & _ & _ & T & F). destruct (fields_spec y) as (_ & _ & _ & _ & T' & F').
  destruct (fa_is_bottom x), (fa_is_bottom y); intuition (try congruence).
Qed.
Lemma reaches_spec y x : reaches y x <->
  fa_block_type y = fa_block_type x /\ fa_is_bottom y = fa_is_bottom x /\ fa_row y = fa_row x /\
  fa_column y = fa_column x /\ fa_minor x <= fa_minor y.
Proof.
  unfold reaches. rewrite half_same. destruct (fields_spec x) as (-> & -> & -> & -> & _).
  destruct (fields_spec y) as (-> & -> & -> & -> & _). reflexivity.
Qed.

(** ** C72 *)

(** Any list of addresses gives a part (the assertions hold and nothing is undefined), and a frame is
    valid iff some listed address lies in its column, at its frame or above. *)
Theorem C72_valid_is_listed :
  forall sorted_by split_by idcode l, good_sort sorted_by -> good_split split_by ->
  exists p, part_of sorted_by split_by idcode l = Ok p /\ p_idcode p = idcode /\
    forall a, part_valid p a = true <-> exists b, In b l /\ reaches b a.
Proof.
  intros srt spl id l GS GP. destruct (part_of_spec srt GS spl GP id l) as (p & E & I & _ & H).
  exists p. split; [exact E|]. split; [exact I|]. intros a. rewrite part_valid_has, H.
  split; intros (x & Ix & R); exists x; (split; [exact Ix|]); now apply reaches_spec.
Qed.
Print Assumptions C72_valid_is_listed.

Corollary C72_listed_are_valid :
  forall sorted_by split_by idcode l p a, good_sort sorted_by -> good_split split_by ->
  part_of sorted_by split_by idcode l = Ok p -> In a l -> part_valid p a = true.
Proof.
  intros srt spl id l p a GS GP E I. destruct (C72_valid_is_listed srt spl id l GS GP) as (p' & E' & _ & H).
  assert (p' = p) as -> by congruence. apply H. exists a. split; [exact I|]. repeat split; lia.
Qed.

(** The order of the list, repetitions and the choices of the sorting algorithm do not matter: the
    parts are equal. *)
Lemma build_same {A} srt srt' same key (make make' : list N -> outcome A) l l' :
  good_sort srt -> good_sort srt' -> (forall x, In x l <-> In x l') ->
  agree_with_first same l = true -> agree_with_first same l' = true ->
  (forall k g, group_of key l k g -> exists y, make g = Ok y) ->
  (forall k g, group_of key l' k g -> exists y, make' g = Ok y) ->
  (forall k g g', group_of key l k g -> group_of key l' k g' -> make g = make' g') ->
  build srt same key make l = build srt' same key make' l'.
Proof.
  intros GS GS' S A1 A2 M1 M2 M. destruct (build_spec srt GS same key make l A1 M1) as (m & -> & B & C).
  destruct (build_spec srt' GS' same key make' l' A2 M2) as (m' & -> & B' & C'). f_equal. apply bt_ext; try assumption.
  intros k. destruct (C k) as [(y & g & F & G & E)|[N F]], (C' k) as [(y' & g' & F' & G' & E')|[N' F']].
  - specialize (M _ _ _ G G'). congruence.
  - exfalso. destruct G as [NE G]. destruct g as [|x g]; [contradiction|]. destruct (proj1 (G x) (or_introl eq_refl)) as [I K].
    apply (N' x); [now apply S|exact K].
  - exfalso. destruct G' as [NE G']. destruct g' as [|x g]; [contradiction|]. destruct (proj1 (G' x) (or_introl eq_refl)) as [I K].
    apply (N x); [now apply S|exact K].
  - congruence.
Qed.
Lemma group_same key l l' k g g' : (forall x, In x l <-> In x l') -> group_of key l k g -> group_of key l' k g' -> forall x, In x g <-> In x g'.
Proof. intros S [_ G] [_ G'] x. rewrite G, G', S. reflexivity. Qed.

Section Same.
  Context (srt srt' : (N -> N) -> list N -> list N) (GS : good_sort srt) (GS' : good_sort srt').
  Lemma column_same l l' : l <> [] -> l' <> [] -> agree_with_first same_column l = true -> agree_with_first same_column l' = true ->
    (forall x, In x l <-> In x l') -> column_of l = column_of l'.
  Proof.
    intros NE NE' A A' S. destruct (column_of_spec l NE A) as (n & -> & _ & H). destruct (column_of_spec l' NE' A') as (n' & -> & _ & H').
    f_equal. assert (X : forall m, m < n <-> m < n').
    { intros m. rewrite H, H'. split; intros (x & I & L); exists x; (split; [now apply S|exact L]). }
    pose proof (X n). pose proof (X n'). lia.
  Qed.
  Lemma bus_same l l' : (forall x y, In x l -> In y l -> same_bus x y = true) -> (forall x, In x l <-> In x l') -> bus_of srt l = bus_of srt' l'.
  Proof.
    intros SB S. assert (SB' : forall x y, In x l' -> In y l' -> same_bus x y = true) by (intros x y I J; apply SB; now apply S).
    assert (GC : forall l, (forall x y, In x l -> In y l -> same_bus x y = true) -> forall k g, group_of fa_column l k g -> agree_with_first same_column g = true).
    { clear. intros l SB k g [_ G]. apply agree_spec. intros x Ix y Iy. apply G in Ix as [Ix Kx]. apply G in Iy as [Iy Ky].
      apply same_column_spec. pose proof (SB x y Ix Iy) as S. apply same_bus_spec in S. intuition congruence. }
    apply build_same; auto.
    - apply agree_spec. intros; now apply SB.
    - apply agree_spec. intros; now apply SB'.
    - intros k g G. destruct (column_of_spec g (proj1 G) (GC _ SB _ _ G)) as (n & En & _). eauto.
    - intros k g G. destruct (column_of_spec g (proj1 G) (GC _ SB' _ _ G)) as (n & En & _). eauto.
    - intros k g g' G G'. exact (column_same g g' (proj1 G) (proj1 G') (GC _ SB _ _ G) (GC _ SB' _ _ G') (group_same _ _ _ _ _ _ S G G')).
  Qed.
  Lemma row_same l l' : (forall x y, In x l -> In y l -> same_row x y = true) -> (forall x, In x l <-> In x l') -> row_of srt l = row_of srt' l'.
  Proof.
    intros SB S. assert (SB' : forall x y, In x l' -> In y l' -> same_row x y = true) by (intros x y I J; apply SB; now apply S).
    assert (GC : forall l, (forall x y, In x l -> In y l -> same_row x y = true) -> forall k g, group_of fa_block_type l k g -> forall x y, In x g -> In y g -> same_bus x y = true).
    { clear. intros l SB k g [_ G] x y Ix Iy. apply G in Ix as [Ix Kx]. apply G in Iy as [Iy Ky].
      apply same_bus_spec. pose proof (SB x y Ix Iy) as S. apply same_row_spec in S. intuition congruence. }
    apply build_same; auto.
    - apply agree_spec. intros; now apply SB.
    - apply agree_spec. intros; now apply SB'.
    - intros k g G. destruct (bus_of_spec srt GS g (GC _ SB _ _ G)) as (n & En & _). eauto.
    - intros k g G. destruct (bus_of_spec srt' GS' g (GC _ SB' _ _ G)) as (n & En & _). eauto.
    - intros k g g' G G'. exact (bus_same g g' (GC _ SB _ _ G) (group_same _ _ _ _ _ _ S G G')).
  Qed.
  Lemma region_same l l' : (forall x y, In x l -> In y l -> fa_is_bottom x = fa_is_bottom y) -> (forall x, In x l <-> In x l') -> region_of_list srt l = region_of_list srt' l'.
  Proof.
    intros SB S. assert (SB' : forall x y, In x l' -> In y l' -> fa_is_bottom x = fa_is_bottom y) by (intros x y I J; apply SB; now apply S).
    assert (GC : forall l, (forall x y, In x l -> In y l -> fa_is_bottom x = fa_is_bottom y) -> forall k g, group_of fa_row l k g -> forall x y, In x g -> In y g -> same_row x y = true).
    { clear. intros l SB k g [_ G] x y Ix Iy. apply G in Ix as [Ix Kx]. apply G in Iy as [Iy Ky].
      apply same_row_spec. pose proof (SB x y Ix Iy) as S. intuition congruence. }
    apply build_same; auto.
    - apply agree_spec. intros x Ix y Iy. unfold same_half. apply Bool.eqb_true_iff. now apply SB.
    - apply agree_spec. intros x Ix y Iy. unfold same_half. apply Bool.eqb_true_iff. now apply SB'.
    - intros k g G. destruct (row_of_spec srt GS g (GC _ SB _ _ G)) as (n & En & _). eauto.
    - intros k g G. destruct (row_of_spec srt' GS' g (GC _ SB' _ _ G)) as (n & En & _). eauto.
    - intros k g g' G G'. exact (row_same g g' (GC _ SB _ _ G) (group_same _ _ _ _ _ _ S G G')).
  Qed.
End Same.

Theorem C72_order_is_irrelevant :
  forall sorted_by sorted_by' split_by split_by' idcode l l',
  good_sort sorted_by -> good_sort sorted_by' -> good_split split_by -> good_split split_by' ->
  (forall a, In a l <-> In a l') ->
  part_of sorted_by split_by idcode l = part_of sorted_by' split_by' idcode l'.
Proof.
  intros srt srt' spl spl' id l l' GS GS' GP GP' S. unfold part_of.
  pose proof (GP fa_is_bottom l) as G. pose proof (GP' fa_is_bottom l') as G'.
  destruct (spl fa_is_bottom l) as [b t], (spl' fa_is_bottom l') as [b' t'].
  destruct G as (P & Fb & Ft), G' as (P' & Fb' & Ft'). rewrite Forall_forall in Fb, Ft, Fb', Ft'.
  assert (IL : forall x, In x b \/ In x t <-> In x b' \/ In x t').
  { intros x. rewrite <- !in_app_iff. split; intros I.
    - eapply Permutation_in; [apply Permutation_sym, P'|]. apply S. eapply Permutation_in; eauto.
    - eapply Permutation_in; [apply Permutation_sym, P|]. apply S. eapply Permutation_in; eauto. }
  assert (ST : forall x, In x t <-> In x t').
  { intros x. specialize (IL x). pose proof (Fb x). pose proof (Ft x). pose proof (Fb' x). pose proof (Ft' x).
    split; intros I; [destruct (proj1 IL (or_intror I)) as [J|J]|destruct (proj2 IL (or_intror I)) as [J|J]]; auto.
    - rewrite (H1 J) in *. specialize (H0 I). discriminate H0.
    - rewrite (H J) in *. specialize (H2 I). discriminate H2. }
  assert (SBt : forall x, In x b <-> In x b').
  { intros x. specialize (IL x). pose proof (Fb x). pose proof (Ft x). pose proof (Fb' x). pose proof (Ft' x).
    split; intros I; [destruct (proj1 IL (or_introl I)) as [J|J]|destruct (proj2 IL (or_introl I)) as [J|J]]; auto.
    - rewrite (H2 J) in *. specialize (H I). discriminate H.
    - rewrite (H0 J) in *. specialize (H1 I). discriminate H1. }
  rewrite (region_same srt srt' GS GS' t t') by (auto; intros x y I J; now rewrite (Ft x I), (Ft y J)).
  rewrite (region_same srt srt' GS GS' b b') by (auto; intros x y I J; now rewrite (Fb x I), (Fb y J)). reflexivity.
Qed.
Print Assumptions C72_order_is_irrelevant.

(** The frames that follow each other: always increasing and valid. *)
Theorem C72_next_frame :
  forall sorted_by split_by idcode l p a n, good_sort sorted_by -> good_split split_by ->
  part_of sorted_by split_by idcode l = Ok p -> a < 2 ^ 26 -> part_next p a = Some n ->
  a < n /\ n < 2 ^ 26 /\ exists b, In b l /\ reaches b n.
Proof.
  intros srt spl id l p a n GS GP E La EN. destruct (part_of_spec srt GS spl GP id l) as (p' & E' & _ & W & H).
  assert (p' = p) as -> by congruence. destruct (part_next_increases p a n W La EN) as [A B]. split; [exact A|]. split; [exact B|].
  pose proof (part_next_valid p a n W La EN) as V. rewrite part_valid_has, H in V.
  destruct V as (x & Ix & R). exists x. split; [exact Ix|now apply reaches_spec].
Qed.
Print Assumptions C72_next_frame.

(** Without holes, walking from frame 0 lists all the frames. *)
Theorem C72_walk_is_complete :
  forall sorted_by split_by idcode l p, good_sort sorted_by -> good_split split_by ->
  part_of sorted_by split_by idcode l = Ok p -> list_without_holes l -> listed_at l 0 0 0 0 ->
  exists w, FramesFacts.walk p 0 w /\ StronglySorted N.lt w /\
    forall a, In a w <-> a < 2 ^ 26 /\ exists b, In b l /\ reaches b a.
Proof.
  intros srt spl id l p GS GP E NH Z. destruct (part_of_spec srt GS spl GP id l) as (p' & E' & _ & W & H).
  assert (p' = p) as -> by congruence. clear E'.
  assert (V : forall a, part_valid p a = true <-> exists b, In b l /\ reaches b a).
  { intros a. rewrite part_valid_has, H. split; intros (x & Ix & R); exists x; (split; [exact Ix|]); now apply reaches_spec. }
  assert (AT : forall b h r c, listed_at l b h r c -> forall hb : bool, (hb = true <-> h = 1) -> (hb = false <-> h = 0) -> part_has p b hb r c 0).
  { intros b h r c (x & I & Eb & Eh & Er & Ec) hb T F. apply H. exists x. split; [exact I|].
    destruct (fields_spec x) as (-> & -> & -> & _ & T' & F'). repeat (split; [assumption|]).
    split; [|split; [assumption|split; [assumption|lia]]]. destruct hb, (fa_is_bottom x); try reflexivity; intuition congruence. }
  assert (D : part_dense p).
  { intros b h r c m Hp. apply H in Hp as (x & I & Eb & Eh & Er & Ec & _).
    destruct (NH x I) as (B2 & NC & NR & N0). destruct (fields_spec x) as (Fb & Fr & Fc & _ & T & F).
    rewrite Fb in Eb. rewrite Fr in Er. rewrite Fc in Ec. rewrite Eh in T, F. subst b r c.
    split; [intros c' L; apply (AT _ _ _ _ (NC c' L)); assumption|].
    split; [intros r' L; apply (AT _ _ _ _ (NR r' L)); assumption|].
    split; [|exact B2]. apply (AT _ _ _ _ N0); lia. }
  assert (V0 : part_valid p 0 = true).
  { apply V. destruct Z as (x & I & Eb & Eh & Er & Ec). exists x. split; [exact I|]. unfold reaches.
    rewrite Eb, Eh, Er, Ec. repeat (split; [reflexivity|]). apply N.le_0_l. }
  destruct (FramesFacts.walk_exists p W 0) as (w & Hw & Hs & Hf); [reflexivity|]. exists w. split; [exact Hw|]. split; [exact Hs|].
  intros a. rewrite <- V. split.
  - intros I. pose proof (FramesFacts.walk_valid p 0 w W ltac:(reflexivity) Hw) as WV. rewrite Forall_forall in WV, Hf.
    specialize (WV a I). specialize (Hf a I). split; [lia|]. destruct WV as [->|X]; assumption.
  - intros [L Va]. eapply (FramesFacts.walk_complete p 0); eauto; [reflexivity|lia].
Qed.
Print Assumptions C72_walk_is_complete.

(** The frames of a device, listed in any order, give a part with the same frames. *)
Theorem C72_listing_a_device :
  forall sorted_by split_by idcode l p dp a, good_sort sorted_by -> good_split split_by -> part_fits dp ->
  (forall a, In a l <-> is_frame_address dp a) -> part_of sorted_by split_by idcode l = Ok p -> a < 2 ^ 26 ->
  part_valid p a = part_valid (part_from dp) a.
Proof.
  intros srt spl id l p dp a GS GP F L E La. apply Bool.eq_true_iff_eq. rewrite (part_from_valid dp a F La).
  destruct (C72_valid_is_listed srt spl id l GS GP) as (p' & E' & _ & H). assert (p' = p) as -> by congruence. rewrite H. split.
  - intros (b & I & R). apply L in I. pose proof (is_frame_address_lt dp b F I) as Lb.
    apply (part_from_valid dp b F Lb) in I. apply (part_from_valid dp a F La). apply reaches_spec in R as (R1 & R2 & R3 & R4 & R5).
    rewrite part_valid_has in *. rewrite <- R1, <- R2, <- R3, <- R4. destruct I as (row & bus & fc & I1 & I2 & I3 & I4).
    exists row, bus, fc. repeat (split; [assumption|]). lia.
  - intros I. exists a. split; [now apply L|]. apply reaches_spec. repeat split; lia.
Qed.
Print Assumptions C72_listing_a_device.

(** A sorting and a partitioning algorithm that meet the standard's description, and a list with a
    repetition, out of order and without holes: three columns of two buses, in both halves. *)
Fixpoint place (key : N -> N) (x : N) (l : list N) : list N :=
  match l with [] => [x] | y :: r => if key x <=? key y then x :: l else y :: place key x r end.
Definition by_insertion (key : N -> N) (l : list N) : list N := fold_right (place key) [] l.
Definition by_filter (f : N -> bool) (l : list N) : list N * list N := (filter f l, filter (fun x => negb (f x)) l).

Lemma place_perm key x l : Permutation (place key x l) (x :: l).
Proof.
  induction l as [|y r IH]; cbn [place]; [reflexivity|]. destruct (key x <=? key y); [reflexivity|].
  rewrite IH. apply perm_swap.
Qed.
Lemma place_sorted key x l : StronglySorted (fun x y => key x <= key y) l -> StronglySorted (fun x y => key x <= key y) (place key x l).
Proof.
  induction l as [|y r IH]; cbn [place]; intros S; [repeat constructor|]. inversion S as [|? ? S' F]; subst.
  destruct (N.leb_spec (key x) (key y)) as [L|L].
  - constructor; [exact S|]. constructor; [exact L|]. eapply Forall_impl; [|exact F]. cbn. intros z H. lia.
  - constructor; [now apply IH|]. rewrite Forall_forall in *. intros z I. apply (Permutation_in _ (place_perm key x r)) in I.
    destruct I as [<-|I]; [lia|now apply F].
Qed.
Lemma by_insertion_good : good_sort by_insertion.
Proof.
  intros key l. induction l as [|x l [P S]]; cbn [by_insertion fold_right]; [split; constructor|].
  split; [rewrite place_perm; now constructor|now apply place_sorted].
Qed.
Lemma by_filter_good : good_split by_filter.
Proof.
  intros f l. unfold by_filter. split; [|split].
  - induction l as [|x l IH]; cbn [filter app]; [reflexivity|]. destruct (f x); cbn [negb app]; [now constructor|].
    rewrite <- Permutation_middle. now constructor.
  - apply Forall_forall. intros x I. now apply filter_In in I.
  - apply Forall_forall. intros x I. apply filter_In in I as [_ I]. now apply negb_true_iff.
Qed.

Definition listing : list N := [2 ^ 22 + 130; 35; 2 ^ 7 + 27; 3; 35; 2 ^ 23 + 127; 2 ^ 22 + 2; 0].
Example C72_case : exists p, part_of by_insertion by_filter 0x0362D093 listing = Ok p /\
  map (part_valid p) [0; 35; 36; 155; 156; 2 ^ 22 + 2; 2 ^ 22 + 3; 2 ^ 23 + 127; 2 ^ 24] =
    [true; true; false; true; false; true; false; true; false] /\
  map (part_next p) [35; 155; 2 ^ 22 + 2; 2 ^ 22 + 130] = [Some 128; Some (2 ^ 22); Some (2 ^ 22 + 128); Some (2 ^ 23)].
Proof. eexists. repeat split; vm_compute; reflexivity. Qed.
Example C72_case_holes : list_without_holes listing /\ listed_at listing 0 0 0 0.
Proof.
  assert (H : forall b h r c, existsb (fun x => (block_field x =? b) && (half_field x =? h) && (row_field x =? r) && (column_field x =? c)) listing = true -> listed_at listing b h r c).
  { intros b h r c E. apply existsb_exists in E as (x & I & E). rewrite !andb_true_iff, !N.eqb_eq in E. exists x. tauto. }
  split; [|now apply H]. intros x I. cbn [listing In] in I.
  assert (D : forall c, c <= 1 -> c = 0 \/ c = 1) by lia. assert (Z : forall c, c <= 0 -> c = 0) by lia.
  repeat (destruct I as [<-|I]; [split; [now vm_compute|]; split; [|split; [|now apply H]];
    [intros c L; vm_compute in L; (apply Z in L as ->; now apply H) || (apply D in L as [->| ->]; now apply H)
    |intros c L; vm_compute in L; apply Z in L as ->; now apply H]|]).
  destruct I.
Qed.
