(** The JSON readers related to the specification in JsonSpec. *)
From Verif Require Import Base BaseFacts Absl Part DbText DbJson AsmSpec MapFacts DbSpec DbFacts JsonSpec.

(** ** Outcomes *)
Definition fatal {A} (o : outcome A) : Prop := o = Crash \/ o = UB.
Lemma fatal_obind {A B} (o : outcome A) (f : A -> outcome B) :
  fatal (obind o f) <-> fatal o \/ exists x, o = Ok x /\ fatal (f x).
Proof.
  unfold fatal. destruct o as [x| | | |]; cbn [obind]; split.
  - intros H. right. eauto.
  - intros [[H|H]|(y & E & H)]; try discriminate. injection E as <-. exact H.
  - intros [H|H]; discriminate.
  - intros [[H|H]|(y & E & H)]; discriminate.
  - intros _. left. now left.
  - intros _. now left.
  - intros _. left. now right.
  - intros _. now right.
  - intros [H|H]; discriminate.
  - intros [[H|H]|(y & E & H)]; discriminate.
Qed.
Lemma fatal_Ok {A} (x : A) : ~ fatal (Ok x).
Proof. intros [H|H]; discriminate. Qed.
Lemma fatal_Err {A} : ~ fatal (@Err A).
Proof. intros [H|H]; discriminate. Qed.
Lemma obind_ok {A B} (o : outcome A) (f : A -> outcome B) y : obind o f = Ok y <-> exists x, o = Ok x /\ f x = Ok y.
Proof.
  destruct o as [x| | | |]; cbn [obind]; split; try (intros H; discriminate); try (intros (z & E & H); discriminate).
  - eauto.
  - intros (z & E & H). injection E as <-. exact H.
Qed.
Lemma obind_fuel {A B} (o : outcome A) (f : A -> outcome B) :
  o <> NoFuel -> (forall x, f x <> NoFuel) -> obind o f <> NoFuel.
Proof. destruct o; cbn [obind]; intros H K E; try discriminate; [exact (K _ E)|exact (H eq_refl)]. Qed.

(** ** Readers *)
(** [un] reads what [R] describes and aborts exactly where [B] says. *)
Record reader {A} (un : json -> outcome A) (R : json -> A -> Prop) (B : json -> Prop) : Prop := {
  rd_ok : forall j x, un j = Ok x -> R j x;
  rd_complete : forall j x, R j x -> exists y, un j = Ok y;
  rd_fatal : forall j, fatal (un j) <-> B j;
  rd_fuel : forall j, un j <> NoFuel
}.
Arguments rd_ok {A un R B}. Arguments rd_complete {A un R B}. Arguments rd_fatal {A un R B}. Arguments rd_fuel {A un R B}.

Lemma reader_ext {A} (un : json -> outcome A) R (B B' : json -> Prop) : reader un R B -> (forall j, B j <-> B' j) -> reader un R B'.
Proof. intros [a b c d] H. constructor; auto. intros j. rewrite c. apply H. Qed.

Lemma member_members j name v : member j name v -> exists l, members j = Ok l /\ find_member name l = Some v.
Proof. intros (l & -> & M). exists l. split; [reflexivity|]. now apply (hm_find_maps _ text_eqb_eq). Qed.
Lemma member_fun j name v v' : member j name v -> member j name v' -> v = v'.
Proof. intros (l & -> & M) (l' & E & M'). injection E as <-. eapply (maps_to_fun _ text_eqb_eq); eauto. Qed.
Lemma member_missing j name v : member j name v -> no_member j name -> False.
Proof. intros (l & -> & M) (l' & E & M'). injection E as <-. apply M'. eapply maps_to_key; eauto. Qed.

Lemma get_member_reader {A} (un : json -> outcome A) R B name :
  reader un R B -> reader (fun j => get_member un j name) (field name R) (fun j => exists v, member j name v /\ B v).
Proof.
  intros [Ho Hc Hf Hn]. constructor.
  - intros j x H. unfold get_member in H. apply obind_ok in H as (l & E & H). destruct j; try discriminate E. injection E as ->.
    destruct (find_member name l) as [v|] eqn:F; [|discriminate H]. exists v. split; [|now apply Ho].
    exists l. split; [reflexivity|]. now apply (hm_find_maps _ text_eqb_eq).
  - intros j x (v & M & H). apply member_members in M as (l & E & F). unfold get_member. rewrite E. cbn [obind].
    rewrite F. eauto.
  - intros j. unfold get_member. split.
    + intros H. apply fatal_obind in H as [H|(l & E & H)].
      * destruct j; cbn in H; solve [now apply fatal_Ok in H|now apply fatal_Err in H].
      * destruct j; try discriminate E. injection E as ->. destruct (find_member name l) as [v|] eqn:F; [|now apply fatal_Err in H].
        exists v. split; [|now apply Hf]. exists l. split; [reflexivity|]. now apply (hm_find_maps _ text_eqb_eq).
    + intros (v & M & H). apply member_members in M as (l & E & F). rewrite E. cbn [obind]. rewrite F. now apply Hf.
  - intros j. unfold get_member. apply obind_fuel; [destruct j; discriminate|]. intros l.
    destruct (find_member name l); [apply Hn|discriminate].
Qed.
Lemma opt_get_member_reader {A} (un : json -> outcome A) R B name :
  reader un R B -> reader (fun j => opt_get_member un j name) (opt_field name R) (fun j => exists v, member j name v /\ B v).
Proof.
  intros [Ho Hc Hf Hn]. constructor.
  - intros j x H. unfold opt_get_member in H. apply obind_ok in H as (l & E & H). destruct j; try discriminate E. injection E as ->.
    destruct (find_member name l) as [v|] eqn:F.
    + apply obind_ok in H as (y & E & H). injection H as <-. constructor. exists v. split; [|now apply Ho].
      exists l. split; [reflexivity|]. now apply (hm_find_maps _ text_eqb_eq).
    + injection H as <-. constructor 2. exists l. split; [reflexivity|]. now apply (hm_find_none _ text_eqb_eq).
  - intros j x [y (v & M & H)|M].
    + apply member_members in M as (l & E & F). unfold opt_get_member. rewrite E. cbn [obind].
      rewrite F. destruct (Hc _ _ H) as (z & ->). cbn [obind]. eauto.
    + destruct M as (l & -> & M). unfold opt_get_member. cbn [members obind]. apply (hm_find_none _ text_eqb_eq) in M.
      unfold find_member. rewrite M. eauto.
  - intros j. unfold opt_get_member. split.
    + intros H. apply fatal_obind in H as [H|(l & E & H)].
      * destruct j; cbn in H; solve [now apply fatal_Ok in H|now apply fatal_Err in H].
      * destruct j; try discriminate E. injection E as ->. destruct (find_member name l) as [v|] eqn:F; [|now apply fatal_Ok in H].
        apply fatal_obind in H as [H|(y & E & H)]; [|now apply fatal_Ok in H].
        exists v. split; [|now apply Hf]. exists l. split; [reflexivity|]. now apply (hm_find_maps _ text_eqb_eq).
    + intros (v & M & H). apply member_members in M as (l & E & F). rewrite E. cbn [obind]. rewrite F.
      apply fatal_obind. left. now apply Hf.
  - intros j. unfold opt_get_member. apply obind_fuel; [destruct j; discriminate|]. intros l.
    destruct (find_member name l); [|discriminate]. apply obind_fuel; [apply Hn|discriminate].
Qed.

(** ** Plain values *)
Definition never (j : json) : Prop := False.
Lemma un_string_reader : reader un_string json_string never.
Proof.
  constructor.
  - intros j x H. destruct j; try discriminate H. injection H as ->. reflexivity.
  - intros j x ->. cbn. eauto.
  - intros j. split; [|intros []]. destruct j; intros H; solve [now apply fatal_Ok in H|now apply fatal_Err in H].
  - intros j. destruct j; discriminate.
Qed.
Lemma un_u32_reader : reader un_u32 json_u32 never.
Proof.
  assert (D : forall j, (exists x, un_u32 j = Ok x) \/ un_u32 j = Err).
  { intros [| |z| | | |]; cbn [un_u32]; auto. destruct (_ && _)%bool; eauto. }
  constructor.
  - intros j x H. destruct j as [| |z| | | |]; try discriminate H. unfold un_u32 in H.
    assert (P : (2 ^ 32 = 4294967296)%Z) by reflexivity. rewrite P in H.
    destruct (Z.leb_spec 0 z) as [L|L]; cbn [andb] in H; [|discriminate].
    destruct (Z.ltb_spec z 4294967296) as [L'|L']; [|discriminate]. injection H as <-.
    split; [now rewrite Z2N.id by exact L|]. assert (Q : 2 ^ 32 = 4294967296) by reflexivity. rewrite Q. lia.
  - intros j x [-> L]. exists x. unfold un_u32. assert (Q : 2 ^ 32 = 4294967296) by reflexivity. rewrite Q in L.
    assert (P : (2 ^ 32 = 4294967296)%Z) by reflexivity. rewrite P.
    destruct (Z.leb_spec 0 (Z.of_N x)) as [A|A]; [|lia]. cbn [andb].
    destruct (Z.ltb_spec (Z.of_N x) 4294967296) as [C|C]; [|lia]. now rewrite N2Z.id.
  - intros j. split; [|intros []]. intros H. destruct (D j) as [(x & E)|E]; rewrite E in H;
    solve [now apply fatal_Ok in H|now apply fatal_Err in H].
  - intros j. destruct (D j) as [(x & E)|E]; rewrite E; discriminate.
Qed.
Lemma un_i32_reader : reader un_i32 json_i32 never.
Proof.
  assert (D : forall j, (exists x, un_i32 j = Ok x) \/ un_i32 j = Err).
  { intros [| |z| | | |]; cbn [un_i32]; auto. destruct (_ && _)%bool; eauto. }
  constructor.
  - intros j x H. destruct j as [| |z| | | |]; try discriminate H. unfold un_i32 in H. unfold json_i32.
    assert (P : (2 ^ 31 = 2147483648)%Z) by reflexivity. rewrite P in *.
    destruct (Z.leb_spec (- (2147483648)) z) as [L|L]; cbn [andb] in H; [|discriminate].
    destruct (Z.ltb_spec z 2147483648) as [L'|L']; [|discriminate]. injection H as <-.
    split; [reflexivity|lia].
  - intros j x [-> L]. exists x. unfold un_i32.
    assert (P : (2 ^ 31 = 2147483648)%Z) by reflexivity. rewrite P in *.
    destruct (Z.leb_spec (- (2147483648)) x) as [A|A]; [|lia]. cbn [andb].
    destruct (Z.ltb_spec x 2147483648) as [C|C]; [|lia]. reflexivity.
  - intros j. split; [|intros []]. intros H. destruct (D j) as [(x & E)|E]; rewrite E in H;
    solve [now apply fatal_Ok in H|now apply fatal_Err in H].
  - intros j. destruct (D j) as [(x & E)|E]; rewrite E; discriminate.
Qed.

Lemma c_str_spec s : forall t, c_str s = t <-> c_string s t.
Proof.
  induction s as [|c r IH]; intros t.
  - cbn. split.
    + intros <-. split; [intros []|]. now left.
    + intros [_ [E|(r & E)]]; [exact E|]. destruct t; discriminate.
  - cbn [c_str]. destruct (Ascii.eqb_spec c "000") as [E|N].
    + subst c. split.
      * intros <-. split; [intros []|]. right. exists r. reflexivity.
      * intros [I [E|(x & E)]].
        -- subst t. exfalso. apply I. now left.
        -- destruct t as [|a t]; [reflexivity|]. injection E as <- E. exfalso. apply I. now left.
    + split.
      * intros <-. destruct (proj1 (IH _) eq_refl) as [I H]. split.
        -- intros [E|J]; [now apply N|now apply I].
        -- destruct H as [E|(x & E)]; [left; congruence|right; exists x; cbn; congruence].
      * intros [I H]. destruct t as [|a t].
        -- destruct H as [E|(x & E)]; [discriminate|]. injection E as -> _. now elim N.
        -- assert (a = c) as -> by (destruct H as [E|(x & E)]; injection E; auto). f_equal. apply IH. split.
           ++ intros J. apply I. now right.
           ++ destruct H as [E|(x & E)]; injection E as E; [now left|right; eauto].
Qed.
Lemma c_string_fun s t t' : c_string s t -> c_string s t' -> t = t'.
Proof. intros H H'. apply c_str_spec in H. apply c_str_spec in H'. congruence. Qed.

(** ** Objects used as maps *)
Section Maps.
  Context {K A : Type} (eqb : K -> K -> bool) (Heq : forall a b, eqb a b = true <-> a = b).
  Context (kf : text -> outcome K) (key : text -> K -> Prop)
    (kf_ok : forall k x, kf k = Ok x <-> key k x) (kf_or : forall k, ok_or_err (kf k)).
  Context (vf : json -> outcome A) (R : json -> A -> Prop) (B : json -> Prop) (Hv : reader vf R B).

  Definition map_step (m : list (K * A)) (kv : text * json) : outcome (list (K * A)) :=
    obind (kf (fst kv)) (fun k => obind (vf (snd kv)) (fun v => Ok (hm_insert eqb k v m))).

  Lemma map_fold_ok l : forall m m', ofold map_step l m = Ok m' <->
    exists es, Forall2 (fun kv e => key (fst kv) (fst e) /\ vf (snd kv) = Ok (snd e)) l es /\ m' = insert_all eqb es m.
  Proof.
    induction l as [|[k j] l IH]; intros m m'; cbn [ofold].
    - split.
      + intros H. injection H as <-. exists []. split; [constructor|reflexivity].
      + intros (es & F & ->). inversion F. reflexivity.
    - split.
      + intros H. apply obind_ok in H as (m1 & E & H). unfold map_step in E. cbn [fst snd] in E.
        apply obind_ok in E as (x & Ek & E). apply obind_ok in E as (v & Ev & E). injection E as <-.
        apply IH in H as (es & F & ->). exists ((x, v) :: es). split; [|reflexivity].
        constructor; [cbn [fst snd]; split; [now apply kf_ok|exact Ev]|exact F].
      + intros (es & F & ->). inversion F as [|? [x v] ? es' [Hk Hj] F']; subst. cbn [fst snd] in *.
        unfold map_step at 1. cbn [fst snd]. apply kf_ok in Hk. rewrite Hk. cbn [obind]. rewrite Hj. cbn [obind].
        apply IH. exists es'. split; [exact F'|reflexivity].
  Qed.
  Lemma map_fold_fatal l : forall m, fatal (ofold map_step l m) <->
    exists l1 k v l2 x es, l = l1 ++ (k, v) :: l2 /\
      Forall2 (fun kv e => key (fst kv) (fst e) /\ vf (snd kv) = Ok (snd e)) l1 es /\ key k x /\ B v.
  Proof.
    induction l as [|[k j] l IH]; intros m; cbn [ofold].
    - split; [intros H; now apply fatal_Ok in H|]. intros ([|? ?] & k & v & l2 & x & es & E & _); discriminate.
    - split.
      + intros H. apply fatal_obind in H as [H|(m1 & E & H)].
        * unfold map_step in H. cbn [fst snd] in H. apply fatal_obind in H as [H|(x & Ek & H)].
          { destruct (kf_or k) as [(y & E)|E]; rewrite E in H; solve [now apply fatal_Ok in H|now apply fatal_Err in H]. }
          apply fatal_obind in H as [H|(v & Ev & H)]; [|now apply fatal_Ok in H].
          exists [], k, j, l, x, []. split; [reflexivity|]. split; [constructor|]. split; [now apply kf_ok|]. now apply (rd_fatal Hv).
        * unfold map_step in E. cbn [fst snd] in E.
          apply obind_ok in E as (x & Ek & E). apply obind_ok in E as (v & Ev & E). 
          apply IH in H as (l1 & k' & v' & l2 & x' & es & -> & F & Hk & HB).
          exists ((k, j) :: l1), k', v', l2, x', ((x, v) :: es). split; [reflexivity|]. split; [|auto].
          constructor; [|exact F]. split; [now apply kf_ok|exact Ev].
      + intros (l1 & k' & v' & l2 & x' & es & E & F & Hk & HB). destruct l1 as [|[k1 j1] l1].
        * injection E as -> -> ->. apply fatal_obind. left. unfold map_step. cbn [fst snd]. apply kf_ok in Hk. rewrite Hk.
          cbn [obind]. apply fatal_obind. left. now apply (rd_fatal Hv).
        * injection E as -> -> ->. inversion F as [|? [x v] ? es' [Hk' Hj] F']; subst. cbn [fst snd] in *.
          unfold map_step at 1. cbn [fst snd]. apply kf_ok in Hk'. rewrite Hk'. cbn [obind]. rewrite Hj. cbn [obind].
          apply IH. exists l1, k', v', l2, x', es'. auto.
  Qed.
  Lemma map_fold_fuel l : forall m, ofold map_step l m <> NoFuel.
  Proof.
    induction l as [|[k j] l IH]; intros m; cbn [ofold]; [discriminate|].
    apply obind_fuel; [|exact IH]. unfold map_step. cbn [fst snd].
    apply obind_fuel; [destruct (kf_or k) as [(y & E)|E]; rewrite E; discriminate|]. intros x.
    apply obind_fuel; [apply (rd_fuel Hv)|discriminate].
  Qed.

  Lemma entries_loose l es : Forall2 (fun (kv : text * json) (e : K * A) => key (fst kv) (fst e) /\ vf (snd kv) = Ok (snd e)) l es ->
    Forall2 (fun kv e => key (fst kv) (fst e) /\ R (snd kv) (snd e)) l es.
  Proof. intros F. induction F as [|? ? ? ? [H H'] F IH]; constructor; auto. split; [exact H|]. now apply (rd_ok Hv). Qed.
  Lemma entries_tight l es : Forall2 (fun (kv : text * json) (e : K * A) => key (fst kv) (fst e) /\ R (snd kv) (snd e)) l es ->
    exists es', Forall2 (fun kv e => key (fst kv) (fst e) /\ vf (snd kv) = Ok (snd e)) l es'.
  Proof.
    intros F. induction F as [|? e ? ? [H H'] F (es' & IH)]; [exists []; constructor|].
    destruct (rd_complete Hv _ _ H') as (y & E). exists ((fst e, y) :: es'). constructor; auto.
  Qed.
  Lemma collects_insert_all (es : list (K * A)) : collects es (insert_all eqb es []).
  Proof. split; [apply (insert_all_NoDup eqb Heq); constructor|]. intros k v. apply (insert_all_maps eqb Heq). Qed.

  Definition map_fault (j : json) : Prop :=
    exists l1 k v l2 m x, j = JObj (l1 ++ (k, v) :: l2) /\ json_map key R (JObj l1) m /\ key k x /\ B v.

  Lemma map_reader (un : json -> outcome (list (K * A))) (Bad : json -> Prop) :
    (forall j, un j = match j with JObj l => ofold map_step l [] | _ => un JNull end) ->
    (un JNull = Err /\ (forall j, Bad j <-> map_fault j) \/ un JNull = Crash /\ forall j, Bad j <-> (~ is_object j \/ map_fault j)) ->
    reader un (json_map key R) Bad.
  Proof.
    intros Hun Hnull.
    assert (Hok : forall j m, un j = Ok m -> exists l, j = JObj l).
    { intros j m H. rewrite Hun in H. destruct j; try (destruct Hnull as [[E _]|[E _]]; rewrite E in H; discriminate). eauto. }
    assert (Hfault : forall l, fatal (un (JObj l)) <-> map_fault (JObj l)).
    { intros l. rewrite Hun, map_fold_fatal. split.
      - intros (l1 & k & v & l2 & x & es & -> & F & Hk & HB). exists l1, k, v, l2, (insert_all eqb es []), x.
        split; [reflexivity|]. split; [|auto]. exists l1, es. split; [reflexivity|]. split; [now apply entries_loose|apply collects_insert_all].
      - intros (l1 & k & v & l2 & m & x & E & (l1' & es & E' & F & _) & Hk & HB). injection E as ->. injection E' as <-.
        apply entries_tight in F as (es' & F). exists l1, k, v, l2, x, es'. auto. }
    constructor.
    - intros j m H. destruct (Hok _ _ H) as (l & ->). rewrite Hun in H. apply map_fold_ok in H as (es & F & ->).
      exists l, es. split; [reflexivity|]. split; [now apply entries_loose|apply collects_insert_all].
    - intros j m (l & es & -> & F & _). apply entries_tight in F as (es' & F). exists (insert_all eqb es' []).
      rewrite Hun. apply map_fold_ok. eauto.
    - intros j. destruct Hnull as [[E H]|[E H]]; rewrite H.
      + assert (N : (forall l, j <> JObj l) -> un j = Err) by (intros N; rewrite Hun; destruct j; try exact E; now elim (N l)).
        destruct j; try (rewrite N by (intros; discriminate); split; [intros X; now apply fatal_Err in X|intros (? & ? & ? & ? & ? & ? & X & _); discriminate X]).
        apply Hfault.
      + assert (N : (forall l, j <> JObj l) -> un j = Crash) by (intros N; rewrite Hun; destruct j; try exact E; now elim (N l)).
        destruct j; try (rewrite N by (intros; discriminate); split; [intros _; left; intros (? & X); discriminate X|intros _; now left]).
        rewrite Hfault. split; [now right|]. intros [X|X]; [|exact X]. exfalso. apply X. red. eauto.
    - intros j. rewrite Hun. destruct j; try (destruct Hnull as [[E _]|[E _]]; rewrite E; discriminate). apply map_fold_fuel.
  Qed.
End Maps.

(** ** Objects used as arrays *)
Definition int_of_key (k : text) : outcome Z :=
  match atoi_i32 (c_str k) with (_, false) => Err | (z, true) => Ok z end.
Lemma int_of_key_spec k z : int_of_key k = Ok z <-> int_key k z.
Proof.
  unfold int_of_key, int_key. split.
  - destruct (atoi_i32 (c_str k)) as [z' b] eqn:E. destruct b; intros H; [|discriminate]. injection H as ->.
    apply atoi_i32_ok in E as [E L]. exists (c_str k). split; [now apply c_str_spec|auto].
  - intros (k' & Hk & S & L). apply c_str_spec in Hk. subst k'.
    assert (X : atoi_i32 (c_str k) = (z, true)) by (apply atoi_i32_ok; auto). rewrite X. reflexivity.
Qed.
Lemma int_of_key_or k : ok_or_err (int_of_key k).
Proof. unfold int_of_key, ok_or_err. destruct (atoi_i32 (c_str k)) as [z' b]. destruct b; eauto. Qed.
Lemma int_key_fun k z z' : int_key k z -> int_key k z' -> z = z'.
Proof. intros H H'. apply int_of_key_spec in H. apply int_of_key_spec in H'. congruence. Qed.

Section Arrays.
  Context {A : Type} (vf : json -> outcome A) (R : json -> A -> Prop) (B : json -> Prop) (Hv : reader vf R B).

  Definition array_step (st : Z * list A) (kv : text * json) : outcome (Z * list A) :=
    let '(prev, v) := st in
    obind (int_of_key (fst kv)) (fun key => obind (check_next prev key) (fun _ =>
      obind (vf (snd kv)) (fun x => Ok (key, v ++ [x])))).

  Lemma check_next_ok prev key u : check_next prev key = Ok u -> key = (prev + 1)%Z.
  Proof.
    unfold check_next. destruct (key =? - 2 ^ 31)%Z; [discriminate|]. destruct (Z.eqb_spec prev (key - 1)); [lia|discriminate].
  Qed.
  Lemma check_next_good n : (0 <= n)%Z -> check_next (n - 1) n = Ok tt.
  Proof.
    intros L. unfold check_next. assert (P : (2 ^ 31 = 2147483648)%Z) by reflexivity. rewrite P.
    destruct (Z.eqb_spec n (- (2147483648))) as [E|_]; [lia|]. now rewrite Z.eqb_refl.
  Qed.
  Lemma check_next_bad n key : (0 <= n)%Z -> fatal (check_next (n - 1) key) <-> key <> n.
  Proof.
    intros L. unfold check_next. assert (P : (2 ^ 31 = 2147483648)%Z) by reflexivity. rewrite P.
    destruct (Z.eqb_spec key (- (2147483648))) as [E|_].
    - split; [lia|]. intros _. now right.
    - destruct (Z.eqb_spec (n - 1) (key - 1)) as [E|E]; split; try lia.
      + intros H. now apply fatal_Ok in H.
      + intros _. now left.
  Qed.
  Lemma check_next_fuel prev key : check_next prev key <> NoFuel.
  Proof. unfold check_next. destruct (_ =? _)%Z; [discriminate|]. destruct (_ =? _)%Z; discriminate. Qed.

  Lemma array_fold_ok l : forall n acc z acc', (0 <= n)%Z ->
    ofold array_step l ((n - 1)%Z, acc) = Ok (z, acc') <->
    z = (n - 1 + Z.of_nat (length l))%Z /\ exists xs, numbered (fun v x => vf v = Ok x) n l xs /\ acc' = acc ++ xs.
  Proof.
    induction l as [|[k j] l IH]; intros n acc z acc' L; cbn [ofold length].
    - split.
      + intros H. injection H as <- <-. split; [lia|]. exists []. split; [constructor|now rewrite app_nil_r].
      + intros (-> & xs & F & ->). inversion F; subst. rewrite app_nil_r. change (Z.of_nat 0) with 0%Z.
        now rewrite Z.add_0_r.
    - split.
      + intros H. apply obind_ok in H as ([p a1] & E & H). unfold array_step in E. cbn [fst snd] in E.
        apply obind_ok in E as (key & Ek & E). apply obind_ok in E as (u & Ec & E). apply obind_ok in E as (x & Ex & E).
        injection E as <- <-. apply check_next_ok in Ec. assert (key = n) as -> by lia.
        replace n with (n + 1 - 1)%Z in H by lia. apply IH in H as (-> & xs & F & ->); [|lia]. split; [lia|].
        exists (x :: xs). split; [|now rewrite <- app_assoc].
        constructor; [now apply int_of_key_spec|exact Ex|exact F].
      + intros (-> & xs & F & ->). inversion F as [|? ? ? ? x xs' Hk Hx F']; subst.
        unfold array_step at 1. cbn [fst snd]. apply int_of_key_spec in Hk. rewrite Hk. cbn [obind].
        rewrite check_next_good by exact L. cbn [obind]. rewrite Hx. cbn [obind].
        replace (ofold array_step l (n, acc ++ [x])) with (ofold array_step l ((n + 1 - 1)%Z, acc ++ [x])) by (f_equal; f_equal; lia).
        apply IH; [lia|]. split; [lia|]. exists xs'. split; [exact F'|now rewrite <- app_assoc].
  Qed.
  Lemma array_fold_fatal l : forall n acc, (0 <= n)%Z ->
    fatal (ofold array_step l ((n - 1)%Z, acc)) <-> array_aborts (fun v x => vf v = Ok x) B n l.
  Proof.
    induction l as [|[k j] l IH]; intros n acc L; cbn [ofold].
    - split; [intros H; now apply fatal_Ok in H|]. intros H. inversion H.
    - split.
      + intros H. apply fatal_obind in H as [H|([p a1] & E & H)].
        * unfold array_step in H. cbn [fst snd] in H. apply fatal_obind in H as [H|(key & Ek & H)].
          { destruct (int_of_key_or k) as [(y & E)|E]; rewrite E in H; solve [now apply fatal_Ok in H|now apply fatal_Err in H]. }
          apply int_of_key_spec in Ek.
          apply fatal_obind in H as [H|(u & Ec & H)]; [apply check_next_bad in H; [eapply aborts_key; eauto|exact L]|].
          apply check_next_ok in Ec. assert (key = n) as -> by lia.
          apply fatal_obind in H as [H|(v & Ev & H)]; [|now apply fatal_Ok in H].
          apply aborts_inner; [exact Ek|]. now apply (rd_fatal Hv).
        * unfold array_step in E. cbn [fst snd] in E.
          apply obind_ok in E as (key & Ek & E). apply obind_ok in E as (u & Ec & E). apply obind_ok in E as (x & Ex & E).
          injection E as <- <-. apply check_next_ok in Ec. assert (key = n) as -> by lia. apply int_of_key_spec in Ek.
          replace n with (n + 1 - 1)%Z in H at 1 by lia. apply IH in H; [|lia]. eapply aborts_later; eauto.
      + intros H. inversion H as [? ? ? ? z Hk Hz|? ? ? ? Hk HB|? ? ? ? x Hk Hx HA]; subst.
        * apply fatal_obind. left. unfold array_step. cbn [fst snd]. apply int_of_key_spec in Hk. rewrite Hk. cbn [obind].
          apply fatal_obind. left. now apply check_next_bad.
        * apply fatal_obind. left. unfold array_step. cbn [fst snd]. apply int_of_key_spec in Hk. rewrite Hk. cbn [obind].
          rewrite check_next_good by exact L. cbn [obind]. apply fatal_obind. left. now apply (rd_fatal Hv).
        * unfold array_step at 1. cbn [fst snd]. apply int_of_key_spec in Hk. rewrite Hk. cbn [obind].
          rewrite check_next_good by exact L. cbn [obind]. rewrite Hx. cbn [obind].
          replace (ofold array_step l (n, acc ++ [x])) with (ofold array_step l ((n + 1 - 1)%Z, acc ++ [x])) by (f_equal; f_equal; lia).
          apply IH; [lia|exact HA].
  Qed.
  Lemma array_fold_fuel l : forall st, ofold array_step l st <> NoFuel.
  Proof.
    induction l as [|[k j] l IH]; intros [p acc]; cbn [ofold]; [discriminate|].
    apply obind_fuel; [|exact IH]. unfold array_step. cbn [fst snd].
    apply obind_fuel; [destruct (int_of_key_or k) as [(y & E)|E]; rewrite E; discriminate|]. intros x.
    apply obind_fuel; [apply check_next_fuel|]. intros u.
    apply obind_fuel; [apply (rd_fuel Hv)|discriminate].
  Qed.
  Lemma numbered_loose n l xs : numbered (fun v x => vf v = Ok x) n l xs -> numbered R n l xs.
  Proof. intros F. induction F as [n|n k v l x xs Hk Hx F IH]; constructor; auto. exact (rd_ok Hv _ _ Hx). Qed.
  Lemma numbered_tight n l xs : numbered R n l xs -> exists ys, numbered (fun v x => vf v = Ok x) n l ys.
  Proof.
    intros F. induction F as [n|n k v l x xs Hk Hx F (ys & IH)]; [exists []; constructor|].
    destruct (rd_complete Hv _ _ Hx) as (y & E). exists (y :: ys). constructor; auto.
  Qed.
  Lemma array_aborts_iff n l : array_aborts (fun v x => vf v = Ok x) B n l <-> array_aborts R B n l.
  Proof.
    split; intros F; induction F as [n k v l z Hk Hz|n k v l Hk HB|n k v l x Hk Hx HA IH].
    - eapply aborts_key; eauto.
    - now apply aborts_inner.
    - eapply aborts_later; eauto. exact (rd_ok Hv _ _ Hx).
    - eapply aborts_key; eauto.
    - now apply aborts_inner.
    - destruct (rd_complete Hv _ _ Hx) as (y & E). eapply aborts_later; eauto.
  Qed.

  Definition un_array (j : json) : outcome (list A) :=
    obind (members j) (fun l => obind (ofold array_step l ((-1)%Z, [])) (fun '(_, v) => Ok v)).
  Lemma array_reader : reader un_array (json_array R) (fun j => exists l, j = JObj l /\ array_aborts R B 0 l).
  Proof.
    constructor.
    - intros j x H. unfold un_array in H. apply obind_ok in H as (l & E & H). destruct j; try discriminate E. injection E as ->.
      apply obind_ok in H as ([p v] & E & H). injection H as <-. apply (array_fold_ok l 0) in E as (_ & xs & F & ->); [|lia].
      exists l. split; [reflexivity|]. cbn [app]. now apply numbered_loose.
    - intros j x (l & -> & F). apply numbered_tight in F as (ys & F). exists ys. unfold un_array. cbn [members obind].
      apply obind_ok. exists ((0 - 1 + Z.of_nat (length l))%Z, ys). split; [|reflexivity].
      apply (array_fold_ok l 0); [lia|]. split; [reflexivity|]. exists ys. auto.
    - intros j. unfold un_array. split.
      + intros H. apply fatal_obind in H as [H|(l & E & H)].
        { destruct j; cbn in H; solve [now apply fatal_Ok in H|now apply fatal_Err in H]. }
        destruct j; try discriminate E. injection E as ->. exists l. split; [reflexivity|].
        apply fatal_obind in H as [H|([p v] & E & H)]; [|now apply fatal_Ok in H].
        apply (array_fold_fatal l 0) in H; [|lia]. now apply array_aborts_iff.
      + intros (l & -> & H). cbn [members obind]. apply fatal_obind. left. apply (array_fold_fatal l 0); [lia|]. now apply array_aborts_iff.
    - intros j. unfold un_array. apply obind_fuel; [destruct j; discriminate|]. intros l.
      apply obind_fuel; [apply array_fold_fuel|]. intros [p v]. discriminate.
  Qed.
End Arrays.

Lemma reader_un {A} (un un' : json -> outcome A) R B : (forall j, un j = un' j) -> reader un R B -> reader un' R B.
Proof.
  intros E [a b c d]. constructor.
  - intros j x H. apply a. now rewrite E.
  - intros j x H. rewrite <- E. eauto.
  - intros j. rewrite <- E. apply c.
  - intros j. rewrite <- E. apply d.
Qed.
Lemma ofold_ext {A B} (f g : B -> A -> outcome B) l : (forall s x, f s x = g s x) -> forall s, ofold f l s = ofold g l s.
Proof. intros H. induction l as [|x l IH]; intros s; [reflexivity|]. cbn [ofold]. rewrite H. destruct (g s x); cbn [obind]; auto. Qed.

(** ** part.json *)
Lemma bus_of_string_spec s t : bus_of_string s = Ok t <-> bus_name s t.
Proof.
  unfold bus_of_string. destruct (text_eqb s (tx "BLOCK_RAM")) eqn:E1; [apply text_eqb_eq in E1; subst s|].
  { split; [intros H; injection H as <-; constructor|]. intros H. inversion H; reflexivity. }
  destruct (text_eqb s (tx "CLB_IO_CLK")) eqn:E2; [apply text_eqb_eq in E2; subst s|].
  { split; [intros H; injection H as <-; constructor|]. intros H. inversion H; reflexivity. }
  destruct (text_eqb s (tx "CFG_CLB")) eqn:E3; [apply text_eqb_eq in E3; subst s|].
  { split; [intros H; injection H as <-; constructor|]. intros H. inversion H; reflexivity. }
  split; [discriminate|]. intros H. inversion H; subst; discriminate.
Qed.
Lemma bus_of_string_or s : ok_or_err (bus_of_string s).
Proof. unfold bus_of_string, ok_or_err. destruct (text_eqb s _); eauto. destruct (text_eqb s _); eauto. destruct (text_eqb s _); eauto. Qed.
Lemma bus_key_spec k t : bus_of_string (c_str k) = Ok t <-> bus_key k t.
Proof.
  unfold bus_key. split.
  - intros H. exists (c_str k). split; [now apply c_str_spec|now apply bus_of_string_spec].
  - intros (k' & H & Hn). apply c_str_spec in H. subst k'. now apply bus_of_string_spec.
Qed.

Lemma no_one_aborts {A} (R : json -> A -> Prop) (B B' : json -> Prop) n l :
  (forall v, B v <-> B' v) -> array_aborts R B n l <-> array_aborts R B' n l.
Proof.
  intros H. split; intros F; induction F as [n k v l z Hk Hz|n k v l Hk HB|n k v l x Hk Hx HA IH].
  - eapply aborts_key; eauto.
  - apply aborts_inner; [exact Hk|now apply H].
  - eapply aborts_later; eauto.
  - eapply aborts_key; eauto.
  - apply aborts_inner; [exact Hk|now apply H].
  - eapply aborts_later; eauto.
Qed.

Lemma un_columns_reader : reader un_columns json_columns columns_abort.
Proof.
  eapply reader_ext; [eapply reader_un; [|apply (array_reader _ _ _ (get_member_reader un_u32 json_u32 never (tx "frame_count") un_u32_reader))]|].
  - intros j. unfold un_array, un_columns. destruct (members j) as [l| | | |]; cbn [obind]; auto.
    f_equal. apply ofold_ext. intros [prev v] kv. unfold array_step, int_of_key.
    destruct (atoi_i32 (c_str (fst kv))) as [z []]; reflexivity.
  - intros j. unfold columns_abort.
    assert (E : forall l, array_aborts (field (tx "frame_count") json_u32) (fun j => exists v, member j (tx "frame_count") v /\ never v) 0 l <->
      array_aborts (field (tx "frame_count") json_u32) (fun _ => False) 0 l).
    { intros l. apply no_one_aborts. intros v. split; [intros (x & _ & [])|intros []]. }
    split; intros (l & -> & H); exists l; (split; [reflexivity|]); now apply E.
Qed.

Lemma un_row_reader : reader un_row json_row row_aborts.
Proof.
  eapply reader_ext; [apply (map_reader bus_eqb bus_eqb_eq (fun k => bus_of_string (c_str k)) bus_key bus_key_spec (fun k => bus_of_string_or (c_str k))
     _ _ _ (get_member_reader un_columns json_columns columns_abort (tx "configuration_columns") un_columns_reader))|].
  - intros j. destruct j; reflexivity.
  - left. split; [reflexivity|]. intros j. reflexivity.
  - intros j. unfold map_fault, row_aborts. split.
    + intros (l1 & k & v & l2 & m & x & E & H & Hk & cols & Hm & Hc). exists l1, k, v, l2, m, x, cols. auto.
    + intros (l1 & k & v & l2 & m & x & cols & E & H & Hk & Hm & Hc). exists l1, k, v, l2, m, x. eauto 10.
Qed.

Lemma un_half_reader : reader un_half json_half half_aborts.
Proof.
  eapply reader_un; [|apply (array_reader _ _ _ (get_member_reader un_row json_row row_aborts (tx "configuration_buses") un_row_reader))].
  intros j. unfold un_array, un_half. destruct (members j) as [l| | | |]; cbn [obind]; auto.
  f_equal. apply ofold_ext. intros [prev v] kv. unfold array_step, int_of_key.
  destruct (atoi_i32 (c_str (fst kv))) as [z []]; reflexivity.
Qed.

Lemma pointer2_spec a b j v : pointer2 a b j = Some v <-> exists x, member j a x /\ member x b v.
Proof.
  unfold pointer2. split.
  - destruct j as [| | | | | |l]; try discriminate. destruct (find_member a l) as [[| | | | | |l']|] eqn:F; try discriminate.
    intros F'. exists (JObj l'). split.
    + exists l. split; [reflexivity|]. now apply (hm_find_maps _ text_eqb_eq).
    + exists l'. split; [reflexivity|]. now apply (hm_find_maps _ text_eqb_eq).
  - intros (x & (l & -> & M) & (l' & -> & M')). apply (hm_find_maps _ text_eqb_eq) in M. apply (hm_find_maps _ text_eqb_eq) in M'.
    unfold find_member. now rewrite M.
Qed.

Lemma un_regions_reader : reader un_regions json_regions regions_abort.
Proof.
  destruct un_half_reader as [Ho Hc Hf Hn].
  assert (P : forall nm j (h : clock_region_half), field nm (field (tx "rows") json_half) j h <->
     exists v, pointer2 nm (tx "rows") j = Some v /\ json_half v h).
  { intros nm j h. unfold field. split.
    - intros (x & M & v & M' & H). exists v. split; [apply pointer2_spec; eauto|exact H].
    - intros (v & E & H). apply pointer2_spec in E as (x & M & M'). exists x. split; [exact M|]. exists v. auto. }
  constructor.
  - intros j [b t] H. unfold un_regions in H. unfold json_regions. rewrite !P. cbn [fst snd].
    destruct (pointer2 (tx "bottom") (tx "rows") j) as [jb|]; [|discriminate].
    apply obind_ok in H as (b' & Eb & H). destruct (pointer2 (tx "top") (tx "rows") j) as [jt|]; [|discriminate].
    apply obind_ok in H as (t' & Et & H). injection H as <- <-. split; [exists jb|exists jt]; auto.
  - intros j [b t] [Hb Ht]. cbn [fst snd] in *. apply P in Hb as (jb & Eb & Hb). apply P in Ht as (jt & Et & Ht).
    unfold un_regions. rewrite Eb, Et. destruct (Hc _ _ Hb) as (b' & ->). cbn [obind]. destruct (Hc _ _ Ht) as (t' & ->). cbn [obind]. eauto.
  - intros j. unfold un_regions, regions_abort. split.
    + destruct (pointer2 (tx "bottom") (tx "rows") j) as [jb|] eqn:Eb; [|intros H; now apply fatal_Err in H].
      intros H. apply fatal_obind in H as [H|(b & E & H)].
      * left. apply pointer2_spec in Eb as (x & M & M'). exists x, jb. split; [exact M|]. split; [exact M'|now apply Hf].
      * right. destruct (pointer2 (tx "top") (tx "rows") j) as [jt|] eqn:Et; [|now apply fatal_Err in H].
        apply fatal_obind in H as [H|(t & E' & H)]; [|now apply fatal_Ok in H].
        apply pointer2_spec in Et as (x & M & M'). exists b, x, jt. split; [apply P; exists jb; auto|].
        split; [exact M|]. split; [exact M'|now apply Hf].
    + intros [(x & rows & M & M' & H)|(h & x & rows & Hb & M & M' & H)].
      * assert (E : pointer2 (tx "bottom") (tx "rows") j = Some rows) by (apply pointer2_spec; eauto). rewrite E.
        apply fatal_obind. left. now apply Hf.
      * apply P in Hb as (jb & Eb & Hb). rewrite Eb. destruct (Hc _ _ Hb) as (b' & ->). cbn [obind].
        assert (E : pointer2 (tx "top") (tx "rows") j = Some rows) by (apply pointer2_spec; eauto). rewrite E.
        apply fatal_obind. left. now apply Hf.
  - intros j. unfold un_regions. destruct (pointer2 _ _ j); [|discriminate]. apply obind_fuel; [apply Hn|]. intros b.
    destruct (pointer2 _ _ j); [|discriminate]. apply obind_fuel; [apply Hn|]. discriminate.
Qed.

(** The values of the I/O banks. *)
Definition un_location (j : json) : outcome text := match j with JStr s => Ok (c_str s) | _ => Crash end.
Lemma un_location_reader : reader un_location (fun v s => exists s', v = JStr s' /\ c_string s' s) (fun v => forall s, v <> JStr s).
Proof.
  constructor.
  - intros j x H. destruct j; try discriminate H. injection H as <-. exists s. split; [reflexivity|now apply c_str_spec].
  - intros j x (s' & -> & _). cbn. eauto.
  - intros j. destruct j; cbn [un_location]; split; try (intros _; discriminate); try (intros _; now left).
    + intros H. now apply fatal_Ok in H.
    + intros H. now elim (H s).
  - intros j. destruct j; discriminate.
Qed.
Definition bank_of_key (k : text) : outcome N := match atoi_u32 (c_str k) with (_, false) => Err | (b, true) => Ok b end.
Lemma bank_of_key_spec k b : bank_of_key k = Ok b <-> bank_key k b.
Proof.
  unfold bank_of_key, bank_key. split.
  - destruct (atoi_u32 (c_str k)) as [z' c] eqn:E. destruct c; intros H; [|discriminate]. injection H as ->.
    apply atoi_u32_ok in E as [E L]. exists (c_str k). split; [now apply c_str_spec|auto].
  - intros (k' & Hk & S & L). apply c_str_spec in Hk. subst k'.
    assert (X : atoi_u32 (c_str k) = (b, true)) by (apply atoi_u32_ok; auto). rewrite X. reflexivity.
Qed.
Lemma bank_of_key_or k : ok_or_err (bank_of_key k).
Proof. unfold bank_of_key, ok_or_err. destruct (atoi_u32 (c_str k)) as [z' b]. destruct b; eauto. Qed.
Lemma un_iobanks_reader : reader un_iobanks json_banks banks_abort.
Proof.
  eapply reader_ext; [apply (map_reader N.eqb N.eqb_eq bank_of_key bank_key bank_of_key_spec bank_of_key_or
     _ _ _ un_location_reader un_iobanks (fun j => ~ is_object j \/ map_fault bank_key (fun v s => exists s', v = JStr s' /\ c_string s' s) (fun v => forall s, v <> JStr s) j))|].
  - intros j. destruct j; try reflexivity. unfold un_iobanks. cbn [members_unchecked obind]. apply ofold_ext.
    intros m kv. unfold map_step, bank_of_key. destruct (atoi_u32 (c_str (fst kv))) as [b []]; [|reflexivity]. cbn [obind].
    destruct (snd kv); reflexivity.
  - right. split; [reflexivity|]. intros j. reflexivity.
  - intros j. unfold map_fault, banks_abort. split.
    + intros [H|(l1 & k & v & l2 & m & x & E & H & Hk & Hc)]; [now left|right]. exists l1, k, v, l2, m, x. auto.
    + intros [H|(l1 & k & v & l2 & m & x & E & H & Hk & Hc)]; [now left|right]. exists l1, k, v, l2, m, x. auto.
Qed.

Lemma un_part_reader : reader un_part json_part part_aborts.
Proof.
  pose proof (get_member_reader _ _ _ (tx "idcode") un_u32_reader) as [Io Ic If In_].
  pose proof (opt_get_member_reader _ _ _ (tx "iobanks") un_iobanks_reader) as [Bo Bc Bf Bn].
  pose proof (get_member_reader _ _ _ (tx "global_clock_regions") un_regions_reader) as [Ro Rc Rf Rn].
  assert (OB : forall nm (R : json -> N -> Prop) j x, field nm R j x -> exists l, members j = Ok l).
  { intros nm R j x (v & (l & -> & _) & _). cbn. eauto. }
  constructor.
  - intros j p H. unfold un_part in H. apply obind_ok in H as (l & _ & H). apply obind_ok in H as (id & Ei & H).
    apply obind_ok in H as (bk & Eb & H). apply obind_ok in H as ([b t] & Er & H). injection H as <-.
    apply (part_read _ _ bk); cbn; auto. 
  - intros j p [bk Hi Hb E Hr]. unfold un_part. destruct (OB _ _ _ _ Hi) as (l & ->). cbn [obind].
    destruct (Ic _ _ Hi) as (i & ->). cbn [obind]. destruct (Bc _ _ Hb) as (bb & ->). cbn [obind].
    destruct (Rc _ _ Hr) as ([b t] & ->). cbn [obind]. eauto.
  - intros j. unfold un_part, part_aborts. split.
    + intros H. apply fatal_obind in H as [H|(l & _ & H)].
      { destruct j; cbn in H; solve [now apply fatal_Ok in H|now apply fatal_Err in H]. }
      apply fatal_obind in H as [H|(id & Ei & H)]; [apply If in H as (v & _ & [])|]. exists id. split; [now apply Io|].
      apply fatal_obind in H as [H|(bk & Eb & H)]; [left; apply Bf in H; exact H|right].
      apply fatal_obind in H as [H|([b t] & Er & H)]; [|now apply fatal_Ok in H].
      apply Rf in H as (r & M & H). exists bk, r. split; [now apply Bo|]. auto.
    + intros (id & Hi & H). destruct (OB _ _ _ _ Hi) as (l & ->). cbn [obind]. destruct (Ic _ _ Hi) as (i & ->). cbn [obind].
      destruct H as [H|(o & r & Hb & M & H)].
      * apply fatal_obind. left. now apply Bf.
      * destruct (Bc _ _ Hb) as (bb & ->). cbn [obind]. apply fatal_obind. left. apply Rf. eauto.
  - intros j. unfold un_part. apply obind_fuel; [destruct j; discriminate|]. intros l.
    apply obind_fuel; [apply In_|]. intros i. apply obind_fuel; [apply Bn|]. intros b. apply obind_fuel; [apply Rn|].
    intros [x y]. discriminate.
Qed.
