(** process_bits, process_feature and process_features against AsmSpec. *)
From Verif Require Import Base BaseFacts Absl Part Frame Fasm DbText DbJson Database
  Assembler EncodeSpec AsmSpec MapFacts AsmFacts LookupFacts.
From Coq Require Import ZifyBool ZifyN ZifyNat.

Local Notation "x <- e ;; f" := (obind e (fun x => f))
  (at level 61, e at next level, right associativity).

Definition N_lt_dec (a b : N) : {a < b} + {~ a < b}.
Proof. destruct (a <? b) eqn:E; [left; now apply N.ltb_lt|right; apply N.ltb_ge in E; lia]. Defined.

Definition look := lookup (fun l => l).

Lemma lookup_small ord tls tile feature k l :
  lookup ord tls tile feature k = Ok l -> Forall small_index l.
Proof.
  unfold lookup. destruct (hm_find text_eqb tile (tl_grid tls)) as [t|]; [|discriminate].
  destruct (resolve_alias t feature) as [[ty seen] m].
  destruct (tl_bits tls ty) as [[d|]| | | |]; cbn [obind]; try discriminate.
  destruct (_ || _); [intros H; inversion H; constructor|].
  destruct (existsb _ _); [|discriminate]. intros H. inversion H; subst. apply Forall_forall.
  intros c I. apply in_flat_map in I as (p & _ & I). unfold calls_for, bus_entry in I.
  destruct (hm_find bus_eqb (fst p) (td_bits d)) as [segs|]; [|destruct I].
  destruct (hm_find tf_eqb _ segs) as [ss|]; [|destruct I]. cbn [option_map] in I.
  apply in_map_iff in I as (sb & <- & _). unfold small_index, place, call_index.
  apply N.mod_lt. discriminate.
Qed.

Lemma lookup_to_order ord tls tile feature k l : (forall l, Permutation (ord l) l) ->
  look tls tile feature k = Ok l ->
  exists l', lookup ord tls tile feature k = Ok l' /\ Permutation l' l.
Proof.
  intros P H. pose proof (lookup_order ord tls tile feature k P) as S. unfold look in H.
  rewrite H in S. unfold same_calls in S.
  destruct (lookup ord tls tile feature k) as [l'| | | |]; try contradiction. eauto.
Qed.
Lemma lookup_from_order ord tls tile feature k l' : (forall l, Permutation (ord l) l) ->
  lookup ord tls tile feature k = Ok l' ->
  exists l, look tls tile feature k = Ok l /\ Permutation l' l.
Proof.
  intros P H. pose proof (lookup_order ord tls tile feature k P) as S. unfold look.
  rewrite H in S. unfold same_calls in S.
  destruct (lookup (fun l => l) tls tile feature k) as [l| | | |]; try contradiction. eauto.
Qed.

(** One lookup through the cache, into the frames. *)
Lemma config_bits_ok ord tls cache tile feature k fr used l :
  consistent tls cache -> (forall l, Permutation (ord l) l) -> wf_frames fr ->
  look tls tile feature k = Ok l -> Forall in_range l ->
  exists cache' fr' used',
    config_bits set_frame_bit ord tls cache tile feature k (fr, used) = Ok (cache', (fr', used'))
    /\ consistent tls cache' /\ wf_frames fr'
    /\ (forall x, present fr' x <-> present fr x \/ exists c, In c l /\ x = call_addr c)
    /\ (forall x w i, w < 101 ->
          bit_at fr' x w i = true <-> bit_at fr x w i = true \/ exists c, In c l /\ sets c x w i)
    /\ (forall b, In b used' <-> In b used \/ exists c, In c l /\ b = call_bus c).
Proof.
  intros C P W L R. destruct (lookup_to_order ord _ _ _ _ _ P L) as (l' & L' & PL).
  assert (R' : Forall in_range l').
  { rewrite Forall_forall in *. intros c I. apply R. now apply (Permutation_in _ PL). }
  destruct (set_calls_ok l' fr used W (lookup_small _ _ _ _ _ _ L') R')
    as (fr' & used' & E & W' & HP & HB & HU).
  pose proof (config_bits_lookup set_frame_bit ord tls cache tile feature k (fr, used) C P) as H.
  rewrite L' in H. cbn [obind] in H. rewrite E in H.
  destruct (config_bits set_frame_bit ord tls cache tile feature k (fr, used))
    as [[cache' s']| | | |]; try discriminate H.
  destruct H as [C' H]. inversion H; subst s'. exists cache', fr', used'.
  assert (M : forall Q : call -> Prop, (exists c, In c l' /\ Q c) <-> (exists c, In c l /\ Q c)).
  { intros Q. split; intros (c & I & HQ); exists c; (split; [|exact HQ]).
    - now apply (Permutation_in _ PL).
    - now apply (Permutation_in _ (Permutation_sym PL)). }
  repeat (split; [first [reflexivity|assumption]|]). repeat split.
  all: intros; rewrite ?HP, ?HB, ?HU, ?M in * by assumption; auto.
Qed.

Lemma config_bits_inv ord tls cache tile feature k fr used cache' s' :
  consistent tls cache -> (forall l, Permutation (ord l) l) -> wf_frames fr ->
  config_bits set_frame_bit ord tls cache tile feature k (fr, used) = Ok (cache', s') ->
  exists l, look tls tile feature k = Ok l /\ Forall in_range l.
Proof.
  intros C P W H.
  pose proof (config_bits_lookup set_frame_bit ord tls cache tile feature k (fr, used) C P) as E.
  rewrite H in E. destruct E as [_ E].
  destruct (lookup ord tls tile feature k) as [l'| | | |] eqn:L; try discriminate E.
  destruct (lookup_from_order ord _ _ _ _ _ P L) as (l & L0 & PL). exists l. split; [exact L0|].
  cbn [obind] in E.
  destruct (Forall_dec in_range) with (l := l') as [F|F].
  - intros c. unfold in_range. destruct (call_value c); [|left; discriminate].
    destruct (N_lt_dec (call_word c) 101) as [X|X]; [left; auto|right; intros Y; apply X; auto].
  - rewrite Forall_forall in *. intros c I. apply F. now apply (Permutation_in _ (Permutation_sym PL)).
  - rewrite set_calls_ub in E; [discriminate E|exact W|now apply (lookup_small _ _ _ _ _ _ L)|exact F].
Qed.

(** ** The bits of one feature *)
Definition bit_ok (tls : tiles) (tile rest : text) (start bits j : N) : Prop :=
  N.testbit bits j = true ->
  exists l, look tls tile rest (start + j) = Ok l /\ Forall in_range l.
Definition bit_call (tls : tiles) (tile rest : text) (start bits lo hi : N) (c : call) : Prop :=
  exists j l, lo <= j < hi /\ N.testbit bits j = true /\ look tls tile rest (start + j) = Ok l /\ In c l.

Lemma feature_address_ok sm start addr : start + 64 <= 2 ^ 31 -> addr < 64 ->
  feature_address sm start addr = Ok (start + addr).
Proof.
  intros H L. assert (E : u32 (start + addr) = start + addr).
  { unfold u32. apply N.mod_small. lia. }
  unfold feature_address. rewrite E. destruct sm; [|reflexivity].
  replace (2 ^ 31 <=? start + addr) with false; [now rewrite andb_false_r|].
  symmetry. apply N.leb_gt. lia.
Qed.
Lemma feature_bit_ok sm bits addr : addr < 64 -> feature_bit sm bits addr = Ok (N.testbit bits addr).
Proof.
  intros L. unfold feature_bit. destruct sm.
  - now rewrite (proj2 (N.ltb_lt _ _) L).
  - now rewrite N.mod_small.
Qed.

Lemma process_bits_ok sm ord tls i tile rest start bits :
  (forall i j l, Permutation (o_alias ord i j l) l) -> start + 64 <= 2 ^ 31 ->
  forall n addr cache fr used,
  consistent tls cache -> wf_frames fr -> addr + N.of_nat n <= 64 ->
  (forall j, addr <= j < addr + N.of_nat n -> bit_ok tls tile rest start bits j) ->
  exists cache' fr' used',
    process_bits sm ord tls i tile rest start bits n addr (cache, (fr, used)) = Ok (cache', (fr', used'))
    /\ consistent tls cache' /\ wf_frames fr'
    /\ (forall x, present fr' x <-> present fr x
         \/ exists c, bit_call tls tile rest start bits addr (addr + N.of_nat n) c /\ x = call_addr c)
    /\ (forall x w i, w < 101 -> bit_at fr' x w i = true <-> bit_at fr x w i = true
         \/ exists c, bit_call tls tile rest start bits addr (addr + N.of_nat n) c /\ sets c x w i)
    /\ (forall b, In b used' <-> In b used
         \/ exists c, bit_call tls tile rest start bits addr (addr + N.of_nat n) c /\ b = call_bus c).
Proof.
  intros P HS. induction n as [|n IH]; intros addr cache fr used C W HN HB; cbn [process_bits].
  - exists cache, fr, used. repeat (split; [first [reflexivity|assumption]|]).
    assert (X : forall c, ~ bit_call tls tile rest start bits addr (addr + N.of_nat 0) c).
    { intros c (j & l & J & _). lia. }
    repeat split; intros; auto; destruct H as [H|(c & H & _)] || destruct H0 as [H0|(c & H0 & _)];
      auto; exfalso; eapply X; eauto.
  - rewrite feature_address_ok, feature_bit_ok by (auto; lia). cbn [obind].
    assert (Step : forall c, bit_call tls tile rest start bits addr (addr + N.of_nat (S n)) c <->
      (N.testbit bits addr = true /\ exists l, look tls tile rest (start + addr) = Ok l /\ In c l)
      \/ bit_call tls tile rest start bits (addr + 1) (addr + 1 + N.of_nat n) c).
    { intros c. split.
      - intros (j & l & J & T & L & I). destruct (N.eq_dec j addr) as [->|N].
        + left. split; [exact T|]. eauto.
        + right. exists j, l. repeat split; auto; lia.
      - intros [(T & l & L & I)|(j & l & J & T & L & I)].
        + exists addr, l. repeat split; auto; lia.
        + exists j, l. repeat split; auto; lia. }
    destruct (N.testbit bits addr) eqn:T.
    + destruct (HB addr) as (l & L & R); [lia|exact T|].
      cbn [fst snd].
      destruct (config_bits_ok (o_alias ord i addr) tls cache tile rest (start + addr) fr used l)
        as (cache1 & fr1 & used1 & E1 & C1 & W1 & P1 & B1 & U1); auto.
      rewrite E1. cbn [obind].
      destruct (IH (addr + 1) cache1 fr1 used1 C1 W1) as (cache' & fr' & used' & E & C' & W' & HP' & HB' & HU').
      * lia.
      * intros j J. apply HB. lia.
      * exists cache', fr', used'. split; [exact E|]. split; [exact C'|]. split; [exact W'|].
        assert (M : forall Q : call -> Prop,
          (exists c, bit_call tls tile rest start bits addr (addr + N.of_nat (S n)) c /\ Q c) <->
          (exists c, In c l /\ Q c)
          \/ exists c, bit_call tls tile rest start bits (addr + 1) (addr + 1 + N.of_nat n) c /\ Q c).
        { intros Q. split.
          - intros (c & B & HQ). apply Step in B as [(_ & l' & L' & I)|B].
            + rewrite L in L'. inversion L'; subst l'. left. eauto.
            + right. eauto.
          - intros [(c & I & HQ)|(c & B & HQ)]; exists c; (split; [|exact HQ]); apply Step; eauto 6. }
        split; [|split].
        -- intros x. rewrite HP', P1, M. tauto.
        -- intros x w b Hw. rewrite HB', B1, M by exact Hw. tauto.
        -- intros b. rewrite HU', U1, M. tauto.
    + cbn [obind].
      destruct (IH (addr + 1) cache fr used C W) as (cache' & fr' & used' & E & C' & W' & HP' & HB' & HU').
      * lia.
      * intros j J. apply HB. lia.
      * exists cache', fr', used'. split; [exact E|]. split; [exact C'|]. split; [exact W'|].
        assert (M : forall Q : call -> Prop,
          (exists c, bit_call tls tile rest start bits addr (addr + N.of_nat (S n)) c /\ Q c) <->
          exists c, bit_call tls tile rest start bits (addr + 1) (addr + 1 + N.of_nat n) c /\ Q c).
        { intros Q. split; intros (c & B & HQ); exists c; (split; [|exact HQ]).
          - apply Step in B as [(X & _)|B]; [discriminate X|exact B].
          - apply Step. now right. }
        split; [|split].
        -- intros x. rewrite HP', M. tauto.
        -- intros x w b Hw. rewrite HB', M by exact Hw. tauto.
        -- intros b. rewrite HU', M. tauto.
Qed.

Lemma process_bits_inv sm ord tls i tile rest start bits :
  (forall i j l, Permutation (o_alias ord i j l) l) -> start + 64 <= 2 ^ 31 ->
  forall n addr cache fr used st',
  consistent tls cache -> wf_frames fr -> addr + N.of_nat n <= 64 ->
  process_bits sm ord tls i tile rest start bits n addr (cache, (fr, used)) = Ok st' ->
  forall j, addr <= j < addr + N.of_nat n -> bit_ok tls tile rest start bits j.
Proof.
  intros P HS. induction n as [|n IH]; intros addr cache fr used st' C W HN H j J; [lia|].
  cbn [process_bits] in H. rewrite feature_address_ok, feature_bit_ok in H by (auto; lia).
  cbn [obind] in H. destruct (N.testbit bits addr) eqn:T.
  - cbn [fst snd] in H.
    destruct (config_bits set_frame_bit (o_alias ord i addr) tls cache tile rest (start + addr) (fr, used))
      as [[cache1 s1]| | | |] eqn:E1; cbn [obind] in H; try discriminate H.
    pose proof E1 as Inv. apply config_bits_inv in Inv; auto. destruct Inv as (l & L & R).
    destruct (config_bits_ok (o_alias ord i addr) tls cache tile rest (start + addr) fr used l)
        as (cache2 & fr1 & used1 & E2 & C1 & W1 & _); auto.
    rewrite E1 in E2. inversion E2; subst cache2 s1.
    destruct (N.eq_dec j addr) as [->|N].
    + intros _. eauto.
    + eapply IH; [exact C1|exact W1| |exact H|]; lia.
  - cbn [obind] in H. destruct (N.eq_dec j addr) as [->|N].
    + intros X. rewrite T in X. discriminate X.
    + eapply IH; [exact C|exact W| |exact H|]; lia.
Qed.

(** ** Whole blocks *)
Lemma insert_block_ok n : forall base k fr, wf_frames fr ->
  wf_frames (insert_block n base k fr)
  /\ (forall x, present (insert_block n base k fr) x <->
        present fr x \/ exists j, k <= j < k + N.of_nat n /\ x = (base + j) mod 2 ^ 64)
  /\ (forall x w i, bit_at (insert_block n base k fr) x w i = bit_at fr x w i).
Proof.
  induction n as [|n IH]; intros base k fr W; cbn [insert_block].
  - split; [exact W|]. split; [|reflexivity]. intros x. split; [auto|].
    intros [H|(j & J & _)]; [exact H|lia].
  - destruct (IH base (k + 1) (bt_insert (u64 (base + k)) zero_frame fr)) as (W' & P & B).
    + now apply wf_insert.
    + split; [exact W'|]. split.
      * intros x. rewrite P, present_insert by exact W. split.
        -- intros [[H|H]|(j & J & H)]; [auto| |].
           ++ right. exists k. split; [lia|exact H].
           ++ right. exists j. split; [lia|exact H].
        -- intros [H|(j & J & H)]; [auto|]. destruct (N.eq_dec j k) as [->|N].
           ++ left. right. exact H.
           ++ right. exists j. split; [lia|exact H].
      * intros x w i. rewrite B. now apply bit_insert.
Qed.

Lemma materialise_ok t l : forall fr, wf_frames fr ->
  (forall bus, In bus l -> exists b, maps_to (t_bits t) bus b) ->
  exists fr', ofold (materialise t) l fr = Ok fr' /\ wf_frames fr'
  /\ (forall x, present fr' x <-> present fr x \/
        exists bus b j, In bus l /\ maps_to (t_bits t) bus b /\ j < bb_frames b
                        /\ x = (bb_base b + j) mod 2 ^ 64)
  /\ (forall x w i, bit_at fr' x w i = bit_at fr x w i).
Proof.
  induction l as [|bus l IH]; intros fr W H; cbn [ofold].
  - exists fr. repeat (split; [first [reflexivity|assumption]|]). split; [|reflexivity].
    intros x. split; [auto|]. intros [X|(bus & b & j & [] & _)]. exact X.
  - destruct (H bus (or_introl eq_refl)) as (b & M).
    assert (E0 : materialise t fr bus = Ok (insert_block (N.to_nat (bb_frames b)) (bb_base b) 0 fr)).
    { unfold materialise. now rewrite (proj2 (hm_find_maps _ bus_eqb_eq _ _ _) M). }
    rewrite E0. cbn [obind].
    destruct (insert_block_ok (N.to_nat (bb_frames b)) (bb_base b) 0 fr W) as (W1 & P1 & B1).
    destruct (IH _ W1) as (fr' & E & W' & P & B).
    { intros bus' I. apply H. now right. }
    exists fr'. split; [exact E|]. split; [exact W'|]. split.
    + intros x. rewrite P, P1. rewrite N2Nat.id. split.
      * intros [[X|(j & J & X)]|(bus' & b' & j & I & M' & J & X)]; [auto| |].
        -- right. exists bus, b, j. repeat split; auto; [now left|lia].
        -- right. exists bus', b', j. repeat split; auto. now right.
      * intros [X|(bus' & b' & j & [->|I] & M' & J & X)]; [auto| |].
        -- pose proof (maps_to_fun _ bus_eqb_eq _ _ _ _ M M'). subst b'.
           left. right. exists j. split; [lia|exact X].
        -- right. exists bus', b', j. auto.
    + intros x w i. now rewrite B, B1.
Qed.

(** ** One feature against the specification *)
Lemma look_known tls tile rest k : usable_grid (tl_grid tls) ->
  (pseudo_pip tls tile rest \/ exists bus b l, entry tls tile rest k bus b l) ->
  exists l, look tls tile rest k = Ok l.
Proof.
  intros U H.
  assert (X : exists t ty seen d, maps_to (tl_grid tls) tile t /\ seen_as t rest ty seen
     /\ tl_bits tls ty = Ok (Some d)).
  { destruct H as [(t & ty & seen & d & M & S & B & _)|(bus & b & l & t & ty & seen & d & segs & M & S & B & _)];
      exists t, ty, seen, d; auto. }
  destruct X as (t & ty & seen & d & M & SA & B). destruct (U _ _ M) as [ND US].
  destruct (resolve_alias_spec t rest ND) as (ty' & seen' & R & SA').
  destruct (US _ _ _ _ _ SA SA') as [<- <-].
  unfold look, lookup. rewrite (proj2 (hm_find_maps _ text_eqb_eq _ _ _) M), R, B. cbn [obind].
  destruct (hm_contains text_eqb (dotted tile seen) (td_pips d)
            || hm_contains text_eqb (dotted ty seen) (td_pips d)) eqn:Pp; [eauto|].
  destruct (existsb (found d (dotted ty seen, k)) (map resolved_pair (t_bits t))) eqn:Ex; [eauto|].
  exfalso. apply orb_false_iff in Pp as [P1 P2].
  apply (hm_contains_not _ text_eqb_eq) in P1. apply (hm_contains_not _ text_eqb_eq) in P2.
  destruct H as [(t1 & ty1 & seen1 & d1 & M1 & S1 & B1 & K)
                |(bus & b & l & t1 & ty1 & seen1 & d1 & segs & M1 & S1 & B1 & _ & _ & Mb & Ms & Ml)].
  - pose proof (maps_to_fun _ text_eqb_eq _ _ _ _ M M1). subst t1.
    destruct (US _ _ _ _ _ SA S1) as [<- <-]. rewrite B in B1. inversion B1; subst d1.
    destruct K; contradiction.
  - pose proof (maps_to_fun _ text_eqb_eq _ _ _ _ M M1). subst t1.
    destruct (US _ _ _ _ _ SA S1) as [<- <-]. rewrite B in B1. inversion B1; subst d1.
    assert (F : existsb (found d (dotted ty seen, k)) (map resolved_pair (t_bits t)) = true).
    { apply existsb_exists. exists (resolved_pair (bus, b)). split.
      - apply in_map. now apply maps_to_In.
      - apply found_entry. exists segs, l. auto. }
    rewrite F in Ex. discriminate.
Qed.

Lemma enables_start f k : reported f ->
  enables f k <-> exists j, j < ff_width f /\ N.testbit (ff_bits f) j = true /\ k = ff_start f + j.
Proof.
  intros [Hw Hs]. split; intros (j & J & T & E); exists j; (split; [exact J|split; [exact T|]]).
  - rewrite E. apply N.mod_small. lia.
  - rewrite E. symmetry. apply N.mod_small. lia.
Qed.

Lemma placed_parts bus b sb :
  call_bus (placed bus b sb) = bus /\ call_value (placed bus b sb) = sb_set sb
  /\ call_addr (placed bus b sb) = (bb_base b + sb_column sb) mod 2 ^ 32.
Proof.
  unfold placed, place, call_bus, call_value, call_addr. split; [reflexivity|]. split; [reflexivity|].
  rewrite resolved_base. unfold u32. rewrite N.add_mod_idemp_l by discriminate. reflexivity.
Qed.

Lemma placed_sets bus b sb a w i :
  sets (placed bus b sb) a w i <-> sb_set sb = true /\ lands_at b sb a w i.
Proof.
  unfold sets. rewrite (placed_lands bus). destruct (placed_parts bus b sb) as (_ & -> & _). tauto.
Qed.

Section OneFeature.
  Variables (tls : tiles) (f : fasm_feature) (tile rest : text).
  Hypothesis U : usable_grid (tl_grid tls).
  Hypothesis R : reported f.
  Hypothesis FD : first_dot (ff_name f) tile rest.

  Let ok := forall j, 0 <= j < 0 + ff_width f -> bit_ok tls tile rest (ff_start f) (ff_bits f) j.
  Let calls := bit_call tls tile rest (ff_start f) (ff_bits f) 0 (0 + ff_width f).

  Lemma calls_asks c : ok ->
    calls c <-> exists bus b sb, asks tls f bus b sb /\ c = placed bus b sb.
  Proof.
    intros HO. unfold calls, bit_call. split.
    - intros (j & l & J & T & L & I). apply (lookup_ok tls) in L; [|exact U]. destruct L as [L _].
      apply L in I as (bus & b & segs & sb & E & Is & ->).
      exists bus, b, sb. split; [|reflexivity]. exists tile, rest, (ff_start f + j), segs.
      split; [exact FD|]. split; [|auto]. apply enables_start; [exact R|]. exists j. repeat split; auto; lia.
    - intros (bus & b & sb & (tile' & rest' & k & segs & FD' & EN & E & Is) & ->).
      destruct (first_dot_fun _ _ _ _ _ FD FD') as [<- <-].
      apply enables_start in EN; [|exact R]. destruct EN as (j & J & T & ->).
      destruct (HO j ltac:(lia) T) as (l & L & _). exists j, l. repeat split; auto; try lia.
      apply (lookup_ok tls) in L; [|exact U]. destruct L as [L _]. apply L.
      exists bus, b, segs, sb. auto.
  Qed.

  Lemma ok_known : ok <-> known tls f /\ fits tls f.
  Proof.
    split.
    - intros HO. split.
      + exists tile, rest. split; [exact FD|]. intros k EN.
        apply enables_start in EN; [|exact R]. destruct EN as (j & J & T & ->).
        destruct (HO j ltac:(lia) T) as (l & L & _).
        apply (lookup_ok tls) in L; [|exact U]. destruct L as [_ [[L _]|L]]; [now left|now right].
      + intros a w i (bus & b & sb & A & S & La).
        assert (C : calls (placed bus b sb)).
        { apply calls_asks; [exact HO|]. exists bus, b, sb. auto. }
        destruct C as (j & l & J & T & L & I).
        destruct (HO j ltac:(lia) T) as (l' & L' & F). rewrite L in L'. inversion L'; subst l'.
        rewrite Forall_forall in F. specialize (F _ I).
        apply (placed_lands bus) in La as (_ & <- & _). apply F.
        destruct (placed_parts bus b sb) as (_ & -> & _). exact S.
    - intros [(tile' & rest' & FD' & K) FI] j J T.
      destruct (first_dot_fun _ _ _ _ _ FD FD') as [<- <-].
      assert (EN : enables f (ff_start f + j)).
      { apply enables_start; [exact R|]. exists j. repeat split; auto; lia. }
      destruct (look_known tls tile rest (ff_start f + j) U) as (l & L).
      { apply K. exact EN. }
      exists l. split; [exact L|]. apply Forall_forall. intros c I V.
      pose proof L as L1. apply (lookup_ok tls) in L1; [|exact U]. destruct L1 as [L1 _].
      apply L1 in I as (bus & b & segs & sb & E & Is & ->).
      destruct (placed_parts bus b sb) as (_ & PV & _). rewrite PV in V.
      eapply FI. exists bus, b, sb. split; [|split; [exact V|]].
      + exists tile, rest, (ff_start f + j), segs. auto.
      + apply (placed_lands bus). split; [reflexivity|]. split; reflexivity.
  Qed.
End OneFeature.

Lemma width_nat f : reported f ->
  (if ff_width f <? 2 ^ 31 then N.to_nat (ff_width f) else O) = N.to_nat (ff_width f).
Proof.
  intros [W _]. rewrite (proj2 (N.ltb_lt _ _)); [reflexivity|]. lia.
Qed.

Lemma asks_block tls f tile rest bus b sb : first_dot (ff_name f) tile rest -> asks tls f bus b sb ->
  exists t, maps_to (tl_grid tls) tile t /\ maps_to (t_bits t) bus b.
Proof.
  intros FD (tile' & rest' & k & l & FD' & _ & (t & ty & seen & d & segs & M & _ & _ & _ & _ & Mb & _) & _).
  destruct (first_dot_fun _ _ _ _ _ FD FD') as [<- <-]. eauto.
Qed.

Lemma process_feature_ok sm ord tls i cache fr f :
  usable_grid (tl_grid tls) -> good_orders ord -> reported f ->
  consistent tls cache -> wf_frames fr -> known tls f -> fits tls f ->
  exists cache' fr', process_feature sm ord tls i (cache, fr) f = Ok (cache', fr')
    /\ consistent tls cache' /\ wf_frames fr'
    /\ (forall a, present fr' a <-> present fr a \/ touched tls f a)
    /\ (forall a w i, w < 101 -> bit_at fr' a w i = true <-> bit_at fr a w i = true \/ requested tls f a w i).
Proof.
  intros U G R C W K FI. pose proof K as (tile & rest & FD & _).
  pose proof (proj2 (ok_known tls f tile rest U R FD) (conj K FI)) as HO.
  unfold process_feature. rewrite (width_nat _ R).
  destruct (split1_spec (ff_name f)) as [(a & b & FD' & E)|[ND _]].
  2:{ exfalso. destruct FD as [E _]. apply ND. rewrite E. unfold dotted. apply in_or_app. right. now left. }
  destruct (first_dot_fun _ _ _ _ _ FD FD') as [<- <-]. rewrite E. cbn [fst snd].
  destruct (process_bits_ok sm ord tls i tile rest (ff_start f) (ff_bits f)) with
    (n := N.to_nat (ff_width f)) (addr := 0) (cache := cache) (fr := fr) (used := @nil bus_type)
    as (cache' & fr1 & used & E1 & C' & W1 & P1 & B1 & U1); auto.
  { apply G. } { apply R. } { destruct R. lia. }
  { rewrite N2Nat.id. exact HO. }
  rewrite N2Nat.id in *. rewrite E1. cbn [obind].
  assert (Calls : forall Q : call -> Prop,
    (exists c, bit_call tls tile rest (ff_start f) (ff_bits f) 0 (0 + ff_width f) c /\ Q c)
    <-> exists bus b sb, asks tls f bus b sb /\ Q (placed bus b sb)).
  { intros Q. split.
    - intros (c & B & HQ). apply (calls_asks tls f tile rest U R FD c HO) in B as (bus & b & sb & A & ->).
      exists bus, b, sb. auto.
    - intros (bus & b & sb & A & HQ). exists (placed bus b sb). split; [|exact HQ].
      apply (calls_asks tls f tile rest U R FD _ HO). exists bus, b, sb. auto. }
  assert (Bits : forall x w i0, w < 101 ->
     bit_at fr1 x w i0 = true <-> bit_at fr x w i0 = true \/ requested tls f x w i0).
  { intros x w i0 Hw. rewrite B1, Calls by exact Hw.
    assert (X : (exists bus b sb, asks tls f bus b sb /\ sets (placed bus b sb) x w i0) <-> requested tls f x w i0).
    { unfold requested. split; intros (bus & b & sb & A & H); exists bus, b, sb; (split; [exact A|]);
        now apply (placed_sets bus). }
    rewrite X. tauto. }
  assert (Pres : forall x, present fr1 x <-> present fr x
     \/ exists bus b sb, asks tls f bus b sb /\ x = (bb_base b + sb_column sb) mod 2 ^ 32).
  { intros x. rewrite P1, Calls.
    assert (X : (exists bus b sb, asks tls f bus b sb /\ x = call_addr (placed bus b sb))
       <-> exists bus b sb, asks tls f bus b sb /\ x = (bb_base b + sb_column sb) mod 2 ^ 32).
    { split; intros (bus & b & sb & A & H); exists bus, b, sb; (split; [exact A|]);
        destruct (placed_parts bus b sb) as (_ & _ & PA); congruence. }
    rewrite X. tauto. }
  assert (Used : forall b0, In b0 used <-> exists bus b sb, asks tls f bus b sb /\ b0 = bus).
  { intros b0. rewrite U1, Calls. cbn [In]. split.
    - intros [[]|(bus & b & sb & A & H)]. exists bus, b, sb. split; [exact A|].
      destruct (placed_parts bus b sb) as (PB & _). congruence.
    - intros (bus & b & sb & A & H). right. exists bus, b, sb. split; [exact A|].
      destruct (placed_parts bus b sb) as (PB & _). congruence. }
  destruct used as [|u0 us].
  - exists cache', fr1. split; [reflexivity|]. split; [exact C'|]. split; [exact W1|]. split; [|exact Bits].
    intros x. rewrite Pres. unfold touched. split.
    + intros [H|(bus & b & sb & A & H)]; [auto|]. right. exists bus, b, sb. auto.
    + intros [H|(bus & b & sb & A & _)]; [auto|]. exfalso. apply (in_nil (a := bus)). apply Used.
      exists bus, b, sb. auto.
  - destruct (proj1 (Used u0) (or_introl eq_refl)) as (bus0 & b0 & sb0 & A0 & _).
    destruct (asks_block _ _ _ _ _ _ _ FD A0) as (t & Mt & _).
    rewrite (proj2 (hm_find_maps _ text_eqb_eq _ _ _) Mt).
    set (used := u0 :: us) in *. pose proof (proj1 (proj2 G) i used) as PU.
    destruct (materialise_ok t (o_buses ord i used) fr1 W1) as (fr' & E2 & W' & P2 & B2).
    { intros bus I. apply (Permutation_in _ PU) in I. apply Used in I as (bus' & b & sb & A & ->).
      destruct (asks_block _ _ _ _ _ _ _ FD A) as (t' & Mt' & Mb).
      pose proof (maps_to_fun _ text_eqb_eq _ _ _ _ Mt Mt'). subst t'. eauto. }
    rewrite E2. cbn [obind]. exists cache', fr'. split; [reflexivity|]. split; [exact C'|].
    split; [exact W'|]. split.
    + intros x. rewrite P2, Pres. unfold touched. split.
      * intros [[H|(bus & b & sb & A & H)]|(bus & b & j & I & M & J & H)]; [auto| |].
        -- right. exists bus, b, sb. auto.
        -- right. apply (Permutation_in _ PU) in I. apply Used in I as (bus' & b' & sb & A & ->).
           destruct (asks_block _ _ _ _ _ _ _ FD A) as (t' & Mt' & Mb).
           pose proof (maps_to_fun _ text_eqb_eq _ _ _ _ Mt Mt'). subst t'.
           pose proof (maps_to_fun _ bus_eqb_eq _ _ _ _ M Mb). subst b'.
           exists bus', b, sb. split; [exact A|]. right. eauto.
      * intros [H|(bus & b & sb & A & [H|(j & J & H)])]; [auto| |].
        -- left. right. exists bus, b, sb. auto.
        -- right. destruct (asks_block _ _ _ _ _ _ _ FD A) as (t' & Mt' & Mb).
           pose proof (maps_to_fun _ text_eqb_eq _ _ _ _ Mt Mt'). subst t'.
           exists bus, b, j. repeat split; auto.
           apply (Permutation_in _ (Permutation_sym PU)). apply Used. exists bus, b, sb. auto.
    + intros x w i0 Hw. rewrite B2. now apply Bits.
Qed.

Lemma process_feature_inv sm ord tls i cache fr f st' :
  usable_grid (tl_grid tls) -> good_orders ord -> reported f ->
  consistent tls cache -> wf_frames fr ->
  process_feature sm ord tls i (cache, fr) f = Ok st' -> known tls f /\ fits tls f.
Proof.
  intros U G R C W H. unfold process_feature in H. rewrite (width_nat _ R) in H.
  destruct (split1_spec (ff_name f)) as [(tile & rest & FD & E)|[ND E]]; rewrite E in H; [|discriminate H].
  cbn [fst snd] in H. apply (ok_known tls f tile rest U R FD).
  destruct (process_bits sm ord tls i tile rest (ff_start f) (ff_bits f) (N.to_nat (ff_width f)) 0
              (cache, (fr, []))) as [st1| | | |] eqn:E1; try discriminate H.
  intros j J. eapply process_bits_inv in E1; eauto.
  - apply G.
  - apply R.
  - destruct R. lia.
  - lia.
Qed.

(** ** All the features *)
Lemma process_features_ok sm ord tls fs : forall i cache fr,
  usable_grid (tl_grid tls) -> good_orders ord -> Forall reported fs ->
  consistent tls cache -> wf_frames fr -> Forall (fun f => known tls f /\ fits tls f) fs ->
  exists cache' fr', process_features sm ord tls i fs (cache, fr) = Ok (cache', fr')
    /\ consistent tls cache' /\ wf_frames fr'
    /\ (forall a, present fr' a <-> present fr a \/ exists f, In f fs /\ touched tls f a)
    /\ (forall a w i, w < 101 -> bit_at fr' a w i = true <->
          bit_at fr a w i = true \/ exists f, In f fs /\ requested tls f a w i).
Proof.
  induction fs as [|f fs IH]; intros i cache fr U G R C W K; cbn [process_features].
  - exists cache, fr. repeat (split; [first [reflexivity|assumption]|]). split.
    + intros a. split; [auto|]. intros [H|(f & [] & _)]. exact H.
    + intros a w k _. split; [auto|]. intros [H|(f & [] & _)]. exact H.
  - inversion R; subst. inversion K; subst. destruct H3 as [K1 F1].
    destruct (process_feature_ok sm ord tls i cache fr f) as (cache1 & fr1 & E1 & C1 & W1 & P1 & B1); auto.
    rewrite E1. cbn [obind].
    destruct (IH (i + 1) cache1 fr1) as (cache' & fr' & E & C' & W' & P & B); auto.
    exists cache', fr'. split; [exact E|]. split; [exact C'|]. split; [exact W'|]. split.
    + intros a. rewrite P, P1. split.
      * intros [[X|X]|(g & I & X)]; eauto 6 using in_eq, in_cons.
      * intros [X|(g & [<-|I] & X)]; eauto 6.
    + intros a w k Hw. rewrite B, B1 by exact Hw. split.
      * intros [[X|X]|(g & I & X)]; eauto 6 using in_eq, in_cons.
      * intros [X|(g & [<-|I] & X)]; eauto 6.
Qed.

Lemma process_features_inv sm ord tls fs : forall i cache fr st',
  usable_grid (tl_grid tls) -> good_orders ord -> Forall reported fs ->
  consistent tls cache -> wf_frames fr ->
  process_features sm ord tls i fs (cache, fr) = Ok st' ->
  Forall (fun f => known tls f /\ fits tls f) fs.
Proof.
  induction fs as [|f fs IH]; intros i cache fr st' U G R C W H; cbn [process_features] in H; [constructor|].
  inversion R; subst.
  destruct (process_feature sm ord tls i (cache, fr) f) as [st1| | | |] eqn:E1; try discriminate H.
  cbn [obind] in H. pose proof E1 as X. apply process_feature_inv in X; auto. destruct X as [K1 F1].
  destruct (process_feature_ok sm ord tls i cache fr f) as (cache1 & fr1 & E2 & C1 & W1 & _); auto.
  rewrite E1 in E2. inversion E2; subst st1. constructor; [auto|]. eapply IH; eauto.
Qed.
