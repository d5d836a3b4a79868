(** How processing a list of features ends: success, error, abort or a write outside a
    frame. *)
From Verif Require Import Base BaseFacts Absl Part Frame Fasm DbText DbJson Database
  Assembler EncodeSpec AsmSpec MapFacts AsmFacts LookupFacts ProcessFacts ProcessCrash.
From Coq Require Import ZifyBool ZifyN ZifyNat.

Local Notation "x <- e ;; f" := (obind e (fun x => f))
  (at level 61, e at next level, right associativity).

(** ** A write outside a frame *)
Lemma in_range_dec c : {in_range c} + {~ in_range c}.
Proof.
  unfold in_range. destruct (call_value c); [|left; discriminate].
  destruct (N_lt_dec (call_word c) 101) as [X|X]; [left; auto|right; intros Y; apply X; auto].
Qed.

Lemma config_bits_ub ord tls cache tile feature k fr used l :
  consistent tls cache -> (forall l, Permutation (ord l) l) -> wf_frames fr ->
  look tls tile feature k = Ok l -> ~ Forall in_range l ->
  config_bits set_frame_bit ord tls cache tile feature k (fr, used) = UB.
Proof.
  intros C P W L R. destruct (lookup_to_order ord _ _ _ _ _ P L) as (l' & L' & PL).
  assert (R' : ~ Forall in_range l').
  { intros F. apply R. rewrite Forall_forall in *. intros c I. apply F. now apply (Permutation_in _ (Permutation_sym PL)). }
  pose proof (config_bits_lookup set_frame_bit ord tls cache tile feature k (fr, used) C P) as H.
  rewrite L' in H. cbn [obind] in H.
  rewrite (set_calls_ub l' fr used W (lookup_small _ _ _ _ _ _ L') R') in H.
  destruct (config_bits set_frame_bit ord tls cache tile feature k (fr, used))
    as [[cache' s']| | | |]; try discriminate H; [|reflexivity].
  destruct H as [_ H]. discriminate H.
Qed.

Lemma process_bits_ub sm ord tls i tile rest start bits :
  (forall i j l, Permutation (o_alias ord i j l) l) -> start + 64 <= 2 ^ 31 ->
  forall n addr cache fr used,
  consistent tls cache -> wf_frames fr -> addr + N.of_nat n <= 64 ->
  (forall j, addr <= j < addr + N.of_nat n -> N.testbit bits j = true ->
     exists l, look tls tile rest (start + j) = Ok l) ->
  (exists j l, addr <= j < addr + N.of_nat n /\ N.testbit bits j = true
     /\ look tls tile rest (start + j) = Ok l /\ ~ Forall in_range l) ->
  process_bits sm ord tls i tile rest start bits n addr (cache, (fr, used)) = UB.
Proof.
  intros P HS. induction n as [|n IH]; intros addr cache fr used C W HN HB (j & l & J & T & L & NR); [lia|].
  cbn [process_bits]. rewrite feature_address_ok, feature_bit_ok by (auto; lia). cbn [obind].
  destruct (N.testbit bits addr) eqn:Ta.
  - cbn [fst snd]. destruct (HB addr) as (l0 & X); [lia|exact Ta|].
    destruct (Forall_dec in_range in_range_dec l0) as [R|R].
    + destruct (config_bits_ok (o_alias ord i addr) tls cache tile rest (start + addr) fr used l0)
        as (cache1 & fr1 & used1 & E1 & C1 & W1 & _); auto.
      rewrite E1. cbn [obind]. apply IH; auto; [lia| |].
      * intros j' J'. apply HB. lia.
      * exists j, l. destruct (N.eq_dec j addr) as [->|NE].
        { rewrite L in X. inversion X; subst. contradiction. }
        split; [lia|]. auto.
    + rewrite (config_bits_ub _ _ _ _ _ _ _ _ l0); auto.
  - cbn [obind]. apply IH; auto; [lia| |].
    + intros j' J'. apply HB. lia.
    + exists j, l. destruct (N.eq_dec j addr) as [->|NE]; [rewrite T in Ta; discriminate Ta|].
      split; [lia|]. auto.
Qed.

Lemma process_feature_ub sm ord tls i cache fr f a w b :
  usable_grid (tl_grid tls) -> good_orders ord -> reported f ->
  consistent tls cache -> wf_frames fr -> known tls f ->
  requested tls f a w b -> 101 <= w ->
  process_feature sm ord tls i (cache, fr) f = UB.
Proof.
  intros U O R C W K RQ L. pose proof K as (tile & rest & FD & KN).
  unfold process_feature. rewrite (width_nat _ R).
  destruct (split1_spec (ff_name f)) as [(tile' & rest' & FD' & E)|[ND _]].
  2:{ exfalso. destruct FD as [E _]. apply ND. rewrite E. unfold dotted. apply in_or_app. right. now left. }
  destruct (first_dot_fun _ _ _ _ _ FD FD') as [<- <-]. rewrite E. cbn [fst snd].
  assert (Lk : forall j, j < ff_width f -> N.testbit (ff_bits f) j = true -> exists l, look tls tile rest (ff_start f + j) = Ok l).
  { intros j J T. apply look_known; [exact U|]. apply KN. apply enables_start; [exact R|]. exists j. auto. }
  rewrite process_bits_ub; auto.
  - apply O.
  - apply R.
  - rewrite N2Nat.id. destruct R. lia.
  - intros j J T. rewrite N2Nat.id in J. apply Lk; [lia|exact T].
  - destruct RQ as (bus & bl & sb & (tile' & rest' & k & segs & FD2 & EN & En & Is) & S & La).
    destruct (first_dot_fun _ _ _ _ _ FD FD2) as [<- <-].
    apply enables_start in EN; [|exact R]. destruct EN as (j & J & T & ->).
    destruct (Lk j J T) as (l & X). exists j, l. rewrite N2Nat.id. split; [lia|]. split; [exact T|].
    split; [exact X|]. intros F. apply (lookup_ok tls) in X; [|exact U]. destruct X as [X _].
    rewrite Forall_forall in F. specialize (F (placed bus bl sb)).
    assert (I : In (placed bus bl sb) l) by (apply X; eauto 10). specialize (F I).
    apply (placed_lands bus) in La as (_ & Hw & _). unfold in_range in F.
    destruct (placed_parts bus bl sb) as (_ & PV & _). rewrite PV in F. specialize (F S). lia.
Qed.

(** ** One feature *)
Lemma search_bits (P Q : N -> Prop) : (forall j, P j \/ Q j) ->
  forall n, (forall j, j < N.of_nat n -> P j) \/ exists j, j < N.of_nat n /\ Q j.
Proof.
  intros D. induction n as [|n IH]; [left; intros; lia|].
  destruct IH as [A|(j & J & B)]; [|right; exists j; split; [lia|exact B]].
  destruct (D (N.of_nat n)) as [X|X].
  - left. intros j J. destruct (N.eq_dec j (N.of_nat n)) as [->|NE]; [exact X|]. apply A. lia.
  - right. exists (N.of_nat n). split; [lia|exact X].
Qed.

(** A feature with a dot is known, or one of its bits is not recognised. *)
Lemma known_or_not tls f : usable_grid (tl_grid tls) -> readable tls -> reported f -> In dot (ff_name f) ->
  known tls f \/ exists k, enables f k /\ ~ recognised tls f k.
Proof.
  intros U G R D. destruct (split1_spec (ff_name f)) as [(tile & rest & FD & _)|[ND _]]; [|contradiction].
  destruct (search_bits (fun j => N.testbit (ff_bits f) j = true -> exists l, look tls tile rest (ff_start f + j) = Ok l)
              (fun j => N.testbit (ff_bits f) j = true /\ look tls tile rest (ff_start f + j) = Crash)) with (n := N.to_nat (ff_width f))
    as [A|(j & J & T & L)].
  - intros j. destruct (N.testbit (ff_bits f) j) eqn:T; [|left; discriminate].
    destruct (look_ok_crash tls tile rest (ff_start f + j) G) as [X|X]; [right; auto|left; auto].
  - left. exists tile, rest. split; [exact FD|]. intros k EN. apply enables_start in EN; [|exact R].
    destruct EN as (j & J & T & ->). destruct (A j) as (l & L); [lia|exact T|].
    apply (lookup_ok tls) in L; [|exact U]. destruct L as [_ [[L _]|L]]; [now left|now right].
  - right. exists (ff_start f + j). split; [apply enables_start; [exact R|]; exists j; split; [lia|]; auto|].
    intros (tile' & rest' & FD' & Rc). destruct (first_dot_fun _ _ _ _ _ FD FD') as [<- <-].
    destruct (look_known tls tile rest (ff_start f + j) U Rc) as (l & X). rewrite L in X. discriminate X.
Qed.

Lemma recognised_known tls f k : known tls f -> enables f k -> recognised tls f k.
Proof. intros (tile & rest & FD & K) E. exists tile, rest. auto. Qed.

(** ** Lists of features *)
Section Lists.
  Variables (sm : shift_model) (ord : orders) (tls : tiles).
  Hypothesis U : usable_grid (tl_grid tls).
  Hypothesis O : good_orders ord.

  Let good (st : db_cache * asm_frames) := consistent tls (fst st) /\ wf_frames (snd st).

  Lemma features_crash fs : readable tls ->
    Forall reported fs -> Forall (fits tls) fs -> Forall (fun f => In dot (ff_name f)) fs ->
    (exists f k, In f fs /\ enables f k /\ ~ recognised tls f k) ->
    forall i st, good st -> process_features sm ord tls i fs st = Crash.
  Proof.
    intros G. induction fs as [|f fs IH]; intros R F D (g & k & I & E & N) i [cache fr] [C W]; [destruct I|].
    inversion R; subst. inversion F; subst. inversion D; subst. cbn [process_features fst snd] in *.
    destruct (known_or_not tls f U G) as [K|(k' & E' & N')]; auto.
    - destruct (process_feature_ok sm ord tls i cache fr f) as (c1 & fr1 & X & C1 & W1 & _); auto.
      rewrite X. cbn [obind]. apply IH; auto; [|split; assumption].
      destruct I as [<-|I]; [|eauto]. exfalso. apply N. now apply recognised_known.
    - rewrite (process_feature_crash sm ord tls i cache fr f k'); auto.
  Qed.

  Lemma features_err fs :
    Forall reported fs -> Forall (fun f => In dot (ff_name f) -> known tls f /\ fits tls f) fs ->
    (exists f, In f fs /\ ~ In dot (ff_name f)) ->
    forall i st, good st -> process_features sm ord tls i fs st = Err.
  Proof.
    induction fs as [|f fs IH]; intros R F (g & I & N) i [cache fr] [C W]; [destruct I|].
    inversion R; subst. inversion F; subst. cbn [process_features fst snd] in *.
    destruct (in_dec ascii_dec dot (ff_name f)) as [D|D].
    - destruct H3 as [K Fi]; auto.
      destruct (process_feature_ok sm ord tls i cache fr f) as (c1 & fr1 & X & C1 & W1 & _); auto.
      rewrite X. cbn [obind]. apply IH; auto; [|split; assumption].
      destruct I as [<-|I]; [contradiction|eauto].
    - now rewrite process_feature_nodot.
  Qed.

  Lemma features_ub fs :
    Forall reported fs -> Forall (known tls) fs ->
    (exists f a w b, In f fs /\ requested tls f a w b /\ 101 <= w) ->
    forall i st, good st -> process_features sm ord tls i fs st = UB.
  Proof.
    induction fs as [|f fs IH]; intros R F (g & a & w & b & I & N & L) i [cache fr] [C W]; [destruct I|].
    inversion R; subst. inversion F; subst. cbn [process_features fst snd] in *.
    destruct I as [<-|I]; [now rewrite (process_feature_ub _ _ _ _ _ _ _ a w b)|].
    assert (D : fits tls f \/ process_feature sm ord tls i (cache, fr) f = UB).
    { pose proof H3 as (tile & rest & FD & KN).
      destruct (search_bits (fun j => N.testbit (ff_bits f) j = true -> exists l, look tls tile rest (ff_start f + j) = Ok l /\ Forall in_range l)
        (fun j => N.testbit (ff_bits f) j = true /\ forall l, look tls tile rest (ff_start f + j) = Ok l -> ~ Forall in_range l))
        with (n := N.to_nat (ff_width f)) as [A|(j & J & T & X)].
      - intros j. destruct (N.testbit (ff_bits f) j); [|left; discriminate].
        destruct (look tls tile rest (ff_start f + j)) as [l| | | |];
          try (right; split; [reflexivity|intros l X; discriminate X]).
        destruct (Forall_dec in_range in_range_dec l) as [Y|Y]; [left; eauto|].
        right. split; [reflexivity|]. intros l0 X. inversion X; subst. exact Y.
      - left. apply (ok_known tls f tile rest U H1 FD). intros j J T. apply A; [lia|exact T].
      - right. assert (EN : enables f (ff_start f + j)).
        { apply enables_start; [assumption|]. exists j. split; [lia|auto]. }
        destruct (look_known tls tile rest (ff_start f + j) U (KN _ EN)) as (l & Y).
        specialize (X l Y). unfold process_feature. rewrite (width_nat _ H1).
        destruct (split1_spec (ff_name f)) as [(tile' & rest' & FD' & E)|[ND _]].
        2:{ exfalso. destruct FD as [E _]. apply ND. rewrite E. unfold dotted. apply in_or_app. right. now left. }
        destruct (first_dot_fun _ _ _ _ _ FD FD') as [<- <-]. rewrite E. cbn [fst snd].
        rewrite process_bits_ub; auto.
        + apply O.
        + apply H1.
        + rewrite N2Nat.id. destruct H1. lia.
        + intros j' J' T'. rewrite N2Nat.id in J'. apply look_known; [exact U|]. apply KN.
          apply enables_start; [assumption|]. exists j'. split; [lia|auto].
        + exists j, l. rewrite N2Nat.id. split; [lia|]. auto. }
    destruct D as [D|D]; [|now rewrite D].
    destruct (process_feature_ok sm ord tls i cache fr f) as (c1 & fr1 & X & C1 & W1 & _); auto.
    rewrite X. cbn [obind]. apply IH; auto; [|split; assumption]. eauto 8.
  Qed.

  (** Whatever the features: success, error, abort or undefined behaviour; success only if
      all are known. *)
  Lemma features_not_ok fs i st st' : Forall reported fs -> good st ->
    process_features sm ord tls i fs st = Ok st' -> Forall (fun f => known tls f /\ fits tls f) fs.
  Proof.
    intros R [C W]. destruct st as [cache fr]. now apply process_features_inv.
  Qed.
End Lists.
