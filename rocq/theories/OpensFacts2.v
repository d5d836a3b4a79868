(** The tile types whose files a run opens. *)
From Verif Require Import Base BaseFacts Absl Part Frame Frames Fasm DbText DbJson Database Assembler Opens AsmSpec MapFacts.
From Coq Require Import Lia.

(** The feature makes the assembler look for the tile type. *)
Definition looks_for (sm : shift_model) (tls : tiles) (f : fasm_feature) (ty : text) : Prop :=
  exists tile rest t seen m j fa, split_max 1 "." (ff_name f) = [tile; rest] /\ hm_find text_eqb tile (tl_grid tls) = Some t /\
    resolve_alias t rest = (ty, seen, m) /\ j < ff_width f /\ ff_width f < 2 ^ 31 /\
    feature_address sm (ff_start f) j = Ok fa /\ feature_bit sm (ff_bits f) j = Ok true.

Section Types.
  Context {Ev : Type} (get : text -> list Ev) (sm : shift_model) (ord : orders) (tls : tiles).

  (** One call of ConfigBits: nothing is loaded, or one type; it is in the cache afterwards, and the database knows it. *)
  Lemma config_types {S} (setter : S -> bus_type -> N -> N -> N -> bool -> outcome S) o cache tile rest a s :
    exists tys, config_opens get tls cache tile rest = flat_map get tys /\ (List.length tys <= 1)%nat /\
      (forall ty, In ty tys -> ~ has_key cache ty /\
         exists t seen m, hm_find text_eqb tile (tl_grid tls) = Some t /\ resolve_alias t rest = (ty, seen, m)) /\
      forall cache' s', config_bits setter o tls cache tile rest a s = Ok (cache', s') ->
        (forall ty, has_key cache' ty <-> has_key cache ty \/ In ty tys) /\
        (forall t seen m ty, hm_find text_eqb tile (tl_grid tls) = Some t -> resolve_alias t rest = (ty, seen, m) -> has_key cache' ty) /\
        (forall ty, In ty tys -> exists d, tl_bits tls ty = Ok (Some d)).
  Proof.
    unfold config_opens, config_bits. destruct (hm_find text_eqb tile (tl_grid tls)) as [t|] eqn:F.
    2:{ exists []. split; [reflexivity|]. split; [cbn; lia|]. split; [intros ty []|]. discriminate. }
    destruct (resolve_alias t rest) as [[ty al] m] eqn:R. unfold cache_opens, add_to_cache.
    destruct (hm_contains text_eqb ty cache) eqn:C.
    - exists []. split; [reflexivity|]. split; [cbn; lia|]. split; [intros x []|]. intros cache' s' H. cbn [obind] in H.
      assert (cache' = cache) as ->.
      { destruct (hm_find text_eqb ty cache) as [d|]; [|discriminate H].
        destruct (hm_contains text_eqb (join (tx ".") [tile; al]) (td_pips d)); [congruence|].
        destruct (hm_contains text_eqb (join (tx ".") [ty; al]) (td_pips d)); [congruence|].
        destruct (ofold (set_bus setter d (join (tx ".") [ty; al], a) (List.length m <=? 1)%nat) (o m) (false, s)) as [[[] s0]| | | |]; cbn [obind] in H; congruence. }
      split; [intros x; split; [auto|intros [X|[]]; exact X]|]. split; [|intros x []].
      intros t0 seen m0 ty0 E1 E2. assert (t0 = t) as -> by congruence. rewrite R in E2. injection E2 as <- _ _.
      now apply (hm_contains_key _ text_eqb_eq) in C.
    - exists [ty]. split; [symmetry; apply app_nil_r|]. split; [cbn; lia|]. apply (hm_contains_not _ text_eqb_eq) in C.
      split. { intros x [<-|[]]. split; [exact C|]. exists t, al, m. auto. }
      intros cache' s' H. destruct (tl_bits tls ty) as [[d|]| | | |] eqn:G; cbn [obind] in H; try discriminate H.
      2:{ destruct (hm_find text_eqb ty cache) as [d|] eqn:F2; [|discriminate H]. exfalso. apply C. apply (hm_contains_key _ text_eqb_eq). unfold hm_contains. now rewrite F2. }
      assert (cache' = hm_insert text_eqb ty d cache) as ->.
      { destruct (hm_find text_eqb ty (hm_insert text_eqb ty d cache)) as [d'|]; [|discriminate H].
        destruct (hm_contains text_eqb (join (tx ".") [tile; al]) (td_pips d')); [congruence|].
        destruct (hm_contains text_eqb (join (tx ".") [ty; al]) (td_pips d')); [congruence|].
        destruct (ofold (set_bus setter d' (join (tx ".") [ty; al], a) (List.length m <=? 1)%nat) (o m) (false, s)) as [[[] s0]| | | |]; cbn [obind] in H; congruence. }
      assert (K : forall x, has_key (hm_insert text_eqb ty d cache) x <-> x = ty \/ has_key cache x) by (intros x; apply (hm_insert_keys _ text_eqb_eq)).
      split. { intros x. rewrite K. cbn [In]. intuition congruence. }
      split. { intros t0 seen m0 ty0 E1 E2. assert (t0 = t) as -> by congruence. rewrite R in E2. injection E2 as <- _ _. apply K. now left. }
      intros x [<-|[]]. eauto.
  Qed.

  Lemma bits_types i tile rest start bits n : forall addr st,
    exists tys, process_bits_opens get sm ord tls i tile rest start bits n addr st = flat_map get tys /\ NoDup tys /\
      (forall ty, In ty tys -> ~ has_key (fst st) ty /\
         exists t seen m j fa, hm_find text_eqb tile (tl_grid tls) = Some t /\ resolve_alias t rest = (ty, seen, m) /\
           addr <= j < addr + N.of_nat n /\ feature_address sm start j = Ok fa /\ feature_bit sm bits j = Ok true) /\
      forall st', process_bits sm ord tls i tile rest start bits n addr st = Ok st' ->
        (forall ty, has_key (fst st') ty <-> has_key (fst st) ty \/ In ty tys) /\
        (forall t seen m j ty, hm_find text_eqb tile (tl_grid tls) = Some t -> resolve_alias t rest = (ty, seen, m) ->
           addr <= j < addr + N.of_nat n -> feature_bit sm bits j = Ok true -> has_key (fst st') ty) /\
        (forall ty, In ty tys -> exists d, tl_bits tls ty = Ok (Some d)).
  Proof.
    induction n as [|n IH]; intros addr st; cbn [process_bits process_bits_opens].
    { exists []. split; [reflexivity|]. split; [constructor|]. split; [intros ty []|]. intros st' H. assert (st' = st) as -> by congruence.
      split; [intros ty; split; [auto|intros [X|[]]; exact X]|]. split; [intros; lia|intros ty []]. }
    destruct (feature_address sm start addr) as [fa| | | |] eqn:FA; cbn [obind].
    2-5: exists []; split; [reflexivity|]; split; [constructor|]; split; [intros ty []|]; discriminate.
    destruct (feature_bit sm bits addr) as [[]| | | |] eqn:FB; cbn [obind].
    3-6: exists []; split; [reflexivity|]; split; [constructor|]; split; [intros ty []|]; discriminate.
    - destruct (config_types set_frame_bit (o_alias ord i addr) (fst st) tile rest fa (snd st)) as (t1 & E1 & L1 & U1 & K1). rewrite E1.
      destruct (config_bits set_frame_bit (o_alias ord i addr) tls (fst st) tile rest fa (snd st)) as [st1| | | |]; cbn [obind].
      2-5: (exists t1; split; [now rewrite app_nil_r|]; split; [destruct t1 as [|x [|y t1]]; [constructor|repeat constructor; intros []|cbn in L1; lia]|];
        split; [|discriminate]; intros ty I; destruct (U1 ty I) as (A & t & seen & m & B & C); split; [exact A|]; exists t, seen, m, addr, fa;
        repeat (split; [first [assumption | lia]|]); assumption).
      destruct (K1 (fst st1) (snd st1) ltac:(now destruct st1)) as (K1a & K1b & K1c).
      destruct (IH (addr + 1) st1) as (t2 & E2 & N2 & U2 & K2). rewrite E2. exists (t1 ++ t2). split; [now rewrite flat_map_app|].
      split.
      { destruct t1 as [|x [|y t1]]; [exact N2| |cbn in L1; lia]. cbn [app]. constructor; [|exact N2]. intros I. apply (proj1 (U2 x I)). apply K1a. right. now left. }
      split.
      { intros ty I. apply in_app_or in I as [I|I].
        - destruct (U1 ty I) as (A & t & seen & m & B & C). split; [exact A|]. exists t, seen, m, addr, fa. repeat (split; [first [assumption | lia]|]); assumption.
        - destruct (U2 ty I) as (A & t & seen & m & j & fa' & B & C & D & E & F). split; [intros X; apply A, K1a; now left|].
          exists t, seen, m, j, fa'. repeat (split; [first [assumption | lia]|]); assumption. }
      intros st' H. destruct (K2 st' H) as (K2a & K2b & K2c). split; [|split].
      + intros ty. rewrite K2a, K1a, in_app_iff. tauto.
      + intros t seen m j ty B C D E. destruct (N.eq_dec j addr) as [->|NE]; [apply K2a; left; eapply K1b; eauto|eapply K2b; eauto; lia].
      + intros ty I. apply in_app_or in I as [I|I]; auto.
    - destruct (IH (addr + 1) st) as (t2 & E2 & N2 & U2 & K2). exists t2. split; [exact E2|]. split; [exact N2|]. split.
      { intros ty I. destruct (U2 ty I) as (A & t & seen & m & j & fa' & B & C & D & E & F). split; [exact A|].
        exists t, seen, m, j, fa'. repeat (split; [first [assumption | lia]|]); assumption. }
      intros st' H. destruct (K2 st' H) as (K2a & K2b & K2c). split; [exact K2a|]. split; [|exact K2c].
      intros t seen m j ty B C D E. destruct (N.eq_dec j addr) as [->|NE]; [congruence|eapply K2b; eauto; lia].
  Qed.

  Lemma feature_types i st f :
    exists tys, process_feature_opens get sm ord tls i st f = flat_map get tys /\ NoDup tys /\
      (forall ty, In ty tys -> ~ has_key (fst st) ty /\ looks_for sm tls f ty) /\
      forall st', process_feature sm ord tls i st f = Ok st' ->
        (forall ty, has_key (fst st') ty <-> has_key (fst st) ty \/ In ty tys) /\
        (forall ty, looks_for sm tls f ty -> has_key (fst st') ty) /\
        (forall ty, In ty tys -> exists d, tl_bits tls ty = Ok (Some d)).
  Proof.
    unfold process_feature_opens, process_feature, looks_for. destruct (split_max 1 "." (ff_name f)) as [|tile [|rest [|]]].
    1,2,4: exists []; split; [reflexivity|]; split; [constructor|]; split; [intros ty []|]; discriminate.
    set (n := if ff_width f <? 2 ^ 31 then N.to_nat (ff_width f) else O).
    assert (NE : forall j, 0 <= j < 0 + N.of_nat n <-> j < ff_width f /\ ff_width f < 2 ^ 31).
    { intros j. unfold n. destruct (N.ltb_spec (ff_width f) (2 ^ 31)); lia. }
    destruct (bits_types i tile rest (ff_start f) (ff_bits f) n 0 (fst st, (snd st, []))) as (tys & E & ND & U & K). clearbody n.
    exists tys. split; [exact E|]. split; [exact ND|]. cbn [fst] in *. split.
    { intros ty I. destruct (U ty I) as (A & t & seen & m & j & fa & B & C & D & F & G). split; [exact A|]. apply NE in D as [D1 D2].
      exists tile, rest, t, seen, m, j, fa. auto 10. }
    intros st' H. destruct (process_bits sm ord tls i tile rest (ff_start f) (ff_bits f) n 0 (fst st, (snd st, []))) as [[c [fr us]]| | | |]; cbn [obind] in H; try discriminate H.
    destruct (K _ eq_refl) as (Ka & Kb & Kc). cbn [fst] in *.
    assert (fst st' = c) as ->.
    { destruct us; [injection H as <-; reflexivity|]. destruct (hm_find text_eqb tile (tl_grid tls)) as [t|]; [|discriminate H].
      destruct (ofold (materialise t) (o_buses ord i (b :: us)) fr); cbn [obind] in H; try discriminate H. injection H as <-. reflexivity. }
    split; [exact Ka|]. split; [|exact Kc].
    intros ty (tile' & rest' & t & seen & m & j & fa & S & B & C & D1 & D2 & F & G). injection S as <- <-.
    eapply Kb; eauto. now apply NE.
  Qed.

  Lemma features_types : forall fs i st,
    exists tys, process_features_opens get sm ord tls i fs st = flat_map get tys /\ NoDup tys /\
      (forall ty, In ty tys -> ~ has_key (fst st) ty /\ exists f, In f fs /\ looks_for sm tls f ty) /\
      forall st', process_features sm ord tls i fs st = Ok st' ->
        (forall ty, has_key (fst st') ty <-> has_key (fst st) ty \/ In ty tys) /\
        (forall ty f, In f fs -> looks_for sm tls f ty -> has_key (fst st') ty) /\
        (forall ty, In ty tys -> exists d, tl_bits tls ty = Ok (Some d)).
  Proof.
    induction fs as [|f fs IH]; intros i st; cbn [process_features process_features_opens].
    { exists []. split; [reflexivity|]. split; [constructor|]. split; [intros ty []|]. intros st' H. assert (st' = st) as -> by congruence.
      split; [intros ty; split; [auto|intros [X|[]]; exact X]|]. split; [intros ty f []|intros ty []]. }
    destruct (feature_types i st f) as (t1 & E1 & N1 & U1 & K1). rewrite E1.
    destruct (process_feature sm ord tls i st f) as [st1| | | |]; cbn [obind].
    2-5: (exists t1; split; [now rewrite app_nil_r|]; split; [exact N1|]; split; [|discriminate]; intros ty I; destruct (U1 ty I) as [A B]; split; [exact A|]; exists f; split; [now left|exact B]).
    destruct (K1 _ eq_refl) as (K1a & K1b & K1c). destruct (IH (i + 1) st1) as (t2 & E2 & N2 & U2 & K2). rewrite E2.
    exists (t1 ++ t2). split; [now rewrite flat_map_app|]. split.
    { assert (X : forall ty, In ty t1 -> ~ In ty t2) by (intros ty I J; apply (proj1 (U2 ty J)), K1a; now right).
      clear - N1 N2 X. induction t1 as [|x t1 IH]; [exact N2|]. inversion N1; subst. cbn [app]. constructor.
      - rewrite in_app_iff. intros [Y|Y]; [contradiction|]. apply (X x); [now left|exact Y].
      - apply IH; [assumption|]. intros ty I. apply X. now right. }
    split.
    { intros ty I. apply in_app_or in I as [I|I].
      - destruct (U1 ty I) as [A B]. split; [exact A|]. exists f. split; [now left|exact B].
      - destruct (U2 ty I) as (A & g & B & C). split; [intros X; apply A, K1a; now left|]. exists g. split; [now right|exact C]. }
    intros st' H. destruct (K2 st' H) as (K2a & K2b & K2c). split; [|split].
    - intros ty. rewrite K2a, K1a, in_app_iff. tauto.
    - intros ty g [<-|I] L; [apply K2a; left; now apply K1b|eapply K2b; eauto].
    - intros ty I. apply in_app_or in I as [I|I]; auto.
  Qed.
End Types.
