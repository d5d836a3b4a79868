(** What happens to unknown features. *)
From Verif Require Import Base BaseFacts Absl Part Frame Fasm DbText DbJson Database
  Assembler EncodeSpec AsmSpec MapFacts AsmFacts LookupFacts ProcessFacts.
From Coq Require Import ZifyBool ZifyN ZifyNat.

Local Notation "x <- e ;; f" := (obind e (fun x => f))
  (at level 61, e at next level, right associativity).

Lemma config_bits_crash ord tls cache tile feature k (s : asm_frames * list bus_type) :
  consistent tls cache -> (forall l, Permutation (ord l) l) ->
  look tls tile feature k = Crash ->
  config_bits set_frame_bit ord tls cache tile feature k s = Crash.
Proof.
  intros C P L.
  assert (L' : lookup ord tls tile feature k = Crash).
  { pose proof (lookup_order ord tls tile feature k P) as O. unfold look in L. rewrite L in O.
    unfold same_calls in O. destruct (lookup ord tls tile feature k); try contradiction. reflexivity. }
  pose proof (config_bits_lookup set_frame_bit ord tls cache tile feature k s C P) as H. rewrite L' in H. cbn [obind] in H.
  destruct (config_bits set_frame_bit ord tls cache tile feature k s) as [[c s']| | | |]; try discriminate H.
  - destruct H as [_ H]. discriminate H.
  - reflexivity.
Qed.

Definition bit_ok_or_crash (tls : tiles) (tile rest : text) (start bits j : N) : Prop :=
  N.testbit bits j = true ->
  look tls tile rest (start + j) = Crash \/
  exists l, look tls tile rest (start + j) = Ok l /\ Forall in_range l.

Lemma process_bits_crash sm ord tls i tile rest start bits :
  (forall i j l, Permutation (o_alias ord i j l) l) -> start + 64 <= 2 ^ 31 ->
  forall n addr cache fr used,
  consistent tls cache -> wf_frames fr -> addr + N.of_nat n <= 64 ->
  (forall j, addr <= j < addr + N.of_nat n -> bit_ok_or_crash tls tile rest start bits j) ->
  (exists j, addr <= j < addr + N.of_nat n /\ N.testbit bits j = true /\ look tls tile rest (start + j) = Crash) ->
  process_bits sm ord tls i tile rest start bits n addr (cache, (fr, used)) = Crash.
Proof.
  intros P HS. induction n as [|n IH]; intros addr cache fr used C W HN HB (j & J & T & L); [lia|].
  cbn [process_bits]. rewrite feature_address_ok, feature_bit_ok by (auto; lia). cbn [obind].
  destruct (N.testbit bits addr) eqn:Ta.
  - cbn [fst snd]. destruct (HB addr) as [X|(l & X & R)]; [lia|exact Ta| |].
    + rewrite config_bits_crash; auto.
    + destruct (config_bits_ok (o_alias ord i addr) tls cache tile rest (start + addr) fr used l)
        as (cache1 & fr1 & used1 & E1 & C1 & W1 & _); auto.
      rewrite E1. cbn [obind]. apply IH; auto; [lia| |].
      * intros j' J'. apply HB. lia.
      * exists j. destruct (N.eq_dec j addr) as [->|NE]; [rewrite L in X; discriminate X|].
        split; [lia|]. auto.
  - cbn [obind]. apply IH; auto; [lia| |].
    + intros j' J'. apply HB. lia.
    + exists j. destruct (N.eq_dec j addr) as [->|NE]; [rewrite T in Ta; discriminate Ta|].
      split; [lia|]. auto.
Qed.

Lemma look_ok_crash tls tile rest k : readable tls ->
  look tls tile rest k = Crash \/ exists l, look tls tile rest k = Ok l.
Proof.
  intros G. unfold look, lookup. destruct (hm_find text_eqb tile (tl_grid tls)) as [t|]; [|now left].
  destruct (resolve_alias t rest) as [[ty seen] m]. destruct (G ty) as (md & E). rewrite E. cbn [obind].
  destruct md; [|now left]. destruct (_ || _); [right; eauto|]. destruct (existsb _ _); [right; eauto|now left].
Qed.

Lemma process_feature_crash sm ord tls i cache fr f k :
  usable_grid (tl_grid tls) -> readable tls -> good_orders ord -> reported f -> fits tls f ->
  consistent tls cache -> wf_frames fr ->
  In dot (ff_name f) -> enables f k -> ~ recognised tls f k ->
  process_feature sm ord tls i (cache, fr) f = Crash.
Proof.
  intros U G O R FI C W D E NS. unfold process_feature. rewrite (width_nat _ R).
  destruct (split1_spec (ff_name f)) as [(tile & rest & FD & ES)|[ND ES]]; [|contradiction]. rewrite ES.
  cbn [fst snd]. rewrite process_bits_crash; auto.
  - apply O.
  - apply R.
  - rewrite N2Nat.id. destruct R. lia.
  - intros j J T. rewrite N2Nat.id in J. destruct (look_ok_crash tls tile rest (ff_start f + j) G) as [X|(l & X)]; [now left|].
    right. exists l. split; [exact X|]. apply Forall_forall. intros c I V.
    pose proof X as L. apply (lookup_ok tls) in L; [|exact U]. destruct L as [L _].
    apply L in I as (bus & b & segs & sb & En & Is & ->).
    destruct (placed_parts bus b sb) as (_ & PV & _). rewrite PV in V.
    eapply FI. exists bus, b, sb. split; [|split; [exact V|]].
    + exists tile, rest, (ff_start f + j), segs. repeat (split; [assumption|]). split; [|auto].
      apply enables_start; [exact R|]. exists j. repeat split; auto; lia.
    + apply (placed_lands bus). split; [reflexivity|]. split; reflexivity.
  - apply enables_start in E; [|exact R]. destruct E as (j & J & T & ->). exists j. rewrite N2Nat.id.
    split; [lia|]. split; [exact T|]. destruct (look_ok_crash tls tile rest (ff_start f + j) G) as [X|(l & X)]; [exact X|].
    exfalso. apply NS. exists tile, rest. split; [exact FD|]. apply (lookup_ok tls) in X; [|exact U].
    destruct X as [_ [[X _]|X]]; auto.
Qed.

Lemma process_feature_nodot sm ord tls i st f : ~ In dot (ff_name f) ->
  process_feature sm ord tls i st f = Err.
Proof.
  intros N. unfold process_feature. destruct (split1_spec (ff_name f)) as [(tile & rest & [E _] & _)|[_ E]].
  - exfalso. apply N. rewrite E. apply in_or_app. right. now left.
  - now rewrite E.
Qed.

(** A prefix of good features, then a bad one. *)
Lemma process_features_app sm ord tls fs1 fs2 : forall i st,
  process_features sm ord tls i (fs1 ++ fs2) st
  = (st' <- process_features sm ord tls i fs1 st ;;
     process_features sm ord tls (i + N.of_nat (List.length fs1)) fs2 st').
Proof.
  induction fs1 as [|f fs1 IH]; intros i st; cbn [app process_features List.length].
  - cbn [obind]. f_equal. lia.
  - destruct (process_feature sm ord tls i st f) as [st1| | | |]; cbn [obind]; try reflexivity.
    rewrite IH. destruct (process_features sm ord tls (i + 1) fs1 st1); cbn [obind]; try reflexivity.
    f_equal. lia.
Qed.
