(** Facts about Packet.v and the packet iterator of Reader.v. *)
From Verif Require Import Base BitOps Packet Reader BaseFacts BitOpsFacts.
From Coq Require Import ZifyBool ZifyN ZifyNat.

Lemma get_set_same r t b v : b <= t -> t < 32 -> v < 2 ^ (t - b + 1) ->
  bit_field_get 32 (bit_field_set 32 r t b v) t b = v.
Proof. intros. rewrite field_get_set by assumption. apply N.mod_small; assumption. Qed.

Ltac field_other := rewrite field_get_set_disjoint by lia.

(** Fields of a type-1 header. *)
Lemma header1_fields p : pk_type p = 1 -> pk_op p < 4 -> pk_addr p < 2 ^ 14 ->
  length_N (pk_data p) < 2 ^ 11 ->
  let h := packet_header p in
  bit_field_get 32 h 31 29 = 1 /\ bit_field_get 32 h 28 27 = pk_op p /\
  bit_field_get 32 h 26 13 = pk_addr p /\ bit_field_get 32 h 10 0 = length_N (pk_data p).
Proof.
  intros Ht Ho Ha Hl h. subst h. unfold packet_header. rewrite Ht. cbn [N.eqb Pos.eqb].
  change (1 =? 0) with false. change (1 =? 1) with true. cbv iota zeta.
  repeat split.
  - do 3 field_other. apply get_set_same; cbn; lia.
  - do 2 field_other. apply get_set_same; cbn; lia.
  - field_other. apply get_set_same; try lia. exact Ha.
  - apply get_set_same; try lia. exact Hl.
Qed.

Lemma header2_fields p : pk_type p = 2 -> pk_op p < 4 -> length_N (pk_data p) < 2 ^ 27 ->
  let h := packet_header p in
  bit_field_get 32 h 31 29 = 2 /\ bit_field_get 32 h 28 27 = pk_op p /\
  bit_field_get 32 h 26 0 = length_N (pk_data p).
Proof.
  intros Ht Ho Hl h. subst h. unfold packet_header. rewrite Ht.
  change (2 =? 0) with false. change (2 =? 1) with false. change (2 =? 2) with true.
  cbv iota zeta. repeat split.
  - do 2 field_other. apply get_set_same; cbn; lia.
  - field_other. apply get_set_same; cbn; lia.
  - apply get_set_same; try lia. exact Hl.
Qed.

Lemma packet_header_lt p : packet_header p < 2 ^ 32.
Proof.
  unfold packet_header. cbv zeta.
  assert (H0 : bit_field_set 32 0 31 29 (pk_type p) < 2 ^ 32) by (apply bit_field_set_lt; lia).
  destruct (pk_type p =? 0); [assumption|]. destruct (pk_type p =? 1).
  - repeat apply bit_field_set_lt; try lia; assumption.
  - destruct (pk_type p =? 2); [|assumption]. repeat apply bit_field_set_lt; try lia; assumption.
Qed.

(** ** A packet that fits its header, given the packet before it *)
Definition packet_fits (prev : option packet) (p : packet) : Prop :=
  pk_op p < 4 /\
  ((pk_type p = 0 /\ pk_op p = opNOP /\ pk_addr p = regCRC /\ pk_data p = []) \/
   (pk_type p = 1 /\ pk_addr p < 2 ^ 14 /\ length_N (pk_data p) < 2 ^ 11) \/
   (pk_type p = 2 /\ length_N (pk_data p) < 2 ^ 27 /\
    exists q, prev = Some q /\ pk_addr q = pk_addr p)).

Lemma firstn_len {A} (l r : list A) : firstn (N.to_nat (length_N l)) (l ++ r) = l.
Proof. unfold length_N. rewrite Nat2N.id, firstn_app, Nat.sub_diag, firstn_all. apply app_nil_r. Qed.
Lemma skipn_len {A} (l r : list A) : skipn (N.to_nat (length_N l)) (l ++ r) = r.
Proof. unfold length_N. rewrite Nat2N.id, skipn_app, Nat.sub_diag, skipn_all. reflexivity. Qed.

Lemma packet_parse prev p rest : packet_fits prev p ->
  init_with_words (packet_header p :: pk_data p ++ rest) prev = (rest, Some p).
Proof.
  intros [Ho [(Ht & Eo & Ea & Ed)|[(Ht & Ha & Hl)|(Ht & Hl & q & Eq & Eaq)]]].
  - destruct p as [ty op ad da]; cbn in Ht, Eo, Ea, Ed; subst. reflexivity.
  - destruct (header1_fields p Ht Ho Ha Hl) as (F1 & F2 & F3 & F4).
    unfold init_with_words. cbv zeta. rewrite F1, F2, F3, F4.
    change (1 =? 0) with false. change (1 =? 1) with true. cbv iota.
    replace (length_N (pk_data p ++ rest) <? length_N (pk_data p)) with false
      by (unfold length_N; rewrite app_length; lia).
    rewrite firstn_len, skipn_len. f_equal. f_equal. destruct p; cbn in *; subst; reflexivity.
  - destruct (header2_fields p Ht Ho Hl) as (F1 & F2 & F3).
    unfold init_with_words. cbv zeta. rewrite F1, F2, F3.
    change (2 =? 0) with false. change (2 =? 1) with false. change (2 =? 2) with true. cbv iota.
    replace (length_N (pk_data p ++ rest) <? length_N (pk_data p)) with false
      by (unfold length_N; rewrite app_length; lia).
    rewrite firstn_len, skipn_len, Eq. f_equal. f_equal. rewrite Eaq.
    destruct p; cbn in *; subst; reflexivity.
Qed.

(** ** Arbitrary words: the remainder is a suffix, a packet consumes words *)
Lemma init_with_words_suffix words prev rest pkt :
  init_with_words words prev = (rest, pkt) ->
  (exists used, words = used ++ rest) /\
  (forall k, pkt = Some k ->
     exists h, words = h :: pk_data k ++ rest) /\
  (pkt = None -> rest = words \/ (length rest < length words)%nat).
Proof.
  unfold init_with_words. destruct words as [|h w].
  - intros E. injection E as <- <-. repeat split.
    + exists []. reflexivity.
    + discriminate.
    + left; reflexivity.
  - cbv zeta.
    set (ty := bit_field_get 32 h 31 29). set (op := bit_field_get 32 h 28 27).
    set (ad := bit_field_get 32 h 26 13). set (cnt1 := bit_field_get 32 h 10 0).
    set (cnt2 := bit_field_get 32 h 26 0). clearbody ty op ad cnt1 cnt2.
    assert (Cut : forall cnt, (length_N w <? cnt) = false ->
       w = firstn (N.to_nat cnt) w ++ skipn (N.to_nat cnt) w) by (intros; symmetry; apply firstn_skipn).
    destruct (ty =? 0) eqn:T0; [|destruct (ty =? 1) eqn:T1; [|destruct (ty =? 2) eqn:T2]].
    + intros E. injection E as <- <-. split; [|split].
      * exists [h]. reflexivity.
      * intros k K. injection K as <-. exists h. reflexivity.
      * discriminate.
    + destruct (length_N w <? cnt1) eqn:L; intros E; injection E as <- <-.
      * split; [|split]; [exists []; reflexivity|discriminate|left; reflexivity].
      * split; [|split].
        -- exists (h :: firstn (N.to_nat cnt1) w). cbn [app]. f_equal.
           apply Cut; assumption.
        -- intros k K. injection K as <-. exists h. cbn [pk_data]. f_equal. apply Cut; assumption.
        -- discriminate.
    + destruct (length_N w <? cnt2) eqn:L; intros E; injection E as <- <-.
      * split; [|split]; [exists []; reflexivity|discriminate|left; reflexivity].
      * split; [|split].
        -- exists (h :: firstn (N.to_nat cnt2) w). cbn [app]. f_equal.
           apply Cut; assumption.
        -- intros k K. destruct prev; [|discriminate]. injection K as <-. exists h.
           cbn [pk_data]. f_equal. apply Cut; assumption.
        -- intros _. right. cbn [length]. rewrite skipn_length. lia.
    + intros E. injection E as <- <-. split; [|split].
      * exists (h :: w). rewrite app_nil_r. reflexivity.
      * discriminate.
      * intros _. right. cbn [length]. lia.
Qed.

Lemma list_N_eqb_eq a : forall b, list_N_eqb a b = true <-> a = b.
Proof.
  induction a as [|x a IH]; intros [|y b]; cbn; try (split; congruence).
  rewrite andb_true_iff, N.eqb_eq, IH. split.
  - intros [-> ->]. reflexivity.
  - intros E. injection E. auto.
Qed.

Lemma list_N_eqb_refl a : list_N_eqb a a = true.
Proof. apply list_N_eqb_eq. reflexivity. Qed.

(** ** The iterator always succeeds *)
(** [covers words ks]: the packets come, in order, from disjoint consecutive pieces
    "header, data" of the words. *)
Inductive covers : list N -> list packet -> Prop :=
| cov_nil ws : covers ws []
| cov_cons skip h k ws ks :
    covers ws ks -> covers (skip ++ h :: pk_data k ++ ws) (k :: ks).

Lemma covers_skip skip ws ks : covers ws ks -> covers (skip ++ ws) ks.
Proof.
  intros H. inversion H as [|s h k ws' ks' H']; subst; [constructor|].
  rewrite app_assoc. constructor. assumption.
Qed.

Lemma ri_loop_total fuel : forall rest pkt, (length rest < fuel)%nat ->
  exists i, ri_loop fuel rest pkt = Ok i /\
    (ri_words i = [] \/
     ((exists skip, rest = skip ++ ri_words i) /\ ri_words i <> [] /\
      (ri_pkt i = None \/
       exists k h, ri_pkt i = Some k /\ ri_words i = h :: pk_data k ++ ri_rest i))).
Proof.
  induction fuel as [|fuel IH]; intros rest pkt Hf; [lia|]. cbn [ri_loop].
  destruct (init_with_words rest pkt) as [rest' pkt'] eqn:E.
  destruct (init_with_words_suffix _ _ _ _ E) as ((used & U) & S & P).
  destruct (list_N_eqb rest' rest) eqn:Q.
  - eexists. split; [reflexivity|]. left. reflexivity.
  - assert (Hne : rest' <> rest) by (intros C; apply list_N_eqb_eq in C; congruence).
    assert (Hrest : rest <> []).
    { intros C. rewrite C in U. symmetry in U. apply app_eq_nil in U. destruct U. congruence. }
    assert (Done : exists i,
      Ok {| ri_rest := rest'; ri_pkt := pkt'; ri_words := rest |} = Ok i /\
      (ri_words i = [] \/
       ((exists skip, rest = skip ++ ri_words i) /\ ri_words i <> [] /\
        (ri_pkt i = None \/
         exists k h, ri_pkt i = Some k /\ ri_words i = h :: pk_data k ++ ri_rest i)))).
    { eexists. split; [reflexivity|]. right. cbn [ri_words ri_pkt ri_rest].
      split; [exists []; reflexivity|]. split; [assumption|].
      destruct pkt' as [k|]; [right|left; reflexivity].
      destruct (S k eq_refl) as (h & K). exists k, h. auto. }
    destruct rest' as [|x rest''].
    + destruct pkt'; exact Done.
    + destruct pkt' as [k|]; [exact Done|].
      destruct (P eq_refl) as [C|C]; [congruence|].
      destruct (IH (x :: rest'') None) as (i & Hi & [W|((skip & K1) & K2 & K3)]).
      * lia.
      * exists i. auto.
      * exists i. split; [assumption|]. right. split; [|auto].
        exists (used ++ skip). rewrite <- app_assoc, <- K1. assumption.
Qed.

Lemma ri_next_total i : exists i', ri_next i = Ok i' /\
  (ri_words i' = [] \/
   ((exists skip, ri_rest i = skip ++ ri_words i') /\
    exists k h, ri_pkt i' = Some k /\ ri_words i' = h :: pk_data k ++ ri_rest i')).
Proof.
  unfold ri_next. destruct (ri_loop_total (S (length (ri_rest i))) (ri_rest i) (ri_pkt i))
    as (i' & E & H); [lia|]. rewrite E. cbn [obind].
  eexists. split; [reflexivity|].
  destruct (ri_pkt i') as [k|] eqn:K.
  - destruct H as [H|(H1 & H2 & H3)]; [left; assumption|right].
    split; [assumption|]. destruct H3 as [C|(k' & h & E1 & E2)]; [discriminate C|].
    exists k', h. split; [congruence|assumption].
  - left. reflexivity.
Qed.

Lemma ri_packets_total fuel : forall i,
  (length (ri_rest i) + 2 <= fuel)%nat ->
  (ri_words i = [] \/ exists k h, ri_pkt i = Some k /\ ri_words i = h :: pk_data k ++ ri_rest i) ->
  exists ks, ri_packets fuel i = Ok ks /\
    match ri_words i with [] => ks = [] | _ => covers (ri_words i) ks end.
Proof.
  induction fuel as [|fuel IH]; intros i Hf H; [lia|]. cbn [ri_packets].
  destruct H as [H|(k & h & Hk & Hw)].
  - rewrite H. exists []. auto.
  - rewrite Hw, Hk.
    destruct (ri_next_total i) as (i' & E & [W|((skip & S) & k' & h' & Hk' & Hw')]);
      rewrite E; cbn [obind].
    + destruct fuel as [|fuel].
      * lia.
      * cbn [ri_packets]. rewrite W. cbn [obind]. exists [k]. split; [reflexivity|].
        apply (cov_cons [] h k (ri_rest i) []). constructor.
    + assert (Hlen : (length (ri_rest i') + 2 <= fuel)%nat).
      { rewrite S, Hw' in Hf. rewrite app_length in Hf. cbn [length] in Hf.
        rewrite app_length in Hf. lia. }
      destruct (IH i' Hlen) as (ks & Eks & C).
      { right. exists k', h'. auto. }
      rewrite Eks. cbn [obind]. exists (k :: ks). split; [reflexivity|].
      apply (cov_cons [] h k (ri_rest i) ks).
      rewrite S. apply covers_skip. rewrite Hw' in C. rewrite Hw'. exact C.
Qed.

Lemma ri_packets_fuel fuel : forall i,
  (ri_words i = []) -> ri_packets (S fuel) i = Ok [].
Proof. intros i H. cbn [ri_packets]. rewrite H. reflexivity. Qed.

Lemma reader_packets_total words :
  exists ks, reader_packets words = Ok ks /\ covers words ks.
Proof.
  unfold reader_packets, ri_begin.
  destruct (ri_next_total {| ri_rest := words; ri_pkt := None; ri_words := [] |})
    as (i & E & [W|((skip & S) & k & h & Hk & Hw)]); rewrite E; cbn [obind].
  - rewrite ri_packets_fuel by assumption. exists []. split; [reflexivity|constructor].
  - cbn [ri_rest] in S. destruct (ri_packets_total (Datatypes.S (length words)) i) as (ks & Eks & C).
    + rewrite S, Hw, app_length. cbn [length]. rewrite app_length. lia.
    + right. exists k, h. auto.
    + exists ks. split; [assumption|]. rewrite S. apply covers_skip. rewrite Hw in C |- *. exact C.
Qed.

(** ** Well-formed packet sequences are delivered as they are *)
Fixpoint packets_fit (prev : option packet) (ks : list packet) : Prop :=
  match ks with
  | [] => True
  | k :: ks' => packet_fits prev k /\ packets_fit (Some k) ks'
  end.

Definition packet_words (k : packet) : list N := packet_header k :: pk_data k.
Definition packets_words (ks : list packet) : list N := flat_map packet_words ks.

Lemma app_not_self {A} (x : A) l r : x :: l ++ r <> r.
Proof.
  intros E. apply (f_equal (@length A)) in E. cbn [length] in E. rewrite app_length in E. lia.
Qed.

Lemma ri_next_fit prev w k ks : packets_fit prev (k :: ks) ->
  ri_next {| ri_rest := packets_words (k :: ks); ri_pkt := prev; ri_words := w |} =
  Ok {| ri_rest := packets_words ks; ri_pkt := Some k; ri_words := packets_words (k :: ks) |}.
Proof.
  intros [Hk _]. unfold ri_next. cbn [ri_rest ri_pkt].
  set (ws := packets_words (k :: ks)).
  assert (E : ws = packet_header k :: pk_data k ++ packets_words ks) by reflexivity.
  cbn [ri_loop]. rewrite E at 1. rewrite (packet_parse prev k (packets_words ks) Hk).
  destruct (list_N_eqb (packets_words ks) ws) eqn:Q.
  - apply list_N_eqb_eq in Q. rewrite E in Q. symmetry in Q. apply app_not_self in Q. destruct Q.
  - destruct (packets_words ks); reflexivity.
Qed.

Lemma ri_next_end prev w : ri_next {| ri_rest := []; ri_pkt := prev; ri_words := w |} =
  Ok {| ri_rest := []; ri_pkt := prev; ri_words := [] |}.
Proof. unfold ri_next. cbn. destruct prev; reflexivity. Qed.

Lemma ri_packets_fit fuel : forall prev k ks,
  packets_fit prev (k :: ks) -> (length ks + 2 <= fuel)%nat ->
  ri_packets fuel {| ri_rest := packets_words ks; ri_pkt := Some k;
                     ri_words := packets_words (k :: ks) |} = Ok (k :: ks).
Proof.
  induction fuel as [|fuel IH]; intros prev k ks H Hf; [lia|].
  cbn [ri_packets ri_words ri_pkt].
  change (packets_words (k :: ks)) with (packet_header k :: pk_data k ++ packets_words ks) at 1.
  cbv iota beta. destruct ks as [|k' ks].
  - change (packets_words []) with (@nil N). rewrite ri_next_end. cbn [obind].
    destruct fuel as [|fuel]; [cbn [length] in Hf; lia|]. reflexivity.
  - destruct H as [Hk H]. rewrite (ri_next_fit (Some k) _ k' ks H). cbn [obind].
    rewrite (IH (Some k) k' ks H) by (cbn [length] in *; lia). reflexivity.
Qed.

Lemma reader_packets_fit ks : packets_fit None ks -> reader_packets (packets_words ks) = Ok ks.
Proof.
  intros H. unfold reader_packets, ri_begin. destruct ks as [|k ks].
  - reflexivity.
  - rewrite (ri_next_fit None [] k ks H). cbn [obind]. eapply ri_packets_fit; [eassumption|].
    assert (G : forall l, (length l <= length (packets_words l))%nat).
    { induction l as [|x l IH]; [cbn; lia|]. cbn [length].
      change (packets_words (x :: l)) with (packet_header x :: pk_data x ++ packets_words l).
      cbn [length]. rewrite app_length. lia. }
    specialize (G ks).
    change (packets_words (k :: ks)) with (packet_header k :: pk_data k ++ packets_words ks).
    cbn [length]. rewrite app_length. lia.
Qed.
