(** Facts about Config.v. *)
From Verif Require Import Base BitOps Frame Part Frames Packet Config BaseFacts BitOpsFacts
  FrameFacts PartSpec PartFacts PartFromFacts FramesFacts PacketFacts ConfigSpec.
From Coq Require Import ZifyBool ZifyN ZifyNat.

Lemma zero_separator_eq : zero_separator = two_zero_frames.
Proof. reflexivity. Qed.
Lemma zero_separator_length : length zero_separator = 202%nat.
Proof. reflexivity. Qed.

(** ** Row changes *)
Lemma fields_of_row a : a < 2 ^ 26 ->
  device_row a = (fa_block_type a * 2 + N.b2n (fa_is_bottom a)) * 32 + fa_row a.
Proof.
  intros Ha. pose proof (fa_rebuild a Ha) as R. pose proof (fa_ranges a) as O.
  rewrite fa_make_ok in R by exact O. destruct O as (Hb & Hr & Hc & Hm).
  set (b := fa_block_type a) in *. set (h := fa_is_bottom a) in *. set (r := fa_row a) in *.
  set (c := fa_column a) in *. set (m := fa_minor a) in *. clearbody b h r c m.
  unfold device_row. rewrite <- R. change (2 ^ 17) with 131072.
  symmetry. apply (N.div_unique _ _ _ (c * 128 + m)); [lia|]. lia.
Qed.

Lemma row_change_iff a a' : a < 2 ^ 26 -> a' < 2 ^ 26 ->
  row_change a a' = negb (device_row a =? device_row a').
Proof.
  intros Ha Ha'. rewrite (fields_of_row a Ha), (fields_of_row a' Ha').
  pose proof (fa_ranges a) as (Hb & Hr & _ & _). pose proof (fa_ranges a') as (Hb' & Hr' & _ & _).
  unfold row_change.
  set (b := fa_block_type a) in *. set (h := fa_is_bottom a) in *. set (r := fa_row a) in *.
  set (b' := fa_block_type a') in *. set (h' := fa_is_bottom a') in *. set (r' := fa_row a') in *.
  clearbody b h r b' h' r'.
  destruct (N.eqb_spec ((b * 2 + N.b2n h) * 32 + r) ((b' * 2 + N.b2n h') * 32 + r')) as [E|E].
  - assert (b' = b /\ h' = h /\ r' = r) as (-> & -> & ->).
    { destruct h, h'; cbn [N.b2n] in E; repeat split; lia. }
    rewrite !N.eqb_refl. destruct h; reflexivity.
  - destruct (N.eqb_spec b' b) as [->|]; [|reflexivity].
    destruct (N.eqb_spec r' r) as [->|]; [|rewrite orb_true_r; reflexivity].
    destruct h, h'; cbn [N.b2n Bool.eqb negb orb] in *; try reflexivity; exfalso; apply E; lia.
Qed.

(** ** Payload layout for a frame set that follows the walk *)
Lemma payload_of_walk p a l : walk p a l -> forall fs, map fst fs = l ->
  Forall (fun x => x < 2 ^ 26) l ->
  type2_data p fs = payload fs.
Proof.
  induction 1 as [a E|a a' l E H IH]; intros fs Hk Hl.
  - destruct fs as [|[k w] [|? ?]]; try discriminate. cbn in Hk. injection Hk as ->.
    unfold type2_data, type2_frame, payload. cbn [flat_map fst snd]. rewrite E.
    rewrite !app_nil_r. reflexivity.
  - destruct fs as [|[k w] fs]; try discriminate. cbn [map fst] in Hk. injection Hk as -> Hk.
    inversion Hl as [|? ? Ha Hl']; subst.
    assert (Hd : exists w' fs', fs = (a', w') :: fs').
    { inversion H; subst; destruct fs as [|[k' w'] fs']; try discriminate;
        cbn [map fst] in *; match goal with K : _ :: _ = _ :: _ |- _ => injection K as <- end; eauto. }
    destruct Hd as (w' & fs' & ->).
    assert (Ha' : a' < 2 ^ 26) by (inversion Hl'; assumption).
    specialize (IH _ eq_refl Hl'). unfold type2_data in *. cbn [flat_map]. rewrite <- app_assoc.
    cbn [flat_map] in IH. rewrite IH.
    unfold type2_frame at 1. cbn [fst snd]. rewrite E, row_change_iff by assumption.
    change (payload ((a, w) :: (a', w') :: fs')) with
      (w ++ (if device_row a =? device_row a' then [] else two_zero_frames) ++ payload ((a', w') :: fs')).
    rewrite <- app_assoc. f_equal. f_equal. destruct (device_row a =? device_row a'); reflexivity.
Qed.

Lemma payload_length fs : Forall (fun kv : N * list N => length (snd kv) = 101%nat) fs ->
  N.of_nat (length (payload fs)) = 101 * (N.of_nat (length fs) + 2 * row_changes fs + 2).
Proof.
  induction 1 as [|[a w] fs Hw Hfs IH]; [reflexivity|].
  cbn [snd] in Hw. cbn [payload]. rewrite !app_length, Hw.
  destruct fs as [|[a' w'] fs].
  - cbn [payload length]. unfold two_zero_frames. rewrite repeat_length. cbn. reflexivity.
  - cbn [row_changes]. cbn [row_changes] in IH. cbn [length] in *. destruct (device_row a =? device_row a').
    + cbn [length]. lia.
    + unfold two_zero_frames at 1. rewrite repeat_length. lia.
Qed.

(** ** The decoder on packets *)
Lemma cfg_packets_app p ks ks' s : cfg_packets p s (ks ++ ks') =
  match cfg_packets p s ks with None => None | Some s' => cfg_packets p s' ks' end.
Proof.
  revert s. induction ks as [|k ks IH]; intros s; cbn [app cfg_packets]; [reflexivity|].
  destruct (cfg_packet p s k); [apply IH|reflexivity].
Qed.

Lemma cfg_packets_nop p n s ks : cfg_packets p s (repeat nop_packet n ++ ks) = cfg_packets p s ks.
Proof. induction n as [|n IH]; [reflexivity|]. cbn [repeat app cfg_packets]. exact IH. Qed.

Lemma cfg_idcode p s : cfg_packet p s (write1 regIDCODE (p_idcode p)) = Some s.
Proof. unfold cfg_packet. cbn [write1 pk_op pk_addr pk_data]. cbn. rewrite N.eqb_refl. reflexivity. Qed.

(** ** Decoding the payload *)
Lemma bt_set_max {A} k (v : A) m : Forall (fun x => x < k) (bt_keys m) ->
  bt_set k v m = m ++ [(k, v)].
Proof.
  induction m as [|[k' v'] m IH]; intros H; [reflexivity|].
  inversion H as [|? ? Hk Hm]; subst. cbn in Hk. cbn [bt_set app].
  replace (k <? k') with false by lia. replace (k =? k') with false by lia.
  rewrite IH by assumption. reflexivity.
Qed.

Lemma firstn_exact {A} (l r : list A) n : length l = n -> firstn n (l ++ r) = l.
Proof. intros <-. rewrite firstn_app, Nat.sub_diag, firstn_all, firstn_O. apply app_nil_r. Qed.
Lemma skipn_exact {A} (l r : list A) n : length l = n -> skipn n (l ++ r) = r.
Proof. intros <-. rewrite skipn_app, Nat.sub_diag, skipn_all. reflexivity. Qed.

Lemma fdri_walk p a l : walk p a l -> forall fs fuel acc tail,
  map fst fs = l -> StronglySorted N.lt l ->
  Forall (fun kv : N * frame => length (snd kv) = kWordsPerFrame) fs ->
  Forall (fun x => x < a) (bt_keys acc) -> (length fs <= fuel)%nat ->
  snd (fdri_loop fuel p (flat_map (type2_frame p) fs ++ tail) a acc) = acc ++ fs.
Proof.
  induction 1 as [a E|a a' l E H IH]; intros fs fuel acc tail Hk Hs Hw Hacc Hf.
  - destruct fs as [|[k w] [|? ?]]; try discriminate. cbn in Hk. injection Hk as ->.
    destruct fuel as [|fuel]; [cbn in Hf; lia|]. inversion Hw as [|? ? Hw1 _]; subst. cbn [snd] in Hw1.
    cbn [fdri_loop flat_map]. unfold type2_frame. cbn [fst snd]. rewrite E, !app_nil_r.
    destruct (w ++ tail) as [|d ds] eqn:D.
    { apply (f_equal (@length N)) in D. rewrite app_length, Hw1 in D. discriminate. }
    cbn [snd]. rewrite <- D, firstn_exact by assumption. apply bt_set_max. assumption.
  - destruct fs as [|[k w] fs]; try discriminate. cbn [map fst] in Hk. injection Hk as -> Hk.
    destruct fuel as [|fuel]; [cbn in Hf; lia|]. inversion Hw as [|? ? Hw1 Hw2]; subst.
    cbn [snd] in Hw1. apply StronglySorted_inv in Hs. destruct Hs as [Hs Hlt].
    cbn [fdri_loop flat_map]. set (rest := flat_map (type2_frame p) fs) in *.
    unfold type2_frame. cbn [fst snd]. rewrite E. rewrite <- !app_assoc.
    match goal with |- context [match ?x with [] => _ | _ :: _ => _ end] => destruct x as [|d ds] eqn:D end.
    { apply (f_equal (@length N)) in D. rewrite app_length, Hw1 in D. discriminate. }
    rewrite <- D. clear D d ds. rewrite (firstn_exact w) by assumption.
    rewrite bt_set_max by assumption.
    assert (La : a < a').
    { rewrite Forall_forall in Hlt. apply Hlt. inversion H; left; reflexivity. }
    assert (Hacc' : Forall (fun x => x < a') (bt_keys (acc ++ [(a, w)]))).
    { unfold bt_keys. rewrite map_app. apply Forall_app. split.
      - eapply Forall_impl; [|exact Hacc]. cbn. intros. lia.
      - repeat constructor. cbn. assumption. }
    assert (Sk : skipn (if row_change a a' then (kWordsPerFrame + 2 * kWordsPerFrame)%nat else kWordsPerFrame)
        (w ++ (if row_change a a' then zero_separator else []) ++ rest ++ tail) = rest ++ tail).
    { destruct (row_change a a').
      - rewrite (app_assoc w). apply skipn_exact. rewrite app_length, Hw1. reflexivity.
      - apply skipn_exact. assumption. }
    rewrite Sk. subst rest. rewrite IH; try assumption; try reflexivity.
    + rewrite <- app_assoc. reflexivity.
    + cbn in Hf. lia.
Qed.

(** The decoder on the emitted program. *)
Lemma decode_program p data :
  init_with_packets p (configuration_package data p) =
  Some (snd (fdri_loop (length data) p data 0 [])).
Proof.
  unfold init_with_packets, configuration_package.
  set (pre := [nop_packet; write1 regTIMER 0; write1 regWBSTAR 0; write1 regCMD cmdNOP; nop_packet;
    write1 regCMD cmdRCRC; nop_packet; nop_packet; write1 regUNKNOWN 0; write1 regCOR0 cor0_value;
    write1 regCOR1 0]).
  set (mid := [write1 regCMD cmdSWITCH; nop_packet; write1 regMASK 0x401; write1 regCTL0 0x501;
    write1 regMASK 0; write1 regCTL1 0]).
  match goal with |- context [cfg_packets p cfg_init ?l] =>
    match l with _ ++ ?r =>
      change l with (pre ++ [write1 regIDCODE (p_idcode p)] ++ mid ++ r) end end.
  rewrite cfg_packets_app.
  change (cfg_packets p cfg_init pre) with
    (Some {| cs_cmd := cmdRCRC; cs_far := 0; cs_mask := 0; cs_ctl1 := 0; cs_start := false;
             cs_cur := 0; cs_frames := [] |}).
  cbn [app cfg_packets]. rewrite cfg_idcode. rewrite cfg_packets_app.
  match goal with |- context [cfg_packets p ?s mid] =>
    change (cfg_packets p s mid) with
    (Some {| cs_cmd := cmdSWITCH; cs_far := 0; cs_mask := 0; cs_ctl1 := 0; cs_start := false;
             cs_cur := 0; cs_frames := [] |}) end.
  cbv iota beta. rewrite cfg_packets_nop.
  set (w1 := [write1 regFAR 0; write1 regCMD cmdWCFG; nop_packet;
    {| pk_type := 1; pk_op := opWrite; pk_addr := regFDRI; pk_data := [] |}]).
  set (post := [write1 regCMD cmdRCRC; nop_packet; nop_packet; write1 regCMD cmdGRESTORE;
     nop_packet; write1 regCMD cmdLFRM]).
  match goal with |- context [cfg_packets p ?s ?l] =>
    match l with _ :: _ :: _ :: _ :: _ :: _ :: _ :: _ :: _ :: _ :: _ :: ?r =>
      change l with (w1 ++ [{| pk_type := 2; pk_op := opWrite; pk_addr := regFDRI; pk_data := data |}]
                     ++ post ++ r) end end.
  rewrite cfg_packets_app.
  match goal with |- context [cfg_packets p ?s w1] =>
    change (cfg_packets p s w1) with
    (Some {| cs_cmd := cmdWCFG; cs_far := 0; cs_mask := 0; cs_ctl1 := 0; cs_start := false;
             cs_cur := 0; cs_frames := [] |}) end.
  cbv iota beta. rewrite cfg_packets_app. cbn [cfg_packets].
  unfold cfg_packet at 1. cbn [pk_op pk_addr pk_data cs_start cs_cur cs_far cs_frames cs_cmd cs_mask cs_ctl1].
  change (negb (opWrite =? opWrite)) with false. cbv iota.
  change (regFDRI =? regMASK) with false. change (regFDRI =? regCTL1) with false.
  change (regFDRI =? regCMD) with false. change (regFDRI =? regIDCODE) with false.
  change (regFDRI =? regFAR) with false. change (regFDRI =? regFDRI) with true. cbv iota.
  destruct (fdri_loop (length data) p data 0 []) as [cur fs]. cbn [snd].
  rewrite cfg_packets_app.
  assert (Keep : forall s l, Forall (fun k => exists r v, k = write1 r v /\
       (r = regFAR \/ r = regMASK \/ r = regCTL0 \/ r = regCMD) \/ k = nop_packet) l ->
     exists s', cfg_packets p s l = Some s' /\ cs_frames s' = cs_frames s).
  { intros s l Hl. revert s. induction Hl as [|k l Hk Hl IH]; intros s.
    - exists s. split; reflexivity.
    - cbn [cfg_packets].
      assert (One : exists s1, cfg_packet p s k = Some s1 /\ cs_frames s1 = cs_frames s).
      { destruct Hk as (r & v & [(-> & [->|[->|[->| ->]]])| ->]); eexists; split; reflexivity. }
      destruct One as (s1 & E1 & F1). rewrite E1. destruct (IH s1) as (s2 & E2 & F2).
      exists s2. split; [assumption|congruence]. }
  match goal with |- context [cfg_packets p ?s post] =>
    destruct (Keep s post) as (s1 & E1 & F1) end.
  { unfold post. repeat constructor; try (exists 0, 0; right; reflexivity);
      eexists; eexists; left; split; try reflexivity; tauto. }
  rewrite E1. cbn [cs_frames] in F1. rewrite cfg_packets_nop.
  match goal with |- context [cfg_packets p s1 ?l] =>
    destruct (Keep s1 l) as (s2 & E2 & F2) end.
  { do 9 (apply Forall_cons;
      [first [exists 0, 0; right; reflexivity
             |eexists; eexists; left; split; [reflexivity|tauto]]|]).
    apply Forall_forall. intros x Hx. apply repeat_spec in Hx. exists 0, 0. right. assumption. }
  rewrite E2. congruence.
Qed.

(** ** IDCODE *)
Lemma idcode_mismatch p k s : pk_op k = opWrite -> pk_addr k = regIDCODE ->
  (exists d ds, pk_data k = d :: ds /\ d <> p_idcode p) -> cfg_packet p s k = None.
Proof.
  intros Ho Ha (d & ds & Hd & Hne). unfold cfg_packet. rewrite Ho, Ha, Hd.
  change (regIDCODE =? regMASK) with false. change (regIDCODE =? regCTL1) with false.
  change (regIDCODE =? regCMD) with false. change (regIDCODE =? regIDCODE) with true. cbn [negb opWrite N.eqb].
  change (negb (opWrite =? opWrite)) with false. cbv iota.
  replace (d =? p_idcode p) with false by lia. reflexivity.
Qed.

Definition foreign_idcode (p : part) (k : packet) : Prop :=
  pk_op k = opWrite /\ pk_addr k = regIDCODE /\
  exists d ds, pk_data k = d :: ds /\ d <> p_idcode p.

Lemma cfg_packet_none p s k : cfg_packet p s k = None <-> foreign_idcode p k.
Proof.
  split.
  - unfold cfg_packet, foreign_idcode. destruct (N.eqb_spec (pk_op k) opWrite) as [Ho|Ho]; cbn [negb]; [|discriminate].
    destruct (pk_addr k =? regMASK); [destruct (pk_data k); discriminate|].
    destruct (pk_addr k =? regCTL1); [destruct (pk_data k); discriminate|].
    destruct (pk_addr k =? regCMD); [destruct (pk_data k); discriminate|].
    destruct (N.eqb_spec (pk_addr k) regIDCODE) as [Ha|Ha].
    + destruct (pk_data k) as [|d ds]; [discriminate|].
      destruct (N.eqb_spec d (p_idcode p)) as [Hd|Hd]; [discriminate|]. intros _. eauto 6.
    + destruct (pk_addr k =? regFAR); [destruct (pk_data k); discriminate|].
      destruct (pk_addr k =? regFDRI); [|discriminate].
      destruct (fdri_loop _ _ _ _ _); discriminate.
  - intros (Ho & Ha & Hd). apply idcode_mismatch; assumption.
Qed.

Lemma init_none p ks : init_with_packets p ks = None <-> Exists (foreign_idcode p) ks.
Proof.
  unfold init_with_packets. generalize cfg_init.
  induction ks as [|k ks IH]; intros s; cbn [cfg_packets].
  - split; [discriminate|]. intros H. inversion H.
  - destruct (cfg_packet p s k) as [s'|] eqn:E.
    + rewrite IH. split; intros H; [right; assumption|]. inversion H as [? ? F|]; subst; [|assumption].
      apply (cfg_packet_none p s) in F. congruence.
    + split; intros _; [left; apply (cfg_packet_none p s); assumption|reflexivity].
Qed.
