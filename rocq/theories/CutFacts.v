(** What the reader makes of the first bytes of a file. *)
From Verif Require Import Base BaseFacts BitOps BitOpsFacts Frame Part PartSpec Frames Packet PacketFacts Config ConfigSpec ConfigFacts Writer WriterFacts Reader ReaderFacts
  ContainerSpec Encode EncodeSpec EncodeFacts P_Bitstream.
From Coq Require Import Lia.

(** ** The sync word *)
Lemma sync_rest bs rest : after_sync bs = Some rest -> (List.length rest + 4 <= List.length bs)%nat.
Proof.
  induction bs as [|b bs IH]; [discriminate|]. cbn [after_sync]. destruct (list_N_eqb (firstn 4 (b :: bs)) sync_bytes) eqn:E; intros H.
  - assert (rest = skipn 4 (b :: bs)) as -> by congruence. apply list_N_eqb_eq in E. apply (f_equal (@List.length N)) in E. rewrite firstn_length in E.
    change (List.length sync_bytes) with 4%nat in E. rewrite skipn_length. lia.
  - cbn [List.length]. specialize (IH H). lia.
Qed.
Lemma sync_cut bs : forall rest n, after_sync bs = Some rest ->
  after_sync (firstn n bs) =
  if (n <? List.length bs - List.length rest)%nat then None else Some (firstn (n - (List.length bs - List.length rest)) rest).
Proof.
  induction bs as [|b bs IH]; intros rest n H; [discriminate|]. pose proof (sync_rest _ _ H) as L. cbn [after_sync] in H.
  destruct (list_N_eqb (firstn 4 (b :: bs)) sync_bytes) eqn:E.
  - apply list_N_eqb_eq in E. assert (rest = skipn 4 (b :: bs)) as -> by congruence. set (rest := skipn 4 (b :: bs)) in *.
    assert (B : b :: bs = sync_bytes ++ rest) by (rewrite <- E; symmetry; apply firstn_skipn). rewrite B in *. clear B E IH.
    rewrite app_length. change (List.length sync_bytes) with 4%nat. replace (4 + List.length rest - List.length rest)%nat with 4%nat by lia.
    destruct n as [|[|[|[|n]]]]; try reflexivity. replace (S (S (S (S n))) <? 4)%nat with false by (symmetry; apply Nat.ltb_ge; lia).
    cbn [sync_bytes app firstn after_sync list_N_eqb N.eqb Pos.eqb andb skipn]. now rewrite Nat.sub_succ, !Nat.sub_succ, Nat.sub_0_r.
  - pose proof (sync_rest _ _ H) as L'. destruct n as [|n].
    + cbn [firstn after_sync]. replace (0 <? List.length (b :: bs) - List.length rest)%nat with true by (symmetry; apply Nat.ltb_lt; cbn [List.length]; lia). reflexivity.
    + assert (F : list_N_eqb (firstn 4 (firstn (S n) (b :: bs))) sync_bytes = false).
      { destruct (list_N_eqb (firstn 4 (firstn (S n) (b :: bs))) sync_bytes) eqn:Q; [|reflexivity]. exfalso. apply list_N_eqb_eq in Q.
        rewrite firstn_firstn in Q. assert (M : Nat.min 4 (S n) = 4%nat).
        { apply (f_equal (@List.length N)) in Q. rewrite firstn_length in Q. change (List.length sync_bytes) with 4%nat in Q. lia. }
        rewrite M in Q. rewrite Q in E. discriminate E. }
      change (after_sync (firstn (S n) (b :: bs))) with
        (if list_N_eqb (firstn 4 (firstn (S n) (b :: bs))) sync_bytes then Some (skipn 4 (firstn (S n) (b :: bs))) else after_sync (firstn n bs)).
      rewrite F, (IH rest n H). cbn [List.length].
      replace (S (List.length bs) - List.length rest)%nat with (S (List.length bs - List.length rest)) by lia. reflexivity.
Qed.

(** ** Words *)
Lemma be_words_cut ws m : Forall (fun w => w < 2 ^ 32) ws -> (m <= 4 * List.length ws)%nat ->
  be_words (firstn m (flat_map be32 ws)) = if (m mod 4 =? 0)%nat then Ok (firstn (m / 4) ws) else UB.
Proof.
  intros F L. assert (LW : List.length (flat_map be32 ws) = (4 * List.length ws)%nat).
  { clear. induction ws as [|w ws IH]; [reflexivity|]. cbn [flat_map]. rewrite app_length, IH. cbn [List.length be32]. lia. }
  destruct (m mod 4 =? 0)%nat eqn:E.
  - apply Nat.eqb_eq in E. pose proof (Nat.div_mod m 4 ltac:(discriminate)) as D. set (k := (m / 4)%nat) in *. clearbody k.
    assert (m = (4 * k)%nat) as -> by lia.
    rewrite <- (be_words_be32 (firstn k ws)).
    + f_equal. assert (k <= List.length ws)%nat by lia. clear - H. revert k H. induction ws as [|w ws IH]; intros k H.
      * cbn [List.length] in H. assert (k = 0)%nat as -> by lia. reflexivity.
      * destruct k as [|k]; [reflexivity|]. replace (4 * S k)%nat with (4 + 4 * k)%nat by lia. cbn [flat_map firstn].
        rewrite <- (IH k) by (cbn [List.length] in H; lia). reflexivity.
    + rewrite <- (firstn_skipn k ws) in F. now apply Forall_app in F.
  - apply Nat.eqb_neq in E. apply (be_words_ub (S m)).
    + rewrite firstn_length. lia.
    + rewrite firstn_length, LW, Nat.min_l by lia. exact E.
Qed.

(** ** Packets *)
Lemma partial_packet prev k j : packet_fits prev k -> (j <= List.length (pk_data k))%nat -> (j <> List.length (pk_data k))%nat ->
  init_with_words (packet_header k :: firstn j (pk_data k)) prev = (packet_header k :: firstn j (pk_data k), None).
Proof.
  intros [Ho [(Ht & Eo & Ea & Ed)|[(Ht & Ha & Hl)|(Ht & Hl & q & Eq & Eaq)]]] J J'.
  - rewrite Ed in J, J'. cbn [List.length] in *. lia.
  - destruct (header1_fields k Ht Ho Ha Hl) as (F1 & F2 & F3 & F4). unfold init_with_words. cbv zeta. rewrite F1, F4.
    change (1 =? 0) with false. change (1 =? 1) with true. cbv iota.
    replace (length_N (firstn j (pk_data k)) <? length_N (pk_data k)) with true; [reflexivity|].
    symmetry. apply N.ltb_lt. unfold length_N. rewrite firstn_length. lia.
  - destruct (header2_fields k Ht Ho Hl) as (F1 & F2 & F3). unfold init_with_words. cbv zeta. rewrite F1, F3.
    change (2 =? 0) with false. change (2 =? 1) with false. change (2 =? 2) with true. cbv iota.
    replace (length_N (firstn j (pk_data k)) <? length_N (pk_data k)) with true; [reflexivity|].
    symmetry. apply N.ltb_lt. unfold length_N. rewrite firstn_length. lia.
Qed.
Lemma list_N_eqb_refl l : list_N_eqb l l = true. Proof. now apply list_N_eqb_eq. Qed.

(** The packets that are complete in the first [m] words. *)
Fixpoint whole (m : nat) (ks : list packet) : list packet :=
  match ks with
  | [] => []
  | k :: r => if (S (List.length (pk_data k)) <=? m)%nat then k :: whole (m - S (List.length (pk_data k))) r else []
  end.
Lemma next_cut prev w m ks : packets_fit prev ks ->
  match whole m ks with
  | [] => exists i, ri_next {| ri_rest := firstn m (packets_words ks); ri_pkt := prev; ri_words := w |} = Ok i /\ ri_words i = []
  | k :: _ => exists r, ks = k :: r /\ (S (List.length (pk_data k)) <= m)%nat /\
      ri_next {| ri_rest := firstn m (packets_words ks); ri_pkt := prev; ri_words := w |} =
      Ok {| ri_rest := firstn (m - S (List.length (pk_data k))) (packets_words r); ri_pkt := Some k; ri_words := firstn m (packets_words ks) |}
  end.
Proof.
  intros F. destruct ks as [|k ks].
  - cbn [whole]. change (packets_words []) with (@nil N). rewrite firstn_nil. rewrite ri_next_end. eauto.
  - destruct F as [Hk _]. cbn [whole]. change (packets_words (k :: ks)) with (packet_header k :: pk_data k ++ packets_words ks).
    destruct (S (List.length (pk_data k)) <=? m)%nat eqn:E.
    + apply Nat.leb_le in E. exists ks. split; [reflexivity|]. split; [exact E|].
      assert (X : firstn m (packet_header k :: pk_data k ++ packets_words ks) =
        packet_header k :: pk_data k ++ firstn (m - S (List.length (pk_data k))) (packets_words ks)).
      { destruct m as [|m]; [lia|]. cbn [firstn]. rewrite firstn_app, firstn_all2 by lia. reflexivity. }
      rewrite X. set (r := firstn (m - S (List.length (pk_data k))) (packets_words ks)).
      unfold ri_next. cbn [ri_rest ri_pkt]. cbn [ri_loop]. rewrite (packet_parse prev k r Hk).
      destruct (list_N_eqb r (packet_header k :: pk_data k ++ r)) eqn:Q.
      * apply list_N_eqb_eq in Q. symmetry in Q. apply app_not_self in Q. destruct Q.
      * destruct r; reflexivity.
    + apply Nat.leb_gt in E. destruct m as [|m].
      * cbn [firstn]. rewrite ri_next_end. eauto.
      * cbn [firstn]. rewrite firstn_app. replace (m - List.length (pk_data k))%nat with 0%nat by lia. cbn [firstn]. rewrite app_nil_r.
        unfold ri_next. cbn [ri_rest ri_pkt]. cbn [ri_loop]. rewrite (partial_packet prev k m Hk) by lia. rewrite list_N_eqb_refl. cbn [obind].
        destruct prev; eexists; (split; [reflexivity|]); reflexivity.
Qed.
Lemma packets_cut fuel : forall prev m k ks, packets_fit prev (k :: ks) -> (S (List.length (pk_data k)) <= m)%nat -> (List.length (whole m (k :: ks)) + 1 <= fuel)%nat ->
  ri_packets fuel {| ri_rest := firstn (m - S (List.length (pk_data k))) (packets_words ks); ri_pkt := Some k; ri_words := firstn m (packets_words (k :: ks)) |} =
  Ok (whole m (k :: ks)).
Proof.
  induction fuel as [|fuel IH]; intros prev m k ks H L Hf; [lia|].
  cbn [whole] in Hf |- *. replace (S (List.length (pk_data k)) <=? m)%nat with true in Hf |- * by (symmetry; now apply Nat.leb_le).
  cbn [ri_packets ri_words ri_pkt]. destruct m as [|m]; [lia|].
  change (firstn (S m) (packets_words (k :: ks))) with (packet_header k :: firstn m (pk_data k ++ packets_words ks)). cbv iota beta.
  destruct H as [Hk H]. pose proof (next_cut (Some k) (packet_header k :: firstn m (pk_data k ++ packets_words ks)) (S m - S (List.length (pk_data k))) ks H) as X.
  destruct (whole (S m - S (List.length (pk_data k))) ks) as [|k' l] eqn:W.
  - destruct X as (i & E0 & E). rewrite E0. cbn [obind]. destruct fuel as [|fuel]; [cbn [List.length] in Hf; lia|]. rewrite ri_packets_fuel by exact E. reflexivity.
  - destruct X as (r & -> & L' & E0). rewrite E0. cbn [obind]. rewrite (IH (Some k) _ k' r H L') by (rewrite W; cbn [List.length] in *; lia). cbn [obind]. rewrite W. reflexivity.
Qed.
Lemma whole_short ks : forall m, (List.length (whole m ks) <= List.length (firstn m (packets_words ks)))%nat.
Proof.
  induction ks as [|k ks IH]; intros m; [cbn [whole List.length]; lia|]. cbn [whole].
  destruct (S (List.length (pk_data k)) <=? m)%nat eqn:E; [|cbn [List.length]; lia]. apply Nat.leb_le in E.
  specialize (IH (m - S (List.length (pk_data k)))%nat). rewrite firstn_length in *.
  change (packets_words (k :: ks)) with (packet_header k :: pk_data k ++ packets_words ks). cbn [List.length]. rewrite app_length. lia.
Qed.
Lemma reader_cut ks m : packets_fit None ks -> reader_packets (firstn m (packets_words ks)) = Ok (whole m ks).
Proof.
  intros H. unfold reader_packets, ri_begin. pose proof (next_cut None [] m ks H) as X. pose proof (whole_short ks m) as Sh. destruct (whole m ks) as [|k l] eqn:W.
  - destruct X as (i & E0 & E). rewrite E0. cbn [obind]. now apply ri_packets_fuel.
  - destruct X as (r & -> & L & E0). rewrite E0. cbn [obind]. rewrite (packets_cut _ None) by (auto; rewrite W; lia). now rewrite W.
Qed.

(** ** Registers *)
(** Packets that leave the frames alone and are not refused. *)
Definition no_frames (p : part) (k : packet) : Prop :=
  (pk_addr k = regFDRI -> pk_data k = []) /\ (pk_addr k = regIDCODE -> hd (p_idcode p) (pk_data k) = p_idcode p).
Lemma cfg_no_frames p k s : no_frames p k -> exists s', cfg_packet p s k = Some s' /\ cs_frames s' = cs_frames s.
Proof.
  intros [F I]. unfold cfg_packet. destruct (negb (pk_op k =? opWrite)); [eauto|].
  destruct (pk_addr k =? regMASK) eqn:E1; [destruct (pk_data k); eauto|]. destruct (pk_addr k =? regCTL1) eqn:E2; [destruct (pk_data k); eauto|].
  destruct (pk_addr k =? regCMD) eqn:E3; [destruct (pk_data k); eauto|]. destruct (pk_addr k =? regIDCODE) eqn:E4.
  { apply N.eqb_eq in E4. specialize (I E4). destruct (pk_data k) as [|d l]; [eauto|]. cbn [hd] in I. subst d. rewrite N.eqb_refl. cbn [negb]. eauto. }
  destruct (pk_addr k =? regFAR) eqn:E5; [destruct (pk_data k); eauto|]. destruct (pk_addr k =? regFDRI) eqn:E6; [|eauto].
  apply N.eqb_eq in E6. rewrite (F E6). cbn [List.length fdri_loop]. destruct (cs_start s); eauto.
Qed.
Lemma cfg_no_frames_all p ks : forall s, Forall (no_frames p) ks -> exists s', cfg_packets p s ks = Some s' /\ cs_frames s' = cs_frames s.
Proof.
  induction ks as [|k ks IH]; intros s F; [cbn; eauto|]. inversion F as [|? ? Fk Fs]; subst. cbn [cfg_packets].
  destruct (cfg_no_frames p k s Fk) as (s1 & -> & E1). destruct (IH s1 Fs) as (s2 & -> & E2). exists s2. split; [reflexivity|congruence].
Qed.
Ltac nf := repeat (apply Forall_cons; [split; intros X; first [reflexivity|discriminate X]|]); try apply Forall_nil.
Lemma nf_nops p n : Forall (no_frames p) (repeat nop_packet n).
Proof. apply Forall_forall. intros x H. apply repeat_spec in H. subst x. split; intros X; discriminate X. Qed.
Lemma nf_before p : Forall (no_frames p) (pkg_before p ++ [fdri1]).
Proof. unfold pkg_before. rewrite <- !app_assoc. apply Forall_app. split; [nf|]. apply Forall_app. split; [apply nf_nops|]. nf. Qed.
Lemma nf_after p : Forall (no_frames p) pkg_after.
Proof. unfold pkg_after. apply Forall_app. split; [nf|]. apply Forall_app. split; [apply nf_nops|]. apply Forall_app. split; [nf|apply nf_nops]. Qed.

Lemma whole_app ks ks' : forall m, whole m (ks ++ ks') =
  if (List.length (packets_words ks) <=? m)%nat then ks ++ whole (m - List.length (packets_words ks)) ks' else whole m ks.
Proof.
  induction ks as [|k ks IH]; intros m.
  - cbn [app packets_words flat_map List.length Nat.leb]. now rewrite Nat.sub_0_r.
  - cbn [app whole]. change (packets_words (k :: ks)) with ((packet_header k :: pk_data k) ++ packets_words ks). rewrite app_length. cbn [List.length].
    destruct (S (List.length (pk_data k)) <=? m)%nat eqn:E.
    + apply Nat.leb_le in E. rewrite IH. replace (m - S (List.length (pk_data k)) - List.length (packets_words ks))%nat with (m - (S (List.length (pk_data k)) + List.length (packets_words ks)))%nat by lia.
      destruct (List.length (packets_words ks) <=? m - S (List.length (pk_data k)))%nat eqn:E1; destruct (S (List.length (pk_data k)) + List.length (packets_words ks) <=? m)%nat eqn:E2; try reflexivity; exfalso.
      * apply Nat.leb_le in E1. apply Nat.leb_gt in E2. lia.
      * apply Nat.leb_gt in E1. apply Nat.leb_le in E2. lia.
    + apply Nat.leb_gt in E. replace (S (List.length (pk_data k)) + List.length (packets_words ks) <=? m)%nat with false; [reflexivity|].
      symmetry. apply Nat.leb_gt. lia.
Qed.
Lemma whole_incl P ks : forall m, Forall P ks -> Forall P (whole m ks).
Proof.
  induction ks as [|k ks IH]; intros m F; [constructor|]. inversion F; subst. cbn [whole]. destruct (_ <=? _)%nat; constructor; auto.
Qed.
Lemma before_words p : List.length (packets_words (pkg_before p ++ [fdri1])) = 45%nat. Proof. reflexivity. Qed.

(** The frames the first [m] words of the program give: none before the last word of the payload, all of them after it. *)
Lemma decode_cut p data m fs : init_with_packets p (configuration_package data p) = Some fs ->
  init_with_packets p (whole m (configuration_package data p)) = Some (if (m <? 46 + List.length data)%nat then [] else fs).
Proof.
  assert (SP : configuration_package data p = (pkg_before p ++ [fdri1]) ++ fdri2 data :: pkg_after) by (rewrite package_split, <- !app_assoc; reflexivity).
  rewrite SP. clear SP. unfold init_with_packets. rewrite whole_app, before_words. pose proof (nf_before p) as NB. pose proof (nf_after p) as NA.
  set (b := pkg_before p ++ [fdri1]) in *. clearbody b. set (a := pkg_after) in *. clearbody a.
  rewrite ConfigFacts.cfg_packets_app. destruct (cfg_no_frames_all p b cfg_init NB) as (s0 & E0 & F0). rewrite E0. cbn [cfg_packets].
  intros H. destruct (45 <=? m)%nat eqn:E.
  - apply Nat.leb_le in E. rewrite ConfigFacts.cfg_packets_app, E0. cbn [whole fdri2 pk_data].
    destruct (S (List.length data) <=? m - 45)%nat eqn:E1.
    + apply Nat.leb_le in E1. replace (m <? 46 + List.length data)%nat with false by (symmetry; apply Nat.ltb_ge; lia).
      change {| pk_type := 2; pk_op := opWrite; pk_addr := regFDRI; pk_data := data |} with (fdri2 data). cbn [cfg_packets].
      destruct (cfg_packet p s0 (fdri2 data)) as [s1|]; [|discriminate H].
      destruct (cfg_no_frames_all p a s1 NA) as (s2 & E2 & F2). rewrite E2 in H.
      destruct (cfg_no_frames_all p (whole (m - 45 - S (List.length data)) a) s1 (whole_incl _ _ _ NA)) as (s3 & E3 & F3). rewrite E3. refine (eq_trans _ H). f_equal. now rewrite F2, F3.
    + apply Nat.leb_gt in E1. replace (m <? 46 + List.length data)%nat with true by (symmetry; apply Nat.ltb_lt; lia). cbn [cfg_packets]. rewrite F0. reflexivity.
  - apply Nat.leb_gt in E. replace (m <? 46 + List.length data)%nat with true by (symmetry; apply Nat.ltb_lt; lia).
    destruct (cfg_no_frames_all p (whole m b) cfg_init (whole_incl _ _ _ NB)) as (s3 & E3 & F3). rewrite E3, F3. reflexivity.
Qed.

(** The whole file. *)
Lemma cut_file dp source gen part date time fs n :
  ascii_text (source ++ tx ";Generator=" ++ gen) -> ascii_text part -> ascii_text date -> ascii_text time ->
  len_N (source ++ tx ";Generator=" ++ gen) + 1 < 0xAA00 -> len_N part + 1 < 0xAA00 ->
  len_N date + 1 < 0xAA00 -> len_N time + 1 < 0xAA00 ->
  len_N (payload fs) < 2 ^ 27 -> Forall (fun w => w < 2 ^ 32) (series7_words (dp_idcode dp) (payload fs)) ->
  let file := bit_file source gen part date time (sync_preamble ++ series7_words (dp_idcode dp) (payload fs)) in
  decode dp file = Ok (Some fs) -> (n <= List.length file)%nat ->
  let start := (List.length (bit_header source gen part date time) + 56)%nat in
  decode dp (firstn n file) =
    if (n <? start)%nat then Ok None
    else if negb ((n - start) mod 4 =? 0)%nat then UB
    else Ok (Some (if (n <? start + 4 * (46 + List.length (payload fs)))%nat then [] else fs)).
Proof.
  intros A1 A2 A3 A4 L1 L2 L3 L4 LP FW file D Ln start.
  pose proof (C13_words (payload fs) (part_from dp) LP) as CW. change (p_idcode (part_from dp)) with (dp_idcode dp) in CW.
  change (flat_map _ (configuration_package (payload fs) (part_from dp))) with (packets_words (configuration_package (payload fs) (part_from dp))) in CW.
  pose proof (package_fits (payload fs) (part_from dp) LP) as PF.
  assert (LW : len_N (series7_words (dp_idcode dp) (payload fs)) = len_N (payload fs) + 570) by (rewrite <- CW; apply package_words_length).
  change (2 ^ 27) with 134217728 in LP.
  set (ws := series7_words (dp_idcode dp) (payload fs)) in *.
  assert (SY : after_sync file = Some (flat_map be32 ws)) by (apply bit_file_after_sync; try assumption; rewrite LW; change (2 ^ 30) with 1073741824; lia).
  assert (LB : List.length (flat_map be32 ws) = (4 * List.length ws)%nat).
  { clear. induction ws as [|w ws IH]; [reflexivity|]. cbn [flat_map]. rewrite app_length, IH. cbn [List.length be32]. lia. }
  assert (LF : List.length file = (start + 4 * List.length ws)%nat).
  { unfold file, bit_file, start. rewrite !app_length. rewrite flat_map_app, app_length, LB. change (List.length (flat_map be32 sync_preamble)) with 52%nat.
    cbn [be32 List.length]. lia. }
  unfold decode, init_with_bytes. rewrite (sync_cut _ _ n SY). rewrite LB, LF.
  replace (start + 4 * List.length ws - 4 * List.length ws)%nat with start by lia.
  destruct (n <? start)%nat eqn:E; [reflexivity|]. apply Nat.ltb_ge in E.
  rewrite (be_words_cut ws (n - start) FW) by lia. destruct ((n - start) mod 4 =? 0)%nat eqn:E4; [|reflexivity]. cbn [obind negb].
  unfold decode, init_with_bytes in D. rewrite SY in D. cbn [obind] in D. rewrite be_words_be32 in D by exact FW. cbn [obind] in D.
  rewrite <- CW in D |- *. rewrite reader_packets_fit in D by exact PF. rewrite reader_cut by exact PF. cbn [obind] in *.
  assert (D' : init_with_packets (part_from dp) (configuration_package (payload fs) (part_from dp)) = Some fs) by congruence.
  rewrite (decode_cut _ _ ((n - start) / 4) fs D'). f_equal. f_equal.
  apply Nat.eqb_eq in E4. pose proof (Nat.div_mod (n - start) 4 ltac:(discriminate)) as DM.
  destruct ((n - start) / 4 <? 46 + List.length (payload fs))%nat eqn:X; destruct (n <? start + 4 * (46 + List.length (payload fs)))%nat eqn:Y; try reflexivity; exfalso.
  - apply Nat.ltb_lt in X. apply Nat.ltb_ge in Y. lia.
  - apply Nat.ltb_ge in X. apply Nat.ltb_lt in Y. lia.
Qed.
