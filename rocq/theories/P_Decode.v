(** Property C76: what the decoder makes of any sequence of packets. *)
From Verif Require Import Base BitOps Frame Part Frames Packet Config BaseFacts BitOpsFacts FrameFacts
  PartSpec PartFacts PartFromFacts FramesFacts PacketFacts ConfigSpec ConfigFacts DecodeSpec P_Part P_Bitstream.
From Coq Require Import ZifyBool ZifyN ZifyNat.

(** ** Histories *)
Lemma snoc_split {A} (h : list A) w b x a : h ++ [w] = b ++ x :: a ->
  (a = [] /\ b = h /\ x = w) \/ exists a', a = a' ++ [w] /\ h = b ++ x :: a'.
Proof.
  intros E. destruct (exists_last (l := x :: a) ltac:(discriminate)) as (l & y & El).
  destruct a as [|z a].
  - left. apply app_inj_tail in E. intuition congruence.
  - right. destruct (exists_last (l := z :: a) ltac:(discriminate)) as (a' & y' & Ea).
    rewrite Ea in E. change (b ++ x :: a' ++ [y']) with (b ++ (x :: a') ++ [y']) in E.
    rewrite app_assoc in E. apply app_inj_tail in E. destruct E as [E <-]. exists a'. split; assumption.
Qed.

Lemma last_write_here h r d ds : last_write (h ++ [(r, d :: ds)]) r h d.
Proof. exists ds, []. split; [reflexivity|]. intros ? ? []. Qed.

Lemma last_write_snoc h r ds r' b d : r <> r' \/ ds = [] ->
  last_write (h ++ [(r, ds)]) r' b d <-> last_write h r' b d.
Proof.
  intros H. split; intros (es & a & E & N).
  - apply snoc_split in E. destruct E as [(-> & -> & E)|(a' & -> & E)].
    + exfalso. injection E as -> E. destruct H; congruence.
    + exists es, a'. split; [assumption|]. intros d' ds' I. apply (N d' ds'). apply in_or_app. auto.
  - exists es, (a ++ [(r, ds)]). split; [rewrite E, <- app_assoc; reflexivity|].
    intros d' ds' I. apply in_app_or in I. destruct I as [I|[I|[]]]; [apply (N d' ds' I)|].
    injection I as -> ->. destruct H; congruence.
Qed.
Lemma last_write_same h r d ds b d' : last_write (h ++ [(r, d :: ds)]) r b d' -> b = h /\ d' = d.
Proof.
  intros (es & a & E & N). apply snoc_split in E. destruct E as [(-> & -> & E)|(a' & -> & E)].
  - injection E as -> ->. auto.
  - exfalso. apply (N d ds). apply in_or_app. right. left. reflexivity.
Qed.
Lemma never_snoc h r ds r' : r <> r' \/ ds = [] -> never_written (h ++ [(r, ds)]) r' <-> never_written h r'.
Proof.
  intros H. split; intros N d es I; apply (N d es).
  - apply in_or_app. auto.
  - apply in_app_or in I. destruct I as [I|[I|[]]]; [assumption|]. injection I as -> ->. destruct H; congruence.
Qed.
Lemma value_snoc h r ds r' v : r <> r' \/ ds = [] -> value (h ++ [(r, ds)]) r' v <-> value h r' v.
Proof.
  intros H. unfold value. rewrite never_snoc by assumption.
  split; (intros [(b & L)|N]; [left; exists b|right; assumption]); apply (last_write_snoc h r ds r' b v H); assumption.
Qed.
Lemma value_here h r d ds v : value (h ++ [(r, d :: ds)]) r v <-> v = d.
Proof.
  split.
  - intros [(b & L)|(N & _)]; [apply last_write_same in L; tauto|].
    exfalso. apply (N d ds). apply in_or_app. right. left. reflexivity.
  - intros ->. left. exists h. apply last_write_here.
Qed.
Lemma markers_snoc h r ds : r <> 24 \/ ds = [] -> progress_markers_only (h ++ [(r, ds)]) <-> progress_markers_only h.
Proof.
  intros H. split; intros (b & d & m & L & R); exists b, d, m; (split; [|assumption]);
    apply (last_write_snoc h r ds 24 b d H); assumption.
Qed.
Lemma markers_here h d ds m : value h 6 m ->
  progress_markers_only (h ++ [(24, d :: ds)]) <-> N.testbit (N.land d m) 21 = true.
Proof.
  intros V. rewrite N.land_spec, andb_true_iff. split.
  - intros (b & d' & m' & L & V' & B & B'). apply last_write_same in L. destruct L as [-> ->].
    split; [assumption|]. destruct V as [(b & L)|(N & ->)], V' as [(b' & L')|(N' & ->)].
    + destruct L as (e & a & E & N), L' as (e' & a' & E' & N'). subst h.
      assert (X : forall (b b' a a' : history) x x', b ++ (6, x :: e) :: a = b' ++ (6, x' :: e') :: a' ->
        (forall y ys, ~ In (6, y :: ys) a) -> (forall y ys, ~ In (6, y :: ys) a') -> x = x').
      { clear. induction b as [|w b IH]; intros [|w' b'] a a' x x' E N N'; cbn [app] in E.
        - injection E as -> _ _. reflexivity.
        - exfalso. injection E as <- E. apply (N x' e'). rewrite E. apply in_or_app. right. left. reflexivity.
        - exfalso. injection E as -> E. apply (N' x e). rewrite <- E. apply in_or_app. right. left. reflexivity.
        - injection E as _ E. eapply IH; eassumption. }
      rewrite (X _ _ _ _ _ _ E' N N'). assumption.
    + rewrite N.bits_0 in B'. discriminate.
    + destruct L' as (e' & a' & -> & _). exfalso. apply (N m' e'). apply in_or_app. right. left. reflexivity.
    + assumption.
  - intros [B B']. exists h, d, m. split; [apply last_write_here|]. auto.
Qed.
Lemma armed_snoc h r ds : r <> 2 -> armed (h ++ [(r, ds)]) <-> armed h \/ starts_write h (r, ds).
Proof.
  intros H. split.
  - intros (b & w & a & E & S & N). apply snoc_split in E. destruct E as [(-> & -> & ->)|(a' & -> & E)]; [auto|].
    left. exists b, w, a'. split; [assumption|]. split; [assumption|]. intros es I. apply (N es). apply in_or_app. auto.
  - intros [(b & w & a & E & S & N)|S].
    + exists b, w, (a ++ [(r, ds)]). split; [rewrite E, <- app_assoc; reflexivity|]. split; [assumption|].
      intros es I. apply in_app_or in I. destruct I as [I|[I|[]]]; [apply (N es I)|congruence].
    + exists h, (r, ds), []. split; [reflexivity|]. split; [assumption|]. intros ? [].
Qed.
Lemma armed_fdri h ds : ~ armed (h ++ [(2, ds)]).
Proof.
  intros (b & w & a & E & S & N). apply snoc_split in E. destruct E as [(-> & -> & ->)|(a' & -> & E)].
  - inversion S.
  - apply (N ds). apply in_or_app. right. left. reflexivity.
Qed.

(** ** Rows *)
Lemma row_change_same a b : row_change a b = false <-> same_row a b.
Proof.
  unfold row_change, same_row. rewrite !fa_block_type_value, !fa_is_bottom_value, !fa_row_value.
  change (2 ^ 17) with 131072. change (2 ^ 9) with 512.
  assert (X : forall x, x / 8388608 = x / 131072 / 64) by (intros; rewrite N.div_div by lia; reflexivity).
  assert (Y : forall x, x / 4194304 = x / 131072 / 32) by (intros; rewrite N.div_div by lia; reflexivity).
  rewrite !X, !Y. set (x := a / 131072). set (y := b / 131072). clearbody x y. clear X Y.
  assert (D : forall z, z mod 512 = 64 * ((z / 64) mod 8) + 32 * ((z / 32) mod 2) + z mod 32).
  { intros z. zify. Z.div_mod_to_equations. lia. }
  rewrite (D x), (D y). 
  assert (L : forall z, (z / 32) mod 2 < 2) by (intros; apply N.mod_lt; lia).
  assert (L' : forall z, z mod 32 < 32) by (intros; apply N.mod_lt; lia).
  pose proof (L x). pose proof (L y). pose proof (L' x). pose proof (L' y).
  set (x1 := (x / 64) mod 8) in *. set (y1 := (y / 64) mod 8) in *.
  set (x2 := (x / 32) mod 2) in *. set (y2 := (y / 32) mod 2) in *.
  set (x3 := x mod 32) in *. set (y3 := y mod 32) in *. clearbody x1 y1 x2 y2 x3 y3.
  rewrite !orb_false_iff, !negb_false_iff, Bool.eqb_true_iff, !N.eqb_eq.
  split.
  - intros ((E1 & E2) & E3). destruct (N.eqb_spec x2 0), (N.eqb_spec y2 0); cbn in E2; try discriminate; lia.
  - intros E. assert (y1 = x1 /\ y2 = x2 /\ y3 = x3) as (-> & -> & ->) by lia. auto.
Qed.

(** ** The FDRI loop *)
Lemma written_last_app_set l a f m : bt_sorted m ->
  (forall b g, bt_find b m = Some g <-> written_last l b g) ->
  forall b g, bt_find b (bt_set a f m) = Some g <-> written_last (l ++ [(a, f)]) b g.
Proof.
  intros S H b g. rewrite bt_find_set by assumption. destruct (N.eqb_spec b a) as [->|Ne].
  - split.
    + intros E. assert (f = g) as -> by congruence. exists l, []. split; [reflexivity|]. intros [].
    + intros (l1 & l2 & E & N). apply snoc_split in E. destruct E as [(-> & -> & E)|(a' & -> & E)]; [congruence|].
      exfalso. apply N. rewrite map_app. apply in_or_app. right. left. reflexivity.
  - rewrite H. split.
    + intros (l1 & l2 & -> & N). exists l1, (l2 ++ [(a, f)]). split; [rewrite <- app_assoc; reflexivity|].
      rewrite map_app. intros I. apply in_app_or in I. destruct I as [I|[I|[]]]; [auto|]. cbn in I. congruence.
    + intros (l1 & l2 & E & N). apply snoc_split in E. destruct E as [(-> & -> & E)|(a' & -> & E)]; [congruence|].
      exists l1, a'. split; [assumption|]. intros I. apply N. rewrite map_app. apply in_or_app. auto.
Qed.

Definition frames_are (m : frame_map) (l : list (N * list N)) : Prop :=
  bt_sorted m /\ forall b g, bt_find b m = Some g <-> written_last l b g.

Lemma fdri_lays p fuel : forall data a m l, (length data <= fuel)%nat -> frames_are m l ->
  exists l' c, fdri_loop fuel p data a m = (c, snd (fdri_loop fuel p data a m))
    /\ lays (part_next p) a data l' c /\ frames_are (snd (fdri_loop fuel p data a m)) (l ++ l').
Proof.
  induction fuel as [|fuel IH]; intros data a m l Hl (Hs & Hm); cbn [fdri_loop].
  - destruct data; [|cbn [length] in Hl; lia]. exists [], a. rewrite app_nil_r. split; [reflexivity|]. split; [constructor|split; assumption].
  - destruct data as [|w data]; [exists [], a; rewrite app_nil_r; split; [reflexivity|split; [constructor|split; assumption]]|].
    set (d := w :: data) in *. assert (Dn : d <> []) by discriminate.
    change kWordsPerFrame with 101%nat in *.
    assert (F : frames_are (bt_set a (firstn 101 d) m) (l ++ [(a, firstn 101 d)])).
    { split; [apply bt_set_sorted; assumption|]. apply written_last_app_set; assumption. }
    destruct (part_next p a) as [b|] eqn:En.
    + destruct (row_change a b) eqn:Er.
      * change (101 + 2 * 101)%nat with 303%nat.
        destruct (IH (skipn 303 d) b _ _ ltac:(rewrite skipn_length; subst d; cbn [length] in *; lia) F) as (l' & c & E & La & Fr).
        exists ((a, firstn 101 d) :: l'), c. split; [exact E|]. split.
        -- apply lays_new_row with b; try assumption. rewrite <- row_change_same. congruence.
        -- rewrite <- app_assoc in Fr. exact Fr.
      * destruct (IH (skipn 101 d) b _ _ ltac:(rewrite skipn_length; subst d; cbn [length] in *; lia) F) as (l' & c & E & La & Fr).
        exists ((a, firstn 101 d) :: l'), c. split; [exact E|]. split.
        -- apply lays_row with b; try assumption. apply row_change_same. assumption.
        -- rewrite <- app_assoc in Fr. exact Fr.
    + exists [(a, firstn 101 d)], a. split; [reflexivity|]. split; [apply lays_last; assumption|]. exact F.
Qed.

(** ** The invariant *)
Record tracks (p : part) (h : history) (s : cfg_state) : Prop := {
  tr_cmd : value h 4 (cs_cmd s);
  tr_far : value h 1 (cs_far s);
  tr_mask : value h 6 (cs_mask s);
  tr_ctl1 : progress_markers_only h <-> N.testbit (cs_ctl1 s) 21 = true;
  tr_start : armed h <-> cs_start s = true;
  tr_frames : exists l, decodes (p_idcode p) (part_next p) h (cs_cur s) l /\ frames_are (cs_frames s) l }.

Lemma value_functional h r v v' : value h r v -> value h r v' -> v = v'.
Proof.
  revert v v'. induction h as [|[r' ds] h IH] using rev_ind; intros v v'.
  - intros [(b & e & a & E & _)|(_ & ->)]; [destruct b; discriminate|].
    intros [(b & e & a & E & _)|(_ & ->)]; [destruct b; discriminate|]. reflexivity.
  - destruct (N.eq_dec r' r) as [->|Ne].
    + destruct ds as [|d ds].
      * rewrite !value_snoc by auto. apply IH.
      * rewrite !value_here. congruence.
    + rewrite !value_snoc by auto. apply IH.
Qed.

Lemma ctl1_bit c : bit_field_get 32 c 21 21 =? 0 = negb (N.testbit c 21).
Proof.
  rewrite bit_field_get_div by (cbv; intuition congruence). rewrite N.testbit_eqb.
  change (2 ^ (21 - 21 + 1)) with 2. pose proof (N.mod_lt (c / 2 ^ 21) 2 ltac:(lia)).
  destruct (N.eqb_spec ((c / 2 ^ 21) mod 2) 0) as [E|E], (N.eqb_spec ((c / 2 ^ 21) mod 2) 1) as [E'|E']; try reflexivity;
    exfalso; revert E E' H; generalize ((c / 2 ^ 21) mod 2); intros; lia.
Qed.

Lemma starts_only h r ds : starts_write h (r, ds) -> (r = 4 \/ r = 1) /\ ds <> [].
Proof. intros S. inversion S; subst; split; auto; discriminate. Qed.

Lemma tracks_skip p h s r ds : tracks p h s -> ds = [] \/ (r <> 4 /\ r <> 1 /\ r <> 6 /\ r <> 24) -> r <> 2 ->
  (forall d ds', r = 12 -> ds = d :: ds' -> d = p_idcode p) -> tracks p (h ++ [(r, ds)]) s.
Proof.
  intros [Tc Tf Tm T1 Ts (l & Td & Tl)] H H2 Hi. split.
  - apply value_snoc; [destruct H; tauto|assumption].
  - apply value_snoc; [destruct H; tauto|assumption].
  - apply value_snoc; [destruct H; tauto|assumption].
  - rewrite markers_snoc; [assumption|destruct H; tauto].
  - rewrite armed_snoc by assumption. rewrite <- Ts. split; [|tauto]. intros [A|A]; [assumption|].
    apply starts_only in A. destruct H; intuition congruence.
  - exists l. split; [constructor; assumption|assumption].
Qed.

Lemma tracks_packet p h s k s' : tracks p h s -> pk_op k = 2 -> cfg_packet p s k = Some s' ->
  tracks p (h ++ [(pk_addr k, pk_data k)]) s'.
Proof.
  intros T Ho. unfold cfg_packet. rewrite Ho. change (2 =? opWrite) with true. cbn [negb].
  set (r := pk_addr k) in *. set (ds := pk_data k) in *. clearbody r ds. clear Ho k.
  unfold regMASK, regCTL1, regCMD, regIDCODE, regFAR, regFDRI in *.
  destruct (N.eqb_spec r 6) as [->|N6].
  { destruct ds as [|d ds]; intros E; apply some_inj in E; subst s'.
    - apply tracks_skip; auto; discriminate.
    - destruct T as [Tc Tf Tm T1 Ts (l & Td & Tl)]. split; cbn [cs_cmd cs_far cs_mask cs_ctl1 cs_start cs_cur cs_frames].
      + apply value_snoc; [left; discriminate|assumption].
      + apply value_snoc; [left; discriminate|assumption].
      + apply value_here. reflexivity.
      + rewrite markers_snoc by (left; discriminate). assumption.
      + rewrite armed_snoc by discriminate. rewrite <- Ts. split; [|tauto]. intros [A|A]; [assumption|]. apply starts_only in A. lia.
      + exists l. split; [constructor; [discriminate|discriminate|assumption]|assumption]. }
  destruct (N.eqb_spec r 24) as [->|N24].
  { destruct ds as [|d ds]; intros E; apply some_inj in E; subst s'.
    - apply tracks_skip; auto; discriminate.
    - destruct T as [Tc Tf Tm T1 Ts (l & Td & Tl)]. split; cbn [cs_cmd cs_far cs_mask cs_ctl1 cs_start cs_cur cs_frames].
      + apply value_snoc; [left; discriminate|assumption].
      + apply value_snoc; [left; discriminate|assumption].
      + apply value_snoc; [left; discriminate|assumption].
      + apply markers_here. assumption.
      + rewrite armed_snoc by discriminate. rewrite <- Ts. split; [|tauto]. intros [A|A]; [assumption|]. apply starts_only in A. lia.
      + exists l. split; [constructor; [discriminate|discriminate|assumption]|assumption]. }
  destruct (N.eqb_spec r 4) as [->|N4].
  { destruct ds as [|d ds]; intros E; apply some_inj in E; subst s'.
    - apply tracks_skip; auto; discriminate.
    - destruct T as [Tc Tf Tm T1 Ts (l & Td & Tl)]. split; cbn [cs_cmd cs_far cs_mask cs_ctl1 cs_start cs_cur cs_frames].
      + apply value_here. reflexivity.
      + apply value_snoc; [left; discriminate|assumption].
      + apply value_snoc; [left; discriminate|assumption].
      + rewrite markers_snoc by (left; discriminate). assumption.
      + rewrite armed_snoc by discriminate. rewrite Ts. destruct (N.eqb_spec d 1) as [->|Nd].
        * split; [reflexivity|]. intros _. right. constructor.
        * split; [|tauto]. intros [A|A]; [assumption|]. exfalso. inversion A; congruence.
      + exists l. split; [constructor; [discriminate|discriminate|assumption]|assumption]. }
  destruct (N.eqb_spec r 12) as [->|N12].
  { destruct ds as [|d ds]; [intros E; apply some_inj in E; subst s'; apply tracks_skip; auto; discriminate|].
    destruct (N.eqb_spec d (p_idcode p)) as [->|]; cbn [negb]; [|discriminate].
    intros E; apply some_inj in E; subst s'. apply tracks_skip; [assumption| |discriminate|].
    - right. repeat split; discriminate.
    - intros d ds' _ E. congruence. }
  destruct (N.eqb_spec r 1) as [->|N1].
  { destruct ds as [|d ds]; intros E; apply some_inj in E; subst s'.
    - apply tracks_skip; auto; discriminate.
    - destruct T as [Tc Tf Tm T1 Ts (l & Td & Tl)]. split; cbn [cs_cmd cs_far cs_mask cs_ctl1 cs_start cs_cur cs_frames].
      + apply value_snoc; [left; discriminate|assumption].
      + apply value_here. reflexivity.
      + apply value_snoc; [left; discriminate|assumption].
      + rewrite markers_snoc by (left; discriminate). assumption.
      + rewrite armed_snoc by discriminate. rewrite Ts, ctl1_bit.
        assert (St : starts_write h (1, d :: ds) <-> cs_cmd s = 1 /\ N.testbit (cs_ctl1 s) 21 <> true).
        { rewrite <- T1. split.
          - intros A. inversion A; subst. split; [eapply value_functional; eassumption|assumption].
          - intros [A B]. constructor; [rewrite <- A; assumption|assumption]. }
        rewrite St. destruct (N.testbit (cs_ctl1 s) 21); cbn [negb andb]; [intuition congruence|].
        destruct (N.eqb_spec (cs_cmd s) 1); intuition congruence.
      + exists l. split; [constructor; [discriminate|discriminate|assumption]|assumption]. }
  destruct (N.eqb_spec r 2) as [->|N2].
  { destruct T as [Tc Tf Tm T1 Ts (l & Td & Tl)].
    destruct (fdri_lays p (length ds) ds (if cs_start s then cs_far s else cs_cur s) _ _ (le_n _) Tl) as (l' & c & E & La & Fr).
    destruct (fdri_loop _ _ _ _ _) as [c' m']. cbn [snd] in *.
    intros E0; apply some_inj in E0; subst s'. injection E as ->.
    split; cbn [cs_cmd cs_far cs_mask cs_ctl1 cs_start cs_cur cs_frames].
    + apply value_snoc; [left; discriminate|assumption].
    + apply value_snoc; [left; discriminate|assumption].
    + apply value_snoc; [left; discriminate|assumption].
    + rewrite markers_snoc by (left; discriminate). assumption.
    + split; [intros A; exfalso; revert A; apply armed_fdri|discriminate].
    + exists (l ++ l'). split; [|assumption]. destruct (cs_start s).
      * eapply dec_from_far; try eassumption. apply Ts. reflexivity.
      * eapply dec_continue; try eassumption. intros A. apply Ts in A. discriminate. }
  intros E; apply some_inj in E; subst s'. apply tracks_skip; [assumption| |assumption|].
  - right. auto.
  - intros; congruence.
Qed.

Lemma register_writes_snoc ks k :
  register_writes (ks ++ [k]) = register_writes ks ++ (if pk_op k =? 2 then [(pk_addr k, pk_data k)] else []).
Proof.
  unfold register_writes. rewrite filter_app, map_app. cbn [filter]. destruct (pk_op k =? 2); reflexivity.
Qed.
Lemma cfg_packets_app p s a b :
  cfg_packets p s (a ++ b) = match cfg_packets p s a with Some s' => cfg_packets p s' b | None => None end.
Proof.
  revert s. induction a as [|k a IH]; intros s; cbn [app cfg_packets]; [reflexivity|].
  destruct (cfg_packet p s k); [apply IH|reflexivity].
Qed.

Lemma tracks_packets p ks s : cfg_packets p cfg_init ks = Some s -> tracks p (register_writes ks) s.
Proof.
  revert s. induction ks as [|k ks IH] using rev_ind; intros s E.
  - apply some_inj in E. subst s. split; cbn [cfg_init cs_cmd cs_far cs_mask cs_ctl1 cs_start cs_cur cs_frames].
    + right. split; [intros ? ? []|reflexivity].
    + right. split; [intros ? ? []|reflexivity].
    + right. split; [intros ? ? []|reflexivity].
    + rewrite N.bits_0. split; [|discriminate]. intros ([|? ?] & d & m & (? & ? & E & _) & _); discriminate E.
    + split; [|discriminate]. intros ([|? ?] & w & a & E & _); discriminate E.
    + exists []. split; [constructor|]. split; [constructor|]. intros b g. split; [discriminate|].
      intros ([|? ?] & ? & E & _); discriminate E.
  - rewrite cfg_packets_app in E. destruct (cfg_packets p cfg_init ks) as [s0|]; [|discriminate].
    specialize (IH s0 eq_refl). cbn [cfg_packets] in E. rewrite register_writes_snoc.
    destruct (N.eqb_spec (pk_op k) 2) as [Ho|Ho].
    + destruct (cfg_packet p s0 k) as [s1|] eqn:E1; [|discriminate]. apply some_inj in E. subst s1.
      eapply tracks_packet; eassumption.
    + unfold cfg_packet in E. destruct (N.eqb_spec (pk_op k) opWrite) as [B|_]; [contradiction Ho|].
      cbn [negb] in E. apply some_inj in E. subst s0. rewrite app_nil_r. assumption.
Qed.

(** The relation is functional, so it determines the decoder's answer. *)
Lemma lays_functional next a data l c : lays next a data l c -> forall l' c', lays next a data l' c' -> l' = l /\ c' = c.
Proof.
  induction 1 as [a|a data Dn En|a b data l c Dn En R H IH|a b data l c Dn En R H IH]; intros l' c' H'.
  - inversion H'; subst; auto; congruence.
  - inversion H'; subst; auto; congruence.
  - inversion H'; subst; try congruence;
      match goal with K : next a = Some ?x, K' : next a = Some b |- _ =>
        assert (x = b) by congruence; subst x end; try contradiction.
    match goal with K : lays _ _ (skipn _ _) _ _ |- _ => destruct (IH _ _ K) as [-> ->] end. auto.
  - inversion H'; subst; try congruence;
      match goal with K : next a = Some ?x, K' : next a = Some b |- _ =>
        assert (x = b) by congruence; subst x end; try contradiction.
    match goal with K : lays _ _ (skipn _ _) _ _ |- _ => destruct (IH _ _ K) as [-> ->] end. auto.
Qed.
Lemma decodes_functional i next h c l : decodes i next h c l -> forall c' l', decodes i next h c' l' -> c' = c /\ l' = l.
Proof.
  induction 1 as [|h r ds c l R Hi H IH|h ds c l far l1 c1 H IH A V L|h ds c l l1 c1 H IH A L]; intros c' l' H'.
  - inversion H'; subst; auto; exfalso; eapply app_cons_not_nil; eauto.
  - inversion H' as [E|h0 r0 ds0 c0 l0 R0 Hi0 H0 E|h0 ds0 c0 l0 far0 l10 c10 H0 A0 V0 L0 E|h0 ds0 c0 l0 l10 c10 H0 A0 L0 E]; subst.
    + exfalso; eapply app_cons_not_nil; eauto.
    + apply app_inj_tail in E. destruct E as [-> E]. apply IH. assumption.
    + apply app_inj_tail in E. destruct E as [_ E]. congruence.
    + apply app_inj_tail in E. destruct E as [_ E]. congruence.
  - inversion H' as [E|h0 r0 ds0 c0 l0 R0 Hi0 H0 E|h0 ds0 c0 l0 far0 l10 c10 H0 A0 V0 L0 E|h0 ds0 c0 l0 l10 c10 H0 A0 L0 E]; subst.
    + exfalso; eapply app_cons_not_nil; eauto.
    + apply app_inj_tail in E. destruct E as [_ E]. congruence.
    + apply app_inj_tail in E. destruct E as [-> E]. assert (ds0 = ds) as -> by congruence.
      destruct (IH _ _ H0) as [-> ->]. rewrite (value_functional _ _ _ _ V0 V) in L0.
      destruct (lays_functional _ _ _ _ _ L _ _ L0) as [-> ->]. auto.
    + apply app_inj_tail in E. destruct E as [-> E]. contradiction.
  - inversion H' as [E|h0 r0 ds0 c0 l0 R0 Hi0 H0 E|h0 ds0 c0 l0 far0 l10 c10 H0 A0 V0 L0 E|h0 ds0 c0 l0 l10 c10 H0 A0 L0 E]; subst.
    + exfalso; eapply app_cons_not_nil; eauto.
    + apply app_inj_tail in E. destruct E as [_ E]. congruence.
    + apply app_inj_tail in E. destruct E as [-> E]. contradiction.
    + apply app_inj_tail in E. destruct E as [-> E]. assert (ds0 = ds) as -> by congruence.
      destruct (IH _ _ H0) as [-> ->].
      destruct (lays_functional _ _ _ _ _ L _ _ L0) as [-> ->]. auto.
Qed.
Lemma decodes_idcode i next h c l : decodes i next h c l -> forall d ds, In (12, d :: ds) h -> d = i.
Proof.
  induction 1 as [|h r ds c l R Hi H IH|h ds c l far l1 c1 H IH A V L|h ds c l l1 c1 H IH A L]; intros d es I; [destruct I| | |];
    apply in_app_or in I; destruct I as [I|[I|[]]]; try (eapply IH; eassumption); try discriminate.
  injection I as -> ->. eapply Hi; reflexivity.
Qed.

Lemma written_last_exists l a : In a (map fst l) -> exists f, written_last l a f.
Proof.
  induction l as [|[b g] l IH] using rev_ind; [intros []|]. rewrite map_app, in_app_iff. cbn [map In].
  destruct (N.eq_dec b a) as [->|Ne]; [exists g, l, []; auto|].
  intros [I|[I|[]]]; [|cbn in I; congruence]. destruct (IH I) as (f & l1 & l2 & -> & N).
  exists f, l1, (l2 ++ [(b, g)]). split; [rewrite <- app_assoc; reflexivity|].
  rewrite map_app, in_app_iff. cbn. intuition.
Qed.

(** The decoder, on every packet sequence: it answers exactly when no IDCODE write is foreign, and its
    answer is the last frame written at each address by the register writes. *)
Theorem C76_decoder_semantics :
  forall p ks,
    (forall fs, init_with_packets p ks = Some fs <->
      exists c l, decodes (p_idcode p) (part_next p) (register_writes ks) c l /\
        bt_sorted fs /\ forall a f, bt_find a fs = Some f <-> written_last l a f)
    /\ (init_with_packets p ks = None <->
        exists d ds, In (12, d :: ds) (register_writes ks) /\ d <> p_idcode p).
Proof.
  intros p ks.
  assert (Fw : forall fs, init_with_packets p ks = Some fs ->
      exists c l, decodes (p_idcode p) (part_next p) (register_writes ks) c l /\
        bt_sorted fs /\ forall a f, bt_find a fs = Some f <-> written_last l a f).
  { intros fs. unfold init_with_packets. destruct (cfg_packets p cfg_init ks) as [s|] eqn:E; [|discriminate].
    intros E'. apply some_inj in E'. subst fs. apply tracks_packets in E. destruct E as [_ _ _ _ _ (l & D & F)].
    exists (cs_cur s), l. split; assumption. }
  assert (Nn : init_with_packets p ks = None -> exists d ds, In (12, d :: ds) (register_writes ks) /\ d <> p_idcode p).
  { clear Fw. unfold init_with_packets. destruct (cfg_packets p cfg_init ks) as [s|] eqn:E; [discriminate|]. intros _.
    revert E. generalize cfg_init. induction ks as [|k ks' IH]; intros s E; [discriminate|].
    cbn [cfg_packets] in E. unfold register_writes. cbn [filter].
    destruct (cfg_packet p s k) as [s'|] eqn:E1.
    - destruct (IH s' E) as (d & ds & I & Ne). exists d, ds. split; [|assumption].
      destruct (pk_op k =? 2); [right|]; exact I.
    - clear IH E. unfold cfg_packet in E1. destruct (N.eqb_spec (pk_op k) opWrite) as [Ho|]; [|discriminate].
      rewrite Ho. change (opWrite =? 2) with true. cbn [negb map] in *.
      destruct (pk_addr k =? regMASK); [destruct (pk_data k); discriminate|].
      destruct (pk_addr k =? regCTL1); [destruct (pk_data k); discriminate|].
      destruct (pk_addr k =? regCMD); [destruct (pk_data k); discriminate|].
      destruct (N.eqb_spec (pk_addr k) regIDCODE) as [Ha|].
      + destruct (pk_data k) as [|d ds] eqn:Ed; [discriminate|].
        destruct (N.eqb_spec d (p_idcode p)) as [->|Ne]; [discriminate|].
        exists d, ds. split; [|assumption]. left. rewrite Ha. reflexivity.
      + destruct (pk_addr k =? regFAR); [destruct (pk_data k); discriminate|].
        destruct (pk_addr k =? regFDRI); [destruct (fdri_loop _ _ _ _ _)|]; discriminate. }
  split; [intros fs; split; [apply Fw|]|split; [apply Nn|]].
  - intros (c & l & D & S & F). destruct (init_with_packets p ks) as [fs'|] eqn:E.
    + f_equal. destruct (Fw fs' eq_refl) as (c' & l' & D' & S' & F').
      destruct (decodes_functional _ _ _ _ _ D _ _ D') as [-> ->].
      apply bt_ext; try assumption. intros a.
      destruct (bt_find a fs) as [f|] eqn:E1.
      * apply F', F. assumption.
      * destruct (bt_find a fs') as [f|] eqn:E2; [|reflexivity]. apply F', F in E2. congruence.
    + exfalso. destruct (Nn eq_refl) as (d & ds & I & Ne). apply Ne. eapply decodes_idcode; eassumption.
  - intros (d & ds & I & Ne). destruct (init_with_packets p ks) as [fs|] eqn:E; [|reflexivity].
    exfalso. destruct (Fw fs eq_refl) as (c & l & D & _). apply Ne. eapply decodes_idcode; eassumption.
Qed.
Print Assumptions C76_decoder_semantics.

(** With bit 21 of CTL1 set through MASK a FAR write is a progress marker: the second FDRI write
    continues at frame 1.  If MASK hides the bit, it starts at the new FAR. *)
Definition marked (mask : N) : list packet :=
  let fdri w := {| pk_type := 1; pk_op := 2; pk_addr := 2; pk_data := repeat w 101 |} in
  [write1 regMASK mask; write1 regCTL1 0x200000; write1 regFAR 0; write1 regCMD 1; fdri 5;
   write1 regMASK 0; write1 regFAR 128; fdri 6].
Example C76_case :
  init_with_packets (part_from tiny_part) (marked 0x200000) = Some [(0, repeat 5 101); (1, repeat 6 101)]
  /\ init_with_packets (part_from tiny_part) (marked 0x1FFFFF) = Some [(0, repeat 5 101); (128, repeat 6 101)]
  /\ progress_markers_only (register_writes (firstn 7 (marked 0x200000)))
  /\ ~ armed (register_writes (firstn 7 (marked 0x200000)))
  /\ armed (register_writes (firstn 7 (marked 0x1FFFFF))).
Proof.
  assert (T : forall m b c, option_map (fun s => (cs_start s, N.testbit (cs_ctl1 s) 21))
      (cfg_packets (part_from tiny_part) cfg_init (firstn 7 (marked m))) = Some (b, c) ->
    (armed (register_writes (firstn 7 (marked m))) <-> b = true)
    /\ (progress_markers_only (register_writes (firstn 7 (marked m))) <-> c = true)).
  { intros m b c E. destruct (cfg_packets _ _ _) as [s|] eqn:Ec; [|discriminate]. cbn [option_map] in E.
    apply some_inj in E. apply pair_equal_spec in E. destruct E as [<- <-]. apply tracks_packets in Ec.
    split; [apply (tr_start _ _ _ Ec)|apply (tr_ctl1 _ _ _ Ec)]. }
  destruct (T 0x200000 false true ltac:(vm_compute; reflexivity)) as [A1 P1].
  destruct (T 0x1FFFFF true false ltac:(vm_compute; reflexivity)) as [A2 P2].
  split; [vm_compute; reflexivity|]. split; [vm_compute; reflexivity|].
  split; [apply P1; reflexivity|]. split; [rewrite A1; discriminate|]. apply A2. reflexivity.
Qed.
