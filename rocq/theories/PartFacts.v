(** Facts about Part.v. *)
From Verif Require Import Base BitOps Frame Part BaseFacts BitOpsFacts FrameFacts PartSpec.
From Coq Require Import ZifyBool ZifyN ZifyNat.

Definition region_of (p : part) (h : bool) : region := if h then p_bottom p else p_top p.

(** The part has minor [m] of column [c] of block [b] in row [r] of half [h]. *)
Definition part_has (p : part) (b : N) (h : bool) (r c m : N) : Prop :=
  exists row bus fc,
    bt_find r (region_of p h) = Some row /\ bt_find b row = Some bus /\
    bt_find c bus = Some fc /\ m < fc.

Definition bus_wf (bus : cfg_bus) : Prop :=
  bt_sorted bus /\ forall c fc, bt_find c bus = Some fc -> c < 1024 /\ fc <= 128.
Definition row_wf (row : cfg_row) : Prop :=
  bt_sorted row /\ forall b bus, bt_find b row = Some bus -> b < 8 /\ bus_wf bus.
Definition region_wf (g : region) : Prop :=
  bt_sorted g /\ forall r row, bt_find r g = Some row -> r < 32 /\ row_wf row.
Definition part_wf (p : part) : Prop := region_wf (p_top p) /\ region_wf (p_bottom p).

Lemma part_wf_half p h : part_wf p -> region_wf (region_of p h).
Proof. intros [H1 H2]. destruct h; assumption. Qed.

Lemma part_has_ok p b h r c m : part_wf p -> part_has p b h r c m -> fa_ok b r c m.
Proof.
  intros W (row & bus & fc & H1 & H2 & H3 & H4).
  destruct (part_wf_half p h W) as [_ Wr]. destruct (Wr _ _ H1) as [Hr [_ Wb]].
  destruct (Wb _ _ H2) as [Hb [_ Wc]]. destruct (Wc _ _ H3) as [Hc Hm].
  repeat split; try assumption. lia.
Qed.

Lemma part_valid_has p a :
  part_valid p a = true <->
  part_has p (fa_block_type a) (fa_is_bottom a) (fa_row a) (fa_column a) (fa_minor a).
Proof.
  unfold part_valid, part_has, region_valid, row_valid, bus_valid, col_valid, region_of.
  split.
  - intros H.
    destruct (fa_is_bottom a);
      (destruct (bt_find (fa_row a) _) as [row|] eqn:E1; [|discriminate H];
       destruct (bt_find (fa_block_type a) row) as [bus|] eqn:E2; [|discriminate H];
       destruct (bt_find (fa_column a) bus) as [fc|] eqn:E3; [|discriminate H];
       exists row, bus, fc; repeat split; try assumption; lia).
  - intros (row & bus & fc & H1 & H2 & H3 & H4).
    destruct (fa_is_bottom a); rewrite H1, H2, H3; lia.
Qed.

Lemma part_valid_make p b h r c m : fa_ok b r c m ->
  (part_valid p (fa_make b h r c m) = true <-> part_has p b h r c m).
Proof.
  intros H. rewrite part_valid_has.
  destruct (fa_fields b h r c m H) as (-> & -> & -> & -> & ->). reflexivity.
Qed.

Lemma part_has_valid p b h r c m : part_wf p -> part_has p b h r c m ->
  part_valid p (fa_make b h r c m) = true.
Proof.
  intros W H. apply part_valid_make; [|assumption]. eapply part_has_ok; eassumption.
Qed.

Lemma region_valid_make p b h r c m : fa_ok b r c m ->
  (region_valid (region_of p h) (fa_make b h r c m) = true <-> part_has p b h r c m).
Proof.
  intros H. rewrite <- part_valid_make by assumption. unfold part_valid.
  destruct (fa_fields b h r c m H) as (_ & -> & _).
  unfold region_of. destruct h; reflexivity.
Qed.

(** ** The next address, on tuples.
    [a] below always is [fa_make b h r c m] with fields in range. *)
Section Next.
  Variables (b : N) (h : bool) (r c m : N).
  Hypothesis Hok : fa_ok b r c m.
  Let a := fa_make b h r c m.

  Lemma col_next_some fc n : fc <= 128 -> col_next fc a = Some n ->
    m + 1 < fc /\ n = fa_make b h r c (m + 1).
  Proof.
    intros Hfc. unfold col_next, col_valid. unfold a.
    destruct (fa_fields b h r c m Hok) as (_ & _ & _ & _ & ->).
    destruct (N.ltb_spec m fc); cbn [negb]; [|discriminate].
    destruct (N.ltb_spec (m + 1) fc); [|discriminate]. intros E. injection E as <-.
    split; [assumption|]. destruct Hok as (?&?&?&?).
    rewrite !fa_make_ok by (repeat split; try assumption; lia).
    unfold u32. rewrite N.mod_small; [lia|].
    change (2 ^ 32) with 4294967296. destruct h; cbn [N.b2n]; lia.
  Qed.

  Lemma col_next_none fc : col_next fc a = None -> fc <= m + 1.
  Proof.
    unfold col_next, col_valid. unfold a.
    destruct (fa_fields b h r c m Hok) as (_ & _ & _ & _ & ->).
    destruct (N.ltb_spec m fc); cbn [negb]; [|lia].
    destruct (N.ltb_spec (m + 1) fc); [discriminate|]. lia.
  Qed.

  (** A successor inside the bus. *)
  Lemma bus_next_some bus n : bus_wf bus -> bus_next bus a = Some n ->
    exists c' m' fc', n = fa_make b h r c' m' /\ bt_find c' bus = Some fc' /\ m' < fc' /\
      (c < c' \/ (c = c' /\ m < m')) /\ m' < 128 /\ c' < 1024.
  Proof.
    intros [Hs Hb]. unfold bus_next. unfold a.
    destruct (fa_fields b h r c m Hok) as (E1 & E2 & E3 & E4 & E5).
    rewrite E4. destruct (bt_find c bus) as [fc|] eqn:F; [|discriminate].
    destruct (Hb _ _ F) as [_ Hfc].
    destruct (col_next fc (fa_make b h r c m)) as [n'|] eqn:C.
    - intros E. injection E as <-. apply col_next_some in C; [|assumption].
      destruct C as [C1 ->]. exists c, (m + 1), fc. destruct Hok as (?&?&?&?).
      repeat split; try assumption; lia.
    - rewrite E1, E2, E3. destruct (bt_after c bus) as [[c' fc']|] eqn:A; [|discriminate].
      destruct (bt_after_spec c bus c' fc' Hs A) as (A1 & A2 & _).
      destruct (Hb _ _ A2) as [Hc' Hfc'].
      destruct (col_valid fc' _) eqn:V; [|discriminate]. intros E; injection E as <-.
      exists c', 0, fc'. unfold col_valid in V.
      assert (Hok' : fa_ok b r c' 0) by (destruct Hok as (?&?&?&?); repeat split; try assumption; lia).
      destruct (fa_fields b h r c' 0 Hok') as (_ & _ & _ & _ & F5). rewrite F5 in V.
      repeat split; try assumption; try lia.
  Qed.

  (** ... and the least one, if no column on the way is empty. *)
  Lemma bus_next_least bus fc c' m' fc' :
    bus_wf bus -> bt_find c bus = Some fc -> bt_find c' bus = Some fc' -> m' < fc' ->
    (c < c' \/ (c = c' /\ m < m')) ->
    (forall x fx, bt_find x bus = Some fx -> x <= c' -> 0 < fx) ->
    exists n, bus_next bus a = Some n /\ n <= fa_make b h r c' m'.
  Proof.
    intros [Hs Hb] F F' Hm' L D.
    destruct (Hb _ _ F) as [Hc Hfc]. destruct (Hb _ _ F') as [Hc' Hfc'].
    assert (Ok' : fa_ok b r c' m') by (destruct Hok as (?&?&?&?); repeat split; try assumption; lia).
    unfold bus_next. unfold a.
    destruct (fa_fields b h r c m Hok) as (E1 & E2 & E3 & E4 & E5).
    rewrite E4, F.
    destruct (col_next fc (fa_make b h r c m)) as [n|] eqn:C.
    - exists n. split; [reflexivity|]. apply col_next_some in C; [|assumption].
      destruct C as [C1 ->]. rewrite !fa_make_ok; try assumption.
      + lia.
      + destruct Hok as (?&?&?&?); repeat split; try assumption; lia.
    - apply col_next_none in C. rewrite E1, E2, E3.
      assert (Lc : c < c').
      { destruct L as [L|[L1 L2]]; [assumption|]. subst c'. rewrite F in F'.
        injection F' as <-. lia. }
      destruct (bt_after c bus) as [[c2 fc2]|] eqn:A.
      + destruct (bt_after_spec c bus c2 fc2 Hs A) as (A1 & A2 & A3).
        destruct (Hb _ _ A2) as [Hc2 _].
        assert (Hle : c2 <= c').
        { apply A3; [|assumption]. rewrite <- bt_find_key, F'. discriminate. }
        assert (Ok2 : fa_ok b r c2 0) by (destruct Hok as (?&?&?&?); repeat split; try assumption; lia).
        unfold col_valid. destruct (fa_fields b h r c2 0 Ok2) as (_ & _ & _ & _ & ->).
        specialize (D c2 fc2 A2 Hle). destruct (N.ltb_spec 0 fc2); [|lia].
        eexists. split; [reflexivity|]. rewrite !fa_make_ok by assumption. nia.
      + exfalso. enough (c' <= c) by lia. eapply (bt_after_none c bus); try eassumption.
        * rewrite <- bt_find_key, F. discriminate.
        * rewrite <- bt_find_key, F'. discriminate.
  Qed.

  Lemma region_next_some g n : region_wf g -> region_next g a = Some n ->
    exists r' c' m' row bus fc,
      n = fa_make b h r' c' m' /\
      bt_find r' g = Some row /\ bt_find b row = Some bus /\ bt_find c' bus = Some fc /\
      m' < fc /\ (r < r' \/ (r = r' /\ (c < c' \/ (c = c' /\ m < m')))) /\ fa_ok b r' c' m'.
  Proof.
    intros [Hs Hg]. unfold region_next. unfold a.
    destruct (fa_fields b h r c m Hok) as (E1 & E2 & E3 & E4 & E5).
    rewrite E3. destruct (bt_find r g) as [row|] eqn:F; [|discriminate].
    destruct (Hg _ _ F) as [Hr [Hrs Hrow]].
    destruct (row_next row (fa_make b h r c m)) as [n'|] eqn:R.
    - intros E; injection E as <-. unfold row_next in R. rewrite E1 in R.
      destruct (bt_find b row) as [bus|] eqn:F2; [|discriminate].
      destruct (Hrow _ _ F2) as [Hb8 Wb].
      destruct (bus_next_some bus n' Wb R) as (c' & m' & fc' & -> & F3 & ? & ? & ? & ?).
      exists r, c', m', row, bus, fc'. repeat split; try assumption. right. auto.
    - rewrite E1, E2. destruct (bt_after r g) as [[r' row']|] eqn:A; [|discriminate].
      destruct (bt_after_spec r g r' row' Hs A) as (A1 & A2 & _).
      destruct (Hg _ _ A2) as [Hr' [Hrs' Hrow']].
      assert (Hok' : fa_ok b r' 0 0) by (destruct Hok as (?&?&?&?); repeat split; try assumption; lia).
      destruct (row_valid row' _) eqn:V; [|discriminate]. intros E; injection E as <-.
      unfold row_valid, bus_valid, col_valid in V.
      destruct (fa_fields b h r' 0 0 Hok') as (G1 & G2 & G3 & G4 & G5).
      rewrite G1 in V. destruct (bt_find b row') as [bus|] eqn:F2; [|discriminate].
      rewrite G4 in V. destruct (bt_find 0 bus) as [fc|] eqn:F3; [|discriminate].
      rewrite G5 in V.
      exists r', 0, 0, row', bus, fc. repeat split; try assumption; try lia. apply Hok.
  Qed.

  Lemma region_next_least g row bus fc r' c' m' row' bus' fc' :
    region_wf g ->
    bt_find r g = Some row -> bt_find b row = Some bus -> bt_find c bus = Some fc -> m < fc ->
    bt_find r' g = Some row' -> bt_find b row' = Some bus' -> bt_find c' bus' = Some fc' ->
    m' < fc' ->
    (r < r' \/ (r = r' /\ (c < c' \/ (c = c' /\ m < m')))) ->
    (forall x fx, bt_find x bus' = Some fx -> x <= c' -> 0 < fx) ->
    (forall y rowy, bt_find y g = Some rowy -> y <= r' ->
       exists busy fy, bt_find b rowy = Some busy /\ bt_find 0 busy = Some fy /\ 0 < fy) ->
    exists n, region_next g a = Some n /\ n <= fa_make b h r' c' m'.
  Proof.
    intros Wg F1 F2 F3 F4 G1 G2 G3 G4 L D1 D2.
    pose proof Wg as [Hs Hg].
    destruct (Hg _ _ F1) as [Hr [Hrs Hrow]]. destruct (Hrow _ _ F2) as [Hb8 Wb].
    destruct (Hg _ _ G1) as [Hr' [Hrs' Hrow']]. destruct (Hrow' _ _ G2) as [_ Wb'].
    assert (Ok' : fa_ok b r' c' m').
    { destruct Wb' as [_ Wb']. destruct (Wb' _ _ G3). repeat split; try assumption; lia. }
    unfold region_next. unfold a.
    destruct (fa_fields b h r c m Hok) as (E1 & E2 & E3 & E4 & E5).
    rewrite E3, F1.
    destruct (row_next row (fa_make b h r c m)) as [n|] eqn:RN.
    - exists n. split; [reflexivity|]. unfold row_next in RN. rewrite E1, F2 in RN.
      destruct L as [L|[L1 L2]].
      + apply bus_next_some in RN; [|assumption].
        destruct RN as (c2 & m2 & fc2 & -> & K1 & K2 & K3 & K4 & K5).
        assert (Ok2 : fa_ok b r c2 m2) by (repeat split; assumption).
        apply N.lt_le_incl. apply fa_make_lt_iff; try assumption. auto 10.
      + subst r'. rewrite F1 in G1. injection G1 as <-. rewrite F2 in G2. injection G2 as <-.
        destruct (bus_next_least bus fc c' m' fc' Wb F3 G3 G4 L2 D1) as (n2 & N1 & N2).
        unfold a in N1. rewrite RN in N1. injection N1 as <-. assumption.
    - destruct L as [L|[L1 L2]].
      + rewrite E1, E2. destruct (bt_after r g) as [[r2 row2]|] eqn:A.
        * destruct (bt_after_spec r g r2 row2 Hs A) as (A1 & A2 & A3).
          assert (Hle : r2 <= r').
          { apply A3; [|assumption]. rewrite <- bt_find_key, G1. discriminate. }
          destruct (Hg _ _ A2) as [Hr2 _].
          assert (Ok2 : fa_ok b r2 0 0) by (repeat split; try assumption; lia).
          destruct (D2 r2 row2 A2 Hle) as (busy & fy & Y1 & Y2 & Y3).
          assert (V : row_valid row2 (fa_make b h r2 0 0) = true).
          { unfold row_valid, bus_valid, col_valid.
            destruct (fa_fields b h r2 0 0 Ok2) as (-> & _ & _ & -> & ->).
            rewrite Y1, Y2. lia. }
          rewrite V. eexists. split; [reflexivity|].
          rewrite !fa_make_ok by assumption. destruct h; cbn [N.b2n]; nia.
        * exfalso. enough (r' <= r) by lia. eapply (bt_after_none r g); try eassumption.
          -- rewrite <- bt_find_key, F1. discriminate.
          -- rewrite <- bt_find_key, G1. discriminate.
      + exfalso. subst r'. rewrite F1 in G1. injection G1 as <-. rewrite F2 in G2.
        injection G2 as <-.
        destruct (bus_next_least bus fc c' m' fc' Wb F3 G3 G4 L2 D1) as (n2 & N1 & N2).
        unfold row_next in RN. rewrite E1, F2 in RN. unfold a in N1. congruence.
  Qed.
End Next.

Lemma fa_ok_000 b : b < 8 -> fa_ok b 0 0 0.
Proof. intros. repeat split; lia. Qed.

Lemma part_next_block_some p a n : part_wf p -> part_next_block p a = Some n ->
  exists b', n = fa_make b' false 0 0 0 /\ fa_block_type a < b' /\ b' <= 2 /\
             part_has p b' false 0 0 0.
Proof.
  intros W. unfold part_next_block, kBlockRam, kCFGCLB.
  assert (T : (if fa_block_type a <? 2
               then if part_valid p (fa_make 2 false 0 0 0)
                    then Some (fa_make 2 false 0 0 0) else None
               else None) = Some n ->
     exists b', n = fa_make b' false 0 0 0 /\ fa_block_type a < b' /\ b' <= 2 /\
             part_has p b' false 0 0 0).
  { destruct (N.ltb_spec (fa_block_type a) 2); [|discriminate].
    destruct (part_valid p _) eqn:V; [|discriminate]. intros E; injection E as <-.
    exists 2. repeat split; try lia. apply part_valid_make in V; [assumption|apply fa_ok_000; lia]. }
  destruct (N.ltb_spec (fa_block_type a) 1); [|exact T].
  destruct (part_valid p (fa_make 1 false 0 0 0)) eqn:V; [|exact T].
  intros E; injection E as <-. exists 1. repeat split; try lia.
  apply part_valid_make in V; [assumption|apply fa_ok_000; lia].
Qed.

(** Tuple form of the successor: where it can be. *)
Lemma part_next_some p a n : part_wf p -> a < 2 ^ 26 -> part_next p a = Some n ->
  exists b' h' r' c' m',
    n = fa_make b' h' r' c' m' /\ part_has p b' h' r' c' m' /\ fa_ok b' r' c' m' /\ a < n.
Proof.
  intros W Ha. pose proof (fa_rebuild a Ha) as Ea. pose proof (fa_ranges a) as Ho.
  set (b := fa_block_type a) in *. set (h := fa_is_bottom a) in *. set (r := fa_row a) in *.
  set (c := fa_column a) in *. set (m := fa_minor a) in *.
  assert (Hb8 : b < 8) by apply Ho.
  assert (Blk : part_next_block p a = Some n ->
    exists b' h' r' c' m',
      n = fa_make b' h' r' c' m' /\ part_has p b' h' r' c' m' /\ fa_ok b' r' c' m' /\ a < n).
  { intros E. apply part_next_block_some in E; [|assumption].
    destruct E as (b' & -> & L1 & L2 & P). fold b in L1.
    assert (fa_ok b' 0 0 0) by (apply fa_ok_000; lia).
    exists b', false, 0, 0, 0. repeat split; try assumption; try lia.
    rewrite <- Ea. apply fa_make_lt_iff; try assumption. left; assumption. }
  unfold part_next. fold h.
  assert (Rg : (if h then region_next (p_bottom p) a else region_next (p_top p) a) =
               region_next (region_of p h) a) by (destruct h; reflexivity).
  rewrite Rg.
  destruct (region_next (region_of p h) a) as [n'|] eqn:R.
  - intros E; injection E as <-. rewrite <- Ea in R.
    apply region_next_some in R; [|assumption|apply part_wf_half; assumption].
    destruct R as (r' & c' & m' & row & bus & fc & -> & F1 & F2 & F3 & F4 & F5 & F6).
    exists b, h, r', c', m'. repeat split; try assumption; try apply F6.
    + exists row, bus, fc; auto.
    + rewrite <- Ea. apply fa_make_lt_iff; try assumption. auto 10.
  - destruct (negb h) eqn:Eh; [|exact Blk].
    fold b. destruct (region_valid (p_bottom p) (fa_make b true 0 0 0)) eqn:V; [|exact Blk].
    intros E; injection E as <-.
    assert (Ok0 : fa_ok b 0 0 0) by (apply fa_ok_000; assumption).
    exists b, true, 0, 0, 0. repeat split; try lia.
    + apply (region_valid_make p b true 0 0 0 Ok0). exact V.
    + rewrite <- Ea. apply fa_make_lt_iff; try assumption.
      destruct h; [discriminate Eh|]. right. split; [reflexivity|]. left. reflexivity.
Qed.

Lemma part_next_increases p a n :
  part_wf p -> a < 2 ^ 26 -> part_next p a = Some n -> a < n /\ n < 2 ^ 26.
Proof.
  intros W Ha E. destruct (part_next_some p a n W Ha E) as (b & h & r & c & m & -> & _ & O & L).
  split; [assumption|]. apply fa_make_lt; assumption.
Qed.

Lemma part_next_valid p a n :
  part_wf p -> a < 2 ^ 26 -> part_next p a = Some n -> part_valid p n = true.
Proof.
  intros W Ha E. destruct (part_next_some p a n W Ha E) as (b & h & r & c & m & -> & H & O & L).
  apply part_valid_make; assumption.
Qed.

(** ** No frame is skipped on a part without holes *)
Definition part_dense (p : part) : Prop :=
  forall b h r c m, part_has p b h r c m ->
    (forall c', c' <= c -> part_has p b h r c' 0) /\
    (forall r', r' <= r -> part_has p b h r' 0 0) /\
    part_has p b false 0 0 0 /\ b <= 2.

Lemma part_next_least p a v : part_wf p -> part_dense p -> a < 2 ^ 26 -> v < 2 ^ 26 ->
  part_valid p a = true -> part_valid p v = true -> a < v ->
  exists n, part_next p a = Some n /\ n <= v.
Proof.
  intros W D Ha Hv Va Vv L.
  rewrite part_valid_has in Va, Vv.
  pose proof (fa_rebuild a Ha) as Ea. pose proof (fa_ranges a) as Oa.
  pose proof (fa_rebuild v Hv) as Ev. pose proof (fa_ranges v) as Ov.
  unfold part_next.
  set (b := fa_block_type a) in *. set (h := fa_is_bottom a) in *. set (r := fa_row a) in *.
  set (c := fa_column a) in *. set (m := fa_minor a) in *.
  set (b' := fa_block_type v) in *. set (h' := fa_is_bottom v) in *. set (r' := fa_row v) in *.
  set (c' := fa_column v) in *. set (m' := fa_minor v) in *.
  rewrite <- Ea, <- Ev in L. apply fa_make_lt_iff in L; try assumption.
  assert (Rg : (if h then region_next (p_bottom p) a else region_next (p_top p) a) =
               region_next (region_of p h) a) by (destruct h; reflexivity).
  rewrite Rg. clear Rg.
  pose proof (part_wf_half p h W) as Wg.
  destruct (D _ _ _ _ _ Vv) as (D1 & D2 & D3 & D4).
  (* inside the same block and half *)
  assert (In_half : b = b' -> h = h' ->
    (r < r' \/ (r = r' /\ (c < c' \/ (c = c' /\ m < m')))) ->
    exists n, region_next (region_of p h) a = Some n /\ n <= v).
  { intros Eb Eh Lr. rewrite <- Eb, <- Eh in Vv, D1, D2.
    destruct Va as (row & bus & fc & F1 & F2 & F3 & F4).
    destruct Vv as (row' & bus' & fc' & G1 & G2 & G3 & G4).
    rewrite <- Ea, <- Ev, <- Eb, <- Eh.
    eapply (region_next_least b h r c m Oa (region_of p h) row bus fc r' c' m' row' bus' fc');
      try eassumption.
    - intros x fx Hx Hle. destruct (D1 x Hle) as (rw & bs & f & K1 & K2 & K3 & K4).
      rewrite G1 in K1. injection K1 as <-. rewrite G2 in K2. injection K2 as <-. congruence.
    - intros y rowy Hy Hle. destruct (D2 y Hle) as (rw & bs & f & K1 & K2 & K3 & K4).
      rewrite Hy in K1. injection K1 as <-. exists bs, f. auto. }
  (* leaving the half *)
  assert (Ob : fa_ok b 0 0 0) by (apply fa_ok_000; apply Oa).
  assert (Ob' : fa_ok b' 0 0 0) by (apply fa_ok_000; apply Ov).
  assert (Same : forall n, region_next (region_of p h) a = Some n ->
            b < b' \/ (b = b' /\ N.b2n h < N.b2n h') -> n <= v).
  { intros n R Lb. rewrite <- Ea in R.
    apply region_next_some in R; [|assumption|assumption].
    destruct R as (rn & cn & mn & row0 & bus0 & fc0 & -> & _ & _ & _ & _ & _ & On).
    rewrite <- Ev. apply N.lt_le_incl, fa_make_lt_iff; try assumption.
    destruct Lb as [Lb|[Lb1 Lb2]]; [left; assumption|]. right. split; [assumption|]. left; assumption. }
  assert (Zero : fa_make b' h' 0 0 0 <= v).
  { rewrite <- Ev. rewrite !fa_make_ok by assumption. lia. }
  assert (Zero' : fa_make b' false 0 0 0 <= v).
  { etransitivity; [|exact Zero]. rewrite !fa_make_ok by assumption. cbn [N.b2n]. lia. }
  assert (P0 : part_has p b' h' 0 0 0) by (apply D2; lia).
  destruct L as [L|[Eb [L|[Eh L]]]].
  - (* another block *)
    destruct (region_next (region_of p h) a) as [n|] eqn:R.
    { exists n. split; [reflexivity|]. apply Same; [reflexivity|left; assumption]. }
    assert (Blk : exists n, part_next_block p a = Some n /\ n <= v).
    { unfold part_next_block, kBlockRam, kCFGCLB. fold b.
      destruct (N.ltb_spec b 1).
      - destruct (part_valid p (fa_make 1 false 0 0 0)) eqn:V1.
        + eexists. split; [reflexivity|]. etransitivity; [|exact Zero'].
          rewrite !fa_make_ok by (try assumption; apply fa_ok_000; lia). cbn [N.b2n]. lia.
        + assert (b' <> 1).
          { intros E. rewrite E in D3.
            rewrite (proj2 (part_valid_make p 1 false 0 0 0 (fa_ok_000 1 ltac:(lia))) D3) in V1.
            discriminate. }
          assert (E2 : b' = 2) by lia. rewrite E2 in *.
          replace (b <? 2) with true by lia.
          rewrite (proj2 (part_valid_make p 2 false 0 0 0 Ob') D3).
          eexists. split; [reflexivity|]. exact Zero'.
      - assert (E2 : b' = 2) by lia. rewrite E2 in *.
        replace (b <? 2) with true by lia.
        rewrite (proj2 (part_valid_make p 2 false 0 0 0 Ob') D3).
        eexists. split; [reflexivity|]. exact Zero'. }
    destruct (negb h); [|exact Blk].
    destruct (region_valid (p_bottom p) _) eqn:V; [|exact Blk].
    eexists. split; [reflexivity|]. rewrite <- Ev. apply N.lt_le_incl, fa_make_lt_iff; try assumption.
    left; assumption.
  - (* top to bottom *)
    destruct h, h'; cbn [N.b2n] in L; try lia. 
    destruct (region_next (region_of p false) a) as [n|] eqn:R.
    { exists n. split; [reflexivity|]. apply Same; [reflexivity|right]. split; [assumption|].
      reflexivity. }
    cbn [negb]. rewrite Eb. change (p_bottom p) with (region_of p true).
    rewrite (proj2 (region_valid_make p b' true 0 0 0 Ob') P0).
    eexists. split; [reflexivity|]. exact Zero.
  - destruct (In_half Eb Eh L) as (n & R & Hn). rewrite R. exists n. auto.
Qed.
