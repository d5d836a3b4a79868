(** C11: exactly when the completion of a frame set returns. *)
From Verif Require Import Base BaseFacts BitOps Frame FrameFacts Part PartSpec PartFacts PartFromFacts Frames FramesFacts P_Part.

(** All described frames have numbers that fit their address fields. *)
Definition addressable (dp : db_part) : Prop :=
  forall t bottom r c m, has_frame dp t bottom r c m -> r < 32 /\ c < 1024.
(** A bus type is listed once per row, CFG_CLB is not used, and no column has more than 128 frames. *)
Definition narrow (dp : db_part) : Prop :=
  forall (bottom : bool) row, In row (half dp bottom) ->
    NoDup (map fst row) /\
    forall t cols, In (t, cols) row -> t <> BusCFGCLB /\ Forall (fun n => n <= 128) cols.

(** ** Truncation of the address fields *)
Lemma fa_make_mod b h r c m : fa_make b h r c m = fa_make b h (r mod 32) (c mod 1024) (m mod 128).
Proof. rewrite !fa_make_value. rewrite !N.mod_mod by discriminate. reflexivity. Qed.
Lemma fa_fields_mod b h r c m : b < 8 ->
  let a := fa_make b h r c m in
  fa_block_type a = b /\ fa_is_bottom a = h /\ fa_row a = r mod 32 /\ fa_column a = c mod 1024 /\ fa_minor a = m mod 128.
Proof.
  intros B a. unfold a. rewrite fa_make_mod. apply fa_fields.
  repeat split; [exact B|..]; apply N.mod_lt; discriminate.
Qed.

(** ** Maps without holes *)
Lemma after_contiguous {V} (m : btmap V) k : bt_sorted m ->
  (forall i j, i <= j -> bt_find j m <> None -> bt_find i m <> None) -> bt_find k m <> None ->
  bt_after k m = option_map (fun v => (k + 1, v)) (bt_find (k + 1) m).
Proof.
  intros S C K. destruct (bt_after k m) as [[k' v']|] eqn:A.
  - destruct (bt_after_spec k m k' v' S A) as (L & F & M).
    assert (X : bt_find (k + 1) m <> None) by (apply (C _ k'); [lia|congruence]).
    assert (k' = k + 1) as ->. { apply bt_find_key in X. specialize (M _ X). lia. }
    now rewrite F.
  - destruct (bt_find (k + 1) m) as [v|] eqn:F; [|reflexivity]. exfalso.
    assert (X : k + 1 <= k); [|lia]. apply (bt_after_none k m); auto.
    + now apply bt_find_key.
    + apply bt_find_key. congruence.
Qed.
Lemma nth_error_down {A} (l : list A) i j : (i <= j)%nat -> nth_error l j <> None -> nth_error l i <> None.
Proof. rewrite !nth_error_Some. lia. Qed.
Lemma bus_contiguous cols : forall i j, i <= j -> bt_find j (bus_from 0 cols []) <> None -> bt_find i (bus_from 0 cols []) <> None.
Proof. intros i j L. rewrite !bus_from_nth. apply nth_error_down. lia. Qed.
Lemma region_contiguous h : forall i j, i <= j -> bt_find j (region_from h) <> None -> bt_find i (region_from h) <> None.
Proof.
  intros i j L. rewrite !region_from_nth. intros H.
  assert (X : nth_error h (N.to_nat j) <> None) by (intros E; rewrite E in H; now apply H).
  apply (nth_error_down h (N.to_nat i)) in X; [|lia]. destruct (nth_error h (N.to_nat i)); [discriminate|congruence].
Qed.

Section Step.
  Context (dp : db_part).
  Let p := part_from dp.

  Lemma has_row h r row : bt_find r (region_of p h) = Some row -> exists r0, nth_error (half dp h) (N.to_nat r) = Some r0 /\ row = row_from r0.
  Proof.
    unfold p. rewrite region_of_part_from, region_from_nth. destruct (nth_error _ _) as [r0|]; [|discriminate].
    cbn [option_map]. intros E. injection E as <-. eauto.
  Qed.
  Lemma has_bus r0 b bus : bt_find b (row_from r0) = Some bus -> exists t cols, In (t, cols) r0 /\ b = block_type_from t /\ bus = bus_from 0 cols [].
  Proof. rewrite row_from_find. intros E. apply first_bus_In in E as (t & cols & I & _ & B & E). eauto. Qed.
  Lemma has_block b h r c m : part_has p b h r c m -> b <= 1.
  Proof.
    intros (row & bus & fc & H1 & H2 & _). apply has_row in H1 as (r0 & _ & ->). apply has_bus in H2 as (t & cols & _ & -> & _).
    destruct t; cbv; discriminate.
  Qed.
  Lemma has_is_frame b h r c m : part_has p b h r c m -> exists t, b = block_type_from t /\ has_frame dp t h r c m.
  Proof.
    intros (row & bus & fc & H1 & H2 & H3 & H4). apply has_row in H1 as (r0 & E & ->). apply has_bus in H2 as (t & cols & I & -> & ->).
    rewrite bus_from_nth in H3. exists t. split; [reflexivity|]. exists r0, cols, fc. auto.
  Qed.
  Lemma has_down b h r c m m' : m' <= m -> part_has p b h r c m -> part_has p b h r c m'.
  Proof. intros L (row & bus & fc & H1 & H2 & H3 & H4). exists row, bus, fc. repeat split; auto. lia. Qed.

  (** The walk from a frame: the next frame of the column, the first of the next column, of the next
      row, of the bottom half, or the next block.  Numbers may exceed their fields here. *)
  Lemma next_cases b h r c m : fa_ok b r c m -> part_has p b h r c m ->
    let a := fa_make b h r c m in
    (part_has p b h r c (m + 1) /\ part_next p a = Some (u32 (a + 1))) \/
    (~ part_has p b h r c (m + 1) /\ part_has p b h r (c + 1) 0 /\ part_next p a = Some (fa_make b h r (c + 1) 0)) \/
    (~ part_has p b h r (c + 1) 0 /\ part_has p b h (r + 1) 0 0 /\ part_next p a = Some (fa_make b h (r + 1) 0 0)) \/
    (~ part_has p b h r (c + 1) 0 /\ ~ part_has p b h (r + 1) 0 0 /\ h = false /\ part_has p b true 0 0 0 /\ part_next p a = Some (fa_make b true 0 0 0)) \/
    (~ part_has p b h r (c + 1) 0 /\ ~ part_has p b h (r + 1) 0 0 /\ (h = false -> ~ part_has p b true 0 0 0) /\ part_next p a = part_next_block p a).
  Proof.
    intros Ok (row & bus & fc & H1 & H2 & H3 & H4) a. pose proof (fa_fields b h r c m Ok) as (E1 & E2 & E3 & E4 & E5). fold a in E1, E2, E3, E4, E5.
    pose proof Ok as (B8 & _).
    pose proof H1 as H1'. apply has_row in H1' as (r0 & N0 & Er). subst row. pose proof H2 as H2'. apply has_bus in H2' as (t & cols & I & Eb & Ebus).
    assert (G : (if fa_is_bottom a then region_next (p_bottom p) a else region_next (p_top p) a) = region_next (region_of p h) a) by (rewrite E2; destruct h; reflexivity).
    unfold part_next. rewrite G. clear G. unfold region_next at 1 2 3 4 5. rewrite E3, H1. unfold row_next. rewrite E1, H2. unfold bus_next. rewrite E4, H3.
    unfold col_next, col_valid. rewrite E5. assert (X : (m <? fc) = true) by now apply N.ltb_lt. rewrite X. cbn [negb].
    destruct (N.ltb_spec (m + 1) fc) as [L|L].
    { left. split; [exists (row_from r0), bus, fc; auto|reflexivity]. }
    right. assert (NM : ~ part_has p b h r c (m + 1)).
    { intros (row' & bus' & fc' & G1 & G2 & G3 & G4). rewrite H1 in G1. injection G1 as <-. rewrite H2 in G2. injection G2 as <-. rewrite H3 in G3. injection G3 as <-. lia. }
    assert (AC : bt_after c bus = option_map (fun v => (c + 1, v)) (bt_find (c + 1) bus)).
    { subst bus. apply after_contiguous; [apply bus_from_sorted, bt_sorted_nil|apply bus_contiguous|congruence]. }
    rewrite AC, ?E1, ?E2, ?E3. clear AC.
    assert (HC : part_has p b h r (c + 1) 0 <-> exists fc', bt_find (c + 1) bus = Some fc' /\ 0 < fc').
    { split.
      - intros (row' & bus' & fc' & G1 & G2 & G3 & G4). rewrite H1 in G1. injection G1 as <-. rewrite H2 in G2. injection G2 as <-. eauto.
      - intros (fc' & G3 & G4). exists (row_from r0), bus, fc'. auto. }
    pose proof (fa_fields_mod b h r (c + 1) 0 B8) as (_ & _ & _ & _ & M0). change (0 mod 128) with 0 in M0.
    assert (Y : match option_map (fun v => (c + 1, v)) (bt_find (c + 1) bus) with
                | Some (c', fc') => if fa_minor (fa_make b h r c' 0) <? fc' then Some (fa_make b h r c' 0) else None
                | None => None end
              = if match bt_find (c + 1) bus with Some fc' => 0 <? fc' | None => false end then Some (fa_make b h r (c + 1) 0) else None).
    { destruct (bt_find (c + 1) bus) as [fc'|]; cbn [option_map]; [now rewrite M0|reflexivity]. }
    rewrite Y. clear Y.
    destruct (match bt_find (c + 1) bus with Some fc' => 0 <? fc' | None => false end) eqn:Q.
    { left. split; [exact NM|]. split; [|reflexivity]. apply HC. destruct (bt_find (c + 1) bus) as [fc'|]; [|discriminate]. apply N.ltb_lt in Q. eauto. }
    right. assert (NC : ~ part_has p b h r (c + 1) 0).
    { intros Hc. apply HC in Hc as (fc' & Ec & Lc). rewrite Ec in Q. apply N.ltb_ge in Q. lia. }
    clear HC Q M0.
    assert (AR : bt_after r (region_of p h) = option_map (fun v => (r + 1, v)) (bt_find (r + 1) (region_of p h))).
    { unfold p. rewrite region_of_part_from. apply after_contiguous; [apply region_from_sorted, bt_sorted_nil|apply region_contiguous|].
      rewrite <- region_of_part_from. fold p. congruence. }
    rewrite AR. clear AR.
    pose proof (fa_fields_mod b h (r + 1) 0 0 B8) as (M1 & _ & _ & M4 & M5). change (0 mod 128) with 0 in M5. change (0 mod 1024) with 0 in M4.
    assert (HR : part_has p b h (r + 1) 0 0 <-> match bt_find (r + 1) (region_of p h) with Some row' => row_valid row' (fa_make b h (r + 1) 0 0) = true | None => False end).
    { unfold part_has, row_valid, bus_valid, col_valid. rewrite M1, M4, M5. split.
      - intros (row' & bus' & fc' & G1 & G2 & G3 & G4). rewrite G1, G2, G3. now apply N.ltb_lt.
      - destruct (bt_find (r + 1) (region_of p h)) as [row'|]; [|intros []]. destruct (bt_find b row') as [bus'|] eqn:G2; [|discriminate].
        destruct (bt_find 0 bus') as [fc'|] eqn:G3; [|discriminate]. intros G4. apply N.ltb_lt in G4. exists row', bus', fc'. auto. }
    assert (Y : match option_map (fun v => (r + 1, v)) (bt_find (r + 1) (region_of p h)) with
                | Some (r', row') => if row_valid row' (fa_make b h r' 0 0) then Some (fa_make b h r' 0 0) else None
                | None => None end
              = if match bt_find (r + 1) (region_of p h) with Some row' => row_valid row' (fa_make b h (r + 1) 0 0) | None => false end then Some (fa_make b h (r + 1) 0 0) else None).
    { destruct (bt_find (r + 1) (region_of p h)) as [row'|]; reflexivity. }
    rewrite Y. clear Y.
    destruct (match bt_find (r + 1) (region_of p h) with Some row' => row_valid row' (fa_make b h (r + 1) 0 0) | None => false end) eqn:Q.
    { left. split; [exact NC|]. split; [|reflexivity]. apply HR. destruct (bt_find (r + 1) (region_of p h)) as [row'|]; [exact Q|discriminate]. }
    right. assert (NR : ~ part_has p b h (r + 1) 0 0).
    { intros Hr. apply HR in Hr. destruct (bt_find (r + 1) (region_of p h)) as [row'|]; [congruence|contradiction]. }
    destruct h; cbn [negb].
    { right. split; [exact NC|]. split; [exact NR|]. split; [discriminate|]. reflexivity. }
    pose proof (region_valid_make p b true 0 0 0 (fa_ok_000 b B8)) as RV. cbn [region_of] in RV.
    destruct (region_valid (p_bottom p) (fa_make b true 0 0 0)) eqn:V.
    { left. split; [exact NC|]. split; [exact NR|]. split; [reflexivity|]. split; [now apply RV|reflexivity]. }
    right. split; [exact NC|]. split; [exact NR|]. split; [|reflexivity]. intros _ Hh. apply RV in Hh. congruence.
  Qed.
End Step.

(** ** Addressable parts *)
Section Forward.
  Context (dp : db_part) (AD : addressable dp).
  Let p := part_from dp.

  Lemma has_bounds b h r c m : part_has p b h r c m -> b <= 1 /\ r < 32 /\ c < 1024.
  Proof. intros H. split; [exact (has_block dp _ _ _ _ _ H)|]. apply has_is_frame in H as (t & _ & H). eapply AD; eauto. Qed.
  Lemma row_sorted_bus r0 b bus : bt_find b (row_from r0) = Some bus -> bt_sorted bus.
  Proof. intros E. apply has_bus in E as (t & cols & _ & _ & ->). apply bus_from_sorted, bt_sorted_nil. Qed.

  Lemma next_forward a n : a < 2 ^ 26 -> part_next p a = Some n -> a < n /\ n < 2 ^ 26.
  Proof.
    intros La. pose proof (fa_rebuild a La) as Ea. pose proof (fa_ranges a) as Oa.
    remember (fa_block_type a) as b eqn:Eb. remember (fa_is_bottom a) as h eqn:Eh. remember (fa_row a) as r eqn:Er.
    remember (fa_column a) as c eqn:Ec. remember (fa_minor a) as m eqn:Em.
    assert (UP : forall b' h' r' c', b' <= 1 \/ b' = b -> r' < 32 -> c' < 1024 ->
       (b < b' \/ b = b' /\ (h = false /\ h' = true \/ h = h' /\ (r < r' \/ r = r' /\ c < c'))) ->
       a < fa_make b' h' r' c' 0 /\ fa_make b' h' r' c' 0 < 2 ^ 26).
    { intros b' h' r' c' B R C L. assert (Ok' : fa_ok b' r' c' 0) by (destruct Oa as (?&?&?&?); repeat split; lia).
      split; [|now apply fa_make_lt]. rewrite <- Ea. apply fa_make_lt_iff; [exact Oa|exact Ok'|].
      destruct L as [L|[L1 [[-> ->]|[L2 L]]]]; [now left|right; split; [exact L1|left; reflexivity]|].
      right. split; [exact L1|]. right. split; [exact L2|]. destruct L as [L|[L3 L]]; [now left|right; auto]. }
    assert (G : (if fa_is_bottom a then region_next (p_bottom p) a else region_next (p_top p) a) = region_next (region_of p h) a) by (rewrite <- Eh; destruct h; reflexivity).
    unfold part_next. rewrite G. clear G.
    assert (BL : part_next_block p a = Some n -> a < n /\ n < 2 ^ 26).
    { unfold part_next_block. rewrite <- Eb. unfold kBlockRam, kCFGCLB.
      assert (V : forall b', b' <= 2 -> part_valid p (fa_make b' false 0 0 0) = true -> b' <= 1 /\ part_has p b' false 0 0 0).
      { intros b' L V. apply part_valid_make in V; [|apply fa_ok_000; lia]. split; [exact (has_block dp _ _ _ _ _ V)|exact V]. }
      assert (T : (if b <? 2 then if part_valid p (fa_make 2 false 0 0 0) then Some (fa_make 2 false 0 0 0) else None else None) = Some n -> False).
      { destruct (b <? 2); [|discriminate]. destruct (part_valid p (fa_make 2 false 0 0 0)) eqn:Q; [|discriminate]. apply V in Q as [Q _]; lia. }
      destruct (N.ltb_spec b 1) as [L|L]; [|intros H; destruct (T H)].
      destruct (part_valid p (fa_make 1 false 0 0 0)) eqn:Q; [|intros H; destruct (T H)].
      intros H. injection H as <-. apply UP; [lia|lia|lia|now left]. }
    destruct (region_next (region_of p h) a) as [n'|] eqn:R.
    - intros H. injection H as <-. clear BL. unfold region_next in R. rewrite <- Er in R.
      destruct (bt_find r (region_of p h)) as [row|] eqn:F; [|discriminate]. pose proof F as F0. apply has_row in F0 as (r0 & _ & ->).
      destruct (row_next (row_from r0) a) as [n''|] eqn:RN.
      + injection R as <-. unfold row_next in RN. rewrite <- Eb in RN. destruct (bt_find b (row_from r0)) as [bus|] eqn:F2; [|discriminate].
        unfold bus_next in RN. rewrite <- Ec in RN. destruct (bt_find c bus) as [fc|] eqn:F3; [|discriminate].
        destruct (col_next fc a) as [n|] eqn:CN.
        * injection RN as <-. unfold col_next, col_valid in CN. rewrite <- Em in CN.
          destruct (m <? fc) eqn:Q; [|discriminate]. destruct (m + 1 <? fc); [|discriminate]. injection CN as <-. apply N.ltb_lt in Q.
          assert (PH : part_has p b h r c m) by (exists (row_from r0), bus, fc; auto).
          apply has_bounds in PH as (B1 & _). rewrite <- Ea. rewrite fa_make_ok by exact Oa. destruct Oa as (?&?&?&?).
          unfold u32. change (2 ^ 32) with 4294967296. change (2 ^ 26) with 67108864. assert (BH : N.b2n h <= 1) by (destruct h; cbn; lia).
          rewrite N.mod_small by lia. lia.
        * rewrite <- Eb, <- Eh, <- Er in RN. destruct (bt_after c bus) as [[c' fc']|] eqn:A; [|discriminate].
          destruct (bt_after_spec c bus c' fc' (row_sorted_bus _ _ _ F2) A) as (A1 & A2 & _).
          destruct (col_valid fc' (fa_make b h r c' 0)) eqn:V; [|discriminate]. injection RN as <-.
          unfold col_valid in V. assert (B8 : b < 8) by apply Oa. pose proof (fa_fields_mod b h r c' 0 B8) as (_ & _ & _ & _ & M0).
          rewrite M0 in V. change (0 mod 128) with 0 in V. apply N.ltb_lt in V.
          assert (PH : part_has p b h r c' 0) by (exists (row_from r0), bus, fc'; auto). apply has_bounds in PH as (B1 & R1 & C1).
          apply UP; [now left|exact R1|exact C1|]. right. split; [reflexivity|]. right. split; [reflexivity|]. right. split; [reflexivity|exact A1].
      + rewrite <- Eb, <- Eh in R. destruct (bt_after r (region_of p h)) as [[r' row']|] eqn:A; [|discriminate].
        assert (S : bt_sorted (region_of p h)) by (unfold p; rewrite region_of_part_from; apply region_from_sorted, bt_sorted_nil).
        destruct (bt_after_spec r (region_of p h) r' row' S A) as (A1 & A2 & _).
        destruct (row_valid row' (fa_make b h r' 0 0)) eqn:V; [|discriminate]. injection R as <-.
        assert (B8 : b < 8) by apply Oa. pose proof (fa_fields_mod b h r' 0 0 B8) as (M1 & _ & _ & M4 & M5).
        unfold row_valid, bus_valid, col_valid in V. rewrite M1, M4, M5 in V. change (0 mod 128) with 0 in V. change (0 mod 1024) with 0 in V.
        destruct (bt_find b row') as [bus'|] eqn:G2; [|discriminate]. destruct (bt_find 0 bus') as [fc'|] eqn:G3; [|discriminate]. apply N.ltb_lt in V.
        assert (PH : part_has p b h r' 0 0) by (exists row', bus', fc'; auto). apply has_bounds in PH as (B1 & R1 & C1).
        apply UP; [now left|exact R1|exact C1|]. right. split; [reflexivity|]. right. split; [reflexivity|]. left. exact A1.
    - rewrite <- Eh, <- Eb. destruct h; cbn [negb]; [exact BL|]. destruct (region_valid (p_bottom p) (fa_make b true 0 0 0)); [|exact BL].
      intros H. injection H as <-. apply UP; [now right|lia|lia|]. right. split; [reflexivity|]. left. split; reflexivity.
  Qed.

  Lemma completion_returns n : forall a fs, a < 2 ^ 26 -> 2 ^ 26 - a <= N.of_nat n -> exists fuel fs', add_missing_from fuel p a fs = Ok fs'.
  Proof.
    induction n as [|n IH]; intros a fs La Ln; [lia|].
    set (fs1 := match bt_find a fs with None => bt_insert a zero_frame fs | Some _ => fs end).
    destruct (part_next p a) as [a'|] eqn:E.
    - destruct (next_forward a a' La E) as [U B]. destruct (IH a' fs1 B) as (fuel & fs' & H).
      { apply N.le_trans with (2 ^ 26 - a - 1); [|rewrite Nat2N.inj_succ in Ln]; lia. }
      exists (S fuel), fs'. cbn [add_missing_from]. fold fs1. rewrite E. exact H.
    - exists 1%nat, fs1. cbn [add_missing_from]. fold fs1. now rewrite E.
  Qed.
End Forward.

(** Completion returns for every description whose frames have numbers that fit the address fields
    (whatever else is in it: holes, repeated buses, more than 128 frames in a column)... *)
Theorem C11_addressable_parts_terminate :
  forall dp fs, addressable dp -> exists fuel fs', add_missing_frames fuel (part_from dp) fs = Ok fs'.
Proof.
  intros dp fs AD. apply (completion_returns dp AD (N.to_nat (2 ^ 26)) 0 fs); [reflexivity|].
  rewrite N2Nat.id. lia.
Qed.
Print Assumptions C11_addressable_parts_terminate.

(** ** Parts that are not addressable *)
Lemma first_bus_narrow row t cols : NoDup (map fst row) -> (forall t cols, In (t, cols) row -> t <> BusCFGCLB) ->
  In (t, cols) row -> cols <> [] -> first_bus (bus_block t) row = Some (bus_from 0 cols []).
Proof.
  assert (BT : forall t, t <> BusCFGCLB -> block_type_from t = bus_block t) by (intros [| |] N; try reflexivity; now elim N).
  assert (BI : forall t t', bus_block t = bus_block t' -> t = t') by (intros [| |] [| |] E; try reflexivity; discriminate).
  induction row as [|[t' cols'] row IH]; intros Nd Nc Hin Hne; [destruct Hin|].
  cbn [map fst] in Nd. inversion Nd as [|x l Hnotin Hnd]; subst. cbn [first_bus]. destruct Hin as [E|Hin].
  - injection E as -> ->. destruct cols as [|c cols]; [contradiction|]. rewrite (BT t) by (eapply Nc; left; reflexivity). now rewrite N.eqb_refl.
  - assert (R : first_bus (bus_block t) row = Some (bus_from 0 cols [])) by (apply IH; auto; intros; eapply Nc; right; eassumption).
    destruct cols' as [|c' cols']; [exact R|]. rewrite (BT t') by (eapply Nc; left; reflexivity).
    destruct (N.eqb_spec (bus_block t) (bus_block t')) as [E|_]; [|exact R]. exfalso. apply BI in E. subst t'.
    apply Hnotin. apply in_map_iff. exists (t, cols). auto.
Qed.

Section Loop.
  Context (dp : db_part) (NW : narrow dp) (NH : no_holes dp).
  Let p := part_from dp.

  Lemma narrow_has t h r c m : part_has p (bus_block t) h r c m <-> has_frame dp t h r c m.
  Proof.
    split.
    - intros (row & bus & fc & H1 & H2 & H3 & H4). apply has_row in H1 as (r0 & E & ->). apply has_bus in H2 as (t' & cols & I & B & ->).
      rewrite bus_from_nth in H3. assert (t = t') as ->.
      { destruct (NW h r0 (nth_error_In _ _ E)) as [_ N]. destruct (N _ _ I) as [N' _]. destruct t, t'; try reflexivity; try discriminate B; now elim N'. }
      exists r0, cols, fc. auto.
    - intros (row & cols & count & E & I & C & L). destruct (NW h row (nth_error_In _ _ E)) as [ND N].
      assert (NE : cols <> []) by (intros ->; destruct (N.to_nat c); discriminate).
      exists (row_from row), (bus_from 0 cols []), count. split; [|split; [|split; [|exact L]]].
      + unfold p. rewrite region_of_part_from, region_from_nth, E. reflexivity.
      + rewrite row_from_find. apply first_bus_narrow; auto. intros t0 c0 I0. exact (proj1 (N _ _ I0)).
      + now rewrite bus_from_nth.
  Qed.
  Lemma narrow_minor b h r c m : part_has p b h r c m -> m < 128.
  Proof.
    intros H. apply has_is_frame in H as (t & _ & (row & cols & count & E & I & C & L)).
    destruct (NW h row (nth_error_In _ _ E)) as [_ N]. destruct (N _ _ I) as [_ F]. rewrite Forall_forall in F. apply nth_error_In in C. specialize (F _ C). cbv beta in F. lia.
  Qed.
  Lemma block_bus b h r c m : part_has p b h r c m -> exists t, b = bus_block t.
  Proof. intros H. apply has_block in H. assert (b = 0 \/ b = 1) as [-> | ->] by lia; [exists BusCLBIOCLK|exists BusBlockRam]; reflexivity. Qed.
  Lemma dense b h r c m : part_has p b h r c m ->
    (forall c', c' <= c -> part_has p b h r c' 0) /\ (forall r', r' <= r -> part_has p b h r' 0 0) /\ part_has p b false 0 0 0.
  Proof.
    intros H. pose proof (block_bus _ _ _ _ _ H) as (t & ->). apply narrow_has in H. destruct (NH _ _ _ _ _ H) as (A & B & C).
    split; [|split]; intros; apply narrow_has; auto.
  Qed.

  (** The row [r0] of block [b0] in half [h0] where the walk turns back: it has more than 1024
      columns, or it is row 31 and there is a row 32. *)
  Context (b0 : N) (h0 : bool) (r0 : N) (R0 : r0 < 32)
    (TURN : (r0 = 31 /\ part_has p b0 h0 32 0 0) \/ part_has p b0 h0 r0 1024 0).

  Lemma turn_rows r : r <= r0 -> part_has p b0 h0 r 0 0.
  Proof. intros L. destruct TURN as [[E H]|H]; apply dense in H as (_ & H & _); apply H; lia. Qed.

  (** The frames the walk visits before it turns back. *)
  Definition before (b : N) (h : bool) (r : N) : Prop :=
    b < b0 \/ b = b0 /\ (h = false /\ h0 = true \/ h = h0 /\ r <= r0).
  Definition visited (a : N) : Prop :=
    exists b h r c m, a = fa_make b h r c m /\ part_has p b h r c m /\ r < 32 /\ c < 1024 /\ before b h r.

  Lemma visited_ok b h r c m : part_has p b h r c m -> r < 32 -> c < 1024 -> fa_ok b r c m.
  Proof. intros H R C. pose proof (has_block dp _ _ _ _ _ H). pose proof (narrow_minor _ _ _ _ _ H). repeat split; lia. Qed.
  Lemma visit b h r c m : part_has p b h r c m -> r < 32 -> c < 1024 -> before b h r -> visited (fa_make b h r c m).
  Proof. intros. exists b, h, r, c, m. auto. Qed.

  Lemma turn_end b h r c : c < 1024 -> b = b0 -> h = h0 -> r <= r0 -> ~ part_has p b h r (c + 1) 0 -> part_has p b h (r + 1) 0 0 /\ (r < r0 \/ r = 31).
  Proof.
    intros C Eb Eh L N1. rewrite Eb, Eh in *. destruct (N.lt_ge_cases r r0) as [Lr|Lr]; [split; [apply turn_rows; lia|now left]|].
    assert (Er : r = r0) by lia. rewrite Er in *. destruct TURN as [[E31 T]|T].
    - rewrite E31. split; [exact T|now right].
    - exfalso. apply N1. apply dense in T as (T & _). apply T. lia.
  Qed.
  Lemma visited_next a : visited a -> exists a', part_next p a = Some a' /\ visited a'.
  Proof.
    intros (b & h & r & c & m & -> & H & R & C & B). pose proof (visited_ok _ _ _ _ _ H R C) as Ok. pose proof (dense _ _ _ _ _ H) as (Dc & Dr & _).
    assert (B0 : b0 <= 1) by (pose proof (turn_rows 0 ltac:(lia)) as T; exact (has_block dp _ _ _ _ _ T)).
    pose proof (next_cases dp b h r c m Ok H) as NC. cbv zeta in NC. fold p in NC.
    destruct NC as [[H' E]|[(N1 & H' & E)|[(N1 & H' & E)|[(N1 & N2 & Eh & H' & E)|(N1 & N2 & N3 & E)]]]]; rewrite E.
    - eexists. split; [reflexivity|]. assert (X : u32 (fa_make b h r c m + 1) = fa_make b h r c (m + 1)).
      { pose proof (narrow_minor _ _ _ _ _ H') as M. rewrite !fa_make_ok by (destruct Ok as (?&?&?&?); repeat split; auto).
        unfold u32. destruct Ok as (?&?&?&?). change (2 ^ 32) with 4294967296. assert (BH : N.b2n h <= 1) by (destruct h; cbn; lia). rewrite N.mod_small by lia. lia. }
      rewrite X. now apply visit.
    - eexists. split; [reflexivity|]. destruct (N.ltb_spec (c + 1) 1024) as [L|L].
      + now apply visit.
      + assert (c + 1 = 1024) as Ec by lia. rewrite Ec. rewrite fa_make_mod. change (1024 mod 1024) with 0. rewrite N.mod_small by exact R.
        change (0 mod 128) with 0. apply visit; auto; [apply Dc|]; lia.
    - eexists. split; [reflexivity|]. destruct (N.ltb_spec (r + 1) 32) as [L|L].
      + apply visit; auto; [lia|]. destruct B as [B|[Eb [[Eh B]|[Eh B]]]]; [now left|right; auto|].
        right. split; [exact Eb|]. right. split; [exact Eh|]. destruct (turn_end b h r c C Eb Eh B N1) as [_ [L1|L1]]; lia.
      + assert (r + 1 = 32) as Er by lia. rewrite Er. rewrite fa_make_mod. change (32 mod 32) with 0. change (0 mod 1024) with 0. change (0 mod 128) with 0.
        apply visit; [apply Dr|..]; try lia. destruct B as [B|[Eb [[Eh B]|[Eh B]]]]; [now left|right; auto|right; split; [exact Eb|right; split; [exact Eh|lia]]].
    - eexists. split; [reflexivity|]. apply visit; auto; try lia. destruct B as [B|[Eb [[_ B]|[Eh0 B]]]]; [now left|right; split; [exact Eb|right; split; [now symmetry|lia]]|].
      exfalso. apply N2. exact (proj1 (turn_end b h r c C Eb Eh0 B N1)).
    - (* the block *)
      assert (LB : b < b0).
      { destruct B as [B|[Eb [[Eh B]|[Eh B]]]]; [exact B| |].
        - exfalso. apply (N3 Eh). rewrite Eb, <- B. apply turn_rows. lia.
        - exfalso. apply N2. exact (proj1 (turn_end b h r c C Eb Eh B N1)). }
      assert (b = 0 /\ b0 = 1) as [-> E0] by lia. pose proof (turn_rows 0 ltac:(lia)) as T. apply dense in T as (_ & _ & T). rewrite E0 in T.
      exists (fa_make 1 false 0 0 0). unfold part_next_block. pose proof (fa_fields 0 h r c m Ok) as (Eb & _). rewrite Eb. unfold kBlockRam.
      pose proof (proj2 (part_valid_make p 1 false 0 0 0 (fa_ok_000 1 eq_refl)) T) as V. change (0 <? 1) with true. cbv beta iota. rewrite V. split; [reflexivity|].
      apply visit; auto; try lia. right. split; [now symmetry|]. destruct h0; [left; auto|right; split; [reflexivity|lia]].
  Qed.

  Lemma visited_loops fuel : forall a fs, visited a -> add_missing_from fuel p a fs = NoFuel.
  Proof.
    induction fuel as [|fuel IH]; intros a fs V; cbn [add_missing_from]; [reflexivity|].
    destruct (visited_next a V) as (a' & -> & V'). now apply IH.
  Qed.
  Lemma start_visited : visited 0 \/ exists a', part_next p 0 = Some a' /\ visited a'.
  Proof.
    change 0 with (fa_make 0 false 0 0 0). pose proof (turn_rows 0 ltac:(lia)) as T. pose proof (has_block dp _ _ _ _ _ T) as B0.
    destruct (part_valid p (fa_make 0 false 0 0 0)) eqn:V.
    - left. apply part_valid_make in V; [|apply fa_ok_000; lia]. apply visit; auto; try lia.
      assert (b0 = 0 \/ b0 = 1) as [E|E] by lia; [right|left; lia]. split; [now symmetry|]. destruct h0; [left; auto|right; split; [reflexivity|lia]].
    - right. assert (N0 : forall h r c m, ~ part_has p 0 h r c m).
      { intros h r c m H. apply dense in H as (_ & _ & H). apply (part_valid_make p 0 false 0 0 0) in H; [congruence|apply fa_ok_000; lia]. }
      assert (b0 = 1) as E0. { assert (b0 = 0 \/ b0 = 1) as [E|E] by lia; [|exact E]. rewrite E in T. destruct (N0 _ _ _ _ T). }
      apply dense in T as (_ & _ & T). rewrite E0 in T.
      pose proof (fa_fields 0 false 0 0 0 (fa_ok_000 0 eq_refl)) as (E1 & E2 & E3 & E4 & E5).
      exists (fa_make 1 false 0 0 0). split.
      + unfold part_next. rewrite E2. cbn [negb]. rewrite E1.
        assert (RV : forall h r, region_valid (region_of p h) (fa_make 0 h r 0 0) = false).
        { intros h r. pose proof (fa_fields_mod 0 h r 0 0 eq_refl) as (F1 & _ & F3 & F4 & F5). unfold region_valid.
          destruct (bt_find (fa_row (fa_make 0 h r 0 0)) (region_of p h)) as [row|] eqn:G1; [|reflexivity]. unfold row_valid. rewrite F1.
          destruct (bt_find 0 row) as [bus|] eqn:G2; [|reflexivity]. unfold bus_valid. destruct (bt_find (fa_column _) bus) as [fc|] eqn:G3; [|reflexivity].
          unfold col_valid. apply N.ltb_ge. destruct (N.lt_ge_cases (fa_minor (fa_make 0 h r 0 0)) fc) as [L|L]; [|exact L]. exfalso.
          eapply (N0 h). exists row, bus, fc. eauto. }
        assert (RN : region_next (p_top p) (fa_make 0 false 0 0 0) = None).
        { unfold region_next. rewrite E3. change (p_top p) with (region_of p false). destruct (bt_find 0 (region_of p false)) as [row|] eqn:G1; [|reflexivity].
          unfold row_next. rewrite E1.
          assert (NB : forall r row', bt_find r (region_of p false) = Some row' -> forall k, row_valid row' (fa_make 0 false k 0 0) = false).
          { intros r row' G k. pose proof (fa_fields_mod 0 false k 0 0 eq_refl) as (F1 & _ & F3 & F4 & F5). unfold row_valid. rewrite F1.
            destruct (bt_find 0 row') as [bus|] eqn:G2; [|reflexivity]. unfold bus_valid. destruct (bt_find (fa_column _) bus) as [fc|] eqn:G3; [|reflexivity].
            unfold col_valid. apply N.ltb_ge. destruct (N.lt_ge_cases (fa_minor (fa_make 0 false k 0 0)) fc) as [L|L]; [|exact L]. exfalso.
            eapply (N0 false). exists row', bus, fc. eauto. }
          assert (BN : match bt_find 0 row with Some b => bus_next b (fa_make 0 false 0 0 0) | None => None end = None).
          { destruct (bt_find 0 row) as [bus|] eqn:G2; [|reflexivity]. unfold bus_next. rewrite E4. destruct (bt_find 0 bus) as [fc|] eqn:G3; [|reflexivity].
            assert (Z : fc = 0). { destruct (N.eq_0_gt_0_cases fc) as [Z|Z]; [exact Z|]. exfalso. apply (N0 false 0 0 0). exists row, bus, fc. auto. }
            subst fc. unfold col_next, col_valid. rewrite E5. cbn [N.ltb N.compare negb]. rewrite E1, E2, E3.
            destruct (bt_after 0 bus) as [[c' fc']|] eqn:A; [|reflexivity]. destruct (fa_minor (fa_make 0 false 0 c' 0) <? fc') eqn:L; [|reflexivity]. exfalso.
            apply has_row in G1 as (r1 & G1 & ->). destruct (bt_after_spec 0 bus c' fc' (row_sorted_bus _ _ _ G2) A) as (_ & A2 & _).
            apply N.ltb_lt in L. apply (N0 false 0 c' 0). exists (row_from r1), bus, fc'. repeat split; auto; [|lia].
            unfold p. rewrite region_of_part_from, region_from_nth, G1. reflexivity. }
          rewrite BN, E2. destruct (bt_after 0 (region_of p false)) as [[r' row']|] eqn:A; [|reflexivity].
          assert (S : bt_sorted (region_of p false)) by (unfold p; rewrite region_of_part_from; apply region_from_sorted, bt_sorted_nil).
          destruct (bt_after_spec 0 _ r' row' S A) as (_ & A2 & _). rewrite (NB _ _ A2). reflexivity. }
        rewrite RN. change (p_bottom p) with (region_of p true). rewrite RV.
        unfold part_next_block. rewrite E1. unfold kBlockRam. change (0 <? 1) with true. cbv beta iota.
        rewrite (proj2 (part_valid_make p 1 false 0 0 0 (fa_ok_000 1 eq_refl)) T). reflexivity.
      + apply visit; auto; try lia. right. split; [now symmetry|]. destruct h0; [left; auto|right; split; [reflexivity|lia]].
  Qed.
  Lemma completion_loops fs fuel : add_missing_frames fuel p fs = NoFuel.
  Proof.
    unfold add_missing_frames. destruct start_visited as [V|(a' & E & V)]; [now apply visited_loops|].
    destruct fuel as [|fuel]; [reflexivity|]. cbn [add_missing_from]. rewrite E. now apply visited_loops.
  Qed.
End Loop.

(** ... and loops for ever on every description without holes that has a frame in row 32 or column
    1024 or beyond. *)
Theorem C11_other_parts_loop_for_ever :
  forall dp t bottom r c m, narrow dp -> no_holes dp ->
    has_frame dp t bottom r c m -> 32 <= r \/ 1024 <= c ->
    forall fs fuel, add_missing_frames fuel (part_from dp) fs = NoFuel.
Proof.
  intros dp t h r c m NW NH H L fs fuel. apply (narrow_has dp NW) in H. destruct (dense dp NW NH _ _ _ _ _ H) as (Dc & Dr & _).
  destruct (N.le_gt_cases 32 r) as [L1|L1].
  - apply (completion_loops dp NW NH (bus_block t) h 31); [lia|]. left. split; [reflexivity|apply Dr; exact L1].
  - assert (L2 : 1024 <= c) by lia. apply (completion_loops dp NW NH (bus_block t) h r L1). right. apply Dc. exact L2.
Qed.
Theorem C11_terminates_exactly :
  forall dp fs, narrow dp -> no_holes dp ->
    (exists fuel fs', add_missing_frames fuel (part_from dp) fs = Ok fs') <-> addressable dp.
Proof.
  intros dp fs NW NH. split; [|apply C11_addressable_parts_terminate].
  intros (fuel & fs' & E) t h r c m H.
  destruct (N.lt_ge_cases r 32) as [Lr|Lr]; [destruct (N.lt_ge_cases c 1024) as [Lc|Lc]; [auto|]|];
    rewrite (C11_other_parts_loop_for_ever dp t h r c m NW NH H) in E by auto; discriminate.
Qed.
Print Assumptions C11_other_parts_loop_for_ever.
Print Assumptions C11_terminates_exactly.

(** Concrete cases: the small device is addressable; the part with 33 rows meets the hypotheses of
    the other direction. *)
Lemma part_fits_addressable dp : part_fits dp -> addressable dp.
Proof.
  intros F t h r c m (row & cols & n & H1 & H2 & H3 & H4). destruct (F h) as [L R].
  pose proof (proj1 (nth_error_Some (half dp h) (N.to_nat r)) ltac:(congruence)) as L1.
  rewrite Forall_forall in R. destruct (R row (nth_error_In _ _ H1)) as [_ RF]. destruct (RF t cols H2) as (_ & L2 & _).
  pose proof (proj1 (nth_error_Some cols (N.to_nat c)) ltac:(congruence)) as L3. split; lia.
Qed.
Example C11_small_addressable : addressable small_part.
Proof. apply part_fits_addressable, small_part_fits. Qed.
Lemma looping_frames t h r c m : has_frame looping_part t h r c m <-> t = BusCLBIOCLK /\ h = false /\ r < 33 /\ c = 0 /\ m = 0.
Proof.
  split.
  - intros (row & cols & n & H1 & H2 & H3 & H4). destruct h; [unfold half, looping_part in H1; cbn [dp_bottom_rows] in H1; destruct (N.to_nat r); discriminate|].
    unfold half, looping_part in H1; cbn [dp_top_rows] in H1.
    pose proof (repeat_spec 33 [(BusCLBIOCLK, [1])] row (nth_error_In _ _ H1)) as E. subst row.
    pose proof (proj1 (nth_error_Some (repeat [(BusCLBIOCLK, [1])] 33) (N.to_nat r)) ltac:(change clock_region_row with (list (bus_type * list N)) in *; rewrite H1; discriminate)) as L. rewrite repeat_length in L.
    destruct H2 as [H2|[]]. injection H2 as <- <-. destruct (N.to_nat c) as [|k] eqn:Ec; [|destruct k; discriminate].
    injection H3 as <-. repeat split; lia.
  - intros (-> & -> & L & -> & ->). exists [(BusCLBIOCLK, [1])], [1], 1. split; [|split; [now left|split; [reflexivity|lia]]].
    unfold half, looping_part; cbn [dp_top_rows]. rewrite nth_error_repeat; [reflexivity|lia].
Qed.
Example C11_looping_case : narrow looping_part /\ no_holes looping_part /\ has_frame looping_part BusCLBIOCLK false 32 0 0.
Proof.
  split; [|split].
  - intros h row I. destruct h; cbn [half looping_part dp_bottom_rows dp_top_rows] in I; [destruct I|]. apply repeat_spec in I. subst row.
    split; [repeat constructor; intros []|]. intros t cols [E|[]]. injection E as <- <-. split; [discriminate|repeat constructor; lia].
  - intros t h r c m H. apply looping_frames in H as (-> & -> & L & -> & ->). split; [|split]; intros; apply looping_frames; repeat split; lia.
  - apply looping_frames. repeat split; lia.
Qed.
