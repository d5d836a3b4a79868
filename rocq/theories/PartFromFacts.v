(** Facts about building a part from the database description (Part.v: part_from). *)
From Verif Require Import Base BitOps Frame Part BaseFacts BitOpsFacts FrameFacts PartSpec PartFacts.
From Coq Require Import ZifyBool ZifyN ZifyNat.

Lemma bus_from_sorted cols : forall i m, bt_sorted m -> bt_sorted (bus_from i cols m).
Proof.
  induction cols as [|c cols IH]; intros i m H; cbn [bus_from]; [assumption|].
  apply IH, bt_insert_sorted, H.
Qed.

Lemma bus_from_find cols : forall i m k,
  bt_sorted m -> (forall x, In x (bt_keys m) -> x < i) ->
  bt_find k (bus_from i cols m) =
  if k <? i then bt_find k m else nth_error cols (N.to_nat (k - i)).
Proof.
  induction cols as [|c cols IH]; intros i m k Hs Hk; cbn [bus_from].
  - destruct (N.ltb_spec k i) as [L|L]; [reflexivity|].
    replace (nth_error [] (N.to_nat (k - i))) with (@None N) by (destruct (N.to_nat (k - i)); reflexivity).
    apply bt_find_none. intros C. apply Hk in C. lia.
  - rewrite IH.
    + rewrite bt_find_insert by assumption.
      assert (Ni : bt_find i m = None) by (apply bt_find_none; intros C; apply Hk in C; lia).
      rewrite Ni. destruct (N.ltb_spec k (i + 1)), (N.ltb_spec k i), (N.eqb_spec k i); try lia.
      * reflexivity.
      * subst. rewrite N.sub_diag. reflexivity.
      * replace (N.to_nat (k - i)) with (S (N.to_nat (k - (i + 1)))) by lia. reflexivity.
    + apply bt_insert_sorted; assumption.
    + intros x. rewrite bt_keys_insert. intros [->|Hx]; [lia|]. apply Hk in Hx. lia.
Qed.

Lemma bus_from_nth cols k :
  bt_find k (bus_from 0 cols []) = nth_error cols (N.to_nat k).
Proof.
  rewrite bus_from_find.
  - replace (k <? 0) with false by lia. rewrite N.sub_0_r. reflexivity.
  - apply bt_sorted_nil.
  - intros x [].
Qed.

Lemma region_from_sorted h : forall i m, bt_sorted m -> bt_sorted (region_from_aux i h m).
Proof.
  induction h as [|c h IH]; intros i m H; cbn [region_from_aux]; [assumption|].
  apply IH, bt_insert_sorted, H.
Qed.

Lemma region_from_find h : forall i m k,
  bt_sorted m -> (forall x, In x (bt_keys m) -> x < i) ->
  bt_find k (region_from_aux i h m) =
  if k <? i then bt_find k m else option_map row_from (nth_error h (N.to_nat (k - i))).
Proof.
  induction h as [|c h IH]; intros i m k Hs Hk; cbn [region_from_aux].
  - destruct (N.ltb_spec k i) as [L|L]; [reflexivity|].
    replace (nth_error [] (N.to_nat (k - i))) with (@None clock_region_row)
      by (destruct (N.to_nat (k - i)); reflexivity).
    cbn [option_map]. apply bt_find_none. intros C. apply Hk in C. lia.
  - rewrite IH.
    + rewrite bt_find_insert by assumption.
      assert (Ni : bt_find i m = None) by (apply bt_find_none; intros C; apply Hk in C; lia).
      rewrite Ni. destruct (N.ltb_spec k (i + 1)), (N.ltb_spec k i), (N.eqb_spec k i); try lia.
      * reflexivity.
      * subst. rewrite N.sub_diag. reflexivity.
      * replace (N.to_nat (k - i)) with (S (N.to_nat (k - (i + 1)))) by lia. reflexivity.
    + apply bt_insert_sorted; assumption.
    + intros x. rewrite bt_keys_insert. intros [->|Hx]; [lia|]. apply Hk in Hx. lia.
Qed.

Lemma region_from_nth h k :
  bt_find k (region_from h) = option_map row_from (nth_error h (N.to_nat k)).
Proof.
  unfold region_from. rewrite region_from_find.
  - replace (k <? 0) with false by lia. rewrite N.sub_0_r. reflexivity.
  - apply bt_sorted_nil.
  - intros x [].
Qed.

Lemma region_of_part_from dp h : region_of (part_from dp) h = region_from (half dp h).
Proof. destruct h; reflexivity. Qed.

(** Rows: the first non-empty bus of each block type, in iteration order. *)
Definition row_step (acc : cfg_row) (p : bus_type * list N) : cfg_row :=
  let (t, cols) := p in
  match cols with
  | [] => acc
  | _ => bt_insert (block_type_from t) (bus_from 0 cols []) acc
  end.

Lemma row_from_fold r : row_from r = fold_left row_step r [].
Proof. reflexivity. Qed.

Lemma row_step_sorted acc p : bt_sorted acc -> bt_sorted (row_step acc p).
Proof. destruct p as [t [|c cols]]; cbn [row_step]; auto using bt_insert_sorted. Qed.

Lemma row_fold_sorted r : forall acc, bt_sorted acc -> bt_sorted (fold_left row_step r acc).
Proof. induction r as [|p r IH]; intros acc H; cbn [fold_left]; auto using row_step_sorted. Qed.

(** Find in the folded row: what is there already, or the first entry of that block. *)
Fixpoint first_bus (b : N) (r : clock_region_row) : option cfg_bus :=
  match r with
  | [] => None
  | (t, cols) :: r' =>
      match cols with
      | [] => first_bus b r'
      | _ => if b =? block_type_from t then Some (bus_from 0 cols []) else first_bus b r'
      end
  end.

Lemma row_fold_find b r : forall acc, bt_sorted acc ->
  bt_find b (fold_left row_step r acc) =
  match bt_find b acc with Some x => Some x | None => first_bus b r end.
Proof.
  induction r as [|[t cols] r IH]; intros acc H; cbn [fold_left first_bus].
  - destruct (bt_find b acc); reflexivity.
  - rewrite IH by (apply row_step_sorted; assumption).
    destruct cols as [|c cols]; cbn [row_step]; [reflexivity|].
    rewrite bt_find_insert by assumption.
    destruct (N.eqb_spec b (block_type_from t)) as [E|E].
    + rewrite E. destruct (bt_find (block_type_from t) acc); reflexivity.
    + reflexivity.
Qed.

Lemma row_from_find b r : bt_find b (row_from r) = first_bus b r.
Proof. rewrite row_from_fold, row_fold_find by apply bt_sorted_nil. reflexivity. Qed.

Lemma row_from_sorted r : bt_sorted (row_from r).
Proof. rewrite row_from_fold. apply row_fold_sorted, bt_sorted_nil. Qed.

Lemma first_bus_In b r bus : first_bus b r = Some bus ->
  exists t cols, In (t, cols) r /\ cols <> [] /\ b = block_type_from t /\
                 bus = bus_from 0 cols [].
Proof.
  induction r as [|[t cols] r IH]; cbn [first_bus]; [discriminate|].
  destruct cols as [|c cols].
  - intros E. apply IH in E. destruct E as (t' & cols' & H & K). exists t', cols'.
    split; [right; assumption|assumption].
  - destruct (N.eqb_spec b (block_type_from t)) as [E|E].
    + intros K. injection K as <-. exists t, (c :: cols).
      repeat split; try assumption; [left; reflexivity|discriminate].
    + intros K. apply IH in K. destruct K as (t' & cols' & H & K). exists t', cols'.
      split; [right; assumption|assumption].
Qed.

Lemma row_fits_block row t cols : row_fits row -> In (t, cols) row ->
  block_type_from t = bus_block t.
Proof. intros [_ H] Hin. destruct (H t cols Hin) as (N & _). destruct t; try reflexivity. congruence. Qed.

Lemma first_bus_find row t cols : row_fits row -> In (t, cols) row -> cols <> [] ->
  first_bus (bus_block t) row = Some (bus_from 0 cols []).
Proof.
  induction row as [|[t' cols'] row IH]; intros F Hin Hne; [destruct Hin|].
  pose proof F as [Nd Fall]. cbn [map fst] in Nd. inversion Nd as [|x l Hnotin Hnd]; subst.
  assert (F' : row_fits row).
  { split; [assumption|]. intros t0 c0 H0. apply Fall. right; assumption. }
  cbn [first_bus]. destruct Hin as [E|Hin].
  - injection E as -> ->. destruct cols as [|c cols]; [congruence|].
    rewrite (row_fits_block ((t, c :: cols) :: row) t (c :: cols)) by (auto; left; reflexivity).
    rewrite N.eqb_refl. reflexivity.
  - assert (t <> t').
    { intros ->. apply Hnotin. apply (in_map fst) in Hin. exact Hin. }
    destruct cols' as [|c cols']; [apply IH; assumption|].
    rewrite (row_fits_block ((t', c :: cols') :: row) t' (c :: cols')) by (auto; left; reflexivity).
    destruct (N.eqb_spec (bus_block t) (bus_block t')) as [E|E]; [|apply IH; assumption].
    exfalso. destruct t, t'; cbn in E; congruence.
Qed.

Lemma half_fits dp h row r : part_fits dp -> nth_error (half dp h) r = Some row ->
  row_fits row /\ (r < 32)%nat.
Proof.
  intros F H. destruct (F h) as [L A]. split.
  - rewrite Forall_forall in A. apply A. eapply nth_error_In; eassumption.
  - assert (nth_error (half dp h) r <> None) by congruence. apply nth_error_Some in H0. lia.
Qed.

(** ** A part read from a description has exactly the described frames *)
Lemma part_from_has dp t h r c m : part_fits dp ->
  (part_has (part_from dp) (bus_block t) h r c m <-> has_frame dp t h r c m).
Proof.
  intros F. unfold part_has, has_frame. rewrite region_of_part_from. split.
  - intros (row & bus & fc & H1 & H2 & H3 & H4). rewrite region_from_nth in H1.
    destruct (nth_error (half dp h) (N.to_nat r)) as [row0|] eqn:E; [|discriminate].
    cbn [option_map] in H1. injection H1 as <-. rewrite row_from_find in H2.
    apply first_bus_In in H2. destruct H2 as (t' & cols & Hin & Hne & Eb & ->).
    rewrite bus_from_nth in H3.
    destruct (half_fits dp h row0 _ F E) as [Fr _].
    rewrite (row_fits_block row0 t' cols Fr Hin) in Eb.
    assert (t = t') by (destruct t, t'; cbn in Eb; congruence). subst t'.
    exists row0, cols, fc. auto.
  - intros (row & cols & fc & H1 & H2 & H3 & H4).
    destruct (half_fits dp h row _ F H1) as [Fr _].
    exists (row_from row), (bus_from 0 cols []), fc.
    rewrite region_from_nth, H1, row_from_find, bus_from_nth.
    repeat split; try assumption.
    apply first_bus_find; try assumption. intros ->. destruct (N.to_nat c); discriminate.
Qed.

Lemma part_from_has_block dp b h r c m : part_fits dp ->
  part_has (part_from dp) b h r c m -> exists t, b = bus_block t /\ b <= 1.
Proof.
  intros F (row & bus & fc & H1 & H2 & _). rewrite region_of_part_from, region_from_nth in H1.
  destruct (nth_error (half dp h) (N.to_nat r)) as [row0|] eqn:E; [|discriminate].
  injection H1 as <-. rewrite row_from_find in H2. apply first_bus_In in H2.
  destruct H2 as (t & cols & Hin & _ & -> & _). destruct (half_fits dp h row0 _ F E) as [Fr _].
  exists t. split; [apply (row_fits_block row0 t cols Fr Hin)|].
  destruct t; cbv; discriminate.
Qed.

Lemma part_from_wf dp : part_fits dp -> part_wf (part_from dp).
Proof.
  intros F.
  assert (G : forall h, region_wf (region_from (half dp h))).
  { intros h. split; [apply region_from_sorted, bt_sorted_nil|].
    intros r row H. rewrite region_from_nth in H.
    destruct (nth_error (half dp h) (N.to_nat r)) as [row0|] eqn:E; [|discriminate].
    injection H as <-. destruct (half_fits dp h row0 _ F E) as [Fr Hr].
    split; [lia|]. split; [apply row_from_sorted|].
    intros b bus Hb. rewrite row_from_find in Hb. apply first_bus_In in Hb.
    destruct Hb as (t & cols & Hin & _ & -> & ->).
    split; [destruct t; reflexivity|]. split; [apply bus_from_sorted, bt_sorted_nil|].
    intros c fc Hc. rewrite bus_from_nth in Hc. destruct Fr as [_ Fr].
    destruct (Fr t cols Hin) as (_ & Lc & Fc). split.
    - assert (K : nth_error cols (N.to_nat c) <> None) by congruence.
      apply nth_error_Some in K. lia.
    - rewrite Forall_forall in Fc. apply Fc. eapply nth_error_In; eassumption. }
  split; [apply (G false)|apply (G true)].
Qed.

Lemma part_from_dense dp : part_fits dp -> no_holes dp -> part_dense (part_from dp).
Proof.
  intros F NH b h r c m H. destruct (part_from_has_block dp b h r c m F H) as (t & -> & Hle).
  pose proof H as H0. rewrite part_from_has in H0 by assumption.
  destruct (NH _ _ _ _ _ H0) as (N1 & N2 & N3).
  repeat split.
  - intros c' Hc. rewrite part_from_has by assumption. apply N1; assumption.
  - intros r' Hr. rewrite part_from_has by assumption. apply N2; assumption.
  - rewrite part_from_has by assumption. assumption.
  - lia.
Qed.

Lemma address_make b h r c m : fa_ok b r c m -> fa_make b h r c m = address b h r c m.
Proof.
  intros H. rewrite fa_make_ok by assumption. unfold address. destruct h; cbn [N.b2n]; reflexivity.
Qed.

(** Valid addresses (below 2^26) are exactly the frame addresses of the description. *)
Lemma part_from_valid dp a : part_fits dp -> a < 2 ^ 26 ->
  (part_valid (part_from dp) a = true <-> is_frame_address dp a).
Proof.
  intros F Ha. pose proof (part_from_wf dp F) as W. split.
  - intros V. rewrite part_valid_has in V.
    pose proof (part_from_has_block _ _ _ _ _ _ F V) as (t & Et & _).
    rewrite Et in V. rewrite part_from_has in V by assumption.
    exists t, (fa_is_bottom a), (fa_row a), (fa_column a), (fa_minor a). split; [assumption|].
    rewrite <- Et. rewrite <- address_make by apply fa_ranges. symmetry. apply fa_rebuild; assumption.
  - intros (t & h & r & c & m & H & ->). rewrite <- part_from_has in H by assumption.
    pose proof (part_has_ok _ _ _ _ _ _ W H) as O.
    rewrite <- address_make by assumption. apply part_valid_make; assumption.
Qed.

Lemma is_frame_address_lt dp a : part_fits dp -> is_frame_address dp a -> a < 2 ^ 26.
Proof.
  intros F (t & h & r & c & m & H & ->). rewrite <- part_from_has in H by assumption.
  pose proof (part_has_ok _ _ _ _ _ _ (part_from_wf dp F) H) as O.
  rewrite <- address_make by assumption. apply fa_make_lt; assumption.
Qed.

(** Decision procedure used by the concrete cases. *)
Fixpoint bus_nodupb (l : list bus_type) : bool :=
  match l with [] => true | t :: l' => negb (existsb (bus_eqb t) l') && bus_nodupb l' end.
Definition row_fitsb (row : clock_region_row) : bool :=
  bus_nodupb (map fst row) &&
  forallb (fun p : bus_type * list N =>
             negb (bus_eqb (fst p) BusCFGCLB) && Nat.leb (length (snd p)) 1024
             && forallb (fun n => n <=? 128) (snd p)) row.
Definition part_fitsb (dp : db_part) : bool :=
  Nat.leb (length (dp_top_rows dp)) 32 && forallb row_fitsb (dp_top_rows dp) &&
  Nat.leb (length (dp_bottom_rows dp)) 32 && forallb row_fitsb (dp_bottom_rows dp).

Lemma bus_eqb_eq a b : bus_eqb a b = true <-> a = b.
Proof. destruct a, b; cbn; split; congruence. Qed.

Lemma bus_nodupb_sound l : bus_nodupb l = true -> NoDup l.
Proof.
  induction l as [|t l IH]; cbn [bus_nodupb]; intros H; constructor;
    apply andb_true_iff in H; destruct H as [H1 H2].
  - intros C. apply negb_true_iff in H1. assert (existsb (bus_eqb t) l = true); [|congruence].
    apply existsb_exists. exists t. split; [assumption|]. apply bus_eqb_eq; reflexivity.
  - apply IH; assumption.
Qed.

Lemma row_fitsb_sound row : row_fitsb row = true -> row_fits row.
Proof.
  unfold row_fitsb. intros H. apply andb_true_iff in H. destruct H as [H1 H2].
  split; [apply bus_nodupb_sound; assumption|].
  rewrite forallb_forall in H2. intros t cols Hin. specialize (H2 _ Hin). cbn [fst snd] in H2.
  rewrite !andb_true_iff in H2. destruct H2 as [[A B] C]. repeat split.
  - intros ->. discriminate.
  - apply Nat.leb_le; assumption.
  - rewrite forallb_forall in C. apply Forall_forall. intros n Hn. apply N.leb_le, C, Hn.
Qed.

Lemma part_fitsb_sound dp : part_fitsb dp = true -> part_fits dp.
Proof.
  unfold part_fitsb. rewrite !andb_true_iff. intros [[[A B] C] D].
  apply Nat.leb_le in A. apply Nat.leb_le in C. rewrite forallb_forall in B, D.
  intros [|]; cbn [half]; (split; [assumption|]); apply Forall_forall; intros r Hr;
    apply row_fitsb_sound; auto.
Qed.
