(** Properties C07-C11: walking the device and completing a frame set. *)
From Verif Require Import Base BitOps Frame Part Frames BaseFacts FrameFacts PartSpec PartFacts
  PartFromFacts FramesFacts.

(** A small device used as the concrete case below: two top rows, one bottom row, CLB and
    block RAM buses. *)
Definition small_row : clock_region_row :=
  [(BusCLBIOCLK, [42; 30; 36]); (BusBlockRam, [128])].
Definition small_part : db_part :=
  {| dp_idcode := 0x0362D093; dp_bottom_rows := [small_row];
     dp_top_rows := [small_row; small_row]; dp_iobanks := [] |}.

Example small_part_fits : part_fits small_part.
Proof. apply part_fitsb_sound. reflexivity. Qed.

(** What the description of a device says and what the code's validity test says agree. *)
Theorem C08_valid_is_described :
  forall dp a, part_fits dp -> a < 2 ^ 26 ->
    (part_valid (part_from dp) a = true <-> is_frame_address dp a).
Proof. exact part_from_valid. Qed.
Print Assumptions C08_valid_is_described.

(** ** C07 *)
Theorem C07_next_frame_increases :
  forall dp a a', part_fits dp -> a < 2 ^ 26 ->
    part_next (part_from dp) a = Some a' -> a < a' /\ a' < 2 ^ 26.
Proof. intros dp a a' F Ha. apply part_next_increases; [apply part_from_wf; assumption|assumption]. Qed.
Print Assumptions C07_next_frame_increases.

(** Hence the walk from any address ends; it lists strictly increasing addresses. *)
Theorem C07_walk_terminates :
  forall dp a, part_fits dp -> a < 2 ^ 26 ->
    exists l, walk (part_from dp) a l /\ StronglySorted N.lt l.
Proof.
  intros dp a F Ha. destruct (walk_exists _ (part_from_wf dp F) a Ha) as (l & H & S & _).
  exists l; auto.
Qed.
Print Assumptions C07_walk_terminates.

(** ** C08 *)
Theorem C08_next_frame_is_a_frame :
  forall dp a a', part_fits dp -> a < 2 ^ 26 ->
    part_next (part_from dp) a = Some a' -> is_frame_address dp a'.
Proof.
  intros dp a a' F Ha E. pose proof (part_from_wf dp F) as W.
  destruct (part_next_increases _ _ _ W Ha E) as [_ L].
  apply part_from_valid; try assumption. apply (part_next_valid _ a); assumption.
Qed.
Print Assumptions C08_next_frame_is_a_frame.

Example C08_case :
  part_next (part_from small_part) (address 0 false 0 2 35) = Some (address 0 false 1 0 0) /\
  part_next (part_from small_part) (address 0 true 0 2 35) = Some (address 1 false 0 0 0) /\
  part_next (part_from small_part) (address 1 true 0 0 127) = None.
Proof. vm_compute. repeat split. Qed.

(** ** C09 *)
Theorem C09_walk_is_complete :
  forall dp, part_fits dp -> no_holes dp -> is_frame_address dp 0 ->
    exists l, walk (part_from dp) 0 l /\ StronglySorted N.lt l /\
      forall a, In a l <-> is_frame_address dp a.
Proof. exact device_walk. Qed.
Print Assumptions C09_walk_is_complete.

(** The next frame is the least frame above. *)
Theorem C09_next_frame_is_least :
  forall dp a v, part_fits dp -> no_holes dp ->
    is_frame_address dp a -> is_frame_address dp v -> a < v ->
    exists n, part_next (part_from dp) a = Some n /\ is_frame_address dp n /\ a < n /\ n <= v.
Proof.
  intros dp a v F NH Fa Fv L.
  pose proof (is_frame_address_lt dp a F Fa) as La. pose proof (is_frame_address_lt dp v F Fv) as Lv.
  pose proof (part_from_wf dp F) as W.
  destruct (part_next_least (part_from dp) a v W (part_from_dense dp F NH) La Lv) as (n & E & Ln);
    try assumption; try (apply part_from_valid; assumption).
  exists n. split; [assumption|]. split; [apply (C08_next_frame_is_a_frame dp a); assumption|].
  split; [|assumption]. apply (C07_next_frame_increases dp a n F La E).
Qed.
Print Assumptions C09_next_frame_is_least.

(** The no-holes hypothesis holds of every description in which all rows of both halves
    list the same buses, with at least one column and no empty column. *)
Definition regular (dp : db_part) (buses : list bus_type) : Prop :=
  dp_top_rows dp <> [] /\
  forall bottom row, In row (half dp bottom) ->
    (forall t, In t buses <-> In t (map fst row)) /\
    forall t cols, In (t, cols) row -> cols <> [] /\ Forall (fun n => 0 < n) cols.

Theorem C09_regular_no_holes : forall dp buses,
  part_fits dp -> regular dp buses -> no_holes dp.
Proof.
  intros dp buses F [Htop H] t h r c m (row & cols & n & H1 & H2 & H3 & H4).
  pose proof (nth_error_In _ _ H1) as Hrow. destruct (H h row Hrow) as [Hb Hc].
  assert (Rows : forall h' r' row', nth_error (half dp h') r' = Some row' ->
            has_frame dp t h' (N.of_nat r') 0 0).
  { intros h' r' row' E. pose proof (nth_error_In _ _ E) as Hin'. destruct (H h' row' Hin') as [Hb' Hc'].
    assert (Ht : In t (map fst row')) by (apply Hb', Hb; apply (in_map fst) in H2; exact H2).
    apply in_map_iff in Ht. destruct Ht as ([t' cols'] & Et & Hin). cbn in Et. subst t'.
    destruct (Hc' t cols' Hin) as [Hne Hpos]. destruct cols' as [|n0 cols']; [congruence|].
    exists row', (n0 :: cols'), n0. rewrite Nat2N.id. repeat split; try assumption.
    inversion Hpos; assumption. }
  split; [|split].
  - intros c' Hle. destruct (Hc t cols H2) as [_ Hpos].
    assert (K : nth_error cols (N.to_nat c') <> None).
    { apply nth_error_Some. assert (nth_error cols (N.to_nat c) <> None) as A by congruence.
      apply nth_error_Some in A. lia. }
    destruct (nth_error cols (N.to_nat c')) as [n'|] eqn:E; [|congruence].
    exists row, cols, n'. repeat split; try assumption.
    rewrite Forall_forall in Hpos. apply Hpos. eapply nth_error_In; eassumption.
  - intros r' Hle.
    assert (K : nth_error (half dp h) (N.to_nat r') <> None).
    { apply nth_error_Some. assert (nth_error (half dp h) (N.to_nat r) <> None) as A by congruence.
      apply nth_error_Some in A. lia. }
    destruct (nth_error (half dp h) (N.to_nat r')) as [row'|] eqn:E; [|congruence].
    specialize (Rows _ _ _ E). rewrite N2Nat.id in Rows. exact Rows.
  - destruct (dp_top_rows dp) as [|row0 rest] eqn:E; [congruence|].
    apply (Rows false 0%nat row0). cbn [half]. rewrite E. reflexivity.
Qed.
Print Assumptions C09_regular_no_holes.

Example small_part_regular : regular small_part [BusCLBIOCLK; BusBlockRam].
Proof.
  split; [discriminate|]. intros h row Hin.
  assert (E : row = small_row).
  { destruct h; cbn in Hin; intuition. }
  subst row. split.
  - intros t. cbn. reflexivity.
  - intros t cols [E|[E|[]]]; injection E as <- <-; split; try discriminate; repeat constructor.
Qed.

Example C09_case : is_frame_address small_part 0.
Proof.
  apply part_from_valid; [apply small_part_fits|reflexivity|]. vm_compute. reflexivity.
Qed.

(** Without the no-holes hypothesis the claim is false: block RAM columns that do not start
    in row 0 of the top half are never visited. *)
Definition holey_part : db_part :=
  {| dp_idcode := 1; dp_bottom_rows := [];
     dp_top_rows := [[(BusCLBIOCLK, [2])]; [(BusCLBIOCLK, [2]); (BusBlockRam, [2])]];
     dp_iobanks := [] |}.
Theorem C09_holes_refuted :
  part_fits holey_part /\ is_frame_address holey_part 0 /\
  exists l a, walk (part_from holey_part) 0 l /\ is_frame_address holey_part a /\ ~ In a l.
Proof.
  assert (F : part_fits holey_part).
  { apply part_fitsb_sound. reflexivity. }
  split; [exact F|]. split; [apply part_from_valid; [exact F|reflexivity|reflexivity]|].
  exists [0; 1; address 0 false 1 0 0; address 0 false 1 0 1], (address 1 false 1 0 0).
  split; [|split].
  - eapply walk_step; [vm_compute; reflexivity|].
    eapply walk_step; [vm_compute; reflexivity|].
    eapply walk_step; [vm_compute; reflexivity|].
    eapply walk_last; vm_compute; reflexivity.
  - apply part_from_valid; [exact F|reflexivity|vm_compute; reflexivity].
  - vm_compute. intuition discriminate.
Qed.
Print Assumptions C09_holes_refuted.

(** A CFG_CLB bus is described but its frames (block type 2) are not valid for the code,
    which files it under block type 0. *)
Definition cfgclb_part : db_part :=
  {| dp_idcode := 1; dp_bottom_rows := []; dp_top_rows := [[(BusCFGCLB, [3])]]; dp_iobanks := [] |}.
Theorem C08_cfg_clb_refuted :
  is_frame_address cfgclb_part (address 2 false 0 0 0) /\
  part_valid (part_from cfgclb_part) (address 2 false 0 0 0) = false /\
  part_valid (part_from cfgclb_part) (address 0 false 0 0 0) = true /\
  ~ is_frame_address cfgclb_part (address 0 false 0 0 0).
Proof.
  split; [|split; [|split]].
  - exists BusCFGCLB, false, 0, 0, 0. split; [|reflexivity].
    exists [(BusCFGCLB, [3])], [3], 3. repeat split. left. reflexivity.
  - vm_compute. reflexivity.
  - vm_compute. reflexivity.
  - intros (t & h & r & c & m & (row & cols & n & H1 & H2 & H3 & H4) & E).
    assert (t = BusCFGCLB).
    { destruct h; cbn [half cfgclb_part dp_bottom_rows dp_top_rows] in H1.
      - destruct (N.to_nat r); discriminate.
      - destruct (N.to_nat r) as [|k]; cbn in H1; [|destruct k; discriminate].
        injection H1 as <-. destruct H2 as [K|[]]. injection K as <- <-. reflexivity. }
    subst t. unfold address in E. cbn [bus_block] in E. destruct h; lia.
Qed.
Print Assumptions C08_cfg_clb_refuted.

(** ** C10 *)
Theorem C10_completion_is_conservative :
  forall fuel p fs fs', bt_sorted fs -> add_missing_frames fuel p fs = Ok fs' ->
    bt_sorted fs' /\
    (forall k f, bt_find k fs = Some f -> bt_find k fs' = Some f) /\
    exists l, walk p 0 l /\
      (forall k, bt_find k fs = None ->
         bt_find k fs' = if existsb (N.eqb k) l then Some (repeat 0 101) else None) /\
      (forall k, In k (bt_keys fs') <-> In k (bt_keys fs) \/ In k l).
Proof.
  intros fuel p fs fs' S H. destruct (add_missing_spec fuel p fs fs' S H) as (l & Hw & S' & Hf).
  split; [assumption|]. split.
  - intros k f E. rewrite Hf, E. reflexivity.
  - exists l. split; [assumption|]. split.
    + intros k E. rewrite Hf, E. reflexivity.
    + intros k. rewrite <- !bt_find_key, Hf.
      destruct (bt_find k fs); [split; [left|]; congruence|].
      destruct (existsb (N.eqb k) l) eqn:E.
      * split; [intros _; right|discriminate]. apply existsb_exists in E.
        destruct E as (x & Hx & Ex). apply N.eqb_eq in Ex. congruence.
      * split; [congruence|]. intros [C|C]; [congruence|]. exfalso.
        assert (existsb (N.eqb k) l = true); [|congruence].
        apply existsb_exists. exists k. split; [assumption|apply N.eqb_refl].
Qed.
Print Assumptions C10_completion_is_conservative.

Example C10_case :
  match add_missing_frames 800 (part_from small_part) [(3, repeat 7 101)] with
  | Ok fs => Nat.eqb (length fs) 708 | _ => false end = true.
Proof. vm_compute. reflexivity. Qed.

(** ** C11 *)
(** For parts that fit the address fields the completion returns... *)
Theorem C11_fitting_parts_terminate :
  forall dp fs, part_fits dp ->
    exists fuel fs', add_missing_frames fuel (part_from dp) fs = Ok fs'.
Proof. intros dp fs F. apply add_missing_terminates, part_from_wf, F. Qed.
Print Assumptions C11_fitting_parts_terminate.

(** ... but not for every description: a half with 33 rows makes it loop for ever. *)
Theorem C11_too_many_rows_refuted :
  exists dp, (forall h, (length (half dp h) <= 33)%nat) /\
    forall fs fuel, add_missing_frames fuel (part_from dp) fs = NoFuel.
Proof.
  exists looping_part. split.
  - intros [|]; cbn; lia.
  - intros fs fuel. apply (looping_diverges fuel 0). reflexivity.
Qed.
Print Assumptions C11_too_many_rows_refuted.
