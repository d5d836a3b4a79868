(** Facts about Frames.v: walking the part and completing a frame set. *)
From Verif Require Import Base BitOps Frame Part Frames BaseFacts BitOpsFacts FrameFacts
  PartSpec PartFacts PartFromFacts.
From Coq Require Import ZifyBool ZifyN ZifyNat.

(** The addresses visited by repeatedly asking for the next frame, starting at [a]. *)
Inductive walk (p : part) : N -> list N -> Prop :=
| walk_last a : part_next p a = None -> walk p a [a]
| walk_step a a' l : part_next p a = Some a' -> walk p a' l -> walk p a (a :: l).

Lemma walk_fun p a l l' : walk p a l -> walk p a l' -> l = l'.
Proof.
  intros H. revert l'. induction H as [a E|a a' l E H IH]; intros l' H'; inversion H'; subst;
    try congruence.
  f_equal. apply IH. replace a' with a'0 by congruence. assumption.
Qed.

(** The walk of a well-formed part ends, is increasing, stays below 2^26. *)
Lemma walk_exists p : part_wf p -> forall a, a < 2 ^ 26 ->
  exists l, walk p a l /\ StronglySorted N.lt l /\ Forall (fun x => a <= x /\ x < 2 ^ 26) l.
Proof.
  intros W.
  assert (G : forall n a, a < 2 ^ 26 -> 2 ^ 26 - a <= N.of_nat n ->
     exists l, walk p a l /\ StronglySorted N.lt l /\ Forall (fun x => a <= x /\ x < 2 ^ 26) l).
  { induction n as [|n IH]; intros a Ha Hn; [lia|].
    destruct (part_next p a) as [a'|] eqn:E.
    - destruct (part_next_increases p a a' W Ha E) as [L1 L2].
      destruct (IH a' L2) as (l & Hw & Hs & Hf); [lia|].
      exists (a :: l). repeat split.
      + econstructor; eassumption.
      + constructor; [assumption|]. eapply Forall_impl; [|exact Hf]. cbv beta. intros; lia.
      + constructor; [split; [lia|assumption]|]. eapply Forall_impl; [|exact Hf]. cbv beta. intros; lia.
    - exists [a]. repeat split.
      + constructor; assumption.
      + repeat constructor.
      + repeat constructor; [lia|assumption]. }
  intros a Ha. apply (G (N.to_nat (2 ^ 26))); [assumption|]. rewrite N2Nat.id. lia.
Qed.

Lemma walk_valid p a l : part_wf p -> a < 2 ^ 26 -> walk p a l ->
  Forall (fun x => x = a \/ part_valid p x = true) l.
Proof.
  intros W Ha H. induction H as [a E|a a' l E H IH]; [repeat constructor|].
  constructor; [left; reflexivity|].
  pose proof (part_next_increases p a a' W Ha E) as [_ L2].
  pose proof (part_next_valid p a a' W Ha E) as V.
  specialize (IH L2). eapply Forall_impl; [|exact IH]. cbv beta.
  intros x [->|Hx]; auto.
Qed.

Lemma walk_complete p a l : part_wf p -> part_dense p -> a < 2 ^ 26 ->
  part_valid p a = true -> walk p a l ->
  forall v, v < 2 ^ 26 -> part_valid p v = true -> a <= v -> In v l.
Proof.
  intros W D Ha Va H. induction H as [a E|a a' l E H IH]; intros v Hv Vv L.
  - destruct (N.eq_dec a v) as [->|]; [left; reflexivity|].
    destruct (part_next_least p a v W D Ha Hv Va Vv) as (nx & K & _); [lia|congruence].
  - destruct (N.eq_dec a v) as [->|]; [left; reflexivity|]. right.
    destruct (part_next_least p a v W D Ha Hv Va Vv) as (nx & K & Hn); [lia|].
    rewrite E in K. injection K as <-.
    pose proof (part_next_increases p a a' W Ha E) as [_ L2].
    apply IH; try assumption. apply (part_next_valid p a); assumption.
Qed.

(** ** AddMissingFrames *)
Definition fill1 (fs : frame_map) (a : N) : frame_map :=
  match bt_find a fs with None => bt_insert a zero_frame fs | Some _ => fs end.

Lemma fill1_find fs a k : bt_sorted fs ->
  bt_find k (fill1 fs a) =
  match bt_find k fs with Some f => Some f | None => if k =? a then Some zero_frame else None end.
Proof.
  intros S. unfold fill1. destruct (bt_find a fs) as [f|] eqn:E.
  - destruct (bt_find k fs) eqn:E2; [reflexivity|].
    destruct (N.eqb_spec k a) as [K|K]; [congruence|reflexivity].
  - rewrite bt_find_insert by assumption. rewrite E.
    destruct (N.eqb_spec k a) as [K|K].
    + rewrite K, E. reflexivity.
    + destruct (bt_find k fs); reflexivity.
Qed.

Lemma fill1_sorted fs a : bt_sorted fs -> bt_sorted (fill1 fs a).
Proof. unfold fill1. destruct (bt_find a fs); auto using bt_insert_sorted. Qed.

Lemma fold_fill_sorted l : forall fs, bt_sorted fs -> bt_sorted (fold_left fill1 l fs).
Proof. induction l; intros; cbn [fold_left]; auto using fill1_sorted. Qed.

Lemma fold_fill_find l : forall fs k, bt_sorted fs ->
  bt_find k (fold_left fill1 l fs) =
  match bt_find k fs with
  | Some f => Some f
  | None => if existsb (N.eqb k) l then Some zero_frame else None
  end.
Proof.
  induction l as [|a l IH]; intros fs k S; cbn [fold_left existsb].
  - destruct (bt_find k fs); reflexivity.
  - rewrite IH by auto using fill1_sorted. rewrite fill1_find by assumption.
    destruct (bt_find k fs); [reflexivity|]. destruct (k =? a); reflexivity.
Qed.

Lemma add_missing_S fuel p a fs :
  add_missing_from (S fuel) p a fs =
  match part_next p a with
  | None => Ok (fill1 fs a)
  | Some a' => add_missing_from fuel p a' (fill1 fs a)
  end.
Proof. reflexivity. Qed.

(** Whenever it returns, it has filled exactly the walk. *)
Lemma add_missing_walk fuel : forall p a fs fs',
  add_missing_from fuel p a fs = Ok fs' ->
  exists l, walk p a l /\ fs' = fold_left fill1 l fs /\ (length l <= fuel)%nat.
Proof.
  induction fuel as [|fuel IH]; intros p a fs fs' H; [discriminate|].
  rewrite add_missing_S in H. destruct (part_next p a) as [a'|] eqn:E.
  - apply IH in H. destruct H as (l & Hw & -> & Hl). exists (a :: l). repeat split.
    + econstructor; eassumption.
    + cbn [length]. lia.
  - injection H as <-. exists [a]. repeat split; [constructor; assumption|cbn; lia].
Qed.

Lemma walk_add_missing p a l : walk p a l -> forall fuel fs, (length l <= fuel)%nat ->
  add_missing_from fuel p a fs = Ok (fold_left fill1 l fs).
Proof.
  induction 1 as [a E|a a' l E H IH]; intros [|fuel] fs Hl; cbn [length] in Hl; try lia.
  - rewrite add_missing_S, E. reflexivity.
  - rewrite add_missing_S, E. cbn [fold_left]. apply IH. lia.
Qed.

(** It returns Ok or runs out of fuel, nothing else. *)
Lemma add_missing_outcomes fuel : forall p a fs,
  add_missing_from fuel p a fs = NoFuel \/ exists fs', add_missing_from fuel p a fs = Ok fs'.
Proof.
  induction fuel as [|fuel IH]; intros p a fs; [left; reflexivity|].
  rewrite add_missing_S. destruct (part_next p a); [apply IH|right; eexists; reflexivity].
Qed.

Lemma add_missing_spec fuel p fs fs' :
  bt_sorted fs -> add_missing_frames fuel p fs = Ok fs' ->
  exists l, walk p 0 l /\ bt_sorted fs' /\
    forall k, bt_find k fs' =
      match bt_find k fs with
      | Some f => Some f
      | None => if existsb (N.eqb k) l then Some zero_frame else None
      end.
Proof.
  intros S H. apply add_missing_walk in H. destruct H as (l & Hw & -> & _).
  exists l. repeat split; [assumption|apply fold_fill_sorted; assumption|].
  intros k. apply fold_fill_find; assumption.
Qed.

Lemma add_missing_terminates p fs : part_wf p ->
  exists fuel fs', add_missing_frames fuel p fs = Ok fs'.
Proof.
  intros W. destruct (walk_exists p W 0) as (l & Hw & _ & _); [reflexivity|].
  exists (length l), (fold_left fill1 l fs). unfold add_missing_frames.
  apply walk_add_missing; [assumption|lia].
Qed.

Lemma add_missing_fuel_mono fuel fuel' p fs fs' : (fuel <= fuel')%nat ->
  add_missing_frames fuel p fs = Ok fs' -> add_missing_frames fuel' p fs = Ok fs'.
Proof.
  intros L H. apply add_missing_walk in H. destruct H as (l & Hw & -> & Hl).
  unfold add_missing_frames. apply walk_add_missing; [assumption|lia].
Qed.

(** ** The walk of a described device *)
Lemma device_walk dp : part_fits dp -> no_holes dp -> is_frame_address dp 0 ->
  exists l, walk (part_from dp) 0 l /\ StronglySorted N.lt l /\
    forall a, In a l <-> is_frame_address dp a.
Proof.
  intros F NH A0. pose proof (part_from_wf dp F) as W.
  destruct (walk_exists (part_from dp) W 0) as (l & Hw & Hs & Hf); [reflexivity|].
  exists l. repeat split; try assumption.
  - intros Hin. pose proof (walk_valid (part_from dp) 0 l W ltac:(reflexivity) Hw) as V.
    rewrite Forall_forall in V, Hf. specialize (V a Hin). specialize (Hf a Hin).
    destruct V as [->|V]; [assumption|]. apply part_from_valid in V; [assumption|assumption|lia].
  - intros Ha. pose proof (is_frame_address_lt dp a F Ha) as La.
    eapply (walk_complete (part_from dp) 0); try eassumption.
    + apply part_from_dense; assumption.
    + reflexivity.
    + apply part_from_valid; try assumption; reflexivity.
    + apply part_from_valid; assumption.
    + lia.
Qed.

(** ** A description with more rows than the address field can hold makes the walk
    cycle: the completion never returns. *)
Definition looping_part : db_part :=
  {| dp_idcode := 0x0362D093;
     dp_bottom_rows := [];
     dp_top_rows := repeat [(BusCLBIOCLK, [1])] 33;
     dp_iobanks := [] |}.

Definition row_addr (r : N) : N := r * 2 ^ 17.

Lemma looping_next r : r < 32 ->
  part_next (part_from looping_part) (row_addr r) = Some (row_addr ((r + 1) mod 32)).
Proof.
  intros H.
  assert (A : forallb (fun n => match part_next (part_from looping_part) (row_addr (N.of_nat n)) with
                     | Some x => x =? row_addr ((N.of_nat n + 1) mod 32)
                     | None => false end) (seq 0 32) = true) by (vm_compute; reflexivity).
  rewrite forallb_forall in A. specialize (A (N.to_nat r)). rewrite N2Nat.id in A.
  assert (Hin : In (N.to_nat r) (seq 0 32)) by (apply in_seq; lia). specialize (A Hin).
  destruct (part_next _ _) as [x|]; [|discriminate]. f_equal. apply N.eqb_eq. exact A.
Qed.

Lemma looping_diverges fuel : forall r fs, r < 32 ->
  add_missing_from fuel (part_from looping_part) (row_addr r) fs = NoFuel.
Proof.
  induction fuel as [|fuel IH]; intros r fs Hr; [reflexivity|].
  rewrite add_missing_S, looping_next by assumption. apply IH. apply N.mod_lt. discriminate.
Qed.
