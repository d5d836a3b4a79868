(** Facts about Database.config_bits and Assembler.process_features. *)
From Verif Require Import Base BaseFacts Absl Part Frame EccFacts Fasm DbText DbJson Database
  Assembler EncodeSpec AsmSpec MapFacts.
From Coq Require Import ZifyBool ZifyN ZifyNat.

Local Notation "x <- e ;; f" := (obind e (fun x => f))
  (at level 61, e at next level, right associativity).

(** ** Frame sets *)
Definition wf_frames (fr : asm_frames) : Prop :=
  bt_sorted fr /\ Forall (fun kv => is_frame_content (snd kv)) fr.

Lemma wf_nil : wf_frames [].
Proof. split; constructor. Qed.

Lemma wf_find fr a f : wf_frames fr -> bt_find a fr = Some f -> is_frame_content f.
Proof.
  intros [_ H] E. apply bt_find_In in E. rewrite Forall_forall in H. apply (H _ E).
Qed.

Lemma present_find fr a : wf_frames fr -> present fr a <-> exists f, bt_find a fr = Some f.
Proof.
  intros [H _]. split; intros (f & E); exists f.
  - now apply bt_In_find.
  - now apply bt_find_In.
Qed.
Lemma absent_find fr a : wf_frames fr -> ~ present fr a <-> bt_find a fr = None.
Proof.
  intros H. rewrite present_find by exact H. destruct (bt_find a fr) as [f|].
  - split; [intros N; exfalso; apply N; eauto|discriminate].
  - split; [reflexivity|]. intros _ (f & E). discriminate.
Qed.

Lemma word_ext x y : x < 2 ^ 32 -> y < 2 ^ 32 ->
  (forall i, i < 32 -> N.testbit x i = N.testbit y i) -> x = y.
Proof.
  intros Hx Hy H. apply N.bits_inj. intros i. destruct (N.lt_ge_cases i 32) as [L|L]; [auto|].
  rewrite <- (N.mod_small x (2 ^ 32)), <- (N.mod_small y (2 ^ 32)) by assumption.
  rewrite !N.mod_pow2_bits_high by exact L. reflexivity.
Qed.

Lemma frames_ext fr fr' : wf_frames fr -> wf_frames fr' ->
  (forall a, present fr a <-> present fr' a) ->
  (forall a w i, w < 101 -> i < 32 -> bit_at fr a w i = bit_at fr' a w i) ->
  fr = fr'.
Proof.
  intros W W' P B. apply bt_ext; [apply W|apply W'|]. intros a.
  specialize (P a). rewrite !present_find in P by assumption.
  specialize (B a). unfold bit_at in B.
  destruct (bt_find a fr) as [f|] eqn:E; destruct (bt_find a fr') as [f'|] eqn:E'.
  - f_equal. apply wf_find in E; [|exact W]. apply wf_find in E'; [|exact W'].
    destruct E as [L F]. destruct E' as [L' F'].
    apply nth_ext_N; [congruence|]. intros k. destruct (Nat.lt_ge_cases k 101) as [K|K].
    + apply word_ext.
      * rewrite Forall_forall in F. apply F. apply nth_In. now rewrite L.
      * rewrite Forall_forall in F'. apply F'. apply nth_In. now rewrite L'.
      * intros i Hi. specialize (B (N.of_nat k) i). rewrite Nat2N.id in B. apply B; lia.
    + rewrite !nth_overflow by (first [rewrite L|rewrite L']; exact K). reflexivity.
  - destruct P as [P _]. destruct P as (? & X); [eauto|discriminate].
  - destruct P as [_ P]. destruct P as (? & X); [eauto|discriminate].
  - reflexivity.
Qed.

Lemma zero_frame_content : is_frame_content zero_frame.
Proof.
  split; [apply repeat_length|]. apply Forall_forall. intros x I. apply repeat_spec in I.
  subst. reflexivity.
Qed.
Lemma zero_frame_nth k : nth k zero_frame 0 = 0.
Proof.
  unfold zero_frame. revert k. induction kWordsPerFrame as [|n IH]; intros [|k]; cbn; auto.
Qed.

Lemma Forall_bt_insert {A} (P : A -> Prop) k v (m : btmap A) :
  P v -> Forall (fun kv => P (snd kv)) m -> Forall (fun kv => P (snd kv)) (bt_insert k v m).
Proof.
  intros Hv. induction m as [|[k' v'] m IH]; cbn [bt_insert]; intros H.
  - now repeat constructor.
  - destruct (k <? k'); [now constructor|]. destruct (k =? k'); [exact H|].
    inversion H; subst. constructor; auto.
Qed.
Lemma Forall_bt_set {A} (P : A -> Prop) k v (m : btmap A) :
  P v -> Forall (fun kv => P (snd kv)) m -> Forall (fun kv => P (snd kv)) (bt_set k v m).
Proof.
  intros Hv. induction m as [|[k' v'] m IH]; cbn [bt_set]; intros H.
  - now repeat constructor.
  - destruct (k <? k'); [now constructor|]. inversion H; subst.
    destruct (k =? k'); constructor; auto.
Qed.

Lemma wf_insert a fr : wf_frames fr -> wf_frames (bt_insert a zero_frame fr).
Proof.
  intros [S F]. split; [now apply bt_insert_sorted|].
  apply Forall_bt_insert; [apply zero_frame_content|exact F].
Qed.
Lemma present_insert a fr x : wf_frames fr ->
  present (bt_insert a zero_frame fr) x <-> present fr x \/ x = a.
Proof.
  intros W. rewrite !present_find by (auto using wf_insert).
  rewrite bt_find_insert by apply W. destruct (N.eqb_spec x a) as [->|N].
  - split; [auto|]. intros _. destruct (bt_find a fr); eauto.
  - intuition.
Qed.
Lemma bit_insert a fr x w i : wf_frames fr ->
  bit_at (bt_insert a zero_frame fr) x w i = bit_at fr x w i.
Proof.
  intros W. unfold bit_at. rewrite bt_find_insert by apply W.
  destruct (N.eqb_spec x a) as [->|N]; [|reflexivity].
  destruct (bt_find a fr); [reflexivity|]. rewrite zero_frame_nth. apply N.bits_0.
Qed.

(** ** The bit setter *)
Definition call : Type := (bus_type * N * N * N * bool)%type.
Definition do_call {S} (setter : S -> bus_type -> N -> N -> N -> bool -> outcome S) (s : S) (c : call)
  : outcome S :=
  let '(bus, a, w, i, v) := c in setter s bus a w i v.
Definition call_bus (c : call) : bus_type := let '(bus, a, w, i, v) := c in bus.
Definition call_addr (c : call) : N := let '(bus, a, w, i, v) := c in a.
Definition call_word (c : call) : N := let '(bus, a, w, i, v) := c in w.
Definition call_index (c : call) : N := let '(bus, a, w, i, v) := c in i.
Definition call_value (c : call) : bool := let '(bus, a, w, i, v) := c in v.
Definition in_range (c : call) : Prop := call_value c = true -> call_word c < 101.
Definition small_index (c : call) : Prop := call_index c < 32.

Definition sets (c : call) (a w i : N) : Prop :=
  call_value c = true /\ call_addr c = a /\ call_word c = w /\ call_index c = i.

Lemma testbit_lor_shift x j i : N.testbit (N.lor x (N.shiftl 1 j)) i = N.testbit x i || (i =? j).
Proof.
  rewrite N.lor_spec. f_equal. rewrite N.shiftl_1_l. rewrite N.pow2_bits_eqb. apply N.eqb_sym.
Qed.

Lemma lor_shift_lt x j : x < 2 ^ 32 -> j < 32 -> N.lor x (N.shiftl 1 j) < 2 ^ 32.
Proof.
  intros Hx Hj.
  assert (E : N.lor x (N.shiftl 1 j) = (N.lor x (N.shiftl 1 j)) mod 2 ^ 32).
  { apply N.bits_inj. intros i. destruct (N.lt_ge_cases i 32) as [L|L].
    - rewrite N.mod_pow2_bits_low by exact L. reflexivity.
    - rewrite N.mod_pow2_bits_high by exact L. rewrite testbit_lor_shift.
      rewrite <- (N.mod_small x (2 ^ 32)) by exact Hx. rewrite N.mod_pow2_bits_high by exact L.
      apply N.eqb_neq. lia. }
  rewrite E. apply N.mod_lt. discriminate.
Qed.

(** One call: what it does. *)
Lemma set_frame_bit_ok fr used c : wf_frames fr -> small_index c ->
  (in_range c ->
   exists fr', do_call set_frame_bit (fr, used) c = Ok (fr', hs_insert bus_eqb (call_bus c) used)
     /\ wf_frames fr'
     /\ (forall x, present fr' x <-> present fr x \/ x = call_addr c)
     /\ (forall x w i, w < 101 ->
           bit_at fr' x w i = true <-> bit_at fr x w i = true \/ sets c x w i)) /\
  (~ in_range c -> do_call set_frame_bit (fr, used) c = UB).
Proof.
  destruct c as [[[[bus a] w] i] v]. intros W Hi. unfold small_index in Hi.
  unfold in_range, sets. cbn [do_call call_bus call_addr call_word call_index call_value] in *.
  unfold set_frame_bit. destruct v.
  2:{ split; [|intros N; exfalso; apply N; discriminate]. intros _.
      exists (bt_insert a zero_frame fr). split; [reflexivity|]. split; [now apply wf_insert|].
      split; [intros x; now apply present_insert|]. intros x w' i' _. rewrite bit_insert by exact W.
      intuition discriminate. }
  pose proof (wf_insert a fr W) as W1. pose proof (fun x => present_insert a fr x W) as P1.
  pose proof (fun x w' i' => bit_insert a fr x w' i' W) as B1.
  assert (E1 : exists f, bt_find a (bt_insert a zero_frame fr) = Some f).
  { apply present_find; [exact W1|]. apply P1. now right. }
  destruct E1 as (f & E1). set (fr1 := bt_insert a zero_frame fr) in *. rewrite E1.
  destruct (N.ltb_spec w 101) as [L|L].
  2:{ split; [intros H; specialize (H eq_refl); lia|reflexivity]. }
  split; [|intros N; exfalso; apply N; auto]. intros _.
  set (f' := list_update (N.to_nat w) _ f).
  destruct (wf_find _ _ _ W1 E1) as [FL FF].
  assert (F' : is_frame_content f').
  { split; [unfold f'; now rewrite list_update_length|].
    apply Forall_forall. intros x I. apply In_nth with (d := 0) in I. destruct I as (k & K & <-).
    unfold f' in *. rewrite list_update_length in K. rewrite list_update_nth.
    assert (X : nth k f 0 < 2 ^ 32) by (rewrite Forall_forall in FF; apply FF; now apply nth_In).
    destruct (_ && _); [now apply lor_shift_lt|exact X]. }
  assert (W' : wf_frames (bt_set a f' fr1)).
  { destruct W1 as [S1 F1]. split; [now apply bt_set_sorted|]. now apply Forall_bt_set. }
  exists (bt_set a f' fr1). split; [reflexivity|]. split; [exact W'|]. split.
  - intros x. rewrite present_find by exact W'. rewrite bt_find_set by apply W1.
    destruct (N.eqb_spec x a) as [->|N].
    + split; [auto|eauto].
    + rewrite <- P1. symmetry. now apply present_find.
  - intros x w' i' Hw'. rewrite <- B1. unfold bit_at. rewrite bt_find_set by apply W1.
    destruct (N.eqb_spec x a) as [->|N].
    + rewrite E1. unfold f'. rewrite list_update_nth.
      destruct (Nat.eqb_spec (N.to_nat w) (N.to_nat w')) as [E|E].
      * apply N2Nat.inj in E. subst w'.
        replace (Nat.ltb (N.to_nat w) (List.length f)) with true by (rewrite FL; lia).
        cbn [andb]. rewrite testbit_lor_shift, orb_true_iff, N.eqb_eq. intuition.
      * cbn [andb]. split; [auto|]. intros [H|(_ & _ & H & _)]; [exact H|]. now subst.
    + split; [auto|]. intros [H|(_ & H & _)]; [exact H|]. congruence.
Qed.

(** All the calls of one lookup. *)
Lemma set_calls_ok l : forall fr used, wf_frames fr -> Forall small_index l -> Forall in_range l ->
  exists fr' used', ofold (do_call set_frame_bit) l (fr, used) = Ok (fr', used')
    /\ wf_frames fr'
    /\ (forall x, present fr' x <-> present fr x \/ exists c, In c l /\ x = call_addr c)
    /\ (forall x w i, w < 101 ->
          bit_at fr' x w i = true <-> bit_at fr x w i = true \/ exists c, In c l /\ sets c x w i)
    /\ (forall b, In b used' <-> In b used \/ exists c, In c l /\ b = call_bus c).
Proof.
  induction l as [|c l IH]; intros fr used W Hs Hr; cbn [ofold].
  - exists fr, used. split; [reflexivity|]. split; [exact W|].
    split; [|split]; intros; (split; [now left|]); (intros [H'|(c & I & _)]; [exact H'|destruct I]).
  - inversion Hs; subst. inversion Hr; subst.
    destruct (set_frame_bit_ok fr used c W) as [H _]; [assumption|].
    destruct H as (fr1 & E1 & W1 & P1 & B1); [assumption|]. rewrite E1. cbn [obind].
    destruct (IH fr1 (hs_insert bus_eqb (call_bus c) used) W1) as (fr' & used' & E & W' & P & B & U);
      [assumption|assumption|].
    exists fr', used'. split; [exact E|]. split; [exact W'|]. split; [|split].
    + intros x. rewrite P, P1. split.
      * intros [[X|X]|(c' & I & X)]; eauto 6 using in_eq, in_cons.
      * intros [X|(c' & [<-|I] & X)]; eauto 6.
    + intros x w i Hw. rewrite B, B1 by exact Hw. split.
      * intros [[X|X]|(c' & I & X)]; eauto 6 using in_eq, in_cons.
      * intros [X|(c' & [<-|I] & X)]; eauto 6.
    + intros b. rewrite U, hs_insert_In by apply bus_eqb_eq. split.
      * intros [[X|X]|(c' & I & X)]; eauto 6 using in_eq, in_cons.
      * intros [X|(c' & [<-|I] & X)]; eauto 6.
Qed.

Lemma set_calls_ub l : forall fr used, wf_frames fr -> Forall small_index l -> ~ Forall in_range l ->
  ofold (do_call set_frame_bit) l (fr, used) = UB.
Proof.
  induction l as [|c l IH]; intros fr used W Hs Hr; cbn [ofold].
  - exfalso. apply Hr. constructor.
  - inversion Hs; subst.
    destruct (set_frame_bit_ok fr used c W) as [Hok Hub]; [assumption|].
    assert (D : in_range c \/ ~ in_range c).
    { unfold in_range. destruct (call_value c); [|left; discriminate].
      destruct (N.lt_ge_cases (call_word c) 101); [left; auto|right; intros X; specialize (X eq_refl); lia]. }
    destruct D as [D|D].
    + destruct (Hok D) as (fr1 & E1 & W1 & _). rewrite E1. cbn [obind]. apply IH; auto.
    + rewrite (Hub D). reflexivity.
Qed.
