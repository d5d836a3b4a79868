(** Facts about Reader.v: sync word search and header skipping. *)
From Verif Require Import Base BitOps Frame Packet Writer Reader BaseFacts BitOpsFacts PacketFacts
  ContainerSpec WriterFacts.
From Coq Require Import ZifyBool ZifyN ZifyNat.

(** ** First occurrence of the sync word *)
Lemma firstn4_sync bs : firstn 4 bs = sync_bytes -> bs = sync_bytes ++ skipn 4 bs.
Proof. intros H. rewrite <- H. symmetry. apply firstn_skipn. Qed.

Lemma after_sync_some bs : forall rest, after_sync bs = Some rest ->
  exists pre, bs = pre ++ sync_bytes ++ rest /\
    forall pre' rest', bs = pre' ++ sync_bytes ++ rest' -> (length pre <= length pre')%nat.
Proof.
  induction bs as [|b bs IH]; intros rest H; [discriminate|].
  cbn [after_sync] in H. destruct (list_N_eqb (firstn 4 (b :: bs)) sync_bytes) eqn:E.
  - apply list_N_eqb_eq in E. injection H as H. exists []. split.
    + cbn [app]. rewrite <- H. apply (firstn4_sync (b :: bs)). exact E.
    + intros. cbn [length]. lia.
  - destruct (IH rest H) as (pre & -> & Hmin). exists (b :: pre). split; [reflexivity|].
    intros [|c pre'] rest' K.
    + exfalso. assert (F : firstn 4 (b :: pre ++ sync_bytes ++ rest) = sync_bytes).
      { rewrite K. reflexivity. }
      apply list_N_eqb_eq in F. congruence.
    + cbn [app] in K. injection K as _ K. cbn [length]. specialize (Hmin pre' rest' K). lia.
Qed.

Lemma after_sync_none bs : after_sync bs = None ->
  forall pre rest, bs <> pre ++ sync_bytes ++ rest.
Proof.
  induction bs as [|b bs IH]; intros H pre rest K.
  - destruct pre; discriminate.
  - cbn [after_sync] in H. destruct (list_N_eqb (firstn 4 (b :: bs)) sync_bytes) eqn:E; [discriminate|].
    destruct pre as [|c pre].
    + assert (F : firstn 4 (b :: bs) = sync_bytes) by (rewrite K; reflexivity).
      apply list_N_eqb_eq in F. congruence.
    + cbn [app] in K. injection K as _ K. exact (IH H pre rest K).
Qed.

Lemma after_sync_first pre rest :
  (forall pre' rest', pre ++ sync_bytes ++ rest = pre' ++ sync_bytes ++ rest' ->
     (length pre <= length pre')%nat) ->
  after_sync (pre ++ sync_bytes ++ rest) = Some rest.
Proof.
  intros H. destruct (after_sync (pre ++ sync_bytes ++ rest)) as [r|] eqn:E.
  - destruct (after_sync_some _ _ E) as (pre0 & K & Hmin).
    specialize (Hmin pre rest eq_refl). specialize (H pre0 r K).
    assert (L : length pre = length pre0) by lia. clear Hmin H E.
    revert pre0 K L. induction pre as [|c pre IH]; intros [|c0 pre0] K L; try discriminate.
    + cbn [app] in K. apply app_inv_head in K. congruence.
    + cbn [app] in K. injection K as _ K. apply (IH pre0 K). cbn in L. lia.
  - exfalso. exact (after_sync_none _ E pre rest eq_refl).
Qed.

(** ** Words *)
Lemma be_words_ok : forall n bs, (length bs = 4 * n)%nat -> exists ws, be_words bs = Ok ws /\ length ws = n.
Proof.
  induction n as [|n IH]; intros bs H.
  - destruct bs; [|discriminate]. exists []. auto.
  - destruct bs as [|b0 [|b1 [|b2 [|b3 bs]]]]; cbn [length] in H; try lia.
    destruct (IH bs) as (ws & E & L); [lia|]. cbn [be_words be_word obind]. rewrite E. cbn [obind].
    eexists. split; [reflexivity|]. cbn. lia.
Qed.

Lemma be_words_ub : forall n bs, (length bs < n)%nat -> (length bs mod 4 <> 0)%nat -> be_words bs = UB.
Proof.
  induction n as [|n IH]; intros bs L H; [lia|].
  destruct bs as [|b0 [|b1 [|b2 [|b3 bs]]]]; try reflexivity.
  - exfalso. apply H. reflexivity.
  - cbn [be_words be_word obind]. rewrite (IH bs).
    + reflexivity.
    + cbn [length] in L. lia.
    + intros K. apply H. cbn [length]. replace (S (S (S (S (length bs))))) with (length bs + 1 * 4)%nat by lia.
      rewrite Nat.mod_add by lia. exact K.
Qed.

(** ** Skipping the container header *)
Lemma sync_skip b l : b <> 0xAA -> after_sync (b :: l) = after_sync l.
Proof.
  intros H. cbn [after_sync]. destruct (list_N_eqb (firstn 4 (b :: l)) sync_bytes) eqn:E; [|reflexivity].
  apply list_N_eqb_eq in E. exfalso. apply H.
  destruct l as [|l1 [|l2 [|l3 l]]]; cbn in E; try discriminate. injection E. auto.
Qed.

Lemma sync_skip2 b c l : c <> 0x99 -> after_sync (b :: c :: l) = after_sync (c :: l).
Proof.
  intros H. remember (c :: l) as k. cbn [after_sync].
  destruct (list_N_eqb (firstn 4 (b :: k)) sync_bytes) eqn:E; [|reflexivity].
  apply list_N_eqb_eq in E. exfalso. apply H. subst k.
  destruct l as [|l1 [|l2 l]]; cbn in E; try discriminate. injection E. auto.
Qed.

Lemma sync_skip_list q l : Forall (fun b => b <> 0xAA) q -> after_sync (q ++ l) = after_sync l.
Proof.
  induction 1 as [|b q Hb Hq IH]; [reflexivity|]. cbn [app]. rewrite sync_skip by assumption. exact IH.
Qed.

Definition ascii_text (t : text) : Prop := Forall (fun c => N_of_ascii c < 128) t.

Lemma ascii_bytes t : ascii_text t -> Forall (fun b => b < 128) (bytes_of_text t).
Proof. unfold ascii_text, bytes_of_text. induction 1; cbn; constructor; assumption. Qed.

Lemma sync_skip_field t l : ascii_text t -> len_N t + 1 < 0xAA00 ->
  after_sync (field t ++ l) = after_sync l.
Proof.
  intros Ha Hl. unfold field, be16. rewrite <- !app_assoc. cbn [app].
  apply ascii_bytes in Ha.
  rewrite sync_skip.
  2:{ intros K. pose proof (N.div_lt_upper_bound (len_N t + 1) 256 0xAA). lia. }
  destruct (bytes_of_text t) as [|b bs].
  - cbn [app]. rewrite sync_skip2 by discriminate. apply sync_skip. discriminate.
  - cbn [app]. inversion Ha as [|? ? Hb Hbs]; subst. rewrite sync_skip2 by lia.
    change (b :: bs ++ 0 :: l) with ((b :: bs) ++ (0 :: l)).
    rewrite sync_skip_list.
    + apply sync_skip. discriminate.
    + eapply Forall_impl; [|exact Ha]. cbn. intros. lia.
Qed.

Lemma sync_skip_length n l : n < 2 ^ 30 -> after_sync (be32 (4 * n) ++ 0xFF :: l) = after_sync l.
Proof.
  intros H. unfold be32. cbn [app].
  assert (E : (4 * n) mod 256 = 4 * (n mod 64)).
  { change 256 with (4 * 64). apply N.mul_mod_distr_l; discriminate. }
  set (b0 := (4 * n) mod 256) in *.
  assert (B : b0 <> 0xAA /\ b0 <> 0x99 /\ b0 <> 0x55 /\ b0 <> 0x66) by lia.
  clearbody b0. clear E. destruct B as (B1 & B2 & B3 & B4).
  set (b3 := 4 * n / 2 ^ 24). set (b2 := 4 * n / 2 ^ 16 mod 256). set (b1 := 4 * n / 2 ^ 8 mod 256).
  clearbody b1 b2 b3.
  assert (S3 : after_sync (b3 :: b2 :: b1 :: b0 :: 0xFF :: l) = after_sync (b2 :: b1 :: b0 :: 0xFF :: l)).
  { remember (b2 :: b1 :: b0 :: 255 :: l) as k. cbn [after_sync].
    destruct (list_N_eqb (firstn 4 (b3 :: k)) sync_bytes) eqn:E; [|reflexivity].
    apply list_N_eqb_eq in E. subst k. cbn [firstn sync_bytes] in E. injection E. intros. congruence. }
  assert (S2 : after_sync (b2 :: b1 :: b0 :: 0xFF :: l) = after_sync (b1 :: b0 :: 0xFF :: l)).
  { remember (b1 :: b0 :: 255 :: l) as k. cbn [after_sync].
    destruct (list_N_eqb (firstn 4 (b2 :: k)) sync_bytes) eqn:E; [|reflexivity].
    apply list_N_eqb_eq in E. subst k. cbn [firstn sync_bytes] in E. injection E. intros. congruence. }
  rewrite S3, S2. rewrite sync_skip2 by assumption. rewrite sync_skip by assumption.
  apply sync_skip. discriminate.
Qed.

Lemma flat_be32_sync ws : flat_map be32 (sync_preamble ++ ws) =
  0xFF :: (repeat 0xFF 31 ++ [0; 0; 0; 0xBB; 0x11; 0x22; 0x00; 0x44] ++ repeat 0xFF 8)
  ++ sync_bytes ++ flat_map be32 ws.
Proof. rewrite flat_map_app. reflexivity. Qed.

Lemma bit_file_after_sync source gen part date time ws :
  ascii_text (source ++ tx ";Generator=" ++ gen) -> ascii_text part -> ascii_text date ->
  ascii_text time ->
  len_N (source ++ tx ";Generator=" ++ gen) + 1 < 0xAA00 -> len_N part + 1 < 0xAA00 ->
  len_N date + 1 < 0xAA00 -> len_N time + 1 < 0xAA00 ->
  13 + len_N ws < 2 ^ 30 ->
  after_sync (bit_file source gen part date time (sync_preamble ++ ws)) = Some (flat_map be32 ws).
Proof.
  intros A1 A2 A3 A4 L1 L2 L3 L4 Hn. unfold bit_file, bit_header. rewrite <- !app_assoc.
  rewrite sync_skip_list by (repeat constructor; discriminate).
  change ([97] ++ ?l) with (97 :: l). rewrite sync_skip by discriminate.
  rewrite sync_skip_field by assumption.
  change ([98] ++ ?l) with (98 :: l). rewrite sync_skip by discriminate.
  rewrite sync_skip_field by assumption.
  change ([99] ++ ?l) with (99 :: l). rewrite sync_skip by discriminate.
  rewrite sync_skip_field by assumption.
  change ([100] ++ ?l) with (100 :: l). rewrite sync_skip by discriminate.
  rewrite sync_skip_field by assumption.
  change ([101] ++ ?l) with (101 :: l). rewrite sync_skip by discriminate.
  rewrite flat_be32_sync.
  assert (Hl : len_N (sync_preamble ++ ws) = 13 + len_N ws).
  { unfold len_N. rewrite app_length. cbn [length sync_preamble app repeat]. lia. }
  rewrite sync_skip_length by lia.
  rewrite sync_skip_list by (cbn [app repeat]; repeat constructor; discriminate).
  reflexivity.
Qed.

Lemma be_words_be32 ws : Forall (fun w => w < 2 ^ 32) ws -> be_words (flat_map be32 ws) = Ok ws.
Proof. intros H. rewrite <- flat_be32 by assumption. apply be_words_bytes. assumption. Qed.

(** The words read back from a container file. *)
Lemma bit_file_words source gen part date time ws :
  ascii_text (source ++ tx ";Generator=" ++ gen) -> ascii_text part -> ascii_text date ->
  ascii_text time ->
  len_N (source ++ tx ";Generator=" ++ gen) + 1 < 0xAA00 -> len_N part + 1 < 0xAA00 ->
  len_N date + 1 < 0xAA00 -> len_N time + 1 < 0xAA00 ->
  13 + len_N ws < 2 ^ 30 -> Forall (fun w => w < 2 ^ 32) ws ->
  init_with_bytes (bit_file source gen part date time (sync_preamble ++ ws)) = Ok (Some ws).
Proof.
  intros. unfold init_with_bytes. rewrite bit_file_after_sync by assumption.
  rewrite be_words_be32 by assumption. reflexivity.
Qed.
