(** Facts about FpgaSpec.v: a device reads a whole file, or part of it. *)
From Verif Require Import Base BaseFacts ContainerSpec ConfigSpec Reader ReaderFacts PlaceFacts FpgaSpec FpgaFacts FpgaFacts2.
From Coq Require Import Lia ZifyBool ZifyN ZifyNat.

Definition program_words (idcode : N) (data : list N) : list N :=
  words_head idcode (N.of_nat (List.length data)) ++ data ++ flat_map item_words tail_items.
Lemma program_split idcode data : series7_words idcode data = program_words idcode data ++ nops 400.
Proof.
  pose proof (words_split idcode data) as E. rewrite <- app_assoc in E. apply app_inv_head in E. rewrite E, words_tail_items. unfold program_words.
  rewrite <- !app_assoc. reflexivity.
Qed.

Definition configured (c : N) (mm : N -> list N) (d : device) : device :=
  set_running true (set_awake false (set_last_register 4 (set_command 13 (set_checksum c (set_ctl0 (masked (masked (ctl0 d) 0x401 0x501) 0x501 0x501) (set_mask 0x501 (set_far (Some 0x3be0000)
      (set_pad 0 (set_frame_buffer [] (set_start true (set_interconnect true
        (set_memory mm (set_ctl1 (masked (ctl1 d) 0 0) (set_cor0 0x02003fe5 (set_id_ok true d))))))))))))))).

Lemma program_run dk idcode data d l : fresh d -> idcode mod 2 ^ 28 = dk_idcode dk mod 2 ^ 28 ->
  dk_frames dk = 0 :: l -> StronglySorted N.lt (0 :: l) -> List.length data = room (0 :: l) -> N.of_nat (List.length data) < 2 ^ 27 ->
  (exists c mm, run dk (program_words idcode data) d = configured c mm d /\ forall a, mm a = written (chunks (0 :: l) data) (memory d) a) /\
  along dk (loading (chunks (0 :: l) data) (memory d)) (program_words idcode data) d.
Proof.
  intros F E Fr S L L27. set (FS := chunks (0 :: l) data).
  assert (Q0 : forall m d', quiet m d' -> forall k, (forall a, m a = written (firstn k FS) (memory d) a) -> loading FS (memory d) d').
  { intros m d' (U & R & M) k H. split; [exact U|]. split; [exact R|]. exists k. intros a. rewrite M. apply H. }
  destruct (head_run dk idcode (N.of_nat (List.length data)) d F E) as (c1 & R1 & A1); [rewrite L; cbn [room]; lia|exact L27|].
  pose proof F as F0. destruct F as (U & P & I1 & I2 & I3 & I4 & I5). set (d1 := set_packet _ _) in R1.
  destruct (take dk FS (memory d) 0 ltac:(rewrite Fr; exact S) (0 :: l) [] [] data d1 Fr eq_refl L eq_refl eq_refl eq_refl eq_refl eq_refl I2 U I5) as [(c2 & mm & R2 & M2) A2].
  { unfold d1. cbn [packet set_packet]. rewrite N.add_0_r. unfold pk. replace (N.of_nat (List.length data) =? 0) with false; [reflexivity|].
    symmetry. apply N.eqb_neq. rewrite L. cbn [room]. lia. }
  { reflexivity. }
  set (d2 := set_memory _ _) in R2. change (pk 0) with (@None (N * N)) in d2.
  destruct (tail_run dk d2 U eq_refl I5 eq_refl I2) as (c3 & R3 & A3).
  unfold program_words. split.
  - exists c3, mm. split; [|exact M2]. rewrite !run_app, R1, R2, R3. unfold d2, d1, configured. clear - P. destruct d as [v1 v2 v3 v4 v5 v6 v7 v8 v9 v10 v11 v12 v13 v14 v15 v16 v17 v18 v19].
    cbn [packet] in P. rewrite P. reflexivity.
  - apply along_app. split.
    + eapply along_impl; [|exact A1]. intros d' H. apply (Q0 _ _ H 0%nat). reflexivity.
    + rewrite R1. apply along_app. split; [exact A2|]. rewrite R2. eapply along_impl; [|exact A3]. intros d' H. apply (Q0 _ _ H (List.length FS)).
      intros a. rewrite firstn_all. apply M2.
Qed.

(** ** The bytes *)
Definition data_file (idcode : N) (date time : text) (data : list N) : list N :=
  bit_file (tx "fpga-source") (tx "fpga-assembler") (tx "fasm") date time (sync_preamble ++ series7_words idcode data).
Definition stamp (t : text) : Prop := ascii_text t /\ len_N t + 1 < 0xAA00.

Lemma nops_bytes n : Forall (fun b => b <> 0xAA) (flat_map be32 (nops n)).
Proof.
  induction n as [|n IH]; [constructor|]. change (flat_map be32 (nops (S n))) with (be32 0x20000000 ++ flat_map be32 (nops n)).
  apply Forall_app. split; [|exact IH]. set (b := be32 _). vm_compute in b. subst b. repeat constructor; discriminate.
Qed.
Lemma wakes idcode date time data : stamp date -> stamp time -> N.of_nat (List.length data) < 2 ^ 27 ->
  exists pre, data_file idcode date time data = pre ++ synchronisation ++ flat_map be32 (series7_words idcode data) /\
    ~ has_sync (pre ++ [0xAA; 0x99; 0x55]).
Proof.
  intros [Ad Ld] [At Lt] L.
  assert (X : after_sync (data_file idcode date time data) = Some (flat_map be32 (series7_words idcode data))).
  { unfold data_file. apply bit_file_after_sync; try assumption; try (repeat constructor); try reflexivity.
    pose proof (words_split idcode data) as W. apply (f_equal (@List.length N)) in W. rewrite !app_length in W.
    pose proof (words_head_len idcode (N.of_nat (List.length data))) as Wh. rewrite app_length in Wh. rewrite words_tail_len in W. unfold len_N.
    change (2 ^ 27) with 134217728 in L. change (2 ^ 30) with 1073741824. clear Ad At. lia. }
  apply after_sync_some in X as (pre & E & Min). exists pre. split; [exact E|]. intros (p & r & H).
  assert (Lp : (List.length p < List.length pre)%nat).
  { apply (f_equal (@List.length N)) in H. rewrite !app_length in H. cbn [List.length synchronisation] in H. lia. }
  assert (G : (List.length pre <= List.length p)%nat).
  { apply (Min p (r ++ [0x66] ++ flat_map be32 (series7_words idcode data))). rewrite E.
    change (sync_bytes ++ ?x) with ([170; 153; 85] ++ [0x66] ++ x). rewrite (app_assoc pre), H, <- !app_assoc. reflexivity. }
  lia.
Qed.
Lemma no_sync_prefix h n : ~ has_sync h -> ~ has_sync (firstn n h).
Proof.
  intros H (p & r & E). apply H. exists p, (r ++ skipn n h). rewrite <- (firstn_skipn n h) at 1. rewrite E, <- !app_assoc. reflexivity.
Qed.

Section File.
  Context (dk : device_kind) (idcode : N) (date time : text) (data : list N) (l : list N) (d : device).
  Hypothesis Hd : stamp date.
  Hypothesis Ht : stamp time.
  Hypothesis Hid : idcode < 2 ^ 32.
  Hypothesis Hw : Forall (fun w => w < 2 ^ 32) data.
  Hypothesis Hl : N.of_nat (List.length data) < 2 ^ 27.
  Hypothesis B : blank d.

  Lemma program_ok : Forall (fun w => w < 2 ^ 32) (program_words idcode data).
  Proof.
    unfold program_words. apply Forall_app. split; [|apply Forall_app; split; [exact Hw|]].
    - rewrite words_head_items. apply Forall_app. split; [|apply Forall_app; split].
      + unfold head_items1. cbn [flat_map item_words app nops repeat]. repeat (constructor; [first [exact Hid|reflexivity]|]). constructor.
      + repeat constructor.
      + constructor; [reflexivity|]. constructor; [|constructor]. clear - Hl. change (2 ^ 27) with 134217728 in Hl. change (2 ^ 32) with 4294967296. lia.
    - apply Forall_forall. intros w I. assert (X : forallb (fun w => w <? 2 ^ 32) (flat_map item_words tail_items) = true) by (vm_compute; reflexivity).
      rewrite forallb_forall in X. apply N.ltb_lt. now apply X.
  Qed.

  (** What holds at every point of the words holds at every point of the file. *)
  Lemma file_prefix (Q : device -> Prop) n :
    (forall d' r, Q d' -> Q (set_recent r d')) -> Q d ->
    along dk (fun d' => up d' /\ Q d') (program_words idcode data) (wake d) ->
    awake (run dk (program_words idcode data) (wake d)) = false -> recent (run dk (program_words idcode data) (wake d)) = [] ->
    Q (receive dk (firstn n (data_file idcode date time data)) d) \/
    exists r, receive dk (firstn n (data_file idcode date time data)) d = set_recent r (run dk (program_words idcode data) (wake d)).
  Proof.
    intros Qr Qd Al Aw Rc. destruct (wakes idcode date time data Hd Ht Hl) as (pre & E & NS). destruct B as (R & As & _).
    rewrite E, program_split, flat_map_app. set (W := program_words idcode data) in *.
    rewrite app_assoc. destruct (Nat.lt_ge_cases n (List.length (pre ++ synchronisation))) as [C|C].
    - left. assert (X : firstn n ((pre ++ synchronisation) ++ flat_map be32 W ++ flat_map be32 (nops 400)) = firstn n (pre ++ [0xAA; 0x99; 0x55])).
      { rewrite firstn_app. replace (n - List.length (pre ++ synchronisation))%nat with 0%nat by lia. cbn [firstn]. rewrite app_nil_r.
        change synchronisation with ([0xAA; 0x99; 0x55] ++ [0x66]). rewrite app_assoc, firstn_app.
        assert (Z : (n - List.length (pre ++ [170; 153; 85]%N) = 0)%nat) by (rewrite app_length in *; cbn [List.length synchronisation] in *; lia).
        rewrite Z. cbn [firstn]. apply app_nil_r. }
      rewrite X. rewrite (asleep dk _ d []); [apply Qr; exact Qd|exact As|now rewrite R|]. cbn [app]. now apply no_sync_prefix.
    - rewrite firstn_app, firstn_all2 by exact C. rewrite receive_app, waking by assumption.
      set (k := (n - List.length (pre ++ synchronisation))%nat). clearbody k. clear C n NS E R As.
      destruct (Nat.lt_ge_cases k (List.length (flat_map be32 W))) as [C|C].
      + left. rewrite firstn_app. replace (k - List.length (flat_map be32 W))%nat with 0%nat by lia. cbn [firstn]. rewrite app_nil_r.
        rewrite words_length in C. destruct (cut_words W k) as (m & r & M & Lr & Ek & X); [lia|]. rewrite X, receive_app.
        assert (Am : along dk (fun d' => up d' /\ Q d') (firstn m W) (wake d)).
        { rewrite <- (firstn_skipn m W) in Al. apply along_app in Al as [Al _]. exact Al. }
        rewrite receive_words.
        * destruct (along_at dk _ W (wake d) m Al) as [[U1 U2] Hq]; [lia|]. rewrite receive_part by assumption. now apply Qr.
        * apply Forall_forall. intros w I. pose proof program_ok as PO. fold W in PO. rewrite <- (firstn_skipn m W) in PO. apply Forall_app in PO as [PO _]. rewrite Forall_forall in PO. now apply PO.
        * eapply along_impl; [|exact Am]. intros d' [U _]. exact U.
      + right. rewrite firstn_app, firstn_all2 by exact C. rewrite receive_app.
        rewrite receive_words; [|exact program_ok|eapply along_impl; [|exact Al]; intros d' [U _]; exact U].
        set (j := (k - List.length (flat_map be32 W))%nat). eexists. rewrite (asleep dk _ (run dk W (wake d)) []); [reflexivity|exact Aw|now rewrite Rc|].
        cbn [app]. apply no_sync_prefix, no_sync_high, nops_bytes.
  Qed.
  Lemma file_whole : along dk up (program_words idcode data) (wake d) ->
    awake (run dk (program_words idcode data) (wake d)) = false -> recent (run dk (program_words idcode data) (wake d)) = [] ->
    exists r, receive dk (data_file idcode date time data) d = set_recent r (run dk (program_words idcode data) (wake d)).
  Proof.
    intros Al Aw Rc. destruct (wakes idcode date time data Hd Ht Hl) as (pre & E & NS). destruct B as (R & As & _).
    rewrite E, program_split, flat_map_app. set (W := program_words idcode data) in *. rewrite app_assoc, receive_app, waking by assumption. rewrite receive_app.
    rewrite (receive_words dk W); [|exact program_ok|exact Al]. eexists. rewrite (asleep dk _ (run dk W (wake d)) []); [reflexivity|exact Aw|now rewrite Rc|].
    cbn [app]. apply no_sync_high, nops_bytes.
  Qed.

  Hypothesis Fr : dk_frames dk = 0 :: l.
  Hypothesis S : StronglySorted N.lt (0 :: l).
  Hypothesis Ld : List.length data = room (0 :: l).

  (** The device of the file. *)
  Hypothesis Same : idcode mod 2 ^ 28 = dk_idcode dk mod 2 ^ 28.
  Lemma device_whole : exists r c mm, receive dk (data_file idcode date time data) d = set_recent r (configured c mm (wake d)) /\
    forall a, mm a = written (chunks (0 :: l) data) (memory d) a.
  Proof.
    destruct (program_run dk idcode data (wake d) l (wake_fresh d B) Same Fr S Ld Hl) as [(c & mm & R & M) Al].
    destruct file_whole as (r & E).
    - eapply along_impl; [|exact Al]. intros d' [U _]. exact U.
    - rewrite R. reflexivity.
    - rewrite R. reflexivity.
    - exists r, c, mm. rewrite E, R. split; [reflexivity|exact M].
  Qed.
  Lemma device_prefix n : 
    (running (receive dk (firstn n (data_file idcode date time data)) d) = false /\
     exists k, forall a, memory (receive dk (firstn n (data_file idcode date time data)) d) a = written (firstn k (chunks (0 :: l) data)) (memory d) a) \/
    forall a, memory (receive dk (firstn n (data_file idcode date time data)) d) a = written (chunks (0 :: l) data) (memory d) a.
  Proof.
    destruct (program_run dk idcode data (wake d) l (wake_fresh d B) Same Fr S Ld Hl) as [(c & mm & R & M) Al].
    destruct (file_prefix (fun d' => running d' = false /\ exists k, forall a, memory d' a = written (firstn k (chunks (0 :: l) data)) (memory d) a) n) as [H|(r & E)].
    - intros d' r H. exact H.
    - destruct B as (_ & _ & _ & _ & _ & _ & Rn). split; [exact Rn|]. exists 0%nat. reflexivity.
    - eapply along_impl; [|exact Al]. intros d' (U & Rn & K). auto.
    - rewrite R. reflexivity.
    - rewrite R. reflexivity.
    - left. exact H.
    - right. intros a. rewrite E, R. apply M.
  Qed.
End File.

(** ** After a failure *)
Definition stuck (m : N -> list N) (d : device) : Prop := failed d = true /\ running d = false /\ memory d = m.
Lemma stuck_execute m c d : stuck m d -> stuck m (execute c d).
Proof.
  intros (F & R & M). unfold execute. destruct (c =? 3); [repeat split; assumption|]. destruct (c =? 5); [repeat split; assumption|]. destruct (c =? 7); [repeat split; assumption|].
  destruct (c =? 13); [|repeat split; assumption]. repeat split; try assumption. cbn [running set_running]. rewrite R, F. cbn [negb]. rewrite andb_false_r. reflexivity.
Qed.
Lemma stuck_write dk m r w d : stuck m d -> stuck m (write_register dk r w d).
Proof.
  intros H. assert (C : stuck m (count_in dk r w d)) by (unfold count_in; destruct (r =? 0); exact H). unfold write_register.
  set (d1 := count_in dk r w d) in *. clearbody d1. cbv zeta. clear H d.
  destruct (r =? 0). { destruct (w =? checksum d1); [exact C|]. destruct C as (F & R & M). repeat split; assumption. }
  destruct (r =? 1). { apply stuck_execute. exact C. }
  destruct (r =? 2).
  { unfold frame_word. destruct (command d1 =? 1); [|exact C]. cbv zeta. destruct (Nat.eqb _ _); [|exact C]. unfold store_frame. cbn [pad far set_frame_buffer].
    destruct (pad d1); [|exact C]. destruct (far d1); [|exact C]. destruct (existsb _ _); [|exact C]. cbv zeta. cbn [id_ok failed set_frame_buffer].
    destruct C as (F & R & M). rewrite F. cbn [negb]. rewrite andb_false_r. repeat split; assumption. }
  destruct (r =? 4). { apply stuck_execute. exact C. }
  destruct (r =? 5); [exact C|]. destruct (r =? 6); [exact C|]. destruct (r =? 9); [exact C|].
  destruct (r =? 12). { destruct (id_matches dk w); [exact C|]. destruct C as (F & R & M). repeat split; assumption. }
  destruct (r =? 24); exact C.
Qed.
Lemma stuck_word dk m w d : stuck m d -> stuck m (word dk w d).
Proof.
  intros H. unfold word. destruct (packet d) as [[r n]|]; [apply stuck_write; exact H|]. unfold header. cbv zeta. unfold expect_data.
  repeat match goal with |- stuck m (if ?b then _ else _) => destruct b end; exact H.
Qed.
Lemma stuck_byte dk m b d : stuck m d -> stuck m (byte dk d b).
Proof.
  intros H. unfold byte. cbv zeta. destruct (awake d).
  - destruct (recent d ++ [b]) as [|b3 [|b2 [|b1 [|b0 [|? ?]]]]]; try exact H. apply stuck_word. exact H.
  - destruct (bytes_eqb _ _); exact H.
Qed.
Lemma stuck_receive dk m bs : forall d, stuck m d -> stuck m (receive dk bs d).
Proof. induction bs as [|b bs IH]; intros d H; [exact H|]. apply IH. now apply stuck_byte. Qed.
Lemma stuck_run dk m ws : forall d, stuck m d -> stuck m (run dk ws d).
Proof. induction ws as [|w ws IH]; intros d H; [exact H|]. apply IH. now apply stuck_word. Qed.

Lemma device_other dk idcode date time data d n : stamp date -> stamp time -> idcode < 2 ^ 32 -> N.of_nat (List.length data) < 2 ^ 27 ->
  Forall (fun w => w < 2 ^ 32) data -> blank d -> idcode mod 2 ^ 28 <> dk_idcode dk mod 2 ^ 28 ->
  running (receive dk (firstn n (data_file idcode date time data)) d) = false /\
  memory (receive dk (firstn n (data_file idcode date time data)) d) = memory d.
Proof.
  intros Hd Ht Hid Hl Hw B Ne. destruct (wakes idcode date time data Hd Ht Hl) as (pre & E & NS).
  destruct (head1_run dk idcode (wake d) (wake_fresh d B)) as (c & x & R1 & X & A1). destruct x; [exfalso; apply Ne; now apply X|]. clear X.
  pose proof (wake_fresh d B) as F. destruct F as (U & P & I1 & I2 & I3 & I4 & I5).
  assert (G1 : Forall good_item (head_items1 idcode)) by (repeat constructor).
  destruct (items_run dk (quiet (memory d)) (quiet_s _) _ (wake d) G1 P) as [W1 B1]. rewrite R1 in W1. clear R1. specialize (B1 A1). clear A1. cbv iota in W1.
  set (W := flat_map item_words (head_items1 idcode)) in *.
  assert (Sp : exists rest, series7_words idcode data = W ++ rest).
  { rewrite program_split. unfold program_words. rewrite words_head_items. fold W. rewrite <- !app_assoc. eexists. reflexivity. }
  destruct Sp as (rest & Sp). pose proof B as B'. destruct B' as (R & As & _ & _ & _ & _ & Rn).
  rewrite E, Sp, flat_map_app. rewrite app_assoc. destruct (Nat.lt_ge_cases n (List.length (pre ++ synchronisation))) as [C|C].
  - assert (Y : firstn n ((pre ++ synchronisation) ++ flat_map be32 W ++ flat_map be32 rest) = firstn n (pre ++ [0xAA; 0x99; 0x55])).
    { rewrite firstn_app. replace (n - List.length (pre ++ synchronisation))%nat with 0%nat by lia. cbn [firstn]. rewrite app_nil_r.
      change synchronisation with ([0xAA; 0x99; 0x55] ++ [0x66]). rewrite app_assoc, firstn_app.
      assert (Z : (n - List.length (pre ++ [170; 153; 85]%N) = 0)%nat) by (rewrite app_length in *; cbn [List.length synchronisation] in *; lia).
      rewrite Z. cbn [firstn]. apply app_nil_r. }
    rewrite Y. rewrite (asleep dk _ d []); [split; [exact Rn|reflexivity]|exact As|now rewrite R|]. cbn [app]. now apply no_sync_prefix.
  - rewrite firstn_app, firstn_all2 by exact C. rewrite receive_app, waking by assumption.
    set (k := (n - List.length (pre ++ synchronisation))%nat). clearbody k. clear C n NS E R As.
    assert (OK : Forall (fun w => w < 2 ^ 32) W).
    { unfold W, head_items1. cbn [flat_map item_words app nops repeat]. repeat (constructor; [first [exact Hid|reflexivity]|]). constructor. }
    assert (Au : along dk up W (wake d)) by (eapply along_impl; [|exact B1]; intros d' [Q _]; exact Q).
    destruct (Nat.lt_ge_cases k (List.length (flat_map be32 W))) as [C|C].
    + rewrite firstn_app. replace (k - List.length (flat_map be32 W))%nat with 0%nat by lia. cbn [firstn]. rewrite app_nil_r.
      rewrite words_length in C. destruct (cut_words W k) as (m & r & M & Lr & Ek & X); [lia|]. rewrite X, receive_app.
      rewrite receive_words.
      * destruct (along_at dk _ W (wake d) m B1) as ([U1 U2] & Q1 & Q2); [lia|]. rewrite receive_part by assumption. split; [exact Q1|exact Q2].
      * rewrite <- (firstn_skipn m W) in OK. apply Forall_app in OK as [OK _]. exact OK.
      * rewrite <- (firstn_skipn m W) in Au. apply along_app in Au as [Au _]. exact Au.
    + rewrite firstn_app, firstn_all2 by exact C. rewrite receive_app, (receive_words dk W _ OK Au), W1.
      destruct (stuck_receive dk (memory d) (firstn (k - List.length (flat_map be32 W)) (flat_map be32 rest)) (set_last_register 12 (set_command 7 (set_cor0 33570789 (set_checksum c (set_failed true (wake d))))))) as (_ & Q2 & Q3).
      * split; [reflexivity|]. split; [exact I5|reflexivity].
      * split; [exact Q2|exact Q3].
Qed.
