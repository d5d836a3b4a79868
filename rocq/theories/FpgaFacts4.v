(** Facts about FpgaSpec.v: how much is stored after how many bytes. *)
From Verif Require Import Base BaseFacts ContainerSpec ConfigSpec Reader ReaderFacts PlaceFacts FpgaSpec FpgaFacts FpgaFacts2 FpgaFacts3.
From Coq Require Import Lia ZifyBool ZifyN ZifyNat.

(** ** Part of the frame data *)
Lemma fill_part dk ws : forall d n, packet d = pk (N.of_nat (List.length ws) + n) -> (List.length (frame_buffer d) + List.length ws < 101)%nat ->
  command d = 1 -> memory (run dk ws d) = memory d /\ running (run dk ws d) = running d.
Proof.
  induction ws as [|w ws IH]; intros d n P L C; [split; reflexivity|]. cbn [List.length] in *.
  assert (P' : packet d = pk (N.of_nat (List.length ws) + n + 1)) by (rewrite P; f_equal; lia).
  pose proof (data_word dk w d _ P') as E. unfold frame_word in E. cbn [command set_checksum set_packet] in E. rewrite C in E. cbn [N.eqb Pos.eqb frame_buffer set_checksum set_packet] in E.
  rewrite app_length in E. cbn [List.length] in E. replace (Nat.eqb (List.length (frame_buffer d) + 1) 101) with false in E by (symmetry; apply Nat.eqb_neq; lia).
  change (run dk (w :: ws) d) with (run dk ws (word dk w d)). rewrite E. match type of E with _ = ?x => set (d1 := x) end.
  apply (IH d1 n); [reflexivity| |exact C]. unfold d1. cbn [frame_buffer set_frame_buffer]. rewrite app_length. cbn [List.length]. lia.
Qed.
Definition any (d : device) : Prop := True.
Lemma pads_part dk n k : forall ws d, pad d = k -> (List.length ws <= 101 * k)%nat -> packet d = pk (N.of_nat (List.length ws) + n) ->
  frame_buffer d = [] -> command d = 1 -> memory (run dk ws d) = memory d /\ running (run dk ws d) = running d.
Proof.
  induction k as [|k IH]; intros ws d Pd L P B C.
  - destruct ws; [split; reflexivity|cbn [List.length] in L; lia].
  - destruct (Nat.lt_ge_cases (List.length ws) 101) as [Q|Q].
    + apply (fill_part dk ws d n P); [rewrite B; exact Q|exact C].
    + rewrite <- (firstn_skipn 101 ws). set (f := firstn 101 ws). set (r := skipn 101 ws).
      assert (Lf : List.length f = 101%nat) by (unfold f; rewrite firstn_length; lia).
      assert (Lr : (List.length r <= 101 * k)%nat) by (unfold r; rewrite skipn_length; lia).
      destruct (fill dk any ltac:(intros; exact Logic.I) f d (N.of_nat (List.length r) + n)) as [(c & R) _].
      * rewrite P. f_equal. rewrite <- (firstn_skipn 101 ws), app_length. fold f r. lia.
      * rewrite B, Lf. reflexivity.
      * intros E. rewrite E in Lf. discriminate Lf.
      * exact C.
      * exact Logic.I.
      * rewrite B in R. cbn [app] in R. unfold store_frame in R. cbn [pad set_frame_buffer set_packet set_checksum] in R. rewrite Pd in R. set (d1 := set_pad k _) in R.
        rewrite run_app, R. apply (IH r d1); try assumption; reflexivity.
Qed.

Fixpoint stored (l : list N) (data : list N) (j : nat) : list (N * list N) :=
  match l with
  | [] => []
  | a :: rest => if (101 <=? j)%nat then (a, firstn 101 data) :: stored rest (skipn (101 + 101 * pads a rest) data) (j - (101 + 101 * pads a rest)) else []
  end.
Lemma stored_none l data j : (j < 101)%nat -> stored l data j = [].
Proof. intros H. destruct l as [|a l]; [reflexivity|]. cbn [stored]. apply Nat.leb_gt in H. now rewrite H. Qed.

Lemma take_part dk n : StronglySorted N.lt (dk_frames dk) -> forall l l1 data d j,
  dk_frames dk = l1 ++ l -> List.length data = room l -> (j <= List.length data)%nat ->
  far d = hd_error l -> pad d = 0%nat -> frame_buffer d = [] -> command d = 1 -> id_ok d = true -> failed d = false -> up d -> running d = false ->
  packet d = pk (N.of_nat (List.length data) + n) ->
  (forall a, memory (run dk (firstn j data) d) a = written (stored l data j) (memory d) a) /\ running (run dk (firstn j data) d) = false.
Proof.
  intros S. induction l as [|a l IH]; intros l1 data d j E L Lj Fa Pd B C Io Fl U Rn P.
  - cbn [room] in L. destruct data; [|discriminate L]. rewrite firstn_nil. cbn [stored]. split; [reflexivity|exact Rn].
  - cbn [room] in L. cbn [stored]. destruct (Nat.leb_spec 101 j) as [G|G].
    2:{ destruct (fill_part dk (firstn j data) d (N.of_nat (List.length data - j) + n)) as [X Y].
        - rewrite P. f_equal. rewrite firstn_length. lia.
        - rewrite B, firstn_length. cbn [List.length]. lia.
        - exact C.
        - split; [intros x; rewrite X; reflexivity|rewrite Y; exact Rn]. }
    set (k := pads a l) in *. set (f := firstn 101 data). set (r := skipn 101 data).
    assert (Df : data = f ++ r) by (unfold f, r; now rewrite firstn_skipn).
    assert (Lf : List.length f = 101%nat) by (unfold f; rewrite firstn_length; lia).
    assert (Lr : List.length r = (101 * k + room l)%nat) by (unfold r; rewrite skipn_length; lia).
    assert (Ff : firstn j data = f ++ firstn (j - 101) r).
    { rewrite Df, firstn_app, Lf, firstn_all2 by lia. reflexivity. }
    destruct (fill dk any ltac:(intros; exact Logic.I) f d (N.of_nat (List.length r) + n)) as [(c & R) _].
    { rewrite P. f_equal. rewrite Df, app_length. lia. }
    { rewrite B, Lf. reflexivity. }
    { intros X. rewrite X in Lf. discriminate Lf. }
    { exact C. }
    { exact Logic.I. }
    rewrite B in R. cbn [app] in R. unfold store_frame in R. cbn [pad far id_ok failed set_frame_buffer set_packet set_checksum] in R.
    rewrite Pd, Fa in R. cbn [hd_error] in R.
    assert (Ex : existsb (N.eqb a) (dk_frames dk) = true).
    { apply existsb_exists. exists a. split; [|apply N.eqb_refl]. rewrite E. apply in_or_app. right. now left. }
    rewrite Ex, Io, Fl in R. cbn [andb negb] in R. rewrite (next_is dk l1 a l E S) in R. cbv zeta in R.
    change (if same_row a (hd_error l) then 0%nat else 2%nat) with k in R. set (d1 := set_pad k _) in R.
    rewrite Ff, run_app, R. change (written ((a, f) :: stored l (skipn (101 + 101 * k) data) (j - (101 + 101 * k))) (memory d)) with
      (written (stored l (skipn (101 + 101 * k) data) (j - (101 + 101 * k))) (memory d1)).
    set (z := firstn (101 * k) r). set (t := skipn (101 * k) r).
    assert (Dr : r = z ++ t) by (unfold z, t; now rewrite firstn_skipn).
    assert (Lz : List.length z = (101 * k)%nat) by (unfold z; rewrite firstn_length; lia).
    assert (Lt : List.length t = room l) by (unfold t; rewrite skipn_length; lia).
    assert (Et : skipn (101 + 101 * k) data = t).
    { rewrite Df, Dr. rewrite app_assoc, skipn_app, skipn_all2 by (rewrite app_length; lia). rewrite app_length, Lf, Lz, Nat.sub_diag. reflexivity. }
    rewrite Et. destruct (Nat.le_gt_cases (j - 101) (101 * k)) as [Q|Q].
    + rewrite stored_none by lia. destruct (pads_part dk (N.of_nat (List.length r - (j - 101)) + n) k (firstn (j - 101) r) d1) as [X Y]; [reflexivity| | |reflexivity|exact C|].
      * rewrite firstn_length. lia.
      * unfold d1. cbn [packet set_pad set_far set_memory set_frame_buffer set_packet set_checksum]. f_equal. rewrite firstn_length. lia.
      * split; [intros x; rewrite X; reflexivity|rewrite Y; exact Rn].
    + assert (Fz : firstn (j - 101) r = z ++ firstn (j - (101 + 101 * k)) t).
      { rewrite Dr, firstn_app, Lz, firstn_all2 by lia. do 2 f_equal. lia. }
      rewrite Fz, run_app.
      assert (L1 : loading [] (memory d1) d1) by (split; [exact U|split; [exact Rn|exists 0%nat; reflexivity]]).
      destruct (drop_pads dk [] (memory d1) (N.of_nat (List.length t) + n) z d1 k) as [(c' & R') _]; [reflexivity|exact Lz| |reflexivity|exact C|exact L1|].
      { unfold d1. cbn [packet set_pad set_far set_memory set_frame_buffer set_packet set_checksum]. f_equal. rewrite Dr, app_length. lia. }
      rewrite R'. set (d2 := set_pad 0 _). change (memory d1) with (memory d2).
      apply (IH (l1 ++ [a])); try assumption; try reflexivity.
      * rewrite <- app_assoc. exact E.
      * rewrite Df, app_length, Lf, Lr in Lj. lia.
Qed.

(** ** Part of the file *)
Lemma program_len idcode data : List.length (program_words idcode data) = (46 + List.length data + 124)%nat.
  Proof.
    unfold program_words. rewrite !app_length. pose proof (words_head_len idcode (N.of_nat (List.length data))) as W. rewrite app_length in W.
    change (List.length sync_preamble) with 13%nat in W. change (List.length (flat_map item_words tail_items)) with 124%nat. lia.
  Qed.
Section File.
  Context (dk : device_kind) (idcode : N) (date time : text) (data : list N) (l : list N) (d : device).
  Hypothesis Hd : stamp date.
  Hypothesis Ht : stamp time.
  Hypothesis Ld' : List.length date = 10%nat.
  Hypothesis Lt' : List.length time = 8%nat.
  Hypothesis Hid : idcode < 2 ^ 32.
  Hypothesis Hw : Forall (fun w => w < 2 ^ 32) data.
  Hypothesis Hl : N.of_nat (List.length data) < 2 ^ 27.
  Hypothesis B : blank d.
  Hypothesis Fr : dk_frames dk = 0 :: l.
  Hypothesis S : StronglySorted N.lt (0 :: l).
  Hypothesis Ld : List.length data = room (0 :: l).
  Hypothesis Same : idcode mod 2 ^ 28 = dk_idcode dk mod 2 ^ 28.

  Lemma exact_prefix n : let file := data_file idcode date time data in
    ((n < 144)%nat -> exists r, receive dk (firstn n file) d = set_recent r d) /\
    (forall m, (144 + 4 * m <= n < 144 + 4 * m + 4)%nat -> (m < List.length (program_words idcode data))%nat ->
       exists r, receive dk (firstn n file) d = set_recent r (run dk (firstn m (program_words idcode data)) (wake d))) /\
    ((144 + 4 * List.length (program_words idcode data) <= n)%nat -> exists r, receive dk (firstn n file) d = set_recent r (run dk (program_words idcode data) (wake d))).
  Proof.
    destruct (program_run dk idcode data (wake d) l (wake_fresh d B) Same Fr S Ld Hl) as [(c & mm & R & M) Al].
    assert (Au : along dk up (program_words idcode data) (wake d)) by (eapply along_impl; [|exact Al]; intros d' [U _]; exact U). clear Al.
    assert (OK : Forall (fun w => w < 2 ^ 32) (program_words idcode data)) by (apply program_ok; assumption).
    destruct (wakes idcode date time data Hd Ht Hl) as (pre & E & NS). destruct B as (Rc & As & _). cbv zeta.
    assert (Lp : List.length (pre ++ synchronisation) = 144%nat).
    { assert (X : List.length (data_file idcode date time data) = (144 + 4 * List.length (series7_words idcode data))%nat).
      { assert (HL : List.length (bit_header (tx "fpga-source") (tx "fpga-assembler") (tx "fasm") date time) = 88%nat) by (rewrite header_split, !app_length, !bytes_len, Ld', Lt'; reflexivity).
        unfold data_file, bit_file. rewrite !app_length, HL, words_length, app_length. change (List.length sync_preamble) with 13%nat. change (List.length (be32 (4 * len_N (sync_preamble ++ series7_words idcode data)))) with 4%nat. lia. }
      rewrite E, !app_length, words_length in X. rewrite app_length. lia. }
    rewrite E, program_split, flat_map_app. set (W := program_words idcode data) in *. rewrite app_assoc.
    assert (After : forall k, receive dk (firstn (144 + k) ((pre ++ synchronisation) ++ flat_map be32 W ++ flat_map be32 (nops 400))) d =
       receive dk (firstn k (flat_map be32 W ++ flat_map be32 (nops 400))) (wake d)).
    { intros k. rewrite firstn_app, Lp, firstn_all2 by lia. rewrite receive_app, waking by assumption. do 2 f_equal. lia. }
    split; [|split].
    - intros C. assert (X : firstn n ((pre ++ synchronisation) ++ flat_map be32 W ++ flat_map be32 (nops 400)) = firstn n (pre ++ [0xAA; 0x99; 0x55])).
      { rewrite firstn_app. replace (n - List.length (pre ++ synchronisation))%nat with 0%nat by lia. cbn [firstn]. rewrite app_nil_r.
        change synchronisation with ([0xAA; 0x99; 0x55] ++ [0x66]). rewrite app_assoc, firstn_app.
        assert (Z : (n - List.length (pre ++ [170; 153; 85]%N) = 0)%nat) by (rewrite app_length in *; cbn [List.length synchronisation] in *; lia).
        rewrite Z. cbn [firstn]. apply app_nil_r. }
      rewrite X. eexists. apply (asleep dk _ d []); [exact As|now rewrite Rc|]. cbn [app]. now apply no_sync_prefix.
    - intros m Hm Lm. replace n with (144 + (n - 144))%nat by lia. rewrite After. rewrite firstn_app, words_length.
      replace (n - 144 - 4 * List.length W)%nat with 0%nat by lia. cbn [firstn]. rewrite app_nil_r.
      destruct (cut_words W (n - 144)) as (m' & r & M' & Lr & Ek & X); [lia|]. assert (m' = m) as -> by lia. rewrite X, receive_app.
      rewrite receive_words.
      + destruct (along_at dk _ W (wake d) m Au) as [U1 U2]; [lia|]. exists r. now apply receive_part.
      + rewrite <- (firstn_skipn m W) in OK. apply Forall_app in OK as [OK' _]. exact OK'.
      + rewrite <- (firstn_skipn m W) in Au. apply along_app in Au as [Au' _]. exact Au'.
    - intros C. replace n with (144 + (n - 144))%nat by lia. rewrite After. rewrite firstn_app, firstn_all2 by (rewrite words_length; lia).
      rewrite receive_app, (receive_words dk W) by assumption. eexists. rewrite (asleep dk _ (run dk W (wake d)) []); [reflexivity| | |].
      + rewrite R. reflexivity.
      + rewrite R. reflexivity.
      + cbn [app]. apply no_sync_prefix, no_sync_high, nops_bytes.
  Qed.

  (** After [n] bytes: the frames whose last byte has arrived are stored; the device runs once the last command has arrived. *)
  Lemma device_exact n : let d' := receive dk (firstn n (data_file idcode date time data)) d in
    (forall a, memory d' a = written (stored (0 :: l) data (Nat.min (List.length data) ((n - 328) / 4))) (memory d) a) /\
    (running d' = true <-> (144 + 4 * List.length (program_words idcode data) <= n)%nat).
  Proof.
    destruct (exact_prefix n) as (X1 & X2 & X3). cbv zeta in *. pose proof (program_len idcode data) as PL.
    destruct (program_run dk idcode data (wake d) l (wake_fresh d B) Same Fr S Ld Hl) as [(c & mm & R & M) Al].
    assert (All : stored (0 :: l) data (List.length data) = chunks (0 :: l) data).
    { clear - Ld. remember (0 :: l) as k eqn:Ek. clear Ek l. revert data Ld. induction k as [|a k IH]; intros data Ld; [reflexivity|]. cbn [room] in Ld. cbn [stored chunks].
      replace (101 <=? List.length data)%nat with true by (symmetry; apply Nat.leb_le; lia). f_equal. rewrite <- IH; [f_equal|]; rewrite skipn_length; lia. }
    destruct (Nat.lt_ge_cases n 144) as [C|C].
    { destruct (X1 C) as (r & E). rewrite E. rewrite stored_none by (assert ((n - 328) / 4 = 0)%nat by (apply Nat.div_small; lia); lia). split; [reflexivity|].
      destruct B as (_ & _ & _ & _ & _ & _ & Rn). change (running (set_recent r d)) with (running d). rewrite Rn. split; [discriminate|lia]. }
    destruct (Nat.lt_ge_cases n (144 + 4 * List.length (program_words idcode data))) as [C'|C'].
    2:{ destruct (X3 C') as (r & E). rewrite E, R. split; [|split; [intros _; exact C'|reflexivity]]. intros a. change (mm a = written (stored (0 :: l) data (Nat.min (List.length data) ((n - 328) / 4))) (memory d) a).
        rewrite M. replace (Nat.min (List.length data) ((n - 328) / 4)) with (List.length data); [now rewrite All|].
        assert (List.length data <= (n - 328) / 4)%nat by (apply Nat.div_le_lower_bound; lia). lia. }
    set (m := ((n - 144) / 4)%nat). assert (Hm : (144 + 4 * m <= n < 144 + 4 * m + 4)%nat).
    { pose proof (Nat.div_mod (n - 144) 4 ltac:(discriminate)) as D. pose proof (Nat.mod_upper_bound (n - 144) 4 ltac:(discriminate)) as D'. fold m in D. lia. }
    assert (Lm : (m < List.length (program_words idcode data))%nat) by lia. destruct (X2 m Hm Lm) as (r & E). rewrite E.
    pose proof (along_at dk _ _ _ m Al Lm) as (Um & Rm & _).
    split; [|change (running (set_recent r (run dk (firstn m (program_words idcode data)) (wake d)))) with (running (run dk (firstn m (program_words idcode data)) (wake d))); rewrite Rm; split; [discriminate|lia]].
    intros a. change (memory (set_recent r (run dk (firstn m (program_words idcode data)) (wake d))) a) with (memory (run dk (firstn m (program_words idcode data)) (wake d)) a).
    destruct (head_run dk idcode (N.of_nat (List.length data)) (wake d) (wake_fresh d B) Same) as (c1 & R1 & A1); [rewrite Ld; cbn [room]; lia|exact Hl|].
    assert (LH : List.length (words_head idcode (N.of_nat (List.length data))) = 46%nat) by reflexivity.
    pose proof (wake_fresh d B) as (U & P & I1 & I2 & I3 & I4 & I5). set (d1 := set_packet (Some (2, _)) _) in R1.
    unfold program_words. destruct (Nat.lt_ge_cases m 46) as [Q|Q].
    - rewrite stored_none by (assert ((n - 328) / 4 = 0)%nat by (apply Nat.div_small; lia); lia). cbn [written fold_left].
      rewrite firstn_app, LH. replace (m - 46)%nat with 0%nat by lia. cbn [firstn]. rewrite app_nil_r.
      destruct (along_at dk _ _ _ m A1) as (_ & _ & Q3); [rewrite LH; exact Q|]. rewrite Q3. reflexivity.
    - rewrite firstn_app, LH, firstn_all2 by (rewrite LH; exact Q). rewrite run_app, R1.
      assert (P1 : packet d1 = pk (N.of_nat (List.length data) + 0)).
      { unfold d1. cbn [packet set_packet]. rewrite N.add_0_r. unfold pk. replace (N.of_nat (List.length data) =? 0) with false; [reflexivity|].
        symmetry. apply N.eqb_neq. rewrite Ld. cbn [room]. lia. }
      assert (Jm : ((n - 328) / 4 = m - 46)%nat).
      { symmetry. apply (Nat.div_unique (n - 328) 4 (m - 46) (n - 144 - 4 * m)); lia. }
      destruct (Nat.le_gt_cases (m - 46) (List.length data)) as [Q'|Q'].
      + rewrite firstn_app. replace (m - 46 - List.length data)%nat with 0%nat by lia. cbn [firstn]. rewrite app_nil_r.
        destruct (take_part dk 0 ltac:(rewrite Fr; exact S) (0 :: l) [] data d1 (m - 46) Fr Ld Q' eq_refl eq_refl eq_refl eq_refl eq_refl I2 U I5 P1) as [X _].
        rewrite X, Jm. replace (Nat.min (List.length data) (m - 46)) with (m - 46)%nat by lia. reflexivity.
      + rewrite firstn_app, firstn_all2 by lia. rewrite run_app, Jm. replace (Nat.min (List.length data) (m - 46)) with (List.length data) by lia. rewrite All.
        destruct (take dk (chunks (0 :: l) data) (memory d) 0 ltac:(rewrite Fr; exact S) (0 :: l) [] [] data d1 Fr eq_refl Ld eq_refl eq_refl eq_refl eq_refl eq_refl I2 U I5 P1 ltac:(reflexivity)) as [(c2 & m2 & R2 & M2) _].
        rewrite R2. set (d2 := set_memory _ _). change (pk 0) with (@None (N * N)) in d2. destruct (tail_run dk d2 U eq_refl I5 eq_refl I2) as (c3 & R3 & A3).
        destruct (along_at dk _ _ _ (m - 46 - List.length data)%nat A3) as (_ & _ & Q3).
        { change (List.length (flat_map item_words tail_items)) with 124%nat. rewrite PL in Lm. lia. }
        rewrite Q3. apply M2.
  Qed.
End File.
