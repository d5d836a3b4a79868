(** Positions in the payload and in the file. *)
From Verif Require Import Base BaseFacts Part PartSpec ConfigSpec ContainerSpec PlaceSpec SameFacts EncodeSpec.
From Coq Require Import Lia.

Fixpoint changes (l : list N) : list N :=
  match l with
  | [] => []
  | a :: r => match r with [] => [] | a' :: _ => if device_row a =? device_row a' then [] else [device_row a] end ++ changes r
  end.
Lemma row_changes_len fs : row_changes fs = N.of_nat (List.length (changes (map fst fs))).
Proof.
  induction fs as [|[a w] fs IH]; [reflexivity|]. cbn [row_changes map fst changes]. rewrite app_length, IH.
  destruct fs as [|[a' w'] fs]; cbn [map fst]; [cbn; lia|]. destruct (device_row a =? device_row a'); cbn [List.length]; lia.
Qed.
Lemma row_le a b : a <= b -> device_row a <= device_row b.
Proof. intros H. unfold device_row. apply N.div_le_mono; [discriminate|exact H]. Qed.
(** The rows before the last element's. *)
Lemma changes_spec l a : StronglySorted N.lt (l ++ [a]) ->
  StronglySorted N.lt (changes (l ++ [a])) /\
  forall r, In r (changes (l ++ [a])) <-> r < device_row a /\ exists x, In x l /\ device_row x = r.
Proof.
  induction l as [|b l IH]; intros S.
  - cbn. split; [constructor|]. intros r. split; [intros []|]. intros (_ & x & [] & _).
  - cbn [app] in *. inversion S as [|? ? S' F]; subst. destruct (IH S') as [I1 I2]. clear IH.
    cbn [changes]. destruct (l ++ [a]) as [|c t] eqn:E; [destruct l; discriminate|].
    assert (Bc : b < c) by (inversion F; auto).
    assert (Le : forall x, In x (c :: t) -> device_row c <= device_row x).
    { intros x [<-|H]; [lia|]. apply row_le. inversion S' as [|? ? _ F']; subst. rewrite Forall_forall in F'. specialize (F' _ H). lia. }
    assert (Ia : In a (c :: t)) by (rewrite <- E; apply in_or_app; right; now left).
    assert (Cl : device_row c < device_row a -> In c l).
    { intros Lt. assert (In c (l ++ [a])) as H by (rewrite E; now left). apply in_app_iff in H as [H|[<-|[]]]; [exact H|lia]. }
    destruct (device_row b =? device_row c) eqn:Q.
    + apply N.eqb_eq in Q. cbn [app]. split; [exact I1|]. intros r. rewrite I2. split.
      * intros (A & x & H & <-). split; [exact A|]. exists x. split; [now right|reflexivity].
      * intros (A & x & [<-|H] & <-); (split; [exact A|]).
        -- exists c. split; [apply Cl; lia|now symmetry].
        -- exists x. now split.
    + apply N.eqb_neq in Q. assert (Lbc : device_row b < device_row c) by (pose proof (row_le b c); lia).
      cbn [app]. split.
      * constructor; [exact I1|]. apply Forall_forall. intros r H. apply I2 in H as (_ & x & H & <-).
        assert (In x (c :: t)) by (rewrite <- E; apply in_or_app; now left). pose proof (Le x). intuition lia.
      * intros r. cbn [In]. rewrite I2. split.
        -- intros [<-|(A & x & H1 & <-)].
           ++ split; [pose proof (Le a Ia); lia|]. exists b. split; [now left|reflexivity].
           ++ split; [exact A|]. exists x. split; [now right|reflexivity].
        -- intros (A & x & [<-|H1] & <-); [now left|]. right. split; [exact A|]. exists x. now split.
Qed.

Lemma payload_at l1 a ws l2 : Forall (fun kv => List.length (snd kv) = 101%nat) l1 ->
  exists pre post, payload (l1 ++ (a, ws) :: l2) = pre ++ ws ++ post /\
    N.of_nat (List.length pre) = 101 * N.of_nat (List.length l1) + 202 * row_changes (l1 ++ [(a, ws)]).
Proof.
  induction l1 as [|[b v] l1 IH]; intros F.
  - cbn [app payload row_changes]. exists [], ((match l2 with (a', _) :: _ => if device_row a =? device_row a' then [] else two_zero_frames | [] => [] end) ++ payload l2).
    split; [reflexivity|reflexivity].
  - inversion F as [|? ? Fv F']; subst. cbn [snd] in Fv. destruct (IH F') as (pre & post & E & L). clear IH. cbn [app payload row_changes].
    assert (X : exists c t t', l1 ++ (a, ws) :: l2 = c :: t /\ l1 ++ [(a, ws)] = c :: t').
    { destruct l1 as [|c t]; [exists (a, ws), l2, []; now split|]. exists c, (t ++ (a, ws) :: l2), (t ++ [(a, ws)]). now split. }
    destruct X as ([c v'] & t & t' & X1 & X2). rewrite X1 in E |- *. rewrite X2 in L |- *. rewrite E.
    exists (v ++ (if device_row b =? device_row c then [] else two_zero_frames) ++ pre), post. split; [now rewrite <- !app_assoc|].
    rewrite !app_length. destruct (device_row b =? device_row c).
    + cbn [List.length]. rewrite Fv. lia.
    + unfold two_zero_frames. rewrite repeat_length, Fv. cbn [List.length]. lia.
Qed.
Lemma payload_length fs : Forall (fun kv => List.length (snd kv) = 101%nat) fs ->
  N.of_nat (List.length (payload fs)) = 101 * N.of_nat (List.length fs) + 202 * (row_changes fs + 1).
Proof.
  induction fs as [|[a ws] fs IH]; intros F.
  - reflexivity.
  - inversion F as [|? ? Fv F']; subst. cbn [snd] in Fv. specialize (IH F'). clear F F'. cbn [payload row_changes].
    set (P := payload fs) in *. set (R := row_changes fs) in *. rewrite !app_length. cbn [List.length].
    assert (X : List.length (match fs with [] => [] | (a', _) :: _ => if device_row a =? device_row a' then [] else two_zero_frames end) =
      (202 * N.to_nat (match fs with [] => 0 | (a', _) :: _ => if (device_row a =? device_row a')%N then 0 else 1 end)%N)%nat).
    { destruct fs as [|[b v] fs]; [reflexivity|]. destruct (device_row a =? device_row b); reflexivity. }
    rewrite X, Fv. clear X. lia.
Qed.

(** Bytes of words. *)
Lemma be32_len w : List.length (be32 w) = 4%nat. Proof. reflexivity. Qed.
Lemma words_length ws : List.length (flat_map be32 ws) = (4 * List.length ws)%nat.
Proof. induction ws as [|w ws IH]; [reflexivity|]. cbn [flat_map]. rewrite app_length, IH, be32_len. cbn [List.length]. lia. Qed.
Lemma nth_words ws w x j : nth_error ws w = Some x -> (j < 4)%nat ->
  nth_error (flat_map be32 ws) (4 * w + j) = nth_error (be32 x) j.
Proof.
  revert w. induction ws as [|y ws IH]; intros [|w] H J; cbn [nth_error] in H; try discriminate.
  - injection H as ->. cbn [flat_map]. rewrite nth_error_app1; [f_equal; lia|rewrite be32_len; lia].
  - cbn [flat_map]. rewrite nth_error_app2; rewrite be32_len; [|lia]. rewrite <- (IH w H J). f_equal. lia.
Qed.
Lemma be32_bit x i : x < 2 ^ 32 -> i < 32 -> exists b, nth_error (be32 x) (N.to_nat (3 - i / 8)) = Some b /\ N.testbit b (i mod 8) = N.testbit x i.
Proof.
  intros X Hi. pose proof (N.div_mod i 8 ltac:(discriminate)) as D. pose proof (N.mod_lt i 8 ltac:(discriminate)) as M.
  assert (Q : i / 8 = 0 \/ i / 8 = 1 \/ i / 8 = 2 \/ i / 8 = 3) by lia.
  unfold be32. destruct Q as [Q|[Q|[Q|Q]]]; rewrite Q in *; cbn [N.sub N.to_nat Pos.to_nat Pos.iter_op Nat.add].
  - exists (x mod 256). split; [reflexivity|]. change 256 with (2 ^ 8). rewrite <- (N.land_ones x 8). rewrite N.land_spec, N.ones_spec_low by lia.
    rewrite andb_true_r. f_equal. lia.
  - exists (x / 2 ^ 8 mod 256). split; [reflexivity|]. change 256 with (2 ^ 8). rewrite <- (N.land_ones _ 8). rewrite N.land_spec, N.ones_spec_low by lia.
    rewrite andb_true_r, N.div_pow2_bits. f_equal. lia.
  - exists (x / 2 ^ 16 mod 256). split; [reflexivity|]. change 256 with (2 ^ 8). rewrite <- (N.land_ones _ 8). rewrite N.land_spec, N.ones_spec_low by lia.
    rewrite andb_true_r, N.div_pow2_bits. f_equal. lia.
  - exists (x / 2 ^ 24). split; [reflexivity|]. rewrite N.div_pow2_bits. f_equal. lia.
Qed.

(** The words around the payload. *)
Definition words_head (idcode len : N) : list N :=
  nops 1 ++ [0x30022001; 0; 0x30020001; 0; 0x30008001; 0] ++ nops 1 ++ [0x30008001; 7] ++ nops 2
  ++ [0x30026001; 0; 0x30012001; 0x02003fe5; 0x3001C001; 0; 0x30018001; idcode; 0x30008001; 9] ++ nops 1
  ++ [0x3000C001; 0x401; 0x3000A001; 0x501; 0x3000C001; 0; 0x30030001; 0] ++ nops 8
  ++ [0x30002001; 0; 0x30008001; 1] ++ nops 1
  ++ [0x30004000; 0x50000000 + len].
Definition words_tail : list N :=
  [0x30008001; 7] ++ nops 2 ++ [0x30008001; 10] ++ nops 1 ++ [0x30008001; 3] ++ nops 100
  ++ [0x30008001; 5] ++ nops 1 ++ [0x30002001; 0x3be0000; 0x3000C001; 0x501; 0x3000A001; 0x501; 0x30008001; 7]
  ++ nops 2 ++ [0x30008001; 13] ++ nops 400.
Lemma words_split idcode pl : sync_preamble ++ series7_words idcode pl =
  (sync_preamble ++ words_head idcode (N.of_nat (List.length pl))) ++ pl ++ words_tail.
Proof. unfold series7_words, words_head, words_tail. rewrite <- !app_assoc. reflexivity. Qed.
Lemma words_head_len idcode n : List.length (sync_preamble ++ words_head idcode n) = 59%nat.
Proof. reflexivity. Qed.
Lemma words_tail_len : List.length words_tail = 524%nat.
Proof. reflexivity. Qed.

(** The header, around date and time. *)
Definition head1 (source generator part : text) (n : N) : list N :=
  [0x00; 0x09; 0x0f; 0xf0; 0x0f; 0xf0; 0x0f; 0xf0; 0x0f; 0xf0; 0x00; 0x00; 0x01] ++ [97] ++ field (source ++ tx ";Generator=" ++ generator)
  ++ [98] ++ field part ++ [99] ++ be16 (n + 1).
Definition head2 (n : N) : list N := [0; 100] ++ be16 (n + 1).
Lemma header_split source generator part date time : bit_header source generator part date time =
  head1 source generator part (len_N date) ++ bytes_of_text date ++ head2 (len_N time) ++ bytes_of_text time ++ [0; 101].
Proof. unfold bit_header, head1, head2, field. rewrite <- !app_assoc. reflexivity. Qed.
Lemma bytes_len t : List.length (bytes_of_text t) = List.length t. Proof. apply map_length. Qed.

Section File.
  Context (p : db_part) (date time : text) (fs : list (N * list N)).
  Hypothesis Ld : List.length date = 10%nat.
  Hypothesis Lt : List.length time = 8%nat.
  Hypothesis Sorted : StronglySorted N.lt (map fst fs).
  Hypothesis Frames : forall a, In a (map fst fs) <-> is_frame_address p a.
  Hypothesis Contents : Forall (fun kv => is_frame_content (snd kv)) fs.

  Definition the_file : list N :=
    bit_file (tx "fpga-source") (tx "fpga-assembler") (tx "fasm") date time (sync_preamble ++ series7_words (dp_idcode p) (payload fs)).

  Lemma contents_len l : Forall (fun kv => is_frame_content (snd kv)) l -> Forall (fun kv : N * list N => List.length (snd kv) = 101%nat) l.
  Proof. intros F. eapply Forall_impl; [|exact F]. intros kv [H _]. exact H. Qed.

  (** Everything before the payload. *)
  Definition file_head : list N :=
    (head1 (tx "fpga-source") (tx "fpga-assembler") (tx "fasm") (len_N date) ++ bytes_of_text date ++ head2 (len_N time) ++ bytes_of_text time ++ [0; 101])
    ++ be32 (4 * (N.of_nat (List.length (payload fs)) + 583)) ++ flat_map be32 (sync_preamble ++ words_head (dp_idcode p) (N.of_nat (List.length (payload fs)))).
  Lemma file_split : the_file = file_head ++ flat_map be32 (payload fs) ++ flat_map be32 words_tail.
  Proof.
    unfold the_file, file_head, bit_file. rewrite header_split, words_split. rewrite <- !app_assoc. do 5 f_equal.
    f_equal; [|now rewrite <- !flat_map_app]. f_equal. unfold len_N. rewrite !app_length, words_tail_len.
    pose proof (words_head_len (dp_idcode p) (N.of_nat (List.length (payload fs)))) as W. rewrite app_length in W. lia.
  Qed.
  Lemma file_head_len : List.length file_head = 328%nat.
  Proof.
    unfold file_head. rewrite !app_length, words_length, words_head_len, !bytes_len, Ld, Lt. reflexivity.
  Qed.

  Lemma place_of l1 a ws l2 : fs = l1 ++ (a, ws) :: l2 ->
    frame_place p a (101 * N.of_nat (List.length l1) + 202 * row_changes (l1 ++ [(a, ws)])).
  Proof.
    intros E. assert (S : StronglySorted N.lt (map fst l1 ++ [a])).
    { pose proof Sorted as S. rewrite E, map_app in S. cbn [map fst] in S. clear - S.
      induction (map fst l1) as [|x l IH]; [repeat constructor|]. cbn [app] in *. inversion S as [|? ? S' F]; subst.
      constructor; [auto|]. rewrite Forall_forall in *. intros y H. apply F. apply in_app_iff in H as [H|[<-|[]]]; apply in_or_app; [now left|right; now left]. }
    assert (B : forall x, In x (map fst l1) <-> is_frame_address p x /\ x < a).
    { pose proof Sorted as S'. rewrite E, map_app in S'. cbn [map fst] in S'.
      intros x. split.
      - intros H. split; [apply Frames; rewrite E, map_app; apply in_or_app; now left|].
        clear - S H. induction (map fst l1) as [|y l IH]; [contradiction|]. cbn [app] in S. inversion S as [|? ? S' F]; subst.
        destruct H as [->|H]; [|auto]. rewrite Forall_forall in F. apply F. apply in_or_app. right. now left.
      - intros [H L]. apply Frames in H. rewrite E, map_app in H. cbn [map fst] in H. apply in_app_iff in H as [H|[->|H]]; [exact H|lia|exfalso].
        assert (a < x); [|lia]. clear - S' H. induction (map fst l1) as [|y l IH]; cbn [app] in S'; inversion S' as [|? ? S F]; subst; [|auto].
        rewrite Forall_forall in F. now apply F. }
    destruct (changes_spec (map fst l1) a S) as [C1 C2].
    exists (map fst l1), (changes (map fst l1 ++ [a])). split; [|split].
    - split; [|exact B]. clear - S. induction (map fst l1) as [|x l IH]; [constructor|]. cbn [app] in S. inversion S as [|? ? S' F]; subst.
      constructor; [auto|]. rewrite Forall_forall in *. intros y H. apply F. apply in_or_app. now left.
    - split; [exact C1|]. intros r. rewrite C2. split.
      + intros (A & x & H & <-). split; [exact A|]. exists x. split; [apply B; exact H|reflexivity].
      + intros (A & x & H & <-). split; [exact A|]. exists x. split; [|reflexivity]. apply B. split; [exact H|].
        destruct (N.lt_ge_cases x a) as [L|L]; [exact L|]. pose proof (row_le _ _ L). lia.
    - rewrite map_length, row_changes_len, map_app. reflexivity.
  Qed.

  (** The bits of a frame. *)
  Lemma file_bit a ws w x i : In (a, ws) fs -> nth_error ws w = Some x -> i < 32 ->
    exists k b, frame_place p a k /\ nth_error the_file (N.to_nat (byte_place k (N.of_nat w) i)) = Some b /\
      N.testbit b (i mod 8) = N.testbit x i.
  Proof.
    intros I H Hi. apply in_split in I as (l1 & l2 & E). set (k := 101 * N.of_nat (List.length l1) + 202 * row_changes (l1 ++ [(a, ws)])).
    assert (X : x < 2 ^ 32).
    { pose proof Contents as C. rewrite E in C. rewrite Forall_forall in C. destruct (C (a, ws)) as [_ Y]; [apply in_or_app; right; now left|].
      cbn [snd] in Y. rewrite Forall_forall in Y. apply Y. eapply nth_error_In; eauto. }
    destruct (be32_bit x i X Hi) as (b & B1 & B2). exists k, b. split; [now apply (place_of l1 a ws l2)|]. split; [|exact B2].
    destruct (payload_at l1 a ws l2) as (pre & post & P1 & P2).
    { apply contents_len. pose proof Contents as C. rewrite E in C. apply Forall_app in C as [C _]. exact C. }
    fold k in P2. rewrite <- E in P1. rewrite file_split, P1. rewrite !flat_map_app, <- !app_assoc.
    assert (J : (N.to_nat (3 - i / 8) < 4)%nat) by lia.
    assert (W : (w < List.length ws)%nat) by (apply nth_error_Some; congruence).
    assert (Pos : N.to_nat (byte_place k (N.of_nat w) i) = (328 + (4 * List.length pre + (4 * w + N.to_nat (3 - i / 8))))%nat).
    { unfold byte_place. rewrite <- P2. lia. }
    rewrite Pos. clear Pos. rewrite nth_error_app2; rewrite file_head_len; [|lia]. rewrite nth_error_app2; rewrite words_length; [|lia].
    rewrite nth_error_app1; [|rewrite words_length; lia].
    replace (328 + (4 * List.length pre + (4 * w + N.to_nat (3 - i / 8))) - 328 - 4 * List.length pre)%nat with (4 * w + N.to_nat (3 - i / 8))%nat by lia.
    rewrite (nth_words _ _ _ _ H J). exact B1.
  Qed.
  Lemma file_length : N.of_nat (List.length the_file) = 328 + 4 * (N.of_nat (List.length (payload fs)) + 524).
  Proof. rewrite file_split, !app_length, file_head_len, !words_length, words_tail_len. lia. Qed.
End File.

Lemma below_unique p a l l' : frames_below p a l -> frames_below p a l' -> l = l'.
Proof. intros [S H] [S' H']. apply sorted_keys_eq; auto. intros x. rewrite H, H'. reflexivity. Qed.
Lemma rows_unique p a l l' : rows_below p a l -> rows_below p a l' -> l = l'.
Proof. intros [S H] [S' H']. apply sorted_keys_eq; auto. intros x. rewrite H, H'. reflexivity. Qed.
Lemma place_unique p a k k' : frame_place p a k -> frame_place p a k' -> k = k'.
Proof.
  intros (f & r & F & R & ->) (f' & r' & F' & R' & ->). rewrite (below_unique _ _ _ _ F F'), (rows_unique _ _ _ _ R R'). reflexivity.
Qed.

(** ** Where two files differ *)
Lemma differ_app (a b a' b' : list N) j : nth_error (a ++ b) j <> nth_error (a' ++ b') j -> List.length a = List.length a' ->
  ((j < List.length a)%nat /\ nth_error a j <> nth_error a' j) \/
  ((List.length a <= j)%nat /\ nth_error b (j - List.length a) <> nth_error b' (j - List.length a)).
Proof.
  intros H L. destruct (Nat.lt_ge_cases j (List.length a)) as [C|C]; [left|right]; (split; [exact C|]).
  - rewrite !nth_error_app1 in H by lia. exact H.
  - rewrite !nth_error_app2 in H by lia. rewrite <- L in H. exact H.
Qed.
Lemma differ_words ws ws' j : nth_error (flat_map be32 ws) j <> nth_error (flat_map be32 ws') j -> List.length ws = List.length ws' ->
  exists m x x', nth_error ws m = Some x /\ nth_error ws' m = Some x' /\ (4 * m <= j < 4 * m + 4)%nat /\
    nth_error (be32 x) (j - 4 * m) <> nth_error (be32 x') (j - 4 * m).
Proof.
  revert ws' j. induction ws as [|x ws IH]; intros [|x' ws'] j H L; try discriminate L; [contradiction|].
  cbn [flat_map] in H. apply differ_app in H as [[C H]|[C H]]; [| |reflexivity]; rewrite be32_len in *.
  - exists 0%nat, x, x'. cbn [nth_error]. rewrite Nat.mul_0_r, Nat.sub_0_r. repeat split; try lia. exact H.
  - destruct (IH ws' (j - 4)%nat H ltac:(cbn in L; lia)) as (m & y & y' & A & B & D & E). exists (S m), y, y'.
    split; [exact A|]. split; [exact B|]. split; [lia|]. replace (j - 4 * S m)%nat with (j - 4 - 4 * m)%nat by lia. exact E.
Qed.
Lemma differ_byte y y' : y < 256 -> y' < 256 -> y <> y' -> exists b, b < 8 /\ N.testbit y b <> N.testbit y' b.
Proof.
  intros L L' NE. destruct (forallb (fun b => Bool.eqb (N.testbit y b) (N.testbit y' b)) [0;1;2;3;4;5;6;7]) eqn:Q.
  - exfalso. apply NE. apply N.bits_inj. intros b. destruct (N.lt_ge_cases b 8) as [C|C].
    + rewrite forallb_forall in Q. apply eqb_prop. apply Q. cbn. lia.
    + assert (Hi : forall z, z < 256 -> N.testbit z b = false).
      { intros z Z. destruct z as [|z]; [reflexivity|]. apply N.bits_above_log2. change 256 with (2 ^ 8) in Z. apply N.log2_lt_pow2 in Z; lia. }
      rewrite !Hi by assumption. reflexivity.
  - assert (X : exists b, In b [0;1;2;3;4;5;6;7] /\ Bool.eqb (N.testbit y b) (N.testbit y' b) = false).
    { clear - Q. induction [0;1;2;3;4;5;6;7] as [|b l IH]; [discriminate|]. cbn [forallb] in Q. apply andb_false_iff in Q as [Q|Q].
      - exists b. split; [now left|exact Q].
      - destruct (IH Q) as (c & I & E). exists c. split; [now right|exact E]. }
    destruct X as (b & I & E). exists b. split; [cbn in I; lia|]. now apply eqb_false_iff.
Qed.
Lemma differ_be32 x x' j : x < 2 ^ 32 -> x' < 2 ^ 32 -> (j < 4)%nat -> nth_error (be32 x) j <> nth_error (be32 x') j ->
  exists i, i < 32 /\ 3 - i / 8 = N.of_nat j /\ N.testbit x i <> N.testbit x' i.
Proof.
  intros X X' J H. set (q := 3 - N.of_nat j).
  assert (Hy : forall x, x < 2 ^ 32 -> nth_error (be32 x) j = Some (x / 2 ^ (8 * q) mod 256)).
  { clear - J q. intros x Hx. unfold q. destruct j as [|[|[|[|j]]]]; try lia; cbn [nth_error be32 N.of_nat Pos.of_succ_nat Pos.succ].
    - rewrite N.mod_small; [reflexivity|]. change (2 ^ (8 * (3 - 0))) with (2 ^ 24). apply N.div_lt_upper_bound; [discriminate|].
      change (2 ^ 24 * 256) with (2 ^ 32). exact Hx.
    - reflexivity.
    - reflexivity.
    - change (2 ^ (8 * (3 - 3))) with 1. rewrite N.div_1_r. reflexivity. }
  rewrite (Hy x X), (Hy x' X') in H. destruct (differ_byte (x / 2 ^ (8 * q) mod 256) (x' / 2 ^ (8 * q) mod 256)) as (b & B & D).
  - apply N.mod_lt. discriminate.
  - apply N.mod_lt. discriminate.
  - congruence.
  - change 256 with (2 ^ 8) in D. rewrite !N.mod_pow2_bits_low, !N.div_pow2_bits in D by exact B. exists (b + 8 * q).
    split; [unfold q; lia|]. split; [|exact D]. replace ((b + 8 * q) / 8) with q; [unfold q; lia|].
    rewrite (N.mul_comm 8 q), N.div_add by discriminate. rewrite N.div_small by exact B. reflexivity.
Qed.

(** Two payloads with the same addresses. *)
Lemma differ_payload fs fs' m : map fst fs = map fst fs' ->
  Forall (fun kv => List.length (snd kv) = 101%nat) fs -> Forall (fun kv => List.length (snd kv) = 101%nat) fs' ->
  nth_error (payload fs) m <> nth_error (payload fs') m ->
  exists l1 a ws l2 ws' w, fs = l1 ++ (a, ws) :: l2 /\ In (a, ws') fs' /\ (w < 101)%nat /\ nth_error ws w <> nth_error ws' w /\
    nth_error ws w = nth_error (payload fs) m /\ nth_error ws' w = nth_error (payload fs') m /\
    N.of_nat m = 101 * N.of_nat (List.length l1) + 202 * row_changes (l1 ++ [(a, ws)]) + N.of_nat w.
Proof.
  revert fs' m. induction fs as [|[a ws] fs IH]; intros [|[a' ws'] fs'] m K F F' H; try discriminate K; [contradiction|].
  cbn [map fst] in K. injection K as <- K. inversion F as [|? ? Fw F1]; subst. inversion F' as [|? ? Fw' F1']; subst. cbn [snd] in *.
  set (z := match fs with [] => [] | (b, _) :: _ => if device_row a =? device_row b then [] else two_zero_frames end).
  assert (Z' : match fs' with [] => [] | (b, _) :: _ => if device_row a =? device_row b then [] else two_zero_frames end = z).
  { unfold z. destruct fs as [|[b v] fs], fs' as [|[b' v'] fs']; try discriminate K; [reflexivity|]. cbn [map fst] in K. injection K as <- K. reflexivity. }
  assert (P : payload ((a, ws) :: fs) = ws ++ z ++ payload fs) by reflexivity.
  assert (P' : payload ((a, ws') :: fs') = ws' ++ z ++ payload fs') by (cbn [payload]; now rewrite Z').
  rewrite P, P' in *. pose proof H as H0. apply differ_app in H as [[C H]|[C H]]; [| |lia].
  - exists [], a, ws, fs, ws', m. split; [reflexivity|]. split; [now left|]. split; [lia|]. split; [exact H|].
    split; [symmetry; apply nth_error_app1; lia|]. split; [symmetry; apply nth_error_app1; lia|]. cbn [app row_changes List.length]. lia.
  - apply differ_app in H as [[_ H]|[D H]]; [contradiction| |reflexivity].
    destruct (IH fs' _ K F1 F1' H) as (l1 & b & v & l2 & v' & w & E & I & W & NE & N1 & N2 & Pos).
    exists ((a, ws) :: l1), b, v, l2, v', w. split; [now rewrite E|]. split; [now right|]. split; [exact W|]. split; [exact NE|].
    rewrite !(nth_error_app2 (_ : list N)) by lia. rewrite Fw, Fw' in *. split; [exact N1|]. split; [exact N2|].
    cbn [app row_changes]. set (R := row_changes (l1 ++ [(b, v)])) in *.
    assert (Lz : N.of_nat (List.length z) = 202 * match l1 ++ [(b, v)] with [] => 0 | (a', _) :: _ => if device_row a =? device_row a' then 0 else 1 end).
    { unfold z. rewrite E. destruct l1 as [|[c u] l1]; cbn [app]; [destruct (device_row a =? device_row b)|destruct (device_row a =? device_row c)]; reflexivity. }
    cbn [List.length]. lia.
Qed.

Lemma file_differ p date time fs date' time' fs' j :
  List.length date = 10%nat -> List.length time = 8%nat -> List.length date' = 10%nat -> List.length time' = 8%nat ->
  StronglySorted N.lt (map fst fs) -> (forall a, In a (map fst fs) <-> is_frame_address p a) -> Forall (fun kv => is_frame_content (snd kv)) fs ->
  StronglySorted N.lt (map fst fs') -> (forall a, In a (map fst fs') <-> is_frame_address p a) -> Forall (fun kv => is_frame_content (snd kv)) fs' ->
  nth_error (the_file p date time fs) j <> nth_error (the_file p date' time' fs') j ->
  ((64 <= j < 74)%nat /\ nth_error (bytes_of_text date) (j - 64) <> nth_error (bytes_of_text date') (j - 64)) \/
  ((78 <= j < 86)%nat /\ nth_error (bytes_of_text time) (j - 78) <> nth_error (bytes_of_text time') (j - 78)) \/
  exists a ws ws' w x x' i k, In (a, ws) fs /\ In (a, ws') fs' /\ nth_error ws w = Some x /\ nth_error ws' w = Some x' /\ (w < 101)%nat /\ i < 32 /\
    N.testbit x i <> N.testbit x' i /\ frame_place p a k /\ j = N.to_nat (byte_place k (N.of_nat w) i).
Proof.
  intros Ld Lt Ld' Lt' S A C S' A' C' H.
  assert (K : map fst fs = map fst fs') by (apply sorted_keys_eq; auto; intros x; rewrite A, A'; reflexivity).
  assert (PL : List.length (payload fs) = List.length (payload fs')).
  { pose proof (payload_length fs (contents_len _ C)). pose proof (payload_length fs' (contents_len _ C')).
    rewrite !row_changes_len, <- K in *. apply (f_equal (@List.length N)) in K. rewrite !map_length in K. lia. }
  rewrite !file_split in H by assumption. apply differ_app in H as [[B H]|[B H]]; [| |rewrite !file_head_len by assumption; reflexivity].
  - rewrite file_head_len in B by assumption. unfold file_head in H. rewrite <- PL in H. unfold len_N in H. rewrite Ld, Lt, Ld', Lt' in H.
    rewrite <- !app_assoc in H. apply differ_app in H as [[_ H]|[D H]]; [contradiction| |reflexivity].
    match type of D with (?x <= _)%nat => assert (E : x = 64%nat) by reflexivity; rewrite E in * end. clear E.
    apply differ_app in H as [[D2 H]|[D2 H]]; [| |now rewrite !bytes_len, Ld, Ld'].
    + rewrite bytes_len, Ld in D2. left. split; [lia|exact H].
    + rewrite bytes_len, Ld in *. right. left. apply differ_app in H as [[_ H]|[D3 H]]; [contradiction| |reflexivity].
      change (List.length (head2 (N.of_nat 8))) with 4%nat in *. apply differ_app in H as [[D4 H]|[D4 H]]; [| |now rewrite !bytes_len, Lt, Lt'].
      * rewrite bytes_len, Lt in D4. split; [lia|]. replace (j - 78)%nat with (j - 64 - 10 - 4)%nat by lia. exact H.
      * contradiction.
  - rewrite file_head_len in B, H by assumption. right. right. apply differ_app in H as [[D H]|[D H]]; [|contradiction|rewrite !words_length; lia].
    destruct (differ_words _ _ _ H PL) as (m & x & x' & M1 & M2 & R & NE).
    destruct (differ_payload fs fs' m K (contents_len _ C) (contents_len _ C')) as (l1 & a & ws & l2 & ws' & w & E & I & W & _ & N1 & N2 & Pos).
    { rewrite M1, M2. intros X. injection X as ->. contradiction. }
    rewrite M1 in N1. rewrite M2 in N2.
    assert (Small : forall g f v y, Forall (fun kv => is_frame_content (snd kv)) g -> In (a, v) g -> nth_error v f = Some y -> y < 2 ^ 32).
    { clear. intros g f v y Fg Ig Ey. rewrite Forall_forall in Fg. destruct (Fg _ Ig) as [_ Y]. cbn [snd] in Y. rewrite Forall_forall in Y. apply Y. eapply nth_error_In; eauto. }
    assert (Iw : In (a, ws) fs) by (rewrite E; apply in_or_app; right; now left).
    destruct (differ_be32 x x' (j - 328 - 4 * m)) as (i & Hi & Pi & NE'); [eapply (Small fs); eauto|eapply (Small fs'); eauto|lia|exact NE|].
    exists a, ws, ws', w, x, x', i, (101 * N.of_nat (List.length l1) + 202 * row_changes (l1 ++ [(a, ws)])).
    split; [exact Iw|]. split; [exact I|]. split; [exact N1|]. split; [exact N2|]. split; [exact W|]. split; [exact Hi|]. split; [exact NE'|].
    split; [eapply (place_of p date time fs); eauto|]. unfold byte_place. rewrite Pi. lia.
Qed.
