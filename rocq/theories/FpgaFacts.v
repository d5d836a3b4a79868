(** Facts about FpgaSpec.v: finding the synchronisation word, words, register writes. *)
From Verif Require Import Base FpgaSpec ContainerSpec ConfigSpec BaseFacts.
From Coq Require Import Lia ZifyBool ZifyN ZifyNat.

Lemma receive_app dk a b d : receive dk (a ++ b) d = receive dk b (receive dk a d).
Proof. apply fold_left_app. Qed.
Lemma bytes_eqb_eq a b : bytes_eqb a b = true <-> a = b.
Proof. unfold bytes_eqb. destruct (list_eq_dec N.eq_dec a b) as [E|E]; split; auto; discriminate. Qed.

(** ** Asleep *)
Definition last3 (h : list N) : list N := skipn (List.length h - 3) h.
Definition has_sync (h : list N) : Prop := exists p r, h = p ++ synchronisation ++ r.
Lemma last3_step h b : skipn (List.length (last3 h ++ [b]) - 3) (last3 h ++ [b]) = last3 (h ++ [b]).
Proof.
  unfold last3. rewrite !app_length, skipn_length. cbn [List.length].
  destruct (Nat.le_gt_cases 3 (List.length h)) as [L|L].
  - assert (E : h ++ [b] = firstn (List.length h - 3) h ++ (skipn (List.length h - 3) h ++ [b])) by (rewrite app_assoc, firstn_skipn; reflexivity).
    rewrite E. rewrite (skipn_app _ (firstn (List.length h - 3) h)).
    rewrite firstn_length, (skipn_all2 (firstn (List.length h - 3) h)) by (rewrite firstn_length; lia). cbn [app]. f_equal. lia.
  - replace (List.length h - 3)%nat with 0%nat by lia. cbn [skipn]. f_equal. lia.
Qed.
Lemma last3_sync h b : last3 h ++ [b] = synchronisation -> has_sync (h ++ [b]).
Proof.
  intros E. exists (firstn (List.length h - 3) h), []. rewrite app_nil_r, <- E. unfold last3.
  rewrite app_assoc, firstn_skipn. reflexivity.
Qed.
Lemma asleep dk bs : forall d h, awake d = false -> recent d = last3 h -> ~ has_sync (h ++ bs) ->
  receive dk bs d = set_recent (last3 (h ++ bs)) d.
Proof.
  induction bs as [|b bs IH]; intros d h Aw R NS.
  - rewrite app_nil_r, <- R. destruct d. reflexivity.
  - change (receive dk (b :: bs) d) with (receive dk bs (byte dk d b)).
    assert (B : byte dk d b = set_recent (last3 (h ++ [b])) d).
    { unfold byte. rewrite Aw, R. cbv zeta. destruct (bytes_eqb (last3 h ++ [b]) synchronisation) eqn:E.
      - exfalso. apply bytes_eqb_eq in E. apply NS. apply last3_sync in E as (p & r & E). exists p, (r ++ bs).
        change (b :: bs) with ([b] ++ bs). rewrite app_assoc, E, <- !app_assoc. reflexivity.
      - rewrite last3_step. reflexivity. }
    rewrite B. rewrite (IH _ (h ++ [b])).
    + rewrite <- app_assoc. reflexivity.
    + exact Aw.
    + reflexivity.
    + rewrite <- app_assoc. exact NS.
Qed.
Definition wake (d : device) : device := set_packet None (set_recent [] (set_awake true d)).
Lemma waking dk pre d : awake d = false -> recent d = [] -> ~ has_sync (pre ++ [0xAA; 0x99; 0x55]) ->
  receive dk (pre ++ synchronisation) d = wake d.
Proof.
  intros Aw R NS. change synchronisation with ([0xAA; 0x99; 0x55] ++ [0x66]). rewrite app_assoc, receive_app.
  rewrite (asleep dk _ d []); [|exact Aw|now rewrite R|exact NS].
  cbn [app]. assert (L : last3 (pre ++ [170; 153; 85]) = [170; 153; 85]).
  { unfold last3. rewrite app_length. cbn [List.length]. rewrite skipn_app.
    rewrite skipn_all2 by lia. replace (List.length pre + 3 - 3 - List.length pre)%nat with 0%nat by lia. reflexivity. }
  rewrite L. unfold receive. cbn [fold_left]. unfold byte. cbn [awake set_recent]. rewrite Aw. cbn [recent set_recent app]. reflexivity.
Qed.
Lemma no_sync_high bs : Forall (fun b => b <> 0xAA) bs -> ~ has_sync bs.
Proof.
  intros F (p & r & E). rewrite E in F. apply Forall_app in F as [_ F]. cbn [synchronisation app] in F. inversion F. congruence.
Qed.

(** ** Words *)
Definition run (dk : device_kind) (ws : list N) (d : device) : device := fold_left (fun d w => word dk w d) ws d.
Lemma run_app dk a b d : run dk (a ++ b) d = run dk b (run dk a d).
Proof. apply fold_left_app. Qed.
Fixpoint along (dk : device_kind) (Q : device -> Prop) (ws : list N) (d : device) : Prop :=
  match ws with [] => True | w :: r => Q d /\ along dk Q r (word dk w d) end.
Lemma along_app dk Q a : forall b d, along dk Q (a ++ b) d <-> along dk Q a d /\ along dk Q b (run dk a d).
Proof.
  induction a as [|w a IH]; intros b d.
  - cbn. tauto.
  - cbn [app along]. rewrite IH. change (run dk (w :: a) d) with (run dk a (word dk w d)). tauto.
Qed.
Lemma along_at dk Q ws : forall d m, along dk Q ws d -> (m < List.length ws)%nat -> Q (run dk (firstn m ws) d).
Proof.
  induction ws as [|w ws IH]; intros d m H L; cbn [List.length] in L; [lia|]. destruct H as [H1 H2].
  destruct m as [|m]; [exact H1|]. cbn [firstn]. change (run dk (w :: firstn m ws) d) with (run dk (firstn m ws) (word dk w d)). apply IH; [exact H2|lia].
Qed.
Lemma along_impl dk (Q Q' : device -> Prop) ws : (forall d, Q d -> Q' d) -> forall d, along dk Q ws d -> along dk Q' ws d.
Proof. intros I. induction ws as [|w ws IH]; intros d; cbn [along]; [auto|]. intros [A B]. split; auto. Qed.

Lemma be32_value w : w < 2 ^ 32 ->
  w / 2 ^ 24 * 2 ^ 24 + w / 2 ^ 16 mod 256 * 2 ^ 16 + w / 2 ^ 8 mod 256 * 2 ^ 8 + w mod 256 = w.
Proof.
  intros _. assert (E : forall a b, a / b / 256 = a / (b * 256) \/ b = 0) by (intros a b; destruct (N.eq_dec b 0); [now right|left; now apply N.div_div]).
  pose proof (N.div_mod w 256 ltac:(discriminate)) as D0.
  pose proof (N.div_mod (w / 2 ^ 8) 256 ltac:(discriminate)) as D1. pose proof (N.div_mod (w / 2 ^ 16) 256 ltac:(discriminate)) as D2.
  destruct (E w (2 ^ 8)) as [E1|E1]; [|discriminate E1]. destruct (E w (2 ^ 16)) as [E2|E2]; [|discriminate E2].
  change (2 ^ 8 * 256) with (2 ^ 16) in E1. change (2 ^ 16 * 256) with (2 ^ 24) in E2. rewrite E1 in D1. rewrite E2 in D2.
  change (w / 256) with (w / 2 ^ 8) in D0.
  generalize dependent (w / 2 ^ 24). generalize dependent (w / 2 ^ 16 mod 256). generalize dependent (w / 2 ^ 16). generalize dependent (w / 2 ^ 8 mod 256).
  generalize dependent (w / 2 ^ 8). generalize dependent (w mod 256). clear. change (2 ^ 24) with 16777216. change (2 ^ 16) with 65536. change (2 ^ 8) with 256. lia.
Qed.
Lemma receive_word dk w d : awake d = true -> recent d = [] -> w < 2 ^ 32 -> receive dk (be32 w) d = word dk w d.
Proof.
  intros Aw R W. pose proof (be32_value w W) as V. unfold be32. generalize dependent (w / 2 ^ 24). generalize dependent (w / 2 ^ 16 mod 256).
  generalize dependent (w / 2 ^ 8 mod 256). generalize (w mod 256). intros b0 b1 b2 b3 V.
  unfold receive. cbn [fold_left]. unfold byte at 4. rewrite Aw, R. cbn [app].
  unfold byte at 3. cbn [awake recent set_recent app]. rewrite Aw. unfold byte at 2. cbn [awake recent set_recent app]. rewrite Aw.
  unfold byte at 1. cbn [awake recent set_recent app]. rewrite Aw. rewrite V. f_equal. rewrite <- R. destruct d. reflexivity.
Qed.
(** Fewer than four bytes of a word change nothing but the bytes received. *)
Lemma receive_part dk bs d : awake d = true -> recent d = [] -> (List.length bs < 4)%nat -> receive dk bs d = set_recent bs d.
Proof.
  intros Aw R L. destruct bs as [|b0 [|b1 [|b2 [|b3 bs]]]]; cbn [List.length] in L; try lia; unfold receive; cbn [fold_left].
  - rewrite <- R. destruct d. reflexivity.
  - unfold byte. rewrite Aw, R. reflexivity.
  - unfold byte at 2. rewrite Aw, R. cbn [app]. unfold byte. cbn [awake recent set_recent]. rewrite Aw. reflexivity.
  - unfold byte at 3. rewrite Aw, R. cbn [app]. unfold byte at 2. cbn [awake recent set_recent app]. rewrite Aw.
    unfold byte. cbn [awake recent set_recent]. rewrite Aw. reflexivity.
Qed.
Definition up (d : device) : Prop := awake d = true /\ recent d = [].
Lemma receive_words dk ws : forall d, Forall (fun w => w < 2 ^ 32) ws -> along dk up ws d -> receive dk (flat_map be32 ws) d = run dk ws d.
Proof.
  induction ws as [|w ws IH]; intros d F H; [reflexivity|]. inversion F as [|? ? Fw F']; subst. destruct H as [[Aw R] H].
  cbn [flat_map]. rewrite receive_app, receive_word by assumption. rewrite IH by assumption. reflexivity.
Qed.
(** A cut in the words. *)
Lemma cut_words ws : forall n, (n <= 4 * List.length ws)%nat -> exists m r, (m <= List.length ws)%nat /\ (List.length r < 4)%nat /\
  (n = 4 * m + List.length r)%nat /\ firstn n (flat_map be32 ws) = flat_map be32 (firstn m ws) ++ r.
Proof.
  induction ws as [|w ws IH]; intros n L.
  - exists 0%nat, []. cbn in *. split; [lia|]. split; [lia|]. split; [lia|]. destruct n; [reflexivity|lia].
  - destruct (Nat.lt_ge_cases n 4) as [C|C].
    + exists 0%nat, (firstn n (be32 w)). split; [cbn; lia|]. assert (X : List.length (firstn n (be32 w)) = n) by (rewrite firstn_length; change (List.length (be32 w)) with 4%nat; lia).
      rewrite X. split; [lia|]. split; [lia|]. cbn [flat_map firstn]. rewrite firstn_app. change (List.length (be32 w)) with 4%nat.
      replace (n - 4)%nat with 0%nat by lia. cbn [firstn app]. apply app_nil_r.
    + destruct (IH (n - 4)%nat) as (m & r & M & R & E & X); [cbn [List.length] in L; lia|]. exists (S m), r. cbn [List.length].
      split; [lia|]. split; [exact R|]. split; [lia|]. cbn [flat_map firstn]. rewrite firstn_app. change (List.length (be32 w)) with 4%nat. rewrite X.
      rewrite firstn_all2 by (change (List.length (be32 w)) with 4%nat; lia). now rewrite app_assoc.
Qed.

(** ** Register writes *)
Definition write_header (r : N) : N := 0x30000001 + 0x2000 * r.
Lemma write_header_is r d : r < 32 -> header (write_header r) d = set_packet (Some (r, 1)) (set_last_register r d).
Proof.
  intros H. unfold header. assert (X : write_header r / 2 ^ 29 = 1 /\ write_header r / 2 ^ 27 mod 4 = 2 /\ write_header r / 2 ^ 13 mod 32 = r /\ write_header r mod 2 ^ 11 = 1).
  { unfold write_header. change (2 ^ 29) with 536870912. change (2 ^ 27) with 134217728. change (2 ^ 13) with 8192. change (2 ^ 11) with 2048.
    assert (M : exists k, r = k /\ In k [0;1;2;3;4;5;6;7;8;9;10;11;12;13;14;15;16;17;18;19;20;21;22;23;24;25;26;27;28;29;30;31]).
    { exists r. split; [reflexivity|]. cbn [In]. lia. }
    destruct M as (k & -> & I). cbn [In] in I. repeat (destruct I as [<-|I]; [repeat split; reflexivity|]). contradiction. }
  destruct X as (E1 & E2 & E3 & E4). rewrite E1, E2, E3, E4. reflexivity.
Qed.
Lemma set_packet_same d : packet d = None -> set_packet None d = d.
Proof. intros H. rewrite <- H. destruct d. reflexivity. Qed.
Lemma register_pair dk r v d : r < 32 -> packet d = None ->
  word dk (write_header r) d = set_packet (Some (r, 1)) (set_last_register r d) /\
  run dk [write_header r; v] d = write_register dk r v (set_last_register r d).
Proof.
  intros H P. assert (E : word dk (write_header r) d = set_packet (Some (r, 1)) (set_last_register r d)).
  { unfold word at 1. rewrite P. now apply write_header_is. }
  split; [exact E|]. unfold run. cbn [fold_left]. rewrite E. unfold word. cbn [packet set_packet]. cbn [N.eqb Pos.eqb]. f_equal.
  transitivity (set_packet None (set_last_register r d)); [reflexivity|]. apply set_packet_same. exact P.
Qed.
Lemma nop_word dk d : packet d = None -> word dk 0x20000000 d = set_last_register 0 d.
Proof. intros P. unfold word. rewrite P. reflexivity. Qed.
Lemma nop_words dk n : forall d, packet d = None -> run dk (nops (S n)) d = set_last_register 0 d.
Proof.
  induction n as [|n IH]; intros d P.
  - unfold run, nops. cbn [repeat fold_left]. now apply nop_word.
  - change (run dk (nops (S (S n))) d) with (run dk (nops (S n)) (word dk 0x20000000 d)). rewrite nop_word by exact P. rewrite IH by exact P. reflexivity.
Qed.
