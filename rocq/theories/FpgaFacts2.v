(** Facts about FpgaSpec.v: the configuration program, the frame data. *)
From Verif Require Import Base FpgaSpec ContainerSpec ConfigSpec BaseFacts FpgaFacts PlaceFacts.
From Coq Require Import Lia ZifyBool ZifyN ZifyNat.

(** ** Sequences of register writes and NOPs *)
Inductive item := Put (r v : N) | Wait (n : nat).
Definition item_words (i : item) : list N := match i with Put r v => [write_header r; v] | Wait n => nops (S n) end.
Definition good_item (i : item) : Prop := match i with Put r _ => r < 32 | Wait _ => True end.
Definition effect (dk : device_kind) (d : device) (i : item) : device :=
  match i with Put r v => write_register dk r v (set_last_register r d) | Wait _ => set_last_register 0 d end.
Fixpoint along_items (dk : device_kind) (Q : device -> Prop) (is : list item) (d : device) : Prop :=
  match is with [] => True | i :: r => Q d /\ along_items dk Q r (effect dk d i) end.

Lemma execute_packet c d : packet d = None -> packet (execute c d) = None.
Proof. intros P. unfold execute. repeat match goal with |- context [if ?b then _ else _] => destruct b end; try exact P; reflexivity. Qed.
Lemma write_packet dk r v d : packet d = None -> packet (write_register dk r v d) = None.
Proof.
  intros P. unfold write_register. assert (C : packet (count_in dk r v d) = None) by (unfold count_in; destruct (r =? 0); exact P).
  set (d1 := count_in dk r v d) in *. clearbody d1. cbv zeta.
  repeat match goal with |- packet (if ?b then _ else _) = _ => destruct b end; try exact C; try (apply execute_packet; exact C).
  unfold frame_word. destruct (command d1 =? 1); [|exact C]. cbv zeta. destruct (Nat.eqb _ _); [|exact C].
  unfold store_frame. cbn [pad set_frame_buffer far]. destruct (pad d1); [|exact C]. destruct (far d1); [|exact C].
  destruct (existsb _ _); [|exact C]. cbv zeta. cbn [id_ok failed set_frame_buffer]. destruct (id_ok d1 && negb (failed d1)); exact C.
Qed.
Lemma effect_packet dk i d : packet d = None -> packet (effect dk d i) = None.
Proof. intros P. destruct i; [apply write_packet|]; exact P. Qed.
Lemma set_packet_id d : set_packet (packet d) d = d. Proof. destruct d as [v1 v2 v3 v4 v5 v6 v7 v8 v9 v10 v11 v12 v13 v14 v15 v16 v17 v18 v19]. reflexivity. Qed.

Section Items.
  Context (dk : device_kind) (Q : device -> Prop).
  Hypothesis Qs : forall d p r, Q d -> Q (set_packet p (set_last_register r d)).
  Lemma Qr d r : Q d -> Q (set_last_register r d).
  Proof. intros H. apply (Qs _ (packet (set_last_register r d)) r) in H. rewrite set_packet_id in H. exact H. Qed.
  Lemma along_nops n : forall d, packet d = None -> Q d -> along dk Q (nops n) d.
  Proof.
    induction n as [|n IH]; intros d P H; [exact Logic.I|]. change (nops (S n)) with (0x20000000 :: nops n). cbn [along]. split; [exact H|].
    rewrite nop_word by exact P. apply IH; [exact P|]. now apply Qr.
  Qed.
  Lemma items_run is : forall d, Forall good_item is -> packet d = None ->
    run dk (flat_map item_words is) d = fold_left (effect dk) is d /\
    (along_items dk Q is d -> along dk Q (flat_map item_words is) d).
  Proof.
    induction is as [|i is IH]; intros d G P; [split; auto|]. inversion G as [|? ? Gi G']; subst.
    destruct (IH (effect dk d i) G' (effect_packet dk i d P)) as [R A].
    assert (E : run dk (item_words i) d = effect dk d i).
    { destruct i as [r v|n]; [apply (register_pair dk r v d Gi P)|apply nop_words; exact P]. }
    cbn [flat_map]. split.
    - rewrite run_app, E. exact R.
    - intros [H H']. apply along_app. split; [|rewrite E; auto]. destruct i as [r v|n].
      + cbn [item_words along]. split; [exact H|]. split; [|exact Logic.I]. rewrite (proj1 (register_pair dk r v d Gi P)). now apply Qs.
      + apply along_nops; assumption.
  Qed.
End Items.

(** ** The words before the frame data *)
Definition quiet (m : N -> list N) (d : device) : Prop := up d /\ running d = false /\ memory d = m.
Lemma quiet_s m d p r : quiet m d -> quiet m (set_packet p (set_last_register r d)).
Proof. intros H. exact H. Qed.
Definition head_items1 (idcode : N) : list item :=
  [Wait 0; Put 17 0; Put 16 0; Put 4 0; Wait 0; Put 4 7; Wait 1; Put 19 0; Put 9 0x02003fe5; Put 14 0; Put 12 idcode].
Definition head_items2 : list item :=
  [Put 4 9; Wait 0; Put 6 0x401; Put 5 0x501; Put 6 0; Put 24 0; Wait 7; Put 1 0; Put 4 1; Wait 0].
Lemma words_head_items idcode len : words_head idcode len =
  flat_map item_words (head_items1 idcode) ++ flat_map item_words head_items2 ++ [0x30004000; 0x50000000 + len].
Proof. reflexivity. Qed.

(** What [wake] leaves of a blank device. *)
Definition fresh (d : device) : Prop :=
  up d /\ packet d = None /\ id_ok d = false /\ failed d = false /\ interconnect d = false /\ start d = false /\ running d = false.
Lemma wake_fresh d : blank d -> fresh (wake d).
Proof. intros (R & Aw & A1 & A2 & A3 & A4 & A5). repeat split; assumption. Qed.

Ltac step := cbv -[id_matches masked dk_checksum].
Lemma head1_run dk idcode d : fresh d ->
  exists c x, fold_left (effect dk) (head_items1 idcode) d =
    set_last_register 12 (set_command 7 (set_cor0 0x02003fe5 (set_checksum c
      (if x : bool then set_id_ok true d else set_failed true d)))) /\
    (x = true <-> idcode mod 2 ^ 28 = dk_idcode dk mod 2 ^ 28) /\
    along_items dk (quiet (memory d)) (head_items1 idcode) d.
Proof.
  intros ([Aw R] & P & I1 & I2 & I3 & I4 & I5).
  exists (dk_checksum dk (dk_checksum dk (dk_checksum dk (dk_checksum dk 0 19 0) 9 0x02003fe5) 14 0) 12 idcode).
  exists (id_matches dk idcode). split; [|split; [apply N.eqb_eq|]].
  - unfold head_items1. destruct d as [v1 v2 v3 v4 v5 v6 v7 v8 v9 v10 v11 v12 v13 v14 v15 v16 v17 v18 v19]. step. destruct (id_matches dk idcode); reflexivity.
  - destruct d as [v1 v2 v3 v4 v5 v6 v7 v8 v9 v10 v11 v12 v13 v14 v15 v16 v17 v18 v19]. cbn [awake recent packet id_ok failed interconnect start running] in *. unfold head_items1, along_items. subst. unfold quiet, up.
    step. repeat split.
Qed.
Lemma head2_run dk d : up d -> running d = false -> command d = 7 ->
  exists c, fold_left (effect dk) head_items2 d =
    set_last_register 0 (set_command 1 (set_checksum c (set_pad 0 (set_frame_buffer [] (set_far (Some 0)
      (set_mask 0 (set_ctl0 (masked (ctl0 d) 0x401 0x501) (set_ctl1 (masked (ctl1 d) 0 0) d)))))))) /\
    along_items dk (quiet (memory d)) head_items2 d.
Proof.
  intros [Aw R] I5 C7. destruct d as [v1 v2 v3 v4 v5 v6 v7 v8 v9 v10 v11 v12 v13 v14 v15 v16 v17 v18 v19]. cbn [awake recent running command] in *. subst. eexists. split.
  - unfold head_items2. step. reflexivity.
  - unfold head_items2, along_items, quiet, up. step. repeat split.
Qed.
Lemma data_header dk len d : packet d = None -> 0 < len -> len < 2 ^ 27 ->
  run dk [0x30004000; 0x50000000 + len] d = set_packet (Some (2, len)) (set_last_register 2 d) /\
  word dk 0x30004000 d = set_last_register 2 d.
Proof.
  intros P L0 L. assert (E1 : word dk 0x30004000 d = set_last_register 2 d) by (unfold word; rewrite P; reflexivity). split; [|exact E1].
  unfold run. cbn [fold_left]. rewrite E1. unfold word. cbn [packet set_last_register]. rewrite P. unfold header.
  assert (X : (0x50000000 + len) / 2 ^ 29 = 2 /\ (0x50000000 + len) / 2 ^ 27 mod 4 = 2 /\ (0x50000000 + len) mod 2 ^ 27 = len).
  { change (2 ^ 29) with 536870912. change (2 ^ 27) with 134217728 in *. lia. }
  destruct X as (X1 & X2 & X3). rewrite X1, X2, X3. cbn [N.eqb Pos.eqb]. unfold expect_data. replace (len =? 0) with false by (symmetry; apply N.eqb_neq; lia). reflexivity.
Qed.
Lemma head_run dk idcode len d : fresh d -> idcode mod 2 ^ 28 = dk_idcode dk mod 2 ^ 28 -> 0 < len -> len < 2 ^ 27 ->
  exists c, run dk (words_head idcode len) d =
    set_packet (Some (2, len)) (set_last_register 2 (set_command 1 (set_checksum c (set_pad 0 (set_frame_buffer [] (set_far (Some 0)
      (set_mask 0 (set_ctl0 (masked (ctl0 d) 0x401 0x501) (set_ctl1 (masked (ctl1 d) 0 0) (set_cor0 0x02003fe5 (set_id_ok true d))))))))))) /\
    along dk (quiet (memory d)) (words_head idcode len) d.
Proof.
  intros F E L0 L. destruct (head1_run dk idcode d F) as (c1 & x & R1 & X & A1). rewrite (proj2 X E) in R1. clear X x.
  destruct F as (U & P & I1 & I2 & I3 & I4 & I5).
  assert (G1 : Forall good_item (head_items1 idcode)) by (repeat constructor).
  assert (G2 : Forall good_item head_items2) by (repeat constructor).
  destruct (items_run dk (quiet (memory d)) (quiet_s _) _ d G1 P) as [W1 B1]. rewrite R1 in W1. clear R1. cbv iota in W1.
  set (d1 := set_last_register 12 _) in W1.
  destruct (head2_run dk d1) as (c2 & R2 & A2); [exact U|exact I5|reflexivity|].
  assert (P1 : packet d1 = None) by exact P.
  destruct (items_run dk (quiet (memory d1)) (quiet_s _) _ d1 G2 P1) as [W2 B2]. rewrite R2 in W2. clear R2.
  set (d2 := set_last_register 0 _) in W2.
  destruct (data_header dk len d2) as [W3 W4]; [exact P|exact L0|exact L|].
  exists c2. rewrite words_head_items. split.
  - rewrite !run_app, W1, W2, W3. destruct d as [v1 v2 v3 v4 v5 v6 v7 v8 v9 v10 v11 v12 v13 v14 v15 v16 v17 v18 v19]. reflexivity.
  - apply along_app. split; [apply B1; exact A1|]. rewrite W1. apply along_app. split; [apply B2; exact A2|]. rewrite W2.
    cbn [along]. rewrite W4. assert (Q2 : quiet (memory d) d2) by (split; [exact U|split; [exact I5|reflexivity]]). split; [exact Q2|]. split; [exact Q2|exact Logic.I].
Qed.

(** ** The frame data *)
Definition pads (a : N) (rest : list N) : nat := if same_row a (hd_error rest) then 0 else 2.
Fixpoint room (l : list N) : nat := match l with [] => 0 | a :: rest => 101 + 101 * pads a rest + room rest end.
Fixpoint chunks (l : list N) (data : list N) : list (N * list N) :=
  match l with [] => [] | a :: rest => (a, firstn 101 data) :: chunks rest (skipn (101 + 101 * pads a rest) data) end.
Definition written (l : list (N * list N)) (m : N -> list N) : N -> list N :=
  fold_left (fun m f x => if x =? fst f then snd f else m x) l m.
Definition pk (n : N) : option (N * N) := if n =? 0 then None else Some (2, n).

Lemma data_word dk w d n : packet d = pk (n + 1) ->
  word dk w d = frame_word dk w (set_checksum (dk_checksum dk (checksum d) 2 w) (set_packet (pk n) d)).
Proof.
  intros P. unfold word. rewrite P. unfold pk at 1. replace (n + 1 =? 0) with false by (symmetry; apply N.eqb_neq; lia).
  unfold write_register. cbn [N.eqb Pos.eqb count_in]. unfold count_in. cbn [N.eqb Pos.eqb]. f_equal.
  replace (if n + 1 =? 1 then None else Some (2, n + 1 - 1)) with (pk n); [reflexivity|]. unfold pk.
  destruct (n =? 0) eqn:E; [apply N.eqb_eq in E; subst; reflexivity|apply N.eqb_neq in E].
  replace (n + 1 =? 1) with false by (symmetry; apply N.eqb_neq; lia). do 2 f_equal. lia.
Qed.

Section Fill.
  Context (dk : device_kind) (Q : device -> Prop).
  Hypothesis Qf : forall d p c f, Q d -> Q (set_frame_buffer f (set_checksum c (set_packet p d))).
  Lemma fill ws : forall d n, packet d = pk (N.of_nat (List.length ws) + n) -> (List.length (frame_buffer d) + List.length ws = 101)%nat ->
    ws <> [] -> command d = 1 -> Q d ->
    (exists c, run dk ws d = store_frame dk (frame_buffer d ++ ws) (set_frame_buffer [] (set_packet (pk n) (set_checksum c d)))) /\ along dk Q ws d.
  Proof.
    induction ws as [|w ws IH]; intros d n P L NE C H; [contradiction|]. cbn [List.length] in *.
    assert (P' : packet d = pk (N.of_nat (List.length ws) + n + 1)) by (rewrite P; f_equal; lia).
    pose proof (data_word dk w d _ P') as E. unfold frame_word in E. cbn [command set_checksum set_packet] in E. rewrite C in E. cbn [N.eqb Pos.eqb frame_buffer set_checksum set_packet] in E.
    rewrite app_length in E. cbn [List.length] in E. change (run dk (w :: ws) d) with (run dk ws (word dk w d)). cbn [along].
    destruct ws as [|w' ws].
    - cbn [List.length] in *. replace (Nat.eqb (List.length (frame_buffer d) + 1) 101) with true in E by (symmetry; apply Nat.eqb_eq; lia).
      split; [|split; [exact H|exact Logic.I]]. exists (dk_checksum dk (checksum d) 2 w). unfold run. cbn [fold_left]. rewrite E. f_equal.
    - replace (Nat.eqb (List.length (frame_buffer d) + 1) 101) with false in E by (symmetry; apply Nat.eqb_neq; cbn [List.length] in L; lia).
      rewrite E. match type of E with _ = ?x => set (d1 := x) end.
      destruct (IH d1 n) as [(c & R) Al]; [reflexivity| |discriminate|exact C|apply Qf; exact H|].
      + unfold d1. cbn [frame_buffer set_frame_buffer]. rewrite app_length. cbn [List.length] in *. lia.
      + split; [|split; [exact H|exact Al]]. exists c. rewrite R. unfold d1. cbn [frame_buffer set_frame_buffer]. rewrite <- app_assoc. reflexivity.
  Qed.
End Fill.

(** All frames up to the [k]th are stored, the others are as they were. *)
Definition loading (fs : list (N * list N)) (m : N -> list N) (d : device) : Prop :=
  up d /\ running d = false /\ exists k, forall a, memory d a = written (firstn k fs) m a.
Lemma loading_f fs m d p c f : loading fs m d -> loading fs m (set_frame_buffer f (set_checksum c (set_packet p d))).
Proof. intros H. exact H. Qed.

Lemma next_is dk l1 a l : dk_frames dk = l1 ++ a :: l -> StronglySorted N.lt (dk_frames dk) -> next_frame dk a = hd_error l.
Proof.
  intros E S. unfold next_frame. rewrite E in *. clear E. induction l1 as [|b l1 IH].
  - cbn [app find]. rewrite N.ltb_irrefl. cbn [app] in S. inversion S as [|? ? S' F]; subst. destruct l as [|b l]; [reflexivity|]. cbn [find hd_error].
    inversion F as [|? ? Fb F']; subst. apply N.ltb_lt in Fb. rewrite Fb. reflexivity.
  - cbn [app find] in *. inversion S as [|? ? S' F]; subst. assert (Lt : b < a) by (rewrite Forall_forall in F; apply F; apply in_or_app; right; now left).
    replace (a <? b) with false by (symmetry; apply N.ltb_ge; lia). auto.
Qed.
Lemma written_app l l' m : written (l ++ l') m = written l' (written l m).
Proof. apply fold_left_app. Qed.

Lemma drop_pads dk fs m n : forall data d k, pad d = k -> List.length data = (101 * k)%nat -> packet d = pk (N.of_nat (List.length data) + n) ->
  frame_buffer d = [] -> command d = 1 -> loading fs m d ->
  (exists c, run dk data d = set_pad 0 (set_packet (pk n) (set_checksum c d))) /\ along dk (loading fs m) data d.
Proof.
  intros data d k. revert data d. induction k as [|k IH]; intros data d Pd L P B C H.
  - destruct data; [|discriminate L]. split; [|exact Logic.I]. exists (checksum d). cbn [run fold_left]. destruct d as [v1 v2 v3 v4 v5 v6 v7 v8 v9 v10 v11 v12 v13 v14 v15 v16 v17 v18 v19]. cbn [pad packet checksum] in *. subst. reflexivity.
  - rewrite <- (firstn_skipn 101 data). set (f := firstn 101 data). set (r := skipn 101 data).
    assert (Lf : List.length f = 101%nat) by (unfold f; rewrite firstn_length; lia).
    assert (Lr : List.length r = (101 * k)%nat) by (unfold r; rewrite skipn_length; lia).
    destruct (fill dk (loading fs m) (loading_f fs m) f d (N.of_nat (List.length r) + n)) as [(c & R) Al].
    + rewrite P. f_equal. rewrite <- (firstn_skipn 101 data), app_length. fold f r. lia.
    + rewrite B, Lf. reflexivity.
    + intros E. rewrite E in Lf. discriminate Lf.
    + exact C.
    + exact H.
    + rewrite B in R. cbn [app] in R. unfold store_frame in R. cbn [pad set_frame_buffer set_packet set_checksum] in R. rewrite Pd in R.
      set (d1 := set_pad k _) in R. destruct (IH r d1) as [(c' & R') Al']; try assumption; try reflexivity.
      split.
      * exists c'. rewrite run_app, R, R'. unfold d1. destruct d as [v1 v2 v3 v4 v5 v6 v7 v8 v9 v10 v11 v12 v13 v14 v15 v16 v17 v18 v19]. cbn [frame_buffer] in B. subst. reflexivity.
      * apply along_app. split; [exact Al|]. rewrite R. exact Al'.
Qed.

Lemma take dk FS m n : StronglySorted N.lt (dk_frames dk) -> forall l l1 done data d,
  dk_frames dk = l1 ++ l -> FS = done ++ chunks l data -> List.length data = room l ->
  far d = hd_error l -> pad d = 0%nat -> frame_buffer d = [] -> command d = 1 -> id_ok d = true -> failed d = false -> up d -> running d = false ->
  packet d = pk (N.of_nat (List.length data) + n) -> (forall a, memory d a = written done m a) ->
  (exists c mm, run dk data d = set_memory mm (set_far None (set_packet (pk n) (set_checksum c d))) /\ forall a, mm a = written FS m a) /\
  along dk (loading FS m) data d.
Proof.
  intros S. induction l as [|a l IH]; intros l1 done data d E EF L Fa Pd B C Io Fl U Rn P M.
  - cbn [room] in L. destruct data; [|discriminate L]. split; [|exact Logic.I]. exists (checksum d), (memory d). split.
    + cbn [run fold_left]. destruct d as [v1 v2 v3 v4 v5 v6 v7 v8 v9 v10 v11 v12 v13 v14 v15 v16 v17 v18 v19]. cbn [far packet checksum hd_error List.length] in *. subst. reflexivity.
    + intros x. rewrite M, EF. cbn [chunks]. rewrite app_nil_r. reflexivity.
  - assert (LQ : forall d', up d' -> running d' = false -> (forall x, memory d' x = written done m x) -> loading FS m d').
    { intros d' U' R' M'. split; [exact U'|]. split; [exact R'|]. exists (List.length done). intros x. rewrite M', EF, firstn_app, firstn_all, Nat.sub_diag. cbn [firstn]. rewrite app_nil_r. reflexivity. }
    cbn [room] in L. set (k := pads a l) in *.
    set (f := firstn 101 data). set (r := skipn 101 data). set (z := firstn (101 * k) r). set (t := skipn (101 * k) r).
    assert (Df : data = f ++ z ++ t) by (unfold z, t; rewrite firstn_skipn; unfold f, r; now rewrite firstn_skipn).
    assert (Lf : List.length f = 101%nat) by (unfold f; rewrite firstn_length; lia).
    assert (Lr : List.length r = (101 * k + room l)%nat) by (unfold r; rewrite skipn_length; lia).
    assert (Lz : List.length z = (101 * k)%nat) by (unfold z; rewrite firstn_length; lia).
    assert (Lt : List.length t = room l) by (unfold t; rewrite skipn_length; lia).
    assert (Et : skipn (101 + 101 * k) data = t).
    { rewrite Df. rewrite app_assoc, skipn_app, skipn_all2 by (rewrite app_length; lia). rewrite app_length, Lf, Lz, Nat.sub_diag. reflexivity. }
    cbn [chunks] in EF. fold k in EF. fold f in EF. rewrite Et in EF.
    assert (LF : forall x, memory d x = written done m x -> True) by auto.
    destruct (fill dk (loading FS m) (loading_f FS m) f d (N.of_nat (List.length z + List.length t) + n)) as [(c & R) Al].
    + rewrite P. f_equal. rewrite Df, !app_length. lia.
    + rewrite B, Lf. reflexivity.
    + intros X. rewrite X in Lf. discriminate Lf.
    + exact C.
    + apply LQ; assumption.
    + rewrite B in R. cbn [app] in R. unfold store_frame in R. cbn [pad far id_ok failed set_frame_buffer set_packet set_checksum] in R.
      rewrite Pd, Fa in R. cbn [hd_error] in R.
      assert (Ex : existsb (N.eqb a) (dk_frames dk) = true).
      { apply existsb_exists. exists a. split; [|apply N.eqb_refl]. rewrite E. apply in_or_app. right. now left. }
      rewrite Ex, Io, Fl in R. cbn [andb negb] in R. rewrite (next_is dk l1 a l E S) in R. cbv zeta in R.
      change (if same_row a (hd_error l) then 0%nat else 2%nat) with k in R. set (d1 := set_pad k _) in R.
      assert (M1 : forall x, memory d1 x = written (done ++ [(a, f)]) m x).
      { intros x. rewrite written_app. unfold d1. cbn [memory set_pad set_far set_memory set_frame_buffer set_packet set_checksum written fold_left fst snd].
        destruct (x =? a); [reflexivity|]. apply M. }
      assert (L1 : loading FS m d1).
      { split; [exact U|]. split; [exact Rn|]. exists (List.length (done ++ [(a, f)])). intros x. rewrite M1. rewrite EF.
        change (done ++ (a, f) :: chunks l t) with (done ++ [(a, f)] ++ chunks l t). rewrite app_assoc, firstn_app, firstn_all, Nat.sub_diag. cbn [firstn]. rewrite app_nil_r. reflexivity. }
      destruct (drop_pads dk FS m (N.of_nat (List.length t) + n) z d1 k) as [(c' & R') Al']; [reflexivity|exact Lz| |reflexivity|exact C|exact L1|].
      { unfold d1. cbn [packet set_pad set_far set_memory set_frame_buffer set_packet set_checksum]. f_equal. lia. }
      set (d2 := set_pad 0 _) in R'.
      destruct (IH (l1 ++ [a]) (done ++ [(a, f)]) t d2) as [(c'' & mm & R'' & MM) Al''];
        [rewrite <- app_assoc; exact E|rewrite <- app_assoc; exact EF|exact Lt|reflexivity|reflexivity|reflexivity|exact C|exact Io|exact Fl|exact U|exact Rn|reflexivity|exact M1|].
      split.
      * exists c'', mm. split; [|exact MM]. rewrite Df, !run_app, R, R', R''. unfold d2, d1. destruct d as [v1 v2 v3 v4 v5 v6 v7 v8 v9 v10 v11 v12 v13 v14 v15 v16 v17 v18 v19]. clear - B Pd. cbn [frame_buffer pad] in B, Pd. rewrite B, Pd. reflexivity.
      * rewrite Df. apply along_app. split; [exact Al|]. rewrite R. apply along_app. split; [exact Al'|]. rewrite R'. exact Al''.
Qed.

(** ** The words after the frame data *)
Definition tail_items : list item :=
  [Put 4 7; Wait 1; Put 4 10; Wait 0; Put 4 3; Wait 99; Put 4 5; Wait 0; Put 1 0x3be0000; Put 6 0x501; Put 5 0x501; Put 4 7; Wait 1; Put 4 13].
Lemma words_tail_items : words_tail = flat_map item_words tail_items ++ nops 400.
Proof. reflexivity. Qed.
Lemma tail_run dk d : up d -> packet d = None -> running d = false -> id_ok d = true -> failed d = false ->
  exists c, run dk (flat_map item_words tail_items) d =
    set_running true (set_awake false (set_last_register 4 (set_command 13 (set_checksum c (set_ctl0 (masked (ctl0 d) 0x501 0x501) (set_mask 0x501 (set_far (Some 0x3be0000)
      (set_pad 0 (set_frame_buffer [] (set_start true (set_interconnect true d))))))))))) /\
    along dk (quiet (memory d)) (flat_map item_words tail_items) d.
Proof.
  intros [Aw R] P Rn Io Fl. assert (G : Forall good_item tail_items) by (repeat constructor).
  destruct (items_run dk (quiet (memory d)) (quiet_s _) _ d G P) as [W B]. rewrite W.
  destruct d as [v1 v2 v3 v4 v5 v6 v7 v8 v9 v10 v11 v12 v13 v14 v15 v16 v17 v18 v19]. cbn [awake recent packet running id_ok failed] in *. subst. eexists. split.
  - unfold tail_items. step. reflexivity.
  - apply B. unfold tail_items, along_items, quiet, up. step. repeat split.
Qed.
