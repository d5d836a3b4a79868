(** Facts about Arch.v: the proofs of FramesFacts, ConfigFacts and WriterFacts, for any number of words of a frame and any header. *)
From Verif Require Import Base BitOps Frame Part Frames Packet Config Writer Reader BaseFacts BitOpsFacts FrameFacts PartSpec PartFacts PartFromFacts
  FramesFacts PacketFacts ConfigSpec ConfigFacts ContainerSpec WriterFacts ReaderFacts EncodeSpec ArchSpec Arch.
From Coq Require Import ZifyBool ZifyN ZifyNat.

Section Words.
Context (w0 : nat) (Hw0 : (0 < w0)%nat).
Definition fill_of (fs : frame_map) (a : N) : frame_map :=
  match bt_find a fs with None => bt_insert a (repeat 0 w0) fs | Some _ => fs end.

Lemma fill_of_find fs a k : bt_sorted fs ->
  bt_find k (fill_of fs a) =
  match bt_find k fs with Some f => Some f | None => if k =? a then Some (repeat 0 w0) else None end.
Proof.
  intros S. unfold fill_of. destruct (bt_find a fs) as [f|] eqn:E.
  - destruct (bt_find k fs) eqn:E2; [reflexivity|].
    destruct (N.eqb_spec k a) as [K|K]; [congruence|reflexivity].
  - rewrite bt_find_insert by assumption. rewrite E.
    destruct (N.eqb_spec k a) as [K|K].
    + rewrite K, E. reflexivity.
    + destruct (bt_find k fs); reflexivity.
Qed.

Lemma fill_of_sorted fs a : bt_sorted fs -> bt_sorted (fill_of fs a).
Proof. unfold fill_of. destruct (bt_find a fs); auto using bt_insert_sorted. Qed.

Lemma fold_fill_of_sorted l : forall fs, bt_sorted fs -> bt_sorted (fold_left fill_of l fs).
Proof. induction l; intros; cbn [fold_left]; auto using fill_of_sorted. Qed.

Lemma fold_fill_of_find l : forall fs k, bt_sorted fs ->
  bt_find k (fold_left fill_of l fs) =
  match bt_find k fs with
  | Some f => Some f
  | None => if existsb (N.eqb k) l then Some (repeat 0 w0) else None
  end.
Proof.
  induction l as [|a l IH]; intros fs k S; cbn [fold_left existsb].
  - destruct (bt_find k fs); reflexivity.
  - rewrite IH by auto using fill_of_sorted. rewrite fill_of_find by assumption.
    destruct (bt_find k fs); [reflexivity|]. destruct (k =? a); reflexivity.
Qed.

Lemma missing_S fuel p a fs :
  missing_from w0 (S fuel) p a fs =
  match part_next p a with
  | None => Ok (fill_of fs a)
  | Some a' => missing_from w0 fuel p a' (fill_of fs a)
  end.
Proof. reflexivity. Qed.

(** Whenever it returns, it has filled exactly the walk. *)
Lemma missing_walk fuel : forall p a fs fs',
  missing_from w0 fuel p a fs = Ok fs' ->
  exists l, walk p a l /\ fs' = fold_left fill_of l fs /\ (length l <= fuel)%nat.
Proof.
  induction fuel as [|fuel IH]; intros p a fs fs' H; [discriminate|].
  rewrite missing_S in H. destruct (part_next p a) as [a'|] eqn:E.
  - apply IH in H. destruct H as (l & Hw & -> & Hl). exists (a :: l). repeat split.
    + econstructor; eassumption.
    + cbn [length]. lia.
  - injection H as <-. exists [a]. repeat split; [constructor; assumption|cbn; lia].
Qed.

Lemma walk_missing p a l : walk p a l -> forall fuel fs, (length l <= fuel)%nat ->
  missing_from w0 fuel p a fs = Ok (fold_left fill_of l fs).
Proof.
  induction 1 as [a E|a a' l E H IH]; intros [|fuel] fs Hl; cbn [length] in Hl; try lia.
  - rewrite missing_S, E. reflexivity.
  - rewrite missing_S, E. cbn [fold_left]. apply IH. lia.
Qed.

(** It returns Ok or runs out of fuel, nothing else. *)
Lemma missing_outcomes fuel : forall p a fs,
  missing_from w0 fuel p a fs = NoFuel \/ exists fs', missing_from w0 fuel p a fs = Ok fs'.
Proof.
  induction fuel as [|fuel IH]; intros p a fs; [left; reflexivity|].
  rewrite missing_S. destruct (part_next p a); [apply IH|right; eexists; reflexivity].
Qed.

Lemma missing_spec fuel p fs fs' :
  bt_sorted fs -> missing_from w0 fuel p 0 fs = Ok fs' ->
  exists l, walk p 0 l /\ bt_sorted fs' /\
    forall k, bt_find k fs' =
      match bt_find k fs with
      | Some f => Some f
      | None => if existsb (N.eqb k) l then Some (repeat 0 w0) else None
      end.
Proof.
  intros S H. apply missing_walk in H. destruct H as (l & Hw & -> & _).
  exists l. repeat split; [assumption|apply fold_fill_of_sorted; assumption|].
  intros k. apply fold_fill_of_find; assumption.
Qed.

Lemma missing_terminates p fs : part_wf p ->
  exists fuel fs', missing_from w0 fuel p 0 fs = Ok fs'.
Proof.
  intros W. destruct (walk_exists p W 0) as (l & Hw & _ & _); [reflexivity|].
  exists (length l), (fold_left fill_of l fs). 
  apply walk_missing; [assumption|lia].
Qed.

Lemma missing_fuel_mono fuel fuel' p fs fs' : (fuel <= fuel')%nat ->
  missing_from w0 fuel p 0 fs = Ok fs' -> missing_from w0 fuel' p 0 fs = Ok fs'.
Proof.
  intros L H. apply missing_walk in H. destruct H as (l & Hw & -> & Hl).
  apply walk_missing; [assumption|lia].
Qed.

Lemma fdri_of_walk p a l : walk p a l -> forall fs fuel acc tail,
  map fst fs = l -> StronglySorted N.lt l ->
  Forall (fun kv : N * frame => length (snd kv) = w0) fs ->
  Forall (fun x => x < a) (bt_keys acc) -> (length fs <= fuel)%nat ->
  snd (fdri_of w0 fuel p (flat_map (frame_data_of w0 p) fs ++ tail) a acc) = acc ++ fs.
Proof.
  induction 1 as [a E|a a' l E H IH]; intros fs fuel acc tail Hk Hs Hw Hacc Hf.
  - destruct fs as [|[k w] [|? ?]]; try discriminate. cbn in Hk. injection Hk as ->.
    destruct fuel as [|fuel]; [cbn in Hf; lia|]. pose proof (Forall_inv Hw) as Hw1. cbn [snd] in Hw1.
    cbn [fdri_of flat_map]. unfold frame_data_of. cbn [fst snd]. rewrite E, !app_nil_r.
    destruct (w ++ tail) as [|d ds] eqn:D.
    { apply (f_equal (@length N)) in D. rewrite app_length, Hw1 in D. cbn [List.length] in D. lia. }
    cbn [snd]. rewrite <- D, firstn_exact by assumption. apply bt_set_max. assumption.
  - destruct fs as [|[k w] fs]; try discriminate. cbn [map fst] in Hk. injection Hk as -> Hk.
    destruct fuel as [|fuel]; [cbn in Hf; lia|]. pose proof (Forall_inv Hw) as Hw1. pose proof (Forall_inv_tail Hw) as Hw2. subst l.
    cbn [snd] in Hw1. apply StronglySorted_inv in Hs. destruct Hs as [Hs Hlt].
    cbn [fdri_of flat_map]. set (rest := flat_map (frame_data_of w0 p) fs) in *.
    unfold frame_data_of. cbn [fst snd]. rewrite E. rewrite <- !app_assoc.
    match goal with |- context [match ?x with [] => _ | _ :: _ => _ end] => destruct x as [|d ds] eqn:D end.
    { apply (f_equal (@length N)) in D. rewrite app_length, Hw1 in D. cbn [List.length] in D. lia. }
    rewrite <- D. clear D d ds. rewrite (firstn_exact w) by assumption.
    rewrite bt_set_max by assumption.
    assert (La : a < a').
    { rewrite Forall_forall in Hlt. apply Hlt. inversion H; left; reflexivity. }
    assert (Hacc' : Forall (fun x => x < a') (bt_keys (acc ++ [(a, w)]))).
    { unfold bt_keys. rewrite map_app. apply Forall_app. split.
      - eapply Forall_impl; [|exact Hacc]. cbn. intros. lia.
      - repeat constructor. cbn. assumption. }
    assert (Sk : skipn (if row_change a a' then (w0 + 2 * w0)%nat else w0)
        (w ++ (if row_change a a' then repeat 0 (w0 * 2)%nat else []) ++ rest ++ tail) = rest ++ tail).
    { destruct (row_change a a').
      - rewrite (app_assoc w). apply skipn_exact. rewrite app_length, Hw1, repeat_length. lia.
      - apply skipn_exact. assumption. }
    rewrite Sk. subst rest. rewrite IH; try assumption; try reflexivity.
    + rewrite <- app_assoc. reflexivity.
    + cbn in Hf. lia.
Qed.

Lemma data_of_walk p a l : walk p a l -> forall fs, map fst fs = l ->
  Forall (fun x => x < 2 ^ 26) l ->
  packet_data_of w0 p fs = payload_of w0 fs.
Proof.
  induction 1 as [a E|a a' l E H IH]; intros fs Hk Hl.
  - destruct fs as [|[k w] [|? ?]]; try discriminate. cbn in Hk. injection Hk as ->.
    unfold packet_data_of, frame_data_of. cbn [flat_map fst snd]. rewrite E.
    rewrite !app_nil_r. reflexivity.
  - destruct fs as [|[k w] fs]; try discriminate. cbn [map fst] in Hk. injection Hk as -> Hk.
    inversion Hl as [|? ? Ha Hl']; subst.
    assert (Hd : exists w' fs', fs = (a', w') :: fs').
    { inversion H; subst; destruct fs as [|[k' w'] fs']; try discriminate;
        cbn [map fst] in *; match goal with K : _ :: _ = _ :: _ |- _ => injection K as <- end; eauto. }
    destruct Hd as (w' & fs' & ->).
    assert (Ha' : a' < 2 ^ 26) by (inversion Hl'; assumption).
    specialize (IH _ eq_refl Hl'). unfold packet_data_of in *. cbn [flat_map]. rewrite <- app_assoc.
    cbn [flat_map] in IH. rewrite IH.
    unfold frame_data_of at 1. cbn [fst snd]. rewrite E, row_change_iff by assumption.
    change (payload_of w0 ((a, w) :: (a', w') :: fs')) with
      (w ++ (if device_row a =? device_row a' then [] else repeat 0 (w0 * 2)) ++ payload_of w0 ((a', w') :: fs')).
    rewrite <- app_assoc. f_equal. f_equal. destruct (device_row a =? device_row a'); reflexivity.
Qed.

End Words.

Section Header.
Context (hh : list N) (Hhh : hh <> []).
Lemma body_of fuel ks : forall j k pi,
  nth_error ks j = Some k -> pi_pkt pi = k -> pi_live pi ->
  (length (pi_rem pi ++ packets_words (skipn (S j) ks)) + 1 <= fuel)%nat ->
  words_of hh fuel ks {| wi_hdr := (List.length hh); wi_pkt := j; wi_op := Some pi |} =
  Ok (pi_rem pi ++ packets_words (skipn (S j) ks)).
Proof.
  induction fuel as [|fuel IH]; intros j k pi Hj Hk Hl Hf; [lia|].
  destruct (pi_step pi Hl) as (w & D & R & P & N). rewrite Hk in N, P.
  cbn [words_of]. unfold wi_eqb, end_of. cbn [wi_hdr wi_pkt wi_op]. rewrite andb_false_r.
  unfold deref_of. cbn [wi_hdr wi_op]. rewrite Nat.eqb_refl. cbn [negb].
  rewrite D. cbn [obind].
  unfold next_of. cbn [wi_hdr wi_pkt wi_op]. rewrite Nat.eqb_refl. cbn [negb].
  rewrite Hj. rewrite R in Hf |- *. cbn [app length] in Hf |- *.
  destruct (pi_eqb (pi_next pi) (pi_end k)).
  - rewrite N in Hf |- *. cbn [app] in Hf |- *.
    destruct (nth_error ks (S j)) as [k'|] eqn:E.
    + cbn [obind]. rewrite (skipn_cons_nth _ _ _ E) in Hf |- *.
      change (packets_words (k' :: skipn (S (S j)) ks)) with
        (pi_rem (pi_begin k') ++ packets_words (skipn (S (S j)) ks)) in Hf |- *.
      rewrite (IH (S j) k' (pi_begin k') E eq_refl eq_refl) by lia. reflexivity.
    + cbn [obind]. rewrite (skipn_none _ _ E). cbn [packets_words flat_map].
      destruct fuel as [|fuel]; [cbn in Hf; lia|].
      cbn [words_of]. unfold wi_eqb, end_of. cbn [wi_hdr wi_pkt wi_op].
      assert (L : S j = length ks).
      { apply nth_error_None in E. assert (nth_error ks j <> None) as A by congruence.
        apply nth_error_Some in A. lia. }
      rewrite L, !Nat.eqb_refl. reflexivity.
  - cbn [obind]. rewrite (IH j k (pi_next pi) Hj P N) by lia. reflexivity.
Qed.

Lemma words_hdr fuel ks h op : (h < (List.length hh))%nat ->
  words_of hh (S fuel) ks {| wi_hdr := h; wi_pkt := 0; wi_op := op |} =
  match nth_error hh h with
  | Some w =>
      obind (words_of hh fuel ks
        (if Nat.eqb (S h) (List.length hh)
         then {| wi_hdr := (List.length hh); wi_pkt := 0;
                 wi_op := match ks with [] => op | k :: _ => Some (pi_begin k) end |}
         else {| wi_hdr := S h; wi_pkt := 0; wi_op := op |})) (fun ws => Ok (w :: ws))
  | None => UB
  end.
Proof.
  intros H. cbn [words_of]. unfold wi_eqb, end_of. cbn [wi_hdr wi_pkt wi_op].
  replace (Nat.eqb h (List.length hh)) with false by (symmetry; apply Nat.eqb_neq; lia).
  cbn [andb]. unfold deref_of. cbn [wi_hdr wi_op].
  replace (Nat.eqb h (List.length hh)) with false by (symmetry; apply Nat.eqb_neq; lia). cbn [negb].
  destruct (nth_error hh h) as [w|] eqn:E; cbn [obind]; [|reflexivity].
  unfold next_of. cbn [wi_hdr wi_pkt wi_op].
  replace (Nat.eqb h (List.length hh)) with false by (symmetry; apply Nat.eqb_neq; lia). cbn [negb].
  destruct (Nat.eqb_spec (S h) (List.length hh)) as [L|L].
  - rewrite L. destruct ks; reflexivity.
  - reflexivity.
Qed.

Lemma words_enough fuel ks :
  ((List.length hh) + length (packets_words ks) + 1 <= fuel)%nat ->
  words_of hh fuel ks (wi_begin ks) = Ok (hh ++ packets_words ks).
Proof.
  intros Hf. unfold wi_begin.
  set (op := match ks with [] => None | k :: _ => Some (pi_begin k) end).
  assert (Tail : forall f, (length (packets_words ks) + 1 <= f)%nat ->
    words_of hh f ks {| wi_hdr := (List.length hh); wi_pkt := 0;
                     wi_op := match ks with [] => op | k :: _ => Some (pi_begin k) end |}
    = Ok (packets_words ks)).
  { intros f Hf'. destruct ks as [|k ks'].
    - destruct f as [|f]; [lia|]. cbn [words_of]. unfold wi_eqb, end_of. cbn [wi_hdr wi_pkt wi_op List.length]. rewrite Nat.eqb_refl. reflexivity.
    - apply (body_of f (k :: ks') 0 k (pi_begin k)); try reflexivity. exact Hf'. }
  assert (H : forall n h f, (h + n = (List.length hh))%nat -> (0 < n)%nat ->
     (n + length (packets_words ks) + 1 <= f)%nat ->
     words_of hh f ks {| wi_hdr := h; wi_pkt := 0; wi_op := op |} =
     Ok (skipn h hh ++ packets_words ks)).
  { induction n as [|n IH]; intros h f Hh Hn Hf'; [lia|].
    destruct f as [|f]; [lia|]. rewrite words_hdr by lia.
    destruct (nth_error hh h) as [w|] eqn:E.
    - rewrite (skipn_cons_nth _ _ _ E).
      destruct (Nat.eqb_spec (S h) (List.length hh)) as [L|L].
      + rewrite Tail by lia. cbn [obind]. rewrite L. rewrite skipn_all. reflexivity.
      + rewrite IH by lia. reflexivity.
    - apply nth_error_None in E. lia. }
  rewrite (H (List.length hh) 0%nat fuel); [reflexivity|lia|destruct hh; [congruence|cbn; lia]|lia].
Qed.

Lemma write_of_file fuel ks part source gen date time l :
  ((List.length hh) + length (packets_words ks) + 1 <= fuel)%nat ->
  exists s,
    write_of hh fuel ks part source gen date time (file_at_end l) = Ok s /\
    st_fail s = false /\
    st_bytes s = l ++ raw_header part source gen date time
                 ++ be_bytes (u32 (4 * (N.of_nat (List.length hh) + len_N (packets_words ks))))
                 ++ flat_map be_bytes (hh ++ packets_words ks).
Proof.
  intros Hf. unfold write_of. rewrite words_enough by assumption. cbn [obind].
  rewrite st_write_end, fold_write_end. set (hdr := create_header part source gen date time).
  set (ws := hh ++ packets_words ks).
  assert (T1 : st_tellp (file_at_end (l ++ hdr)) = Z.of_nat (length (l ++ hdr))) by reflexivity.
  assert (T2 : st_tellp (file_at_end ((l ++ hdr) ++ flat_map be_bytes ws)) =
               Z.of_nat (length ((l ++ hdr) ++ flat_map be_bytes ws))) by reflexivity.
  rewrite T1, T2.
  assert (Hh : hdr = raw_header part source gen date time ++ [0; 0; 0; 0]) by apply create_header_split.
  set (raw := raw_header part source gen date time) in *.
  assert (Len : (Z.of_nat (length ((l ++ hdr) ++ flat_map be_bytes ws)) -
                 Z.of_nat (length (l ++ hdr)))%Z = Z.of_N (4 * len_N ws)).
  { rewrite (app_length (l ++ hdr)), flat_be_length. unfold len_N. lia. }
  rewrite Len.
  assert (Pos : (Z.of_nat (length (l ++ hdr)) - 4)%Z = Z.of_nat (length (l ++ raw))).
  { rewrite Hh, !app_length. cbn [length]. lia. }
  rewrite Pos.
  eexists. split; [reflexivity|].
  unfold st_seekp, file_at_end. cbn [st_fail st_kind].
  replace (Z.of_nat (length (l ++ raw)) <? 0)%Z with false by lia.
  unfold st_write. cbn [st_fail st_kind st_pos st_bytes].
  split; [reflexivity|]. rewrite Nat2Z.id.
  rewrite Hh. rewrite <- !app_assoc. rewrite (app_assoc l raw). rewrite overwrite_mid by reflexivity.
  rewrite <- !app_assoc. do 3 f_equal. f_equal.
  change (2 ^ 32)%Z with (Z.of_N (2 ^ 32)). rewrite <- N2Z.inj_mod, N2Z.id. unfold u32.
  f_equal. unfold len_N, ws. rewrite app_length. lia.
Qed.

End Header.
