(** From the FASM text to the list of features. *)
From Verif Require Import Base BaseFacts Absl Part Frame Fasm FasmSpec FasmFacts FasmSafe FasmShape
  FasmFile FasmLines DbText DbJson Database Assembler EncodeSpec AsmSpec MapFacts.
From Coq Require Import ZifyBool ZifyN ZifyNat.

Local Notation "x <- e ;; f" := (obind e (fun x => f))
  (at level 61, e at next level, right associativity).

(** ** getline *)
Lemma getlines_cut p t : no_newline p -> getlines (p ++ newline ++ t) = (p ++ newline) :: getlines t.
Proof.
  induction p as [|c p IH]; intros N; cbn [app getlines newline].
  - reflexivity.
  - inversion N as [|? ? Nc Np]; subst. rewrite (proj2 (Ascii.eqb_neq c nl)) by exact Nc.
    unfold newline in IH. cbn [app] in IH. rewrite IH by exact Np. reflexivity.
Qed.

Lemma getlines_unlines ps : Forall no_newline ps ->
  getlines (unlines ps) = map (fun p => p ++ newline) ps.
Proof.
  induction ps as [|p ps IH]; intros F; [reflexivity|]. inversion F; subst.
  change (unlines (p :: ps)) with ((p ++ newline) ++ unlines ps). rewrite <- app_assoc.
  rewrite getlines_cut by assumption. cbn [map]. now rewrite IH.
Qed.

Lemma getlines_last p : no_newline p -> p <> [] -> getlines p = [p].
Proof.
  induction p as [|c p IH]; intros N NE; [contradiction|]. inversion N as [|? ? Nc Np]; subst.
  cbn [getlines]. rewrite (proj2 (Ascii.eqb_neq c nl)) by exact Nc.
  destruct p as [|c' p]; [reflexivity|]. rewrite IH; [reflexivity|exact Np|discriminate].
Qed.

Lemma split_lines t : exists ps r, t = unlines ps ++ r /\ Forall no_newline ps /\ no_newline r
  /\ getlines t = map (fun p => p ++ newline) ps ++ match r with [] => [] | _ => [r] end.
Proof.
  induction t as [|c t IH].
  - exists [], []. repeat split; constructor.
  - destruct IH as (ps & r & -> & Hps & Hr & G). destruct (Ascii.eqb c nl) eqn:E.
    + apply Ascii.eqb_eq in E. subst c. exists ([] :: ps), r.
      split; [reflexivity|]. split; [constructor; [constructor|exact Hps]|]. split; [exact Hr|].
      cbn [getlines]. rewrite Ascii.eqb_refl, G. reflexivity.
    + pose proof E as NE. apply Ascii.eqb_neq in NE. destruct ps as [|p ps].
      * exists [], (c :: r). split; [reflexivity|]. split; [constructor|]. split; [now constructor|].
        cbn [app unlines map concat] in *. cbn [getlines]. rewrite E, G. destruct r; reflexivity.
      * inversion Hps; subst. exists ((c :: p) :: ps), r. split; [reflexivity|].
        split; [constructor; [now constructor|assumption]|]. split; [exact Hr|].
        cbn [getlines]. rewrite E, G. reflexivity.
Qed.

(** ** Widths and starts *)
Definition ev_ok (e : event) : Prop :=
  match e with EFeature _ _ s w _ => w <= 64 /\ s + 64 <= 2 ^ 31 | _ => True end.

Lemma number_loop_lt b wrap it : wrap <> 0 -> forall v x r, v < wrap ->
  number_loop b wrap v it = Ok (x, r) -> x < wrap.
Proof.
  intros NZ. induction it as [|c it IH]; intros v x r Hv H; cbn [number_loop] in H; [discriminate|].
  cbv zeta in H. destruct (_ <? _)%Z.
  - destruct (_ =? -1)%Z; [eauto|]. eapply IH; [|exact H]. apply N.mod_lt. exact NZ.
  - inversion H; subst. exact Hv.
Qed.
Lemma parse_number_lt b wrap v it x r : wrap <> 0 -> v < wrap ->
  parse_number b wrap v it = Ok (x, r) -> x < wrap.
Proof.
  intros NZ Hv H. unfold parse_number in H. binv H. eapply number_loop_lt; eauto.
Qed.

Lemma parse_range_lt it mx mn r : parse_range it = Ok (RangeOk mx mn r) -> mn < 2 ^ 16 /\ mx < 2 ^ 16.
Proof.
  unfold parse_range. intros H. binv H. destruct (ch_is v "[").
  2:{ inversion H; subst. split; reflexivity. }
  bind H as [a i1] E0. bind H as i2 E1. bind H as c E2. bind H as [b i3] E3. bind H as c4 E4.
  assert (Ha : a < 2 ^ 16) by (refine (parse_number_lt _ _ _ _ _ _ _ _ E0); [discriminate|reflexivity]).
  assert (Hb : b < 2 ^ 16).
  { destruct (ch_is c ":").
    - bind E3 as [b' i5] E5. bind E3 as i6 E6. inversion E3; subst.
      refine (parse_number_lt _ _ _ _ _ _ _ _ E5); [discriminate|reflexivity].
    - inversion E3; subst. exact Ha. }
  destruct (negb _); [discriminate|]. destruct (a <? b); inversion H; subst. auto.
Qed.

Lemma long_loop_len l it : forall n v x r, long_loop l n v it = Ok (x, r) ->
  (List.length x <= List.length v + List.length it)%nat.
Proof.
  induction it as [|c it IH]; intros n v x r H; cbn [long_loop] in H; [discriminate|].
  cbv zeta in H. cbn [List.length]. destruct (_ <? _)%Z.
  - destruct (_ =? -1)%Z.
    + apply IH in H. lia.
    + apply IH in H. destruct (n mod 64 =? 0).
      * cbn [List.length] in H. lia.
      * destruct v; cbn [List.length] in H |- *; lia.
  - inversion H; subst. lia.
Qed.

Lemma parse_long_len l it x r : parse_long l it = Ok (x, r) ->
  (List.length x <= S (List.length it))%nat.
Proof.
  unfold parse_long. intros H. bind H as i E. bind H as [v i1] E1. inversion H; subst.
  apply skip_blank_sub, sub_len in E. apply long_loop_len in E1. cbn [List.length] in E1.
  destruct v; cbn [List.length] in *; lia.
Qed.

Lemma parse_based_len f it v b r : parse_based f it = Ok (v, b, r) ->
  (List.length v <= S (List.length it))%nat.
Proof.
  unfold parse_based. intros H.
  destruct (ch_is f "h"). { bind H as [v1 i1] E. inversion H; subst. now apply parse_long_len in E. }
  destruct (ch_is f "b"). { bind H as [v1 i1] E. inversion H; subst. now apply parse_long_len in E. }
  destruct (ch_is f "o"). { bind H as [v1 i1] E. inversion H; subst. cbn. lia. }
  destruct (ch_is f "d"). { bind H as [v1 i1] E. inversion H; subst. cbn. lia. }
  bind H as i1 E. inversion H; subst. cbn. lia.
Qed.

Lemma tl_le (it : text) : (List.length (tl it) <= List.length it)%nat.
Proof. destruct it; cbn; lia. Qed.

Lemma parse_assign_len mx mn w st it b w' st' r :
  parse_assign mx mn w st it = Ok (b, w', st', r) ->
  (List.length b <= S (List.length it))%nat /\ (w' = w \/ w' = 64).
Proof.
  unfold parse_assign. intros H. bind H as c E. destruct (ch_is c "=").
  2:{ inversion H; subst. cbn. split; [lia|auto]. }
  bind H as i1 E1. bind H as c1 E2. bind H as [vw i2] E3. bind H as i3 E4. bind H as c3 E5.
  apply skip_blank_sub, sub_len in E1. apply skip_blank_sub, sub_len in E4.
  pose proof (tl_le it).
  assert (L2 : (List.length i2 <= List.length i1)%nat).
  { destruct (digit_of c1 <=? 9)%Z.
    - apply (parse_number_split 10) in E3; [|lia]. destruct E3 as (bl & s & -> & _).
      rewrite !app_length. lia.
    - inversion E3; subst. lia. }
  destruct (ch_is c3 ch_tick).
  - bind H as i4 E6. cbv zeta in H. bind H as ft E7. bind H as [[bs bad] i5] E8. bind H as i6 E9.
    inversion H; subst. apply parse_based_len in E8.
    apply skip_blank_sub, sub_len in E6. pose proof (tl_le i3). pose proof (tl_le i4).
    split; [lia|]. destruct (_ && _); auto.
  - cbv zeta in H. inversion H; subst. cbn [List.length]. split; [lia|]. destruct (_ <? _); auto.
Qed.

Lemma report_ok_events cb line name mn w tot bs : mn < 2 ^ 16 -> w <= 2 ^ 16 -> tot < 2 ^ 24 ->
  forall chunk st st', chunk + N.of_nat (List.length bs) = tot ->
  report Iso cb line name mn w tot chunk bs st = Ok st' ->
  Forall ev_ok (p_events st) -> Forall ev_ok (p_events st').
Proof.
  intros Hm Hw Ht. induction bs as [|v bs IH]; intros chunk st st' HC H F; cbn [report] in H.
  - inversion H; subst. exact F.
  - fold (chunk_width w tot chunk) in H. pose proof (chunk_width_u32 w tot chunk) as CW.
    set (vw := chunk_width w tot chunk) in *. clearbody vw. bind H as m EM.
    assert (VW : 1 <= vw <= 64) by (apply clamp_iso_sane; eauto).
    set (e := EFeature line name (u32 (mn + u32 (chunk * 64))) vw (N.land v m)) in *.
    assert (OK : ev_ok e).
    { unfold e, ev_ok. split; [lia|]. cbn [List.length] in HC. unfold u32.
      rewrite (N.mod_small (chunk * 64)) by lia. rewrite N.mod_small by lia. lia. }
    assert (F' : Forall ev_ok (p_events (p_emit e st))).
    { cbn [p_emit p_events]. apply Forall_app. split; [exact F|]. now constructor. }
    destruct (cb _).
    + eapply IH; [|exact H|exact F']. cbn [List.length] in HC. lia.
    + inversion H; subst. exact F'.
Qed.

Lemma no_feature_ok l : no_feature l -> Forall ev_ok l.
Proof. apply Forall_impl. intros []; [contradiction|exact (fun _ => I)]. Qed.

Lemma parse_line_ok_events cb annot line st it st' r : N.of_nat (List.length it) + 1 < 2 ^ 24 ->
  parse_line Iso cb annot line st it = Ok (st', r) ->
  Forall ev_ok (p_events st) -> Forall ev_ok (p_events st').
Proof.
  intros HL H F. unfold parse_line in H.
  bind H as i0 E. bind H as [name i1] E0. bind H as i2 E1.
  apply skip_blank_sub, sub_len in E. apply read_ident_split in E0. destruct E0 as [E0 _].
  apply skip_blank_sub, sub_len in E1. subst i0. rewrite app_length in E.
  destruct name as [|n0 ns].
  - bind H as [st1 i3] E2. apply parse_annotations_events in E2. destruct E2 as (l1 & El1 & NF).
    apply parse_eol_events in H. rewrite H, El1. apply Forall_app. split; [exact F|]. now apply no_feature_ok.
  - bind H as rg E2. destruct rg as [mx mn i3|i3|i3].
    + pose proof (parse_range_lt _ _ _ _ E2) as [Hmn Hmx]. apply parse_range_sub, sub_len in E2.
      cbn [range_rest] in E2. bind H as i4 E3. apply skip_blank_sub, sub_len in E3. cbv zeta in H.
      bind H as [[[bs w] st1] i5] E4.
      pose proof (parse_assign_len _ _ _ _ _ _ _ _ _ E4) as [LB LW].
      apply parse_assign_split in E4. destruct E4 as (_ & _ & EV & _).
      bind H as st2 E5. bind H as [st3 i6] E6.
      apply parse_annotations_events in E6. destruct E6 as (l2 & El2 & NF).
      apply parse_eol_events in H. rewrite H, El2. apply Forall_app. split; [|now apply no_feature_ok].
      eapply report_ok_events; [exact Hmn| | | |exact E5|rewrite EV; exact F].
      * destruct LW as [->| ->]; [|lia]. unfold u32. rewrite N.mod_small by lia. lia.
      * lia.
      * lia.
    + bind H as i4 E3. inversion H; subst. exact F.
    + bind H as i4 E3. inversion H; subst. exact F.
Qed.

Lemma lines_ok_events cb annot n : forall line st it st', (List.length it <= n)%nat ->
  N.of_nat (List.length it) + 1 < 2 ^ 24 ->
  lines Iso cb annot line st it = Ok st' ->
  Forall ev_ok (p_events st) -> Forall ev_ok (p_events st').
Proof.
  induction n as [|n IH]; intros line st it st' L HL H F.
  - destruct it as [|c it]; [|cbn in L; lia]. cbn in H. inversion H; subst. exact F.
  - destruct it as [|c it].
    { cbn in H. inversion H; subst. exact F. }
    rewrite lines_step in H by discriminate. bind H as [st1 r] E.
    pose proof (parse_line_shrinks _ _ _ _ _ _ _ _ E).
    apply parse_line_ok_events in E; auto. eapply IH; [| |exact H|exact E]; lia.
Qed.

Lemma fasm_ok_events cb annot t st : N.of_nat (List.length t) + 1 < 2 ^ 24 ->
  fasm_parse Iso cb annot t = Ok st -> Forall ev_ok (p_events st).
Proof.
  intros HL H. unfold fasm_parse in H. destruct t as [|c t].
  { inversion H; subst. constructor. }
  destruct (ch_is _ _).
  - fold (lines Iso cb annot 0 {| p_events := []; p_result := kSuccess |} (c :: t)) in H.
    eapply (lines_ok_events cb annot (List.length (c :: t))); [apply le_n|exact HL|exact H|constructor].
  - inversion H; subst. constructor.
Qed.

Lemma events_reported evs : Forall ev_ok evs -> Forall reported (flat_map feature_of_event evs).
Proof.
  induction 1 as [|e l H HF IH]; cbn [flat_map]; [constructor|].
  apply Forall_app. split; [|exact IH]. destruct e; cbn [feature_of_event]; repeat constructor; apply H.
Qed.

(** ** All the lines *)
(** Results are among the six. *)
Definition res_ok (st : pstate) : Prop := p_result st <= kError.
Lemma raise_ok r st : r <= kError -> res_ok st -> res_ok (p_raise r st).
Proof. unfold res_ok. cbn [p_raise p_result]. lia. Qed.
Lemma raise_if_ok (c : bool) r st : r <= kError -> res_ok st -> res_ok (if c then p_raise r st else st).
Proof. destruct c; auto using raise_ok. Qed.

Lemma report_res sm cb line name mn w tot bs : forall chunk st st',
  report sm cb line name mn w tot chunk bs st = Ok st' -> res_ok st -> res_ok st'.
Proof.
  induction bs as [|v bs IH]; intros chunk st st' H R; cbn [report] in H.
  - inversion H; subst. exact R.
  - bind H as m E. destruct (cb _).
    + eapply IH; [exact H|exact R].
    + inversion H; subst. apply raise_ok; [vm_compute; discriminate|exact R].
Qed.
Lemma annotations_res fuel : forall line name st it st' r,
  annotations fuel line name st it = Ok (st', r) -> res_ok st -> res_ok st'.
Proof.
  induction fuel as [|fuel IH]; intros line name st it st' r H R; [discriminate|].
  assert (RR : res_ok (p_raise kError st)) by (apply raise_ok; [apply N.le_refl|exact R]).
  cbn [annotations] in H.
  bind H as i1 E1. bind H as [an i2] E2. bind H as i3 E3. bind H as c3 E4.
  destruct (negb _); [inversion H; subst; exact RR|].
  bind H as i4 E5. bind H as c4 E6. destruct (negb _); [inversion H; subst; exact RR|].
  bind H as [av i5] E7. bind H as c5 E8. destruct (ch_is c5 ch_nl); [inversion H; subst; exact RR|].
  cbv zeta in H. bind H as i6 E9. bind H as c6 E10. destruct (ch_is c6 ",").
  - eapply IH; [exact H|exact R].
  - inversion H; subst. exact R.
Qed.
Lemma parse_annotations_res annot line name st it st' r :
  parse_annotations annot line name st it = Ok (st', r) -> res_ok st -> res_ok st'.
Proof.
  unfold parse_annotations. intros H R. bind H as c E. destruct (ch_is c "{").
  2:{ inversion H; subst. exact R. }
  bind H as [st1 i1] E0. bind H as i2 E1. inversion H; subst. destruct annot.
  - bind E0 as [st2 i3] E2. bind E0 as c3 E3. inversion E0; subst.
    apply annotations_res in E2; [|exact R]. destruct (ch_is c3 "}"); [exact E2|].
    apply raise_ok; [apply N.le_refl|exact E2].
  - inversion E0; subst. exact R.
Qed.
Lemma parse_eol_res st it st' r : parse_eol st it = Ok (st', r) -> res_ok st -> res_ok st'.
Proof.
  unfold parse_eol. intros H R. bind H as c E1. bind H as i1 E2. bind H as c2 E3.
  destruct (ch_is c2 ch_nl); [inversion H; subst; exact R|]. bind H as i3 E4. inversion H; subst.
  apply raise_ok; [apply N.le_refl|exact R].
Qed.
Lemma parse_assign_res mx mn w st it b w' st' r :
  parse_assign mx mn w st it = Ok (b, w', st', r) -> res_ok st -> res_ok st'.
Proof.
  unfold parse_assign. intros H R. bind H as c E. destruct (ch_is c "=").
  2:{ inversion H; subst. destruct (mn =? mx); [exact R|]. apply raise_ok; [vm_compute; discriminate|exact R]. }
  bind H as i1 E1. bind H as c1 E2. bind H as [vw i2] E3. bind H as i3 E4. bind H as c3 E5.
  destruct (ch_is c3 ch_tick).
  - bind H as i4 E6. cbv zeta in H. bind H as ft E7. bind H as [[bs bad] i5] E8. bind H as i6 E9.
    inversion H; subst. repeat apply raise_if_ok; first [exact R|vm_compute; discriminate].
  - cbv zeta in H. inversion H; subst. apply raise_if_ok; [apply N.le_refl|exact R].
Qed.
Lemma parse_line_res sm cb annot line st it st' r :
  parse_line sm cb annot line st it = Ok (st', r) -> res_ok st -> res_ok st'.
Proof.
  intros H R. unfold parse_line in H.
  bind H as i0 E. bind H as [name i1] E0. bind H as i2 E1. destruct name as [|n0 ns].
  - bind H as [st1 i3] E2. apply parse_annotations_res in E2; [|exact R]. now apply parse_eol_res in H.
  - bind H as rg E2. destruct rg as [mx mn i3|i3|i3].
    + bind H as i4 E3. cbv zeta in H. bind H as [[[bs w] st1] i5] E4.
      apply parse_assign_res in E4; [|exact R].
      bind H as st2 E5. apply report_res in E5; [|exact E4]. bind H as [st3 i6] E6.
      apply parse_annotations_res in E6; [|exact E5]. now apply parse_eol_res in H.
    + bind H as i4 E3. inversion H; subst. apply raise_ok; [apply N.le_refl|exact R].
    + bind H as i4 E3. inversion H; subst. apply raise_ok; [vm_compute; discriminate|exact R].
Qed.
Lemma fasm_parse_res sm cb annot t st : fasm_parse sm cb annot t = Ok st -> p_result st <= kError.
Proof.
  intros H. unfold fasm_parse in H. destruct t as [|c t].
  { inversion H; subst. vm_compute. discriminate. }
  destruct (ch_is _ _).
  - fold (res_ok st). generalize dependent (c :: t). intros t0.
    assert (G : forall n line s it s', parse_lines n sm cb annot line s it = Ok s' -> res_ok s -> res_ok s').
    { induction n as [|n IH]; intros line s it s' H R; cbn [parse_lines] in H; [discriminate|].
      destruct it; [inversion H; subst; exact R|]. cbv zeta in H. bind H as [s1 r] E.
      apply parse_line_res in E; [|exact R]. eauto. }
    intros H. apply G in H; [exact H|]. vm_compute. discriminate.
  - inversion H; subst. apply N.le_refl.
Qed.

Lemma fasm_okub sm cb annot t :
  fasm_parse sm cb annot t = UB \/ exists st, fasm_parse sm cb annot t = Ok st.
Proof.
  unfold fasm_parse. destruct t as [|c t]; [right; eauto|].
  destruct (ch_is _ _); [|right; eauto].
  apply (parse_lines_okub (S (List.length (c :: t)))). lia.
Qed.

Lemma assemble_line_cases sm fs line :
  match assemble_line sm fs line with
  | Ok fs' => exists evs, line_parsed sm line evs /\ fs' = fs ++ line_features evs
  | Err => line_failed sm line
  | Crash => False
  | UB => fasm_parse sm (fun _ => true) true line = UB
  | NoFuel => False
  end.
Proof.
  unfold assemble_line. change always with (fun _ : list event => true).
  destruct (fasm_parse sm (fun _ => true) true line) as [st| | | |] eqn:E; cbn [obind].
  - pose proof (fasm_parse_res _ _ _ _ _ E) as R. destruct st as [evs r]. cbn [p_result p_events] in *.
    destruct ((r =? kUserAbort) || (r =? kError)) eqn:C.
    + exists {| p_events := evs; p_result := r |}. split; [exact E|]. cbn [p_result].
      apply orb_true_iff in C as [C|C]; apply N.eqb_eq in C; subst; vm_compute; discriminate.
    + exists evs. split; [|reflexivity]. exists r. split; [exact E|].
      apply orb_false_iff in C as [C1 C2]. apply N.eqb_neq in C1. apply N.eqb_neq in C2.
      unfold kUserAbort, kError in *. lia.
  - pose proof (fasm_okub sm (fun _ => true) true line). rewrite E in H. destruct H as [H|(? & H)]; discriminate H.
  - pose proof (fasm_okub sm (fun _ => true) true line). rewrite E in H. destruct H as [H|(? & H)]; discriminate H.
  - reflexivity.
  - pose proof (fasm_okub sm (fun _ => true) true line). rewrite E in H. destruct H as [H|(? & H)]; discriminate H.
Qed.
