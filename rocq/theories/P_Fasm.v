(** Properties C30-C39: the FASM parser.

    The parser is run with any callback [cb], a function of the history of all
    calls including the current one ([agrees cb]: it always asks for more), and
    with either reading [sm] of a shift by 64 or more: [Iso], undefined
    behaviour, or [Hw], the count modulo 64. *)
From Verif Require Import Base BaseFacts Fasm FasmSpec FasmFacts FasmSafe FasmShape FasmFile
  FasmLines FasmWrap.

Local Notation "x <- e ;; f" := (obind e (fun x => f))
  (at level 61, e at next level, right associativity).

Definition yes : list event -> bool := fun _ => true.
Lemma yes_agrees : agrees yes.
Proof. intros h. reflexivity. Qed.

(** ** C30 *)
(** The first text is given by its lines [ps]; none ends in a single quote and
    blanks (a value whose digits are missing).  The callback of the second parse
    sees the history of the first, so any stateful consumer is covered. *)
Theorem C30_lines_are_independent :
  forall sm cb annot ps b, Forall good_line ps -> nl_text b ->
  fasm_parse sm cb annot (unlines ps ++ b)
  = (sa <- fasm_parse sm cb annot (unlines ps) ;;
     sb <- fasm_parse sm (fun h => cb (p_events sa ++ map (shift_event (N.of_nat (List.length ps))) h))
             annot b ;;
     Ok {| p_events := p_events sa
             ++ map (shift_event (N.of_nat (List.length ps))) (p_events sb);
           p_result := N.max (p_result sa) (p_result sb) |}).
Proof. exact parse_concat. Qed.
Print Assumptions C30_lines_are_independent.

Example C30_case :
  let ps := [tx "A.B[3:0] = 4'hf # x"; tx "oops!"] in
  let b := tx "C.D" ++ newline in
  Forall good_line ps /\ nl_text b
  /\ fasm_parse Iso yes true (unlines ps ++ b)
     = Ok {| p_events := [EFeature 1 (tx "A.B") 0 4 15; EFeature 2 (tx "oops") 0 1 1;
                          EFeature 3 (tx "C.D") 0 1 1]; p_result := kError |}.
Proof.
  cbv zeta.
  assert (T : forall p, existsb (fun c => Ascii.eqb c "'"%char) p = false -> ~ tick_ended p).
  { intros p H (u & b & E & _). subst p. rewrite existsb_app in H. cbn in H.
    rewrite orb_true_r in H. discriminate. }
  split; [|split; [right; reflexivity|reflexivity]].
  repeat constructor; try (repeat constructor; discriminate).
  - intros (u & b & E & B). apply (f_equal (@rev ascii)) in E. rewrite rev_app_distr in E.
    cbn in E. rewrite <- app_assoc in E. destruct (rev b) as [|x r] eqn:R.
    + inversion E.
    + inversion E; subst. assert (I : In "x"%char b) by (apply in_rev; rewrite R; now left).
      unfold blanks in B. rewrite Forall_forall in B. destruct (B _ I); discriminate.
  - apply T. reflexivity.
Qed.

(** The excluded lines really are different: a quote at the end of a line
    swallows the next line. *)
Theorem C30_tick_ended_line_refuted :
  fasm_parse Iso yes true (unlines [tx "a='"; tx "b"])
  = Ok {| p_events := [EFeature 1 (tx "a") 0 1 1]; p_result := kError |}
  /\ fasm_parse Iso yes true (unlines [tx "b"])
     = Ok {| p_events := [EFeature 1 (tx "b") 0 1 1]; p_result := kSuccess |}.
Proof. split; reflexivity. Qed.
Print Assumptions C30_tick_ended_line_refuted.

(** ** C31 *)
Theorem C31_file_denotation :
  forall sm cb l, agrees cb ->
  Forall (fun i => item_shape i /\ item_in_range i) l ->
  N.of_nat (List.length l) < 2 ^ 32 ->
  fasm_parse sm cb true (file_text l)
  = Ok {| p_events := file_events 1 l; p_result := file_severity l |}.
Proof.
  intros sm cb l Hcb H HL. rewrite fasm_parse_lines by apply file_text_nl.
  rewrite lines_items by auto. reflexivity.
Qed.
Print Assumptions C31_file_denotation.

(** One feature of at most 64 bits: one call, as written. *)
Theorem C31_one_feature :
  forall sm cb b0 f, agrees cb -> blanks b0 -> feature_shape f -> feature_in_range f ->
  feature_width f <= 64 ->
  exists r, r <= kNonCritical /\
  fasm_parse sm cb true (one_item_text b0 f)
  = Ok {| p_events := [EFeature 1 (f_name f) (range_lo f) (range_hi f - range_lo f + 1)
                         (feature_value f mod 2 ^ (range_hi f - range_lo f + 1))];
          p_result := r |}.
Proof.
  intros sm cb b0 f Hcb H0 Hf Hr HW.
  set (i := {| i_b0 := b0; i_feature := Some f; i_end := EndNone |}).
  exists (item_severity i). split.
  - unfold item_severity, i; cbn [i_feature]. destruct (f_assign f) as [[b v]|].
    + destruct v; [vm_compute; discriminate|]. destruct (_ <? _); vm_compute; discriminate.
    + destruct (_ =? _); vm_compute; discriminate.
  - pose proof (C31_file_denotation sm cb [i] Hcb) as X.
    unfold file_text in X. cbn [map concat] in X. rewrite app_nil_r in X.
    unfold one_item_text. fold i. rewrite X.
    + unfold file_severity, file_events. cbn [map fold_left]. rewrite app_nil_r, N.max_0_l.
      unfold item_events, i. cbn [i_feature i_end]. rewrite app_nil_r.
      unfold feature_events, value_events. rewrite chunk_count_narrow by (unfold feature_width in *; lia).
      change (N.to_nat 1) with 1%nat. cbn [seq map]. unfold chunk_event.
      change (N.of_nat 0) with 0. rewrite N.mul_0_r, N.sub_0_r, N.add_0_r, N.pow_0_r, N.div_1_r.
      rewrite N.min_r by exact HW. unfold feature_width. reflexivity.
    + constructor; [|constructor]. split; [|exact Hr].
      unfold item_shape, i. cbn [i_b0 i_feature i_end ending_shape]. auto.
    + vm_compute. reflexivity.
Qed.
Print Assumptions C31_one_feature.

Definition C31_f : feature :=
  {| f_name := tx "CLB_X1Y2.LUT.INIT"; f_b1 := [];
     f_range := Some {| r_b0 := tx " "; r_hi := tx "15"; r_b1 := []; r_lo := Some ([], tx "4", tx " ") |};
     f_b2 := tx " "; f_assign := Some (tx " ", Based (tx "12") [] [] Hex [] (tx "a_Bc") (tx " ")) |}.
Ltac name_chars := unfold is_name_char, between, code;
  repeat (constructor;
    [vm_compute; first [left; split; discriminate | right; left; split; discriminate
       | right; right; left; split; discriminate
       | right; right; right; left; reflexivity | right; right; right; right; reflexivity]|]);
  constructor.
Ltac numerals :=
  repeat (constructor;
    [first [left; reflexivity | right; eexists; split; [vm_compute; reflexivity|vm_compute; reflexivity]]|]);
  constructor.
Ltac all_blank := repeat (constructor; [first [left; reflexivity|right; reflexivity]|]); constructor.
Lemma C31_f_shape : feature_shape C31_f.
Proof.
  unfold feature_shape, C31_f; cbn [f_name f_b1 f_range f_b2 f_assign].
  split; [discriminate|]. split; [name_chars|]. split; [all_blank|]. split.
  { unfold range_shape; cbn [r_b0 r_hi r_b1 r_lo].
    split; [all_blank|]. split; [numerals|]. split; [all_blank|].
    split; [all_blank|]. split; [numerals|all_blank]. }
  split; [all_blank|]. split; [all_blank|].
  unfold rhs_shape. split; [numerals|]. do 3 (split; [all_blank|]). split; [numerals|all_blank].
Qed.
Example C31_case :
  feature_shape C31_f /\ feature_in_range C31_f /\ feature_width C31_f = 12
  /\ one_item_text [] C31_f = tx "CLB_X1Y2.LUT.INIT[ 15:4 ] = 12'ha_Bc " ++ newline
  /\ fasm_parse Iso yes true (one_item_text [] C31_f)
     = Ok {| p_events := [EFeature 1 (tx "CLB_X1Y2.LUT.INIT") 4 12 0xABC]; p_result := kSuccess |}.
Proof.
  split; [exact C31_f_shape|]. split.
  { unfold feature_in_range. vm_compute. repeat split; discriminate. }
  repeat split; reflexivity.
Qed.

(** ** C32 *)
(** Lines of blanks, a comment, a carriage return: no call, no problem, wherever
    they stand. *)
Definition silent (i : item) : Prop :=
  blanks (i_b0 i) /\ i_feature i = None
  /\ match i_end i with EndAnnot _ _ _ => False | EndNone => True
     | EndComment s | EndCr s => no_newline s end.

Theorem C32_comments_and_blanks_are_silent :
  forall sm cb annot l, Forall silent l ->
  fasm_parse sm cb annot (file_text l) = Ok {| p_events := []; p_result := kSuccess |}.
Proof.
  intros sm cb annot l H. rewrite fasm_parse_lines by apply file_text_nl.
  change ({| p_events := []; p_result := kSuccess |}) with start_state.
  generalize start_state 0. induction H as [|i l Hi Hl IH]; intros st ln; [reflexivity|].
  change (file_text (i :: l)) with (item_text i ++ file_text l).
  rewrite lines_step.
  2:{ unfold item_text. intros E. apply (f_equal (@List.length ascii)) in E.
      rewrite !app_length in E. cbn in E. lia. }
  assert (E : parse_line sm cb annot (u32 (ln + 1)) st (item_text i ++ file_text l) = Ok (st, file_text l)).
  { destruct i as [b0 f e], Hi as (B & F & HE). cbn [i_b0 i_feature i_end] in *. subst f.
    unfold item_text, parse_line. cbn [i_b0 i_feature i_end app].
    generalize (file_text l) as t. intros t.
    rewrite <- !app_assoc. rewrite skip_blank_app by exact B.
    destruct e as [|s|s|a r j]; try contradiction; cbn [ending_text]; cbn [app].
    - reflexivity.
    - pose proof (no_newline_eol (tx "#" ++ s) t) as X.
      assert (N1 : no_newline (tx "#" ++ s)) by (constructor; [discriminate|exact HE]).
      specialize (X N1). change ((tx "#" ++ s) ++ newline ++ t) with ("#"%char :: s ++ newline ++ t) in X.
      change ((tx "#" ++ s) ++ newline ++ t) with ("#"%char :: s ++ newline ++ t).
      cbn [skip_blank read_ident obind]. change (ch_is "#" " " || ch_is "#" ch_tab) with false.
      cbv iota. cbn [obind read_ident]. change (ident_char "#") with false. cbv iota.
      cbn [obind skip_blank]. change (ch_is "#" " " || ch_is "#" ch_tab) with false. cbv iota.
      cbn [obind]. unfold parse_annotations. cbn [peek obind]. change (ch_is "#" "{") with false.
      cbv iota. cbn [obind]. unfold parse_eol. cbn [peek obind].
      change (ch_is "#" "#" || ch_is "#" ch_cr) with true. cbv iota. rewrite X. reflexivity.
    - pose proof (no_newline_eol (["013"%char] ++ s) t) as X.
      assert (N1 : no_newline (["013"%char] ++ s)) by (constructor; [discriminate|exact HE]).
      specialize (X N1). change ((["013"%char] ++ s) ++ newline ++ t) with ("013"%char :: s ++ newline ++ t) in X.
      change ((["013"%char] ++ s) ++ newline ++ t) with ("013"%char :: s ++ newline ++ t).
      cbn [skip_blank read_ident obind]. change (ch_is "013" " " || ch_is "013" ch_tab) with false.
      cbv iota. cbn [obind read_ident]. change (ident_char "013") with false. cbv iota.
      cbn [obind skip_blank]. change (ch_is "013" " " || ch_is "013" ch_tab) with false. cbv iota.
      cbn [obind]. unfold parse_annotations. cbn [peek obind]. change (ch_is "013" "{") with false.
      cbv iota. cbn [obind]. unfold parse_eol. cbn [peek obind].
      change (ch_is "013" "#" || ch_is "013" ch_cr) with true. cbv iota. rewrite X. reflexivity. }
  rewrite E. cbn [obind]. apply IH.
Qed.
Print Assumptions C32_comments_and_blanks_are_silent.

Example C32_case :
  let l := [{| i_b0 := tx "  "; i_feature := None; i_end := EndNone |};
            {| i_b0 := []; i_feature := None; i_end := EndComment (tx " A.B = 'oops {") |};
            {| i_b0 := []; i_feature := None; i_end := EndCr [] |}] in
  Forall silent l /\ file_text l = tx "  " ++ newline ++ tx "# A.B = 'oops {" ++ newline ++ ["013"%char] ++ newline.
Proof.
  cbv zeta. split; [|reflexivity].
  repeat constructor; unfold no_newline; cbn; repeat constructor; discriminate.
Qed.

(** ** C33 *)
(** The result is the worst of the results of the lines parsed one by one... *)
Theorem C33_result_is_the_worst :
  forall sm cb annot ps st, agrees cb -> Forall good_line ps ->
  fasm_parse sm cb annot (unlines ps) = Ok st ->
  exists rs, Forall2 (fun p s => fasm_parse sm cb annot (unlines [p]) = Ok s) ps rs
             /\ p_result st = fold_left N.max (map p_result rs) 0.
Proof. exact parse_worst. Qed.
Print Assumptions C33_result_is_the_worst.

(** ... success (or only warnings) means that every line is in the grammar ... *)
Theorem C33_success_means_well_formed :
  forall sm cb t st, nl_text t ->
  fasm_parse sm cb true t = Ok st -> p_result st < kSkipped ->
  exists l, Forall item_shape l /\ t = file_text l.
Proof.
  intros sm cb t st Hn H LT. rewrite fasm_parse_lines in H by exact Hn.
  eapply lines_accepted in H; [|apply le_n]. now apply H.
Qed.
Print Assumptions C33_success_means_well_formed.

(** ... and more text never improves it. *)
Theorem C33_never_improves :
  forall sm cb annot ps b sa st, Forall good_line ps -> nl_text b ->
  fasm_parse sm cb annot (unlines ps) = Ok sa ->
  fasm_parse sm cb annot (unlines ps ++ b) = Ok st ->
  p_result sa <= p_result st /\ exists l, p_events st = p_events sa ++ l.
Proof.
  intros sm cb annot ps b sa st Hp Hb Ea E. rewrite parse_concat in E by auto.
  rewrite Ea in E. cbn [obind] in E.
  destruct (fasm_parse sm _ annot b) as [sb| | | |]; try discriminate E.
  cbn [obind] in E. inversion E; subst. cbn [p_result p_events]. split; [lia|eauto].
Qed.
Print Assumptions C33_never_improves.

Example C33_case :
  fasm_parse Iso yes true (unlines [tx "A.B"; tx "A[1:0]"; tx "A[1:3]"; tx "C"])
  = Ok {| p_events := [EFeature 1 (tx "A.B") 0 1 1; EFeature 2 (tx "A") 0 2 1; EFeature 4 (tx "C") 0 1 1];
          p_result := kSkipped |}.
Proof. reflexivity. Qed.

(** ** C34 *)
(** Any text at all: the parser returns, or reads outside the buffer / shifts by
    too much; it never loops. *)
Theorem C34_always_terminates :
  forall sm cb annot t,
  fasm_parse sm cb annot t = UB \/ exists st, fasm_parse sm cb annot t = Ok st.
Proof.
  intros sm cb annot t. unfold fasm_parse. destruct t as [|c t]; [right; eauto|].
  destruct (ch_is _ _); [|right; eauto].
  apply (parse_lines_okub (S (List.length (c :: t)))). lia.
Qed.
Print Assumptions C34_always_terminates.

(** No line ends in a quote and blanks: no read outside the text. *)
Theorem C34_reads_inside_the_text :
  forall cb annot ps, Forall good_line ps ->
  exists st, fasm_parse Hw cb annot (unlines ps) = Ok st.
Proof.
  intros cb annot ps H. rewrite fasm_parse_lines by apply nl_unlines.
  apply lines_hw_ok. exact H.
Qed.
Print Assumptions C34_reads_inside_the_text.

(** The shift of the code is in range exactly when all reported widths are
    between 1 and 64. *)
Theorem C34_shift_defined_iff :
  forall cb annot t st, nl_text t ->
  fasm_parse Hw cb annot t = Ok st ->
  (Forall sane_event (p_events st) <-> fasm_parse Iso cb annot t = Ok st).
Proof.
  intros cb annot t st Hn H. rewrite fasm_parse_lines in * by exact Hn.
  apply (lines_iso_iff cb annot (List.length t)) with (st := start_state); auto.
Qed.
Print Assumptions C34_shift_defined_iff.

(** Both exclusions are real. *)
Theorem C34_reads_past_the_end_refuted :
  fasm_parse Hw yes true (tx "a='" ++ newline) = UB.
Proof. reflexivity. Qed.
Print Assumptions C34_reads_past_the_end_refuted.

Theorem C34_shift_too_far_refuted :
  fasm_parse Iso yes true (tx "a[64:0]" ++ newline) = UB
  /\ fasm_parse Iso yes true (tx "a[7:0] = 8'h00000000000000001" ++ newline) = UB.
Proof. split; reflexivity. Qed.
Print Assumptions C34_shift_too_far_refuted.

(** ** C35 *)
Theorem C35_no_final_newline_rejected :
  forall sm cb annot t, t <> [] -> last t "010"%char <> "010"%char ->
  fasm_parse sm cb annot t = Ok {| p_events := []; p_result := kError |}.
Proof.
  intros sm cb annot [|c t] H HL; [contradiction|]. unfold fasm_parse.
  rewrite ch_is_false by exact HL. reflexivity.
Qed.
Print Assumptions C35_no_final_newline_rejected.

Example C35_case :
  fasm_parse Iso yes true (tx "A.B" ++ newline ++ tx "C.D")
  = Ok {| p_events := []; p_result := kError |}.
Proof. apply C35_no_final_newline_rejected; discriminate. Qed.

(** ** C36 *)
(** The digits fill the 64-bit chunks ([feature_in_range]): the calls carry the
    written value, 64 bits at a time from the least significant end. *)
Theorem C36_wide_values_are_split_without_loss :
  forall sm cb b0 f, agrees cb -> blanks b0 -> feature_shape f -> feature_in_range f ->
  exists st, fasm_parse sm cb true (one_item_text b0 f) = Ok st
  /\ pieces 1 (f_name f) (range_lo f) (range_lo f + feature_width f)
       (feature_value f mod 2 ^ feature_width f) (p_events st)
  /\ full_but_last (p_events st)
  /\ fold_right (fun e acc => match e with
                  | EFeature _ _ s _ b => b * 2 ^ (s - range_lo f) + acc | _ => acc end) 0 (p_events st)
     = feature_value f mod 2 ^ feature_width f.
Proof.
  intros sm cb b0 f Hcb H0 Hf Hr.
  set (i := {| i_b0 := b0; i_feature := Some f; i_end := EndNone |}).
  pose proof (C31_file_denotation sm cb [i] Hcb) as X.
  unfold file_text in X. cbn [map concat] in X. rewrite app_nil_r in X.
  unfold one_item_text. fold i. rewrite X.
  - eexists. split; [reflexivity|]. cbn [p_events file_events]. rewrite app_nil_r.
    unfold item_events, i. cbn [i_feature i_end]. rewrite app_nil_r. unfold feature_events.
    assert (W : 1 <= feature_width f) by (unfold feature_width; lia).
    pose proof (value_events_pieces 1 (f_name f) (range_lo f) (feature_width f) (feature_value f) W) as P.
    split; [exact P|]. split; [now apply value_events_full|].
    symmetry. eapply pieces_sum. exact P.
  - constructor; [|constructor]. split; [|exact Hr].
    unfold item_shape, i. cbn [i_b0 i_feature i_end ending_shape]. auto.
  - vm_compute. reflexivity.
Qed.
Print Assumptions C36_wide_values_are_split_without_loss.

Example C36_case :
  fasm_parse Iso yes true (tx "A[95:0] = 96'h000000000000000A_23456789abcdef02" ++ newline)
  = Ok {| p_events := [EFeature 1 (tx "A") 0 64 0x23456789abcdef02; EFeature 1 (tx "A") 64 32 10];
          p_result := kSuccess |}.
Proof. reflexivity. Qed.

(** Digits that do not fill the chunks are misread: the natural 24-digit form of
    the 96-bit value 2^64 is read as 0, and a short value for a wide range
    shifts by too much. *)
Theorem C36_unpadded_value_refuted :
  fasm_parse Iso yes true (tx "A[95:0] = 96'h000000010000000000000000" ++ newline)
  = Ok {| p_events := [EFeature 1 (tx "A") 0 64 0; EFeature 1 (tx "A") 64 32 0];
          p_result := kSuccess |}
  /\ fasm_parse Iso yes true (tx "A[127:0] = 128'h1" ++ newline) = UB.
Proof. split; reflexivity. Qed.
Print Assumptions C36_unpadded_value_refuted.

(** ** C37 *)
(** A line of the grammar whose numbers may have any size: bit indices are read
    modulo 2^16, the value modulo 2^width, and no error is reported: at most that a range has no value
    or that the declared width (modulo 2^64) is above the width of the range ([read_severity]). *)
Theorem C37_numbers_wrap_silently :
  forall sm cb b0 f, agrees cb -> blanks b0 -> feature_shape f ->
  let hi := range_hi f mod 2 ^ 16 in
  let lo := range_lo f mod 2 ^ 16 in
  lo <= hi -> hi - lo + 1 <= 64 -> one_word (f_assign f) ->
  fasm_parse sm cb true (one_item_text b0 f)
  = Ok {| p_events := [EFeature 1 (f_name f) lo (hi - lo + 1)
                         (feature_value f mod 2 ^ (hi - lo + 1))];
          p_result := read_severity f |}.
Proof.
  intros sm cb b0 f Hcb H0 Hf hi lo HL HW OW. unfold one_item_text.
  set (i := {| i_b0 := b0; i_feature := Some f; i_end := EndNone |}).
  pose proof (file_text_nl [i]) as NL. unfold file_text in NL. cbn [map concat] in NL.
  rewrite app_nil_r in NL. rewrite fasm_parse_lines by exact NL.
  rewrite lines_step.
  2:{ unfold item_text. intros E. apply (f_equal (@List.length ascii)) in E.
      rewrite !app_length in E. cbn in E. lia. }
  destruct (parse_item_wrap sm cb (u32 (0 + 1)) start_state b0 f EndNone [] Hcb H0 Hf I HL HW OW)
    as (r & [_ ->] & E).
  rewrite app_nil_r in E. fold i in E. rewrite E.
  cbn [obind]. rewrite lines_nil. cbn [ending_events]. unfold p_emits, p_raise, start_state.
  cbn [p_events p_result app]. rewrite N.max_0_l. reflexivity.
Qed.
Print Assumptions C37_numbers_wrap_silently.

(** So the claim "an index or value too large is reported" is false. *)
Theorem C37_overflow_reported_refuted :
  fasm_parse Iso yes true (tx "A[65536] = 18446744073709551617" ++ newline)
  = Ok {| p_events := [EFeature 1 (tx "A") 0 1 1]; p_result := kSuccess |}
  /\ fasm_parse Iso yes true (tx "A[3:0] = 4'd31" ++ newline)
  = Ok {| p_events := [EFeature 1 (tx "A") 0 4 15]; p_result := kSuccess |}.
Proof. split; reflexivity. Qed.
Print Assumptions C37_overflow_reported_refuted.

(** Only two excesses are noticed: a decimal or octal value for a range of more
    than 64 bits, and (as a warning) a declared width above that of the range. *)
Theorem C37_what_is_reported :
  forall sm cb line st b0 f e t st' r,
  blanks b0 -> feature_shape f -> ending_shape e ->
  range_lo f mod 2 ^ 16 <= range_hi f mod 2 ^ 16 ->
  parse_line sm cb true line st (item_text {| i_b0 := b0; i_feature := Some f; i_end := e |} ++ t) = Ok (st', r) ->
  (64 < read_width f -> narrow_only (f_assign f) = true -> kError <= p_result st')
  /\ (forall b w b1 b2 rx b3 d b4, f_assign f = Some (b, Based w b1 b2 rx b3 d b4) ->
        read_width f < numeral_value 10 w mod 2 ^ 64 -> kNonCritical <= p_result st').
Proof.
  intros sm cb line st b0 f e t st' r H0 Hf He HR H.
  rewrite parse_item_any in H by auto.
  match type of H with obind ?o _ = _ => destruct o as [st1| | | |] eqn:ER; try discriminate H end.
  cbn [obind] in H. inversion H; subst. cbn [p_emits p_result].
  assert (M : forall sm cb line nm mn w tot bs chunk st st',
     report sm cb line nm mn w tot chunk bs st = Ok st' -> p_result st <= p_result st').
  { clear. intros sm cb line nm mn w tot. induction bs as [|v bs IH]; intros chunk st st' H; cbn [report] in H.
    - inversion H; subst; lia.
    - destruct (clamp_mask _ _) as [m| | | |]; try discriminate H. cbn [obind] in H.
      destruct (cb _) in H; [apply IH in H; cbn [p_emit p_result] in H; exact H|].
      inversion H; subst. cbn. lia. }
  apply M in ER. cbn [p_raise p_result] in ER. clear M H.
  split.
  - intros HW HN.
    assert (E : kError <= assign_raise (range_hi f mod 2 ^ 16) (range_lo f mod 2 ^ 16) (read_width f) (f_assign f)).
    { unfold assign_raise. destruct (f_assign f) as [[b v]|]; [|discriminate HN].
      assert (64 <? read_width f = true) as -> by (apply N.ltb_lt; auto).
      rewrite HN. cbn [andb]. lia. }
    lia.
  - intros b w b1 b2 rx b3 d b4 EA HW.
    assert (E : kNonCritical <= assign_raise (range_hi f mod 2 ^ 16) (range_lo f mod 2 ^ 16) (read_width f) (f_assign f)).
    { unfold assign_raise. rewrite EA.
      assert (read_width f <? numeral_value 10 w mod 2 ^ 64 = true) as -> by (apply N.ltb_lt; auto). lia. }
    lia.
Qed.
Print Assumptions C37_what_is_reported.

Example C37_case :
  fasm_parse Iso yes true (tx "A[64:0] = 65'd1" ++ newline)
  = Ok {| p_events := [EFeature 1 (tx "A") 0 64 1]; p_result := kError |}
  /\ fasm_parse Iso yes true (tx "A[3:0] = 5'd1" ++ newline)
  = Ok {| p_events := [EFeature 1 (tx "A") 0 4 1]; p_result := kNonCritical |}.
Proof. split; reflexivity. Qed.

(** ** C38 *)
(** A result below kUserAbort: the callback agreed to every feature call.  And
    kUserAbort is only ever returned because of a refusal. *)
Theorem C38_refusal_is_reported :
  forall sm cb annot t st, nl_text t ->
  fasm_parse sm cb annot t = Ok st ->
  (p_result st < kUserAbort ->
   forall a ln n s w v b, p_events st = a ++ EFeature ln n s w v :: b ->
     cb (a ++ [EFeature ln n s w v]) = true)
  /\ (agrees cb -> p_result st <> kUserAbort).
Proof.
  intros sm cb annot t st Hn H. rewrite fasm_parse_lines in H by exact Hn. split.
  - intros LT a ln n s w v b X.
    destruct (lines_abort _ _ _ _ _ _ _ _ (le_n _) H LT) as (l & E & HL).
    cbn in E. rewrite E in X. apply (HL _ _ _ _ _ _ _ X).
  - intros A. eapply (lines_no_abort sm cb annot A); eauto. discriminate.
Qed.
Print Assumptions C38_refusal_is_reported.

Example C38_case :
  let no_b := fun h => match last h (EAnnotation 0 [] [] []) with
                       | EFeature _ n _ _ _ => negb (text_eqb n (tx "b")) | _ => true end in
  fasm_parse Iso no_b true (unlines [tx "a"; tx "b"])
  = Ok {| p_events := [EFeature 1 (tx "a") 0 1 1; EFeature 2 (tx "b") 0 1 1]; p_result := kUserAbort |}.
Proof. reflexivity. Qed.

(** The parse does not stop: later lines are still reported. *)
Theorem C38_parse_goes_on_refuted :
  fasm_parse Iso (fun _ => false) true (unlines [tx "a"; tx "b"])
  = Ok {| p_events := [EFeature 1 (tx "a") 0 1 1; EFeature 2 (tx "b") 0 1 1]; p_result := kUserAbort |}.
Proof. reflexivity. Qed.
Print Assumptions C38_parse_goes_on_refuted.

(** ** C39 *)
Theorem C39_annotations_in_order :
  forall sm cb b0 fo a l junk, agrees cb ->
  item_shape {| i_b0 := b0; i_feature := fo; i_end := EndAnnot a l junk |} ->
  match fo with Some f => feature_in_range f | None => True end ->
  exists fl r, fasm_parse sm cb true
      (item_text {| i_b0 := b0; i_feature := fo; i_end := EndAnnot a l junk |})
  = Ok {| p_events := fl ++ map (fun x => EAnnotation 1
              (match fo with Some f => f_name f | None => [] end) (a_name x) (a_value x)) (a :: l);
          p_result := r |}
  /\ r <= kNonCritical
  /\ Forall (fun e => match e with EFeature _ _ _ _ _ => fo <> None | _ => False end) fl.
Proof.
  intros sm cb b0 fo a l junk Hcb HS HR.
  set (i := {| i_b0 := b0; i_feature := fo; i_end := EndAnnot a l junk |}) in *.
  pose proof (C31_file_denotation sm cb [i] Hcb) as X.
  unfold file_text in X. cbn [map concat] in X. rewrite app_nil_r in X. rewrite X.
  - exists (match fo with None => [] | Some f => feature_events 1 f end), (item_severity i).
    split; [|split].
    + unfold file_severity, file_events. cbn [map fold_left]. rewrite app_nil_r, N.max_0_l.
      unfold item_events, i, item_name. cbn [i_feature i_end]. reflexivity.
    + unfold item_severity, i; cbn [i_feature]. destruct fo as [f|]; [|vm_compute; discriminate].
      destruct (f_assign f) as [[b v]|].
      * destruct v; [vm_compute; discriminate|]. destruct (_ <? _); vm_compute; discriminate.
      * destruct (_ =? _); vm_compute; discriminate.
    + destruct fo as [f|]; [|constructor]. unfold feature_events, value_events.
      apply Forall_forall. intros e He. apply in_map_iff in He. destruct He as (x & <- & _).
      cbn. discriminate.
  - constructor; [|constructor]. split; [exact HS|]. exact HR.
  - vm_compute. reflexivity.
Qed.
Print Assumptions C39_annotations_in_order.

(** Without an annotation callback the annotations are skipped unread. *)
Example C39_case :
  let t := tx "A.B { x = " ++ dquote ++ tx "1" ++ dquote ++ tx ", .y= " ++ dquote
           ++ tx "q\" ++ dquote ++ dquote ++ tx "} z" ++ newline in
  fasm_parse Iso yes true t
  = Ok {| p_events := [EFeature 1 (tx "A.B") 0 1 1; EAnnotation 1 (tx "A.B") (tx "x") (tx "1");
                       EAnnotation 1 (tx "A.B") (tx ".y") (tx "q\" ++ dquote)]; p_result := kSuccess |}
  /\ fasm_parse Iso yes false t
  = Ok {| p_events := [EFeature 1 (tx "A.B") 0 1 1]; p_result := kSuccess |}.
Proof. split; reflexivity. Qed.
