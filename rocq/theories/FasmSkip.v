(** Lines that are skipped with a warning: exactly the lines with an inverted range. *)
From Verif Require Import Base BaseFacts Fasm FasmSpec FasmFacts FasmSafe FasmShape FasmFile FasmLines FasmWrap.
From Coq Require Import ZifyBool ZifyN ZifyNat.

Lemma range_inverted_split : forall it r, parse_range it = Ok (RangeInverted r) ->
  exists rg, range_shape rg /\ it = range_text rg ++ r.
Proof.
  unfold parse_range. intros it r H. binv H. apply peek_inv in E.
  destruct (ch_is v "[") eqn:C; [|discriminate H].
  apply ch_is_true in C. subst v.
  binv H. destruct v as [a i1]. binv H. binv H. apply peek_inv in E2.
  binv H. destruct v1 as [b i3]. binv H. apply peek_inv in E4.
  destruct (ch_is v1 "]") eqn:C1; cbn [negb] in H; [|discriminate].
  apply ch_is_true in C1. subst v1.
  assert (R : tl i3 = r) by (destruct (a <? b); inversion H; auto). clear H.
  apply (parse_number_split 10) in E0; [|lia]. destruct E0 as (bl & s & E0 & Hbl & Hs).
  apply skip_blank_split in E1. destruct E1 as (bl1 & -> & Hbl1).
  destruct (ch_is v0 ":") eqn:C2.
  - apply ch_is_true in C2. subst v0. binv E3. destruct v0 as [b' i4]. binv E3. inversion E3; subst.
    apply (parse_number_split 10) in E1; [|lia]. destruct E1 as (bl' & s' & E1 & Hbl' & Hs').
    apply skip_blank_split in E5. destruct E5 as (bl2 & -> & Hbl2).
    exists {| r_b0 := bl; r_hi := s; r_b1 := bl1; r_lo := Some (bl', s', bl2) |}.
    split; [repeat split; auto|].
    rewrite E, E0. unfold range_text. cbn [r_b0 r_hi r_b1 r_lo].
    change (tx "[") with ["["%char]. change (tx "]") with ["]"%char]. change (tx ":") with [":"%char].
    rewrite <- ?app_assoc. cbn [app]. f_equal. f_equal. f_equal. f_equal.
    rewrite E2. cbn [app]. f_equal. rewrite E1. rewrite <- ?app_assoc. f_equal. f_equal. f_equal. exact E4.
  - inversion E3; subst.
    exists {| r_b0 := bl; r_hi := s; r_b1 := bl1; r_lo := None |}.
    split; [repeat split; auto|].
    rewrite E, E0. unfold range_text. cbn [r_b0 r_hi r_b1 r_lo].
    change (tx "[") with ["["%char]. change (tx "]") with ["]"%char].
    rewrite <- ?app_assoc. cbn [app]. f_equal. f_equal. f_equal. f_equal. exact E4.
Qed.

(** Only an inverted range gives kSkipped. *)
Definition unskipped (st : pstate) : Prop := p_result st <> kSkipped.
Lemma raise_uns r st : r <> kSkipped -> unskipped st -> unskipped (p_raise r st).
Proof. unfold unskipped. cbn [p_raise p_result]. lia. Qed.
Lemma raise_if_uns (c : bool) r st : r <> kSkipped -> unskipped st -> unskipped (if c then p_raise r st else st).
Proof. destruct c; auto using raise_uns. Qed.

Lemma report_uns sm cb line name mn w tot bs : forall chunk st st',
  report sm cb line name mn w tot chunk bs st = Ok st' -> unskipped st -> unskipped st'.
Proof.
  induction bs as [|v bs IH]; intros chunk st st' H R; cbn [report] in H.
  - inversion H; subst. exact R.
  - bind H as m E. destruct (cb _).
    + eapply IH; [exact H|exact R].
    + inversion H; subst. apply raise_uns; [vm_compute; discriminate|exact R].
Qed.
Lemma annotations_uns fuel : forall line name st it st' r,
  annotations fuel line name st it = Ok (st', r) -> unskipped st -> unskipped st'.
Proof.
  induction fuel as [|fuel IH]; intros line name st it st' r H R; [discriminate|].
  assert (RR : unskipped (p_raise kError st)) by (apply raise_uns; [discriminate|exact R]).
  cbn [annotations] in H.
  bind H as i1 E1. bind H as [an i2] E2. bind H as i3 E3. bind H as c3 E4.
  destruct (negb _); [inversion H; subst; exact RR|].
  bind H as i4 E5. bind H as c4 E6. destruct (negb _); [inversion H; subst; exact RR|].
  bind H as [av i5] E7. bind H as c5 E8. destruct (ch_is c5 ch_nl); [inversion H; subst; exact RR|].
  cbv zeta in H. bind H as i6 E9. bind H as c6 E10. destruct (ch_is c6 ",").
  - eapply IH; [exact H|exact R].
  - inversion H; subst. exact R.
Qed.
Lemma parse_annotations_uns annot line name st it st' r :
  parse_annotations annot line name st it = Ok (st', r) -> unskipped st -> unskipped st'.
Proof.
  unfold parse_annotations. intros H R. bind H as c E. destruct (ch_is c "{").
  2:{ inversion H; subst. exact R. }
  bind H as [st1 i1] E0. bind H as i2 E1. inversion H; subst. destruct annot.
  - bind E0 as [st2 i3] E2. bind E0 as c3 E3. inversion E0; subst.
    apply annotations_uns in E2; [|exact R]. destruct (ch_is c3 "}"); [exact E2|].
    apply raise_uns; [discriminate|exact E2].
  - inversion E0; subst. exact R.
Qed.
Lemma parse_eol_uns st it st' r : parse_eol st it = Ok (st', r) -> unskipped st -> unskipped st'.
Proof.
  unfold parse_eol. intros H R. bind H as c E1. bind H as i1 E2. bind H as c2 E3.
  destruct (ch_is c2 ch_nl); [inversion H; subst; exact R|]. bind H as i3 E4. inversion H; subst.
  apply raise_uns; [discriminate|exact R].
Qed.
Lemma parse_assign_uns mx mn w st it b w' st' r :
  parse_assign mx mn w st it = Ok (b, w', st', r) -> unskipped st -> unskipped st'.
Proof.
  unfold parse_assign. intros H R. bind H as c E. destruct (ch_is c "=").
  2:{ inversion H; subst. destruct (mn =? mx); [exact R|]. apply raise_uns; [vm_compute; discriminate|exact R]. }
  bind H as i1 E1. bind H as c1 E2. bind H as [vw i2] E3. bind H as i3 E4. bind H as c3 E5.
  destruct (ch_is c3 ch_tick).
  - bind H as i4 E6. cbv zeta in H. bind H as ft E7. bind H as [[bs bad] i5] E8. bind H as i6 E9.
    inversion H; subst. repeat apply raise_if_uns; first [exact R|vm_compute; discriminate].
  - cbv zeta in H. inversion H; subst. apply raise_if_uns; [discriminate|exact R].
Qed.

Lemma parse_line_skipped sm cb annot line st it st' r :
  parse_line sm cb annot line st it = Ok (st', r) -> unskipped st ->
  unskipped st' \/ st' = p_raise kSkipped st /\ exists l, it = l ++ r /\ skipped_line l.
Proof.
  intros H R. unfold parse_line in H.
  bind H as i0 E. bind H as [name i1] E0. bind H as i2 E1.
  apply skip_blank_split in E. destruct E as (b0 & -> & Hb0).
  apply read_ident_split in E0. destruct E0 as (-> & Hn & _).
  apply skip_blank_split in E1. destruct E1 as (b1 & -> & Hb1).
  destruct name as [|n0 ns].
  - left. bind H as [st1 i3] E2. apply parse_annotations_uns in E2; [|exact R]. now apply parse_eol_uns in H.
  - bind H as rg E2. destruct rg as [mx mn i3|i3|i3].
    + left. bind H as i4 E3. cbv zeta in H. bind H as [[[bs w] st1] i5] E4.
      apply parse_assign_uns in E4; [|exact R].
      bind H as st2 E5. apply report_uns in E5; [|exact E4]. bind H as [st3 i6] E6.
      apply parse_annotations_uns in E6; [|exact E5]. now apply parse_eol_uns in H.
    + left. bind H as i4 E3. inversion H; subst. apply raise_uns; [discriminate|exact R].
    + right. bind H as i4 E3. inversion H; subst. split; [reflexivity|].
      apply skip_to_eol_split in E3. destruct E3 as (s & r' & -> & Hs & ->). cbn [tl].
      pose proof E2 as INV. apply range_inverted_split in E2. destruct E2 as (rg & Hrg & ->).
      rewrite parse_range_app in INV by exact Hrg.
      exists (b0 ++ (n0 :: ns) ++ b1 ++ range_text rg ++ s ++ newline). split.
      { rewrite <- !app_assoc. reflexivity. }
      destruct rg as [rb0 hi rb1 [[[b lo] b']|]].
      * exists b0, (n0 :: ns), b1, {| r_b0 := rb0; r_hi := hi; r_b1 := rb1; r_lo := Some (b, lo, b') |},
          (numeral_value 10 hi), (numeral_value 10 lo), s.
        split; [reflexivity|]. split; [exact Hb0|]. split; [discriminate|]. split; [exact Hn|].
        split; [exact Hb1|]. split; [exact Hrg|]. split; [exact Hs|]. split; [reflexivity|].
        split; [exists b, lo, b'; auto|].
        unfold range_read in INV. cbn [r_hi r_lo] in INV.
        destruct (numeral_value 10 hi mod 2 ^ 16 <? numeral_value 10 lo mod 2 ^ 16) eqn:L; [now apply N.ltb_lt|discriminate INV].
      * exfalso. unfold range_read in INV. cbn [r_hi r_lo] in INV. rewrite N.ltb_irrefl in INV. discriminate INV.
Qed.

(** ** One line at a time *)
Lemma cut_unique p q r : no_newline p -> p ++ newline = q ++ ch_nl :: r -> r = [] /\ q = p.
Proof.
  intros Hp. revert q. induction Hp as [|c p Hc Hp IH]; intros q H.
  - destruct q as [|d q]; cbn in H; inversion H; subst; [auto|]. destruct q; discriminate.
  - destruct q as [|d q]; cbn in H; inversion H; subst; [exfalso; now apply Hc|].
    destruct (IH q H2) as [-> ->]. auto.
Qed.

Lemma fasm_one_line sm cb annot l : one_line l ->
  fasm_parse sm cb annot l = omap fst (parse_line sm cb annot 1 start_state l).
Proof.
  intros (p & Hp & ->). rewrite fasm_parse_lines.
  2:{ right. rewrite last_app_ne by discriminate. reflexivity. }
  rewrite lines_step by (destruct p; discriminate). change (u32 (0 + 1)) with 1.
  destruct (parse_line sm cb annot 1 start_state (p ++ newline)) as [[st r]| | | |] eqn:E;
    cbn [obind omap]; try reflexivity.
  apply parse_line_split in E. destruct E as ((u & E) & _). apply cut_unique in E; [|exact Hp].
  destruct E as [-> _]. cbn [fst]. apply lines_nil.
Qed.

(** An accepted line is a line of the grammar, or was skipped because of an inverted
    range, and then nothing was reported. *)
Lemma accepted_line sm cb l st : one_line l -> fasm_parse sm cb true l = Ok st -> p_result st < kUserAbort ->
  (p_result st < kSkipped /\ exists i, item_shape i /\ l = item_text i)
  \/ (st = {| p_events := []; p_result := kSkipped |} /\ skipped_line l).
Proof.
  intros L H LT. rewrite fasm_one_line in H by exact L.
  destruct (parse_line sm cb true 1 start_state l) as [[st' r]| | | |] eqn:E; try discriminate H.
  cbn [omap obind fst] in H. inversion H; subst st'. clear H.
  pose proof (parse_line_split _ _ _ _ _ _ _ _ E) as ((u & U) & _ & SH).
  destruct L as (p & Hp & ->). apply cut_unique in U; [|exact Hp]. destruct U as [-> _].
  destruct (parse_line_skipped _ _ _ _ _ _ _ _ E) as [U|(-> & l & El & Sk)].
  - discriminate.
  - left. assert (LT' : p_result st < kSkipped) by (unfold unskipped, kSkipped, kUserAbort in *; lia).
    split; [exact LT'|]. destruct (SH eq_refl LT') as (i & Hi & Ei). exists i. rewrite app_nil_r in Ei. auto.
  - right. split; [reflexivity|]. rewrite app_nil_r in El. now rewrite El.
Qed.

(** And such a line is skipped. *)
Lemma name_no_newline n : Forall is_name_char n -> no_newline n.
Proof.
  apply Forall_impl. intros c H ->. unfold is_name_char, between in H.
  change (code "010") with 10 in H.
  destruct H as [H|[H|[H|[H|H]]]]; try lia; discriminate H.
Qed.
Lemma numeral_no_newline b n : numeral b n -> no_newline n.
Proof.
  apply Forall_impl. intros c H ->. destruct H as [H|(d & H & _)]; [discriminate H|].
  vm_compute in H. discriminate H.
Qed.
Lemma range_no_newline rg : range_shape rg -> no_newline (range_text rg).
Proof.
  intros (A & B & C & D). unfold range_text.
  assert (S1 : no_newline (tx "[")) by (repeat constructor; discriminate).
  assert (S2 : no_newline (tx "]")) by (repeat constructor; discriminate).
  assert (S3 : no_newline (tx ":")) by (repeat constructor; discriminate).
  repeat (apply Forall_app; split); first [assumption|apply blanks_no_newline; assumption|apply (numeral_no_newline 10); assumption|idtac].
  destruct (r_lo rg) as [[[b lo] b']|]; [|constructor]. destruct D as (D1 & D2 & D3).
  repeat (apply Forall_app; split); first [assumption|apply blanks_no_newline; assumption|apply (numeral_no_newline 10); assumption|idtac].
Qed.

Lemma skipped_one_line l : skipped_line l -> one_line l.
Proof.
  intros (b0 & name & b1 & rg & hi & lo & rest & -> & H0 & NE & Hn & H1 & Hr & Hs & _).
  exists (b0 ++ name ++ b1 ++ range_text rg ++ rest). split.
  - apply Forall_app; split; [now apply blanks_no_newline|].
    apply Forall_app; split; [now apply name_no_newline|].
    apply Forall_app; split; [now apply blanks_no_newline|].
    apply Forall_app; split; [now apply range_no_newline|exact Hs].
  - rewrite <- !app_assoc. reflexivity.
Qed.

Lemma skipped_line_parse sm cb annot l : skipped_line l ->
  fasm_parse sm cb annot l = Ok {| p_events := []; p_result := kSkipped |}.
Proof.
  intros S. rewrite fasm_one_line by now apply skipped_one_line.
  destruct S as (b0 & name & b1 & rg & hi & lo & rest & -> & H0 & NE & Hn & H1 & Hr & Hs & -> & (b & t & b' & Er & ->) & LT).
  unfold parse_line.
  destruct (name_app b0 name b1 (range_text rg ++ rest ++ newline)) as (i1 & i2 & E1 & E2 & E3); auto.
  { unfold range_text. cbn. unfold sep_char, end_char. auto 15. }
  rewrite E1. cbn [obind]. rewrite E2. cbn [obind]. rewrite E3. cbn [obind].
  destruct name as [|n0 ns]; [contradiction|].
  rewrite parse_range_app by exact Hr. cbn [obind]. unfold range_read. rewrite Er.
  rewrite (proj2 (N.ltb_lt _ _) LT). rewrite skip_to_eol_app by exact Hs. reflexivity.
Qed.
