(** Properties C53, C54, C55, C57, C58: the text files of the database. *)
From Verif Require Import Base BaseFacts Absl Part DbText DbJson Database AsmSpec MapFacts DbSpec DbFacts.
From Coq Require Import ZifyBool ZifyN ZifyNat.

(** ** C57 *)
(** Splitting is lossless: the lines, each followed by a newline, are the text or the text with
    the missing last newline; no line contains a newline. *)
Theorem C57_lossless :
  forall content, exists ls, text_lines content ls /\ (forall ls', text_lines content ls' -> ls' = ls) /\
    Forall (fun l => ~ In newline l) ls /\
    (concat (map (fun l => l ++ [newline]) ls) = content \/
     concat (map (fun l => l ++ [newline]) ls) = content ++ [newline]).
Proof.
  intros content. destruct (text_lines_total content) as (ls & H). exists ls. split; [exact H|].
  split; [intros ls' H'; eapply text_lines_fun; eauto|].
  induction H as [|l NE N|l r ls N H [IH1 IH2]].
  - split; [constructor|now left].
  - split; [constructor; [exact N|constructor]|]. right. cbn. now rewrite app_nil_r.
  - split; [now constructor|]. cbn [map concat]. rewrite <- app_assoc. cbn [app].
    destruct IH2 as [E|E]; rewrite E; [now left|right; now rewrite <- app_assoc].
Qed.

(** A file is handed to its reader line by line, numbered from 1, in order, stopping at the first
    line the reader rejects. *)
Theorem C57_lines_in_order :
  forall S after (sink : S -> N -> text -> outcome S) s content ls,
  text_lines content ls -> splittable after content -> N.of_nat (List.length ls) < 2 ^ 32 ->
  lines_generator after sink s content
  = ofold (fun s nl => sink s (fst nl) (snd nl)) (combine (map N.of_nat (seq 1 (List.length ls))) ls) s.
Proof.
  intros S after sink s content ls H R B. unfold lines_generator.
  rewrite (lines_loop_spec after sink content ls H R _ 0 s (le_n _)). f_equal.
  assert (G : forall ls n, N.of_nat (n + List.length ls)%nat < 2 ^ 32 ->
    number_from (N.of_nat n) ls = combine (map N.of_nat (seq (Datatypes.S n) (List.length ls))) ls).
  { clear. induction ls as [|l ls IH]; intros n B; [reflexivity|]. cbn [number_from List.length seq map combine].
    cbn [List.length] in B.
    assert (E : u32 (N.of_nat n + 1) = N.of_nat (Datatypes.S n)) by (rewrite u32_small by lia; lia).
    rewrite E. f_equal. apply IH. lia. }
  apply (G ls 0%nat). exact B.
Qed.

(** The byte that follows the content never matters; and if the content ends in a newline, nothing
    is required of the memory that follows. *)
Theorem C57_next_byte_is_irrelevant :
  forall S (sink : S -> N -> text -> outcome S) s content,
  (forall a b, lines_generator (Some a) sink s content = lines_generator (Some b) sink s content) /\
  (forall a, ends_in_newline content ->
     lines_generator None sink s content = lines_generator (Some a) sink s content).
Proof.
  intros S sink s content. destruct (text_lines_total content) as (ls & H). unfold lines_generator. split.
  - intros a b. rewrite !(lines_loop_spec _ sink content ls H); try lia; try reflexivity; right; right; discriminate.
  - intros a E. rewrite !(lines_loop_spec _ sink content ls H); try lia; try reflexivity.
    + right. right. discriminate.
    + right. now left.
Qed.

(** But a file whose size is a multiple of the page size and whose last line has no newline is
    read past the end of its mapping, unless one of the other lines is rejected. *)
Theorem C57_page_sized_file_is_over_read :
  forall S (sink : S -> N -> text -> outcome S) s s' content p l,
  content = p ++ l -> p = [] \/ ends_in_newline p -> l <> [] -> ~ In newline l ->
  (List.length content mod 4096 = 0)%nat ->
  lines_generator (Some "000"%char) sink s p = Ok s' ->
  lines_generator (after_mapping content) sink s content = UB.
Proof.
  intros S sink s s' content p l E P NE N M OKp.
  assert (A : after_mapping content = None) by (unfold after_mapping, kPageSize; rewrite M; reflexivity).
  rewrite A, E. destruct (text_lines_total p) as (ls & H). unfold lines_generator in *.
  rewrite (lines_loop_unreadable sink p ls l H P NE N _ 0 s (le_n _)).
  rewrite (lines_loop_spec _ sink p ls H) in OKp; [|right; right; discriminate|lia].
  rewrite OKp. reflexivity.
Qed.
(** All other files are split without reading past them. *)
Theorem C57_other_files_are_not_over_read :
  forall content, ends_in_newline content \/ (List.length content mod 4096 <> 0)%nat \/ content = [] ->
  splittable (after_mapping content) content.
Proof.
  intros content [E|[E|E]]; [right; now left| |now left]. right. right. unfold after_mapping, kPageSize.
  apply Nat.eqb_neq in E. rewrite E. discriminate.
Qed.
Print Assumptions C57_lossless.
Print Assumptions C57_lines_in_order.
Print Assumptions C57_next_byte_is_irrelevant.
Print Assumptions C57_page_sized_file_is_over_read.
Print Assumptions C57_other_files_are_not_over_read.

Theorem C57_file_without_final_newline_refuted :
  exists content, parse_segbits (after_mapping content) content = UB /\
    exists m, parse_segbits (after_mapping (content ++ [newline])) (content ++ [newline]) = Ok m /\ m <> [].
Proof.
  exists (tx "CLBLL_L.SLICEL_X0.A 00_01" ++ repeat " "%char (4096 - 25)). split; [vm_compute; reflexivity|].
  eexists. split; [vm_compute; reflexivity|discriminate].
Qed.
Print Assumptions C57_file_without_final_newline_refuted.

Example C57_case : text_lines (tx "a" ++ [newline; newline] ++ tx "bc") [tx "a"; []; tx "bc"].
Proof.
  apply (lines_more (tx "a")); [intros [X|[]]; discriminate|]. apply (lines_more []); [intros []|].
  apply lines_last; [discriminate|]. intros [X|[X|[]]]; discriminate.
Qed.

(** ** C58 *)
(** The unsigned fields (bank numbers, segment coordinates, addresses). *)
Theorem C58_unsigned_fields :
  forall s v, atoi_u32 s = (v, true) <-> unsigned_field s v /\ v < 2 ^ 32.
Proof. exact atoi_u32_ok. Qed.
(** The signed fields (row and column indices). *)
Theorem C58_signed_fields :
  forall s z, atoi_i32 s = (z, true) <-> signed_field s z /\ (- 2 ^ 31 <= z < 2 ^ 31)%Z.
Proof. exact atoi_i32_ok. Qed.
(** A field has at most one reading. *)
Theorem C58_one_reading :
  forall s, (forall v v', unsigned_field s v -> unsigned_field s v' -> v = v') /\
            (forall z z', signed_field s z -> signed_field s z' -> z = z').
Proof.
  assert (D : forall s v v', decimal s v -> decimal s v' -> v = v').
  { intros s v v' (_ & ds & F & ->) (_ & ds' & F' & ->). f_equal. clear - F F'. revert ds' F'.
    induction F as [|c d s ds [H1 H2] F IH]; intros ds' F'; inversion F' as [|? d' ? ds2 [H1' H2'] F2]; subst; [reflexivity|].
    f_equal; [lia|auto]. }
  intros s. split.
  - intros v v' U U'. apply unsigned_field_strip in U as (sg & ds & E & S & X).
    apply unsigned_field_strip in U' as (sg' & ds' & E' & S' & X'). rewrite E in E'.
    assert (ds = ds'); [|subst; eapply D; eauto].
    destruct S as [->| ->], S' as [->| ->]; cbn in E'; try (inversion E'; auto; fail); subst.
    + apply decimal_head in X. destruct X; congruence.
    + apply decimal_head in X'. destruct X'; congruence.
  - intros z z' U U'. apply signed_field_strip in U as (sg & ds & v & E & X & S).
    apply signed_field_strip in U' as (sg' & ds' & v' & E' & X' & S'). rewrite E in E'.
    destruct S as [[[->| ->] ->]|[-> ->]], S' as [[[->| ->] ->]|[-> ->]]; cbn in E'; try discriminate E'.
    all: try (inversion E'; subst; f_equal; try f_equal; eapply D; eauto; fail).
    all: subst; try (apply decimal_head in X; destruct X; congruence); apply decimal_head in X'; destruct X'; congruence.
Qed.
Print Assumptions C58_unsigned_fields.
Print Assumptions C58_signed_fields.
Print Assumptions C58_one_reading.

(** More than plain digits is accepted: blanks around, a plus sign, leading zeros. *)
Theorem C58_only_digits_accepted_refuted :
  exists s v, atoi_u32 s = (v, true) /\ ~ decimal s v.
Proof.
  exists (tx " +007 "), 7. split; [reflexivity|]. intros (_ & ds & F & _). inversion F as [|? d ? ? H]; subst.
  apply dec_digit_spec in H. discriminate H.
Qed.
Print Assumptions C58_only_digits_accepted_refuted.

Example C58_case : unsigned_field (tx "4294967295") 4294967295 /\ signed_field (tx "-1") (-1).
Proof.
  split.
  - exists [], [], (tx "4294967295"), []. split; [reflexivity|]. split; [constructor|]. split; [constructor|].
    split; [now left|]. split; [discriminate|]. exists [4;2;9;4;9;6;7;2;9;5]. split; [|reflexivity].
    repeat (constructor; [split; [lia|reflexivity]|]). constructor.
  - exists [], (tx "-"), (tx "1"), [], 1. split; [reflexivity|]. split; [constructor|]. split; [constructor|].
    split; [|right; auto]. split; [discriminate|]. exists [1]. split; [|reflexivity].
    repeat (constructor; [split; [lia|reflexivity]|]). constructor.
Qed.

(** ** C53 *)
(** A segbits file whose lines are all well formed is read to exactly the entries of its lines
    (the first one for a feature that occurs again); each key once. *)
Theorem C53_segbits_are_read :
  forall after content ls es, splittable after content -> text_lines content ls -> Forall2 seg_line ls es ->
  exists m, parse_segbits after content = Ok m /\ NoDup (map fst m) /\
    forall k v, maps_to m k v <-> maps_to (concat es) k v.
Proof.
  intros after content ls es R T F. exists (insert_all tf_eqb (concat es) []). split; [|split].
  - destruct (fold_lines tf_eqb segbits_line seg_line segbits_line_spec segbits_line_dec seg_line_fun ls 0 []) as (I & _).
    unfold parse_segbits. destruct content as [|c content].
    + inversion T as [|l NE N E|l r ls' N H E]; subst; [|contradiction|destruct l; discriminate]. inversion F. reflexivity.
    + unfold lines_generator. rewrite (lines_loop_spec after segbits_line _ ls T R _ 0 [] (le_n _)). now apply I.
  - apply (insert_all_NoDup tf_eqb tf_eqb_eq). constructor.
  - intros k v. apply (insert_all_maps tf_eqb tf_eqb_eq).
Qed.
(** One malformed line rejects the file. *)
Theorem C53_malformed_is_rejected :
  forall after content ls l, splittable after content -> text_lines content ls ->
  In l ls -> (forall es, ~ seg_line l es) -> parse_segbits after content = Err.
Proof.
  intros after content ls l R T I N.
  destruct (fold_lines tf_eqb segbits_line seg_line segbits_line_spec segbits_line_dec seg_line_fun ls 0 []) as (_ & H & _).
  unfold parse_segbits. destruct content as [|c content].
  - inversion T as [|l0 NE0 N0 E0|l0 r0 ls0 N0 H0 E0]; subst; [destruct I|contradiction|destruct l0; discriminate].
  - unfold lines_generator. rewrite (lines_loop_spec after segbits_line _ ls T R _ 0 [] (le_n _)). apply H. eauto.
Qed.
(** There is no third case. *)
Theorem C53_result_or_rejection :
  forall content ls, text_lines content ls ->
  (exists es, Forall2 seg_line ls es) \/ (exists l, In l ls /\ forall es, ~ seg_line l es).
Proof.
  intros content ls T.
  destruct (fold_lines tf_eqb segbits_line seg_line segbits_line_spec segbits_line_dec seg_line_fun ls 0 []) as (_ & _ & H). exact H.
Qed.
(** A line has one reading. *)
Theorem C53_one_reading : forall l es es', seg_line l es -> seg_line l es' -> es = es'.
Proof. exact seg_line_fun. Qed.
Print Assumptions C53_segbits_are_read.
Print Assumptions C53_malformed_is_rejected.
Print Assumptions C53_result_or_rejection.
Print Assumptions C53_one_reading.

Example C53_case : seg_line (tx "INT_L.BYP_ALT0.NN2END0[3] !22_07 22_11")
   [((tx "INT_L.BYP_ALT0.NN2END0", 3), [ {| sb_column := 22; sb_bit := 7; sb_set := false |};
                                          {| sb_column := 22; sb_bit := 11; sb_set := true |} ])]
  /\ (forall es, ~ seg_line (tx "INT_L.BYP_ALT0 22_07_1") es).
Proof.
  split.
  - assert (H : segbits_line [] 1 (tx "INT_L.BYP_ALT0.NN2END0[3] !22_07 22_11") =
      Ok [((tx "INT_L.BYP_ALT0.NN2END0", 3), [ {| sb_column := 22; sb_bit := 7; sb_set := false |};
                                          {| sb_column := 22; sb_bit := 11; sb_set := true |} ])]) by (vm_compute; reflexivity).
    apply segbits_line_spec in H as (es & L & E). inversion L; subst; [discriminate E|]. cbn in E. inversion E; subst. exact L.
  - intros es L. assert (H : segbits_line [] 1 (tx "INT_L.BYP_ALT0 22_07_1") = Ok (insert_all tf_eqb es [])).
    { apply segbits_line_spec. eauto. }
    vm_compute in H. discriminate.
Qed.

(** ** C54 *)
Theorem C54_pips_are_read :
  forall after content ls es, splittable after content -> text_lines content ls -> Forall2 pip_line ls es ->
  exists m, parse_ppips after content = Ok m /\ NoDup (map fst m) /\
    forall k v, maps_to m k v <-> maps_to (concat es) k v.
Proof.
  intros after content ls es R T F. exists (insert_all text_eqb (concat es) []). split; [|split].
  - destruct (fold_lines text_eqb ppip_line pip_line ppip_line_spec ppip_line_dec pip_line_fun ls 0 []) as (I & _).
    unfold parse_ppips. destruct content as [|c content].
    + inversion T as [|l NE N E|l r ls' N H E]; subst; [|contradiction|destruct l; discriminate]. inversion F. reflexivity.
    + unfold lines_generator. rewrite (lines_loop_spec after ppip_line _ ls T R _ 0 [] (le_n _)). now apply I.
  - apply (insert_all_NoDup text_eqb text_eqb_eq). constructor.
  - intros k v. apply (insert_all_maps text_eqb text_eqb_eq).
Qed.
Theorem C54_malformed_is_rejected :
  forall after content ls l, splittable after content -> text_lines content ls ->
  In l ls -> (forall es, ~ pip_line l es) -> parse_ppips after content = Err.
Proof.
  intros after content ls l R T I N.
  destruct (fold_lines text_eqb ppip_line pip_line ppip_line_spec ppip_line_dec pip_line_fun ls 0 []) as (_ & H & _).
  unfold parse_ppips. destruct content as [|c content].
  - inversion T as [|l0 NE0 N0 E0|l0 r0 ls0 N0 H0 E0]; subst; [destruct I|contradiction|destruct l0; discriminate].
  - unfold lines_generator. rewrite (lines_loop_spec after ppip_line _ ls T R _ 0 [] (le_n _)). apply H. eauto.
Qed.
Theorem C54_result_or_rejection :
  forall content ls, text_lines content ls ->
  (exists es, Forall2 pip_line ls es) \/ (exists l, In l ls /\ forall es, ~ pip_line l es).
Proof.
  intros content ls T.
  destruct (fold_lines text_eqb ppip_line pip_line ppip_line_spec ppip_line_dec pip_line_fun ls 0 []) as (_ & _ & H). exact H.
Qed.
Print Assumptions C54_pips_are_read.
Print Assumptions C54_malformed_is_rejected.
Print Assumptions C54_result_or_rejection.

Example C54_case : pip_line (tx "CLBLL_L.CLBLL_L_A.CLBLL_L_A1 hint") [(tx "CLBLL_L.CLBLL_L_A.CLBLL_L_A1", PpHint)]
  /\ (forall es, ~ pip_line (tx "CLBLL_L.A sometimes") es) /\ (forall es, ~ pip_line (tx " ") es).
Proof.
  split; [|split].
  - eapply pip_entry; [apply words_spec; vm_compute; reflexivity|constructor].
  - intros es L. assert (H : ppip_line [] 1 (tx "CLBLL_L.A sometimes") = Ok (insert_all text_eqb es [])) by (apply ppip_line_spec; eauto).
    vm_compute in H. discriminate.
  - intros es L. assert (H : ppip_line [] 1 (tx " ") = Ok (insert_all text_eqb es [])) by (apply ppip_line_spec; eauto).
    vm_compute in H. discriminate.
Qed.

(** ** C55 *)
(** The rows after the header give one pin each, in order. *)
Theorem C55_pins_are_read :
  forall after content h ls es, splittable after content -> text_lines content (h :: ls) ->
  N.of_nat (List.length ls) < 2 ^ 32 - 1 -> pin_header h -> Forall2 pin_row ls es ->
  parse_pins after content = Ok (concat es).
Proof.
  intros after content h ls es R T B H F. unfold parse_pins. destruct content as [|c content].
  - inversion T as [|l NE N E|l r ls' N H' E]; subst; [contradiction|destruct h; discriminate].
  - unfold lines_generator. rewrite (lines_loop_spec after pin_line _ _ T R _ 0 [] (le_n _)).
    cbn [number_from ofold fst snd]. change (u32 (0 + 1)) with 1. rewrite pin_line_header.
    apply pin_header_spec in H. rewrite H. cbn [obind].
    destruct (fold_pins ls 1 []) as (I & _); [lia|lia|]. rewrite (I es F). reflexivity.
Qed.
Theorem C55_malformed_is_rejected :
  forall after content h ls, splittable after content -> text_lines content (h :: ls) ->
  N.of_nat (List.length ls) < 2 ^ 32 - 1 ->
  ~ pin_header h \/ (exists l, In l ls /\ forall es, ~ pin_row l es) ->
  parse_pins after content = Err.
Proof.
  intros after content h ls R T B H. unfold parse_pins. destruct content as [|c content].
  - inversion T as [|l NE N E|l r ls' N H' E]; subst; [contradiction|destruct h; discriminate].
  - unfold lines_generator. rewrite (lines_loop_spec after pin_line _ _ T R _ 0 [] (le_n _)).
    cbn [number_from ofold fst snd]. change (u32 (0 + 1)) with 1. rewrite pin_line_header.
    pose proof (pin_header_spec h) as HS. destruct (texts_eqb _ pins_header).
    + cbn [obind]. destruct H as [H|H]; [exfalso; apply H; now apply HS|].
      destruct (fold_pins ls 1 []) as (_ & I & _); [lia|lia|]. now apply I.
    + reflexivity.
Qed.
Theorem C55_result_or_rejection :
  forall ls, (exists es, Forall2 pin_row ls es) \/ (exists l, In l ls /\ forall es, ~ pin_row l es).
Proof.
  induction ls as [|l ls IH]; [left; exists []; constructor|].
  destruct (pin_line_dec [] 2 l) as [(m & E)|E].
  - apply pin_line_spec in E as (e & L & _); [|discriminate].
    destruct IH as [(es & F)|(x & I & N)]; [left; exists (e :: es); now constructor|right; exists x; split; [now right|exact N]].
  - right. exists l. split; [now left|]. intros es L.
    assert (X : pin_line [] 2 l = Ok ([] ++ es)) by (apply pin_line_spec; [discriminate|eauto]). congruence.
Qed.
Print Assumptions C55_pins_are_read.
Print Assumptions C55_malformed_is_rejected.
Print Assumptions C55_result_or_rejection.

(** Blank lines: an empty line is skipped, one with a blank is not. *)
Example C55_case : pin_header (tx "pin,bank,site,tile,pin_function")
  /\ pin_row (tx "A1,35,IOB_X1Y81,RIOB33_X43Y81,IO_L9N_T1_DQS_AD7N_35")
       [ {| pp_pin := tx "A1"; pp_bank := 35; pp_site := tx "IOB_X1Y81"; pp_tile := tx "RIOB33_X43Y81";
            pp_function := tx "IO_L9N_T1_DQS_AD7N_35" |} ]
  /\ pin_row [] [] /\ (forall es, ~ pin_row (tx " ") es).
Proof.
  split; [apply columns_spec; vm_compute; reflexivity|]. split; [|split].
  - eapply row_pin.
    + apply columns_spec. vm_compute. reflexivity.
    + exact (proj1 (proj1 (atoi_u32_ok (tx "35") 35) eq_refl)).
    + vm_compute. reflexivity.
  - constructor. constructor.
  - intros es L. assert (X : pin_line [] 2 (tx " ") = Ok ([] ++ es)) by (apply pin_line_spec; [discriminate|eauto]).
    vm_compute in X. discriminate.
Qed.
