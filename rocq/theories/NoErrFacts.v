(** Which parts of the assembler can report an error: only the ones for rejected lines, names without a dot and files. *)
From Verif Require Import Base BaseFacts Absl Part Fasm FasmSafe FasmLog AsmLog DbText DbJson Database Writer Encode Assembler MapFacts MainLog.

(** Functions that report no error. *)
Lemma obind_ne {A B} (o : outcome A) (f : A -> outcome B) : o <> Err -> (forall a, f a <> Err) -> obind o f <> Err.
Proof. intros H F. destruct o; cbn [obind]; first [discriminate|apply F|contradiction]. Qed.
Create HintDb ne.
Ltac ne := repeat (cbv zeta; lazymatch goal with
  | |- obind _ _ <> Err => apply obind_ne; [|intros]
  | |- Ok _ <> Err => discriminate
  | |- Crash <> Err => discriminate
  | |- UB <> Err => discriminate
  | |- NoFuel <> Err => discriminate
  | |- (if ?x then _ else _) <> Err => destruct x
  | |- match ?x with _ => _ end <> Err => destruct x
  | |- _ => solve [auto with ne]
  end).
Lemma peek_ne it : peek it <> Err. Proof. unfold peek. ne. Qed.
Lemma skip_blank_ne it : skip_blank it <> Err. Proof. induction it; cbn [skip_blank]; ne. Qed.
Lemma skip_to_eol_ne it : skip_to_eol it <> Err. Proof. induction it; cbn [skip_to_eol]; ne. Qed.
Lemma read_ident_ne it : read_ident it <> Err. Proof. induction it; cbn [read_ident]; ne. Qed.
Lemma number_loop_ne b w it : forall v, number_loop b w v it <> Err. Proof. induction it; intros v; cbn [number_loop]; ne; apply IHit. Qed.
Global Hint Resolve peek_ne skip_blank_ne skip_to_eol_ne read_ident_ne number_loop_ne : ne.
Lemma parse_number_ne b w v it : parse_number b w v it <> Err. Proof. unfold parse_number. ne. Qed.
Lemma long_loop_ne b it : forall n v, long_loop b n v it <> Err.
Proof. induction it as [|c it IH]; intros n v; cbn [long_loop]; cbv zeta; [discriminate|]. destruct (_ <? _)%Z; [|discriminate]. destruct (_ =? _)%Z; apply IH. Qed.
Global Hint Resolve parse_number_ne long_loop_ne : ne.
Lemma parse_long_ne b it : parse_long b it <> Err. Proof. unfold parse_long. ne. Qed.
Global Hint Resolve parse_long_ne : ne.
Lemma parse_based_ne c it : parse_based c it <> Err. Proof. unfold parse_based. ne. Qed.
Lemma clamp_mask_ne sm w : clamp_mask sm w <> Err. Proof. unfold clamp_mask. ne. Qed.
Lemma scan_value_ne it : forall p, scan_value p it <> Err. Proof. induction it; intros p; cbn [scan_value]; ne; apply IHit. Qed.
Global Hint Resolve parse_based_ne clamp_mask_ne scan_value_ne : ne.
Lemma log_range_ne it : log_range it <> Err. Proof. unfold log_range. ne. Qed.
Lemma log_assign_ne l f a b w st it : log_assign l f a b w st it <> Err. Proof. unfold log_assign. ne. Qed.
Lemma log_report_ne sm cb l f mn w tot bs : forall ch st, log_report sm cb l f mn w tot ch bs st <> Err.
Proof. induction bs; intros ch st; cbn [log_report]; ne; apply IHbs. Qed.
Lemma log_annotations_ne fuel l f : forall st it, log_annotations fuel l f st it <> Err.
Proof. induction fuel; intros st it; cbn [log_annotations]; ne; apply IHfuel. Qed.
Global Hint Resolve log_range_ne log_assign_ne log_report_ne log_annotations_ne : ne.
Lemma log_annotation_part_ne an l f st it : log_annotation_part an l f st it <> Err. Proof. unfold log_annotation_part. ne. Qed.
Lemma log_eol_ne l st it : log_eol l st it <> Err. Proof. unfold log_eol. ne. Qed.
Global Hint Resolve log_annotation_part_ne log_eol_ne : ne.
Lemma log_line_ne sm cb an l st it : log_line sm cb an l st it <> Err. Proof. unfold log_line. ne. Qed.
Global Hint Resolve log_line_ne : ne.
Lemma log_lines_ne sm cb an fuel : forall l st it, log_lines fuel sm cb an l st it <> Err.
Proof. induction fuel; intros l st it; cbn [log_lines]; ne; apply IHfuel. Qed.
Global Hint Resolve log_lines_ne : ne.
Lemma fasm_log_ne sm cb an t : fasm_log sm cb an t <> Err. Proof. unfold fasm_log. ne. Qed.
Global Hint Resolve fasm_log_ne : ne.
Lemma read_log_ne sm lines : forall fs, read_log sm lines fs <> Err.
Proof. induction lines; intros fs; cbn [read_log]; ne; apply IHlines. Qed.
Global Hint Resolve read_log_ne : ne.

Lemma last_char_ne s : last_char s <> Err. Proof. unfold last_char. ne. Qed.
Global Hint Resolve last_char_ne : ne.
Lemma pudcb_site_ne s : pudcb_site s <> Err. Proof. unfold pudcb_site. ne. Qed.
Global Hint Resolve pudcb_site_ne : ne.
Lemma pudcb_pins_ne l : pudcb_pins l <> Err. Proof. induction l; cbn [pudcb_pins]; ne; assumption. Qed.
Global Hint Resolve pudcb_pins_ne : ne.
Lemma find_pudcb_ne g : find_pudcb g <> Err. Proof. induction g; cbn [find_pudcb]; ne; assumption. Qed.
Global Hint Resolve find_pudcb_ne : ne.
Lemma pudcb_features_ne g : pudcb_features g <> Err. Proof. unfold pudcb_features. ne. Qed.
Lemma ofold_ne {A X} (F : A -> X -> outcome A) : (forall a x, F a x <> Err) -> forall l a, ofold F l a <> Err.
Proof. intros H. induction l; intros x; cbn [ofold]; [discriminate|]. apply obind_ne; [apply H|intros; apply IHl]. Qed.
Lemma iob_site_ne s : iob_site s <> Err. Proof. unfold iob_site. ne. Qed.
Lemma iob_sites_ne g t : iob_sites g t <> Err.
Proof. unfold iob_sites. ne. apply ofold_ne. intros a x. pose proof (iob_site_ne (fst x)). ne. Qed.
Global Hint Resolve iob_sites_ne : ne.
Lemma stepdown_tile_ne g u tags t : stepdown_tile g u tags t <> Err. Proof. unfold stepdown_tile. ne. Qed.
Lemma add_stepdown_ne ob ot banks g fs : add_stepdown ob ot banks g fs <> Err.
Proof.
  unfold add_stepdown. apply obind_ne.
  - apply ofold_ne. intros [u bt] f. unfold stepdown_scan. ne.
  - intros [u bt]. apply ofold_ne. intros out [b tags]. unfold stepdown_bank. ne. apply ofold_ne. intros o t. pose proof (stepdown_tile_ne g u (ot (fst (b, tags)) (snd (b, tags))) t). ne.
Qed.
Lemma config_bits_ne {S} (setter : S -> bus_type -> N -> N -> N -> bool -> outcome S) ord tls cache tile f a s :
  (forall s b x y z v, setter s b x y z v <> Err) -> (forall ty, tl_bits tls ty <> Err) -> config_bits setter ord tls cache tile f a s <> Err.
Proof.
  intros HS HT. unfold config_bits. ne.
  - unfold add_to_cache. ne; try apply HT.
  - apply ofold_ne. intros [m s'] [bus b]. unfold set_bus. ne. unfold set_segbits. apply ofold_ne. intros s2 sb. apply HS.
Qed.
Lemma set_frame_bit_ne st b x y z v : set_frame_bit st b x y z v <> Err. Proof. unfold set_frame_bit. ne. Qed.
Lemma process_bits_ne sm ord tls i tile f start bits : (forall ty, tl_bits tls ty <> Err) ->
  forall n a st, process_bits sm ord tls i tile f start bits n a st <> Err.
Proof.
  intros HT. induction n; intros a st; cbn [process_bits]; [discriminate|]. apply obind_ne; [unfold feature_address; ne|]. intros fa.
  apply obind_ne; [unfold feature_bit; ne|]. intros v. apply obind_ne; [|intros; apply IHn]. destruct v; [|discriminate].
  apply config_bits_ne; [apply set_frame_bit_ne|exact HT].
Qed.
Lemma process_log_ne sm ord tls : (forall ty, tl_bits tls ty <> Err) -> forall fs i st, process_log sm ord tls i fs st <> Err.
Proof.
  intros HT. induction fs as [|f fs IH]; intros i st; cbn [process_log]; [discriminate|].
  destruct (split1_spec (ff_name f)) as [(a & b & _ & E)|[_ E]]; rewrite E; [|discriminate].
  apply obind_ne; [|intros; apply IH]. unfold process_feature. rewrite E. apply obind_ne; [now apply process_bits_ne|].
  intros [c [fr used]]. destruct used as [|u us]; [discriminate|]. destruct (hm_find text_eqb a (tl_grid tls)); [|discriminate].
  apply obind_ne; [|intros; discriminate]. apply ofold_ne. intros x y. unfold materialise. ne.
Qed.
Lemma assemble_log_ne sm ord tls input : (forall ty, tl_bits tls ty <> Err) -> assemble_log sm ord tls input <> Err.
Proof.
  intros HT. unfold assemble_log. apply obind_ne; [apply pudcb_features_ne|]. intros fs. apply obind_ne; [apply read_log_ne|]. intros [ms [fs'|]]; [|discriminate].
  apply obind_ne; [apply add_stepdown_ne|]. intros fs2. apply obind_ne; [now apply process_log_ne|]. intros; discriminate.
Qed.
Lemma loaded_bits_ne e ord root part tls : parse_database e ord root part = Ok tls -> forall ty, tl_bits tls ty <> Err.
Proof.
  unfold parse_database. intros H ty. do 7 binv H. injection H as <-. cbn [tl_bits]. unfold tiles_database. destruct (hm_find text_eqb ty _); [|discriminate].
  destruct (parse_tile_type_database e t); discriminate.
Qed.
