(** AssembleFrames on FASM files of the grammar. *)
From Verif Require Import Base BaseFacts Absl Part Frame Fasm FasmSpec FasmFacts FasmSafe FasmShape
  FasmFile FasmLines DbText DbJson Database Assembler EncodeSpec AsmSpec MapFacts AsmFacts
  LookupFacts ProcessFacts StepdownFacts AsmLines AsmWhole P_Fasm.
From Coq Require Import ZifyBool ZifyN ZifyNat.

(** ** The lines of a file *)
Lemma name_char_nl c : is_name_char c -> c <> "010"%char.
Proof.
  intros H ->. unfold is_name_char, between, code in H. vm_compute in H.
  destruct H as [[H _]|[[H _]|[[H _]|[H|H]]]]; try discriminate H; now apply H.
Qed.
Lemma names_nl s : Forall is_name_char s -> no_newline s.
Proof. apply Forall_impl. exact name_char_nl. Qed.
Lemma numeral_nl b s : numeral b s -> no_newline s.
Proof.
  apply Forall_impl. intros c [->|(d & H & _)]; [discriminate|]. intros ->. discriminate H.
Qed.
Lemma quotable_nl s : forall p, quotable p s -> no_newline s.
Proof.
  induction s as [|c s IH]; intros p H; [constructor|]. cbn [quotable] in H. destruct H as (H & _ & Q).
  constructor; [exact H|eapply IH; eauto].
Qed.
Lemma nl_app s t : no_newline s -> no_newline t -> no_newline (s ++ t).
Proof. intros A B. apply Forall_app. auto. Qed.
Lemma nl_one c : c <> "010"%char -> no_newline [c].
Proof. intros H. constructor; [exact H|constructor]. Qed.

Ltac nl := repeat first
  [ assumption
  | apply nl_app
  | apply blanks_no_newline; assumption
  | apply names_nl; assumption
  | eapply numeral_nl; eassumption
  | apply nl_one; discriminate
  | constructor ].

Lemma annotation_nl a : annotation_shape a -> no_newline (annotation_text a).
Proof.
  intros (A & B & C & D & Q & F). apply quotable_nl in Q. unfold annotation_text, dquote. nl.
Qed.
Lemma ending_nl e : ending_shape e -> no_newline (ending_text e).
Proof.
  destruct e as [|s|s|a l junk]; cbn [ending_shape ending_text]; intros H.
  - constructor.
  - constructor; [discriminate|exact H].
  - constructor; [discriminate|exact H].
  - destruct H as [F J]. inversion F; subst. constructor; [discriminate|].
    apply Forall_app. split; [now apply annotation_nl|]. apply Forall_app. split.
    + apply Forall_concat. apply Forall_map. eapply Forall_impl; [|eassumption].
      intros x Hx. constructor; [discriminate|now apply annotation_nl].
    + constructor; [discriminate|exact J].
Qed.
Lemma feature_nl f : feature_shape f -> no_newline (feature_text f).
Proof.
  intros (_ & A & B & R & C & S). unfold feature_text. apply nl_app; [nl|]. apply nl_app; [nl|]. apply nl_app.
  { destruct (f_range f) as [r|]; [|constructor]. destruct R as (R0 & R1 & R2 & R3). unfold range_text.
    destruct (r_lo r) as [[[b lo] b']|]; [destruct R3 as (R3 & R4 & R5)|]; nl; discriminate. }
  apply nl_app; [nl|]. destruct (f_assign f) as [[b v]|]; [|constructor]. destruct S as [S1 S2].
  destruct v as [d b'|w b1 b2 r b3 d b4]; cbn [rhs_shape] in S2; unfold rhs_text.
  - destruct S2. nl; discriminate.
  - destruct S2 as (T1 & T2 & T3 & T4 & T5 & T6). nl; destruct r; discriminate.
Qed.

Lemma item_line i : item_shape i -> exists p, item_text i = p ++ newline /\ no_newline p.
Proof.
  intros (A & B & C). unfold item_text. exists (i_b0 i ++ match i_feature i with None => [] | Some f => feature_text f end ++ ending_text (i_end i)).
  split; [now rewrite <- !app_assoc|]. apply nl_app; [nl|]. apply nl_app; [|now apply ending_nl].
  destruct (i_feature i); [now apply feature_nl|constructor].
Qed.

Lemma getlines_file l : Forall item_shape l -> getlines (file_text l) = map item_text l.
Proof.
  induction 1 as [|i l H F IH]; [reflexivity|].
  change (file_text (i :: l)) with (item_text i ++ file_text l). destruct (item_line i H) as (p & E & N).
  cbn [map]. rewrite E, <- app_assoc, getlines_cut by exact N. now rewrite IH.
Qed.

Lemma item_severity_le i : item_severity i <= kNonCritical.
Proof.
  unfold item_severity. destruct (i_feature i) as [f|]; [|vm_compute; discriminate].
  destruct (f_assign f) as [[b v]|].
  - destruct v; [vm_compute; discriminate|]. destruct (_ <? _); vm_compute; discriminate.
  - destruct (_ =? _); vm_compute; discriminate.
Qed.

Lemma item_parsed sm i : item_shape i -> item_in_range i ->
  line_parsed sm (item_text i) (item_events 1 i).
Proof.
  intros S R. pose proof (C31_file_denotation sm (fun _ => true) [i] (fun _ => eq_refl)) as X.
  unfold file_text in X. cbn [map concat] in X. rewrite app_nil_r in X. exists (file_severity [i]). split.
  - rewrite X; [|constructor; [auto|constructor]|vm_compute; reflexivity].
    cbn [file_events]. now rewrite app_nil_r.
  - unfold file_severity. cbn [map fold_left]. pose proof (item_severity_le i). unfold kUserAbort, kNonCritical in *. lia.
Qed.

Lemma file_features sm l : Forall item_shape l -> Forall item_in_range l ->
  text_features sm (file_text l) (flat_map (fun i => line_features (item_events 1 i)) l).
Proof.
  intros S R. exists (map (item_events 1) l). split.
  - rewrite getlines_file by exact S. clear -S R. induction l as [|i l IH]; cbn [map]; [constructor|].
    inversion S; subst; inversion R; subst. constructor; [now apply item_parsed|auto].
  - clear. induction l as [|i l IH]; cbn [flat_map map]; [reflexivity|]. now rewrite IH.
Qed.

(** ** What the calls of an item switch on *)
Lemma item_line_features line i :
  line_features (item_events line i)
  = match i_feature i with None => [] | Some f => line_features (feature_events line f) end.
Proof.
  unfold item_events, line_features. rewrite flat_map_app.
  assert (E : flat_map feature_of_event
    match i_end i with EndAnnot a l _ => map (annotation_event line (item_name i)) (a :: l) | _ => [] end = []).
  { destruct (i_end i) as [| | |a l junk]; try reflexivity. induction (a :: l) as [|x m IH]; [reflexivity|exact IH]. }
  rewrite E, app_nil_r. now destruct (i_feature i).
Qed.

Lemma flat_map_single {A B C} (g : A -> B) (h : B -> list C) (k : A -> C) l :
  (forall x, h (g x) = [k x]) -> flat_map h (map g l) = map k l.
Proof. intros H. induction l as [|x l IH]; cbn [map flat_map]; [reflexivity|]. now rewrite H, IH. Qed.

Definition chunk_feature (f : feature) (i : N) : fasm_feature :=
  let w := N.min 64 (feature_width f - 64 * i) in
  {| ff_name := f_name f; ff_start := range_lo f + 64 * i; ff_width := w;
     ff_bits := (feature_value f / 2 ^ (64 * i)) mod 2 ^ w |}.

Lemma feature_features line f :
  line_features (feature_events line f)
  = map (fun i => chunk_feature f (N.of_nat i)) (seq 0 (N.to_nat (chunk_count (feature_width f)))).
Proof.
  unfold line_features, feature_events, value_events. apply flat_map_single. intros x. reflexivity.
Qed.

(** A bit set can be seen through [enables]. *)
Definition live (f : fasm_feature) : Prop := ff_bits f <> 0 -> exists k, enables f k.
Lemma live_lt f : ff_bits f < 2 ^ ff_width f -> live f.
Proof.
  intros L NZ. exists ((ff_start f + N.log2 (ff_bits f)) mod 2 ^ 32), (N.log2 (ff_bits f)). split.
  - apply N.log2_lt_pow2; [lia|exact L].
  - split; [|reflexivity]. now apply N.bit_log2.
Qed.
Lemma enables_bits f k : enables f k -> ff_bits f <> 0.
Proof. intros (j & _ & B & _) E. rewrite E, N.bits_0 in B. discriminate. Qed.

Lemma chunk_live f i : live (chunk_feature f i).
Proof. apply live_lt. cbn [chunk_feature ff_bits ff_width]. apply N.mod_lt. apply N.pow_nonzero. discriminate. Qed.
Lemma bit_live name k : live (bit_feature name k).
Proof. apply live_lt. vm_compute. reflexivity. Qed.

Lemma enables_bit name k x : k < 2 ^ 32 -> enables (bit_feature name k) x <-> x = k.
Proof.
  intros L. unfold enables, bit_feature. cbn [ff_start ff_width ff_bits]. split.
  - intros (j & Lj & _ & ->). replace j with 0 by lia. rewrite N.add_0_r. now apply N.mod_small.
  - intros ->. exists 0. split; [lia|]. split; [reflexivity|]. rewrite N.add_0_r. symmetry. now apply N.mod_small.
Qed.

(** The same bits of the same names. *)
Definition on (fs : list fasm_feature) (name : text) (k : N) : Prop :=
  exists f, In f fs /\ ff_name f = name /\ enables f k.

Lemma chunk_enables f i k : range_lo f + feature_width f <= 2 ^ 31 ->
  enables (chunk_feature f i) k <->
  exists j, 64 * i <= j < 64 * i + 64 /\ j < feature_width f /\ N.testbit (feature_value f) j = true
            /\ k = range_lo f + j.
Proof.
  intros L. unfold enables, chunk_feature. cbn [ff_start ff_width ff_bits].
  set (w := N.min 64 (feature_width f - 64 * i)).
  assert (P32 : 2 ^ 31 < 2 ^ 32) by (vm_compute; reflexivity). revert P32 L.
  generalize (2 ^ 31) (2 ^ 32). intros p31 p32 P32 L. split.
  - intros (j & Lj & B & ->). exists (64 * i + j).
    rewrite N.mod_pow2_bits_low in B by exact Lj. rewrite N.div_pow2_bits in B.
    assert (64 * i + j < feature_width f) by lia.
    split; [lia|]. split; [assumption|]. split; [rewrite N.add_comm; exact B|]. rewrite N.mod_small by lia. lia.
  - intros (j & Hj & Lw & B & ->). exists (j - 64 * i). split; [lia|]. split.
    + rewrite N.mod_pow2_bits_low by lia. rewrite N.div_pow2_bits. now replace (j - 64 * i + 64 * i) with j by lia.
    + rewrite N.mod_small by lia. lia.
Qed.

Lemma feature_on line f name k : range_lo f + feature_width f <= 2 ^ 31 ->
  on (line_features (feature_events line f)) name k <-> on (feature_ones f) name k.
Proof.
  intros L.
  assert (A : on (line_features (feature_events line f)) name k <->
    name = f_name f /\ exists j, j < feature_width f /\ N.testbit (feature_value f) j = true /\ k = range_lo f + j).
  { rewrite feature_features. unfold on. split.
    - intros (x & I & <- & E). apply in_map_iff in I as (i & <- & Ii). split; [reflexivity|].
      apply chunk_enables in E as (j & Hj & Lw & B & ->); [|exact L]. exists j. auto.
    - intros (-> & j & Lj & B & ->). exists (chunk_feature f (j / 64)). split; [|split].
      + apply in_map_iff. exists (N.to_nat (j / 64)). split; [now rewrite N2Nat.id|]. apply in_seq.
        unfold chunk_count. assert (j / 64 < (feature_width f + 63) / 64); [|lia].
        apply N.div_lt_upper_bound; [lia|]. pose proof (N.div_mod (feature_width f + 63) 64 ltac:(lia)).
        pose proof (N.mod_lt (feature_width f + 63) 64 ltac:(lia)). lia.
      + reflexivity.
      + apply chunk_enables; [exact L|]. exists j. pose proof (N.div_mod j 64 ltac:(lia)).
        pose proof (N.mod_lt j 64 ltac:(lia)). split; [lia|]. auto. }
  assert (B : on (feature_ones f) name k <->
    name = f_name f /\ exists j, j < feature_width f /\ N.testbit (feature_value f) j = true /\ k = range_lo f + j).
  { unfold on, feature_ones.
    assert (P32 : 2 ^ 31 < 2 ^ 32) by (vm_compute; reflexivity). split.
    - intros (x & I & <- & E). apply in_map_iff in I as (i & <- & Ii). split; [reflexivity|].
      apply filter_In in Ii as [Ii Bi]. apply in_seq in Ii. apply enables_bit in E; [|revert P32 L; generalize (2^31) (2^32); lia].
      exists (N.of_nat i). split; [lia|]. auto.
    - intros (-> & j & Lj & B & ->). exists (bit_feature (f_name f) (range_lo f + j)). split; [|split].
      + apply in_map_iff. exists (N.to_nat j). rewrite N2Nat.id. split; [reflexivity|]. apply filter_In.
        rewrite N2Nat.id. split; [apply in_seq; lia|exact B].
      + reflexivity.
      + apply enables_bit; [revert P32 L; generalize (2^31) (2^32); lia|reflexivity]. }
  rewrite A, B. reflexivity.
Qed.

Lemma item_range f : feature_in_range f -> range_lo f + feature_width f <= 2 ^ 31.
Proof.
  intros (H & L & _). unfold feature_width. assert (2 ^ 16 <= 2 ^ 31) by (vm_compute; discriminate).
  revert H0 H L. generalize (2 ^ 31) (2 ^ 16). lia.
Qed.

Lemma on_app fs gs name k : on (fs ++ gs) name k <-> on fs name k \/ on gs name k.
Proof.
  unfold on. split.
  - intros (f & I & R). apply in_app_iff in I as [I|I]; eauto.
  - intros [(f & I & R)|(f & I & R)]; exists f; (split; [apply in_app_iff; auto|exact R]).
Qed.

Lemma file_on l : Forall item_in_range l -> forall name k,
  on (flat_map (fun i => line_features (item_events 1 i)) l) name k <-> on (file_ones l) name k.
Proof.
  induction 1 as [|i l H F IH]; intros name k; [reflexivity|]. unfold file_ones. cbn [flat_map].
  rewrite !on_app, IH. rewrite item_line_features. unfold item_in_range in H.
  destruct (i_feature i) as [f|]; [|reflexivity]. rewrite feature_on; [reflexivity|]. now apply item_range.
Qed.

Lemma file_live l : Forall live (flat_map (fun i => line_features (item_events 1 i)) l).
Proof.
  apply Forall_forall. intros f I. apply in_flat_map in I as (i & _ & I). rewrite item_line_features in I.
  destruct (i_feature i) as [g|]; [|destruct I]. rewrite feature_features in I.
  apply in_map_iff in I as (n & <- & _). apply chunk_live.
Qed.
Lemma file_ones_live l : Forall live (file_ones l).
Proof.
  apply Forall_forall. intros f I. apply in_flat_map in I as (i & _ & I).
  destruct (i_feature i) as [g|]; [|destruct I]. apply in_map_iff in I as (n & <- & _). apply bit_live.
Qed.

Lemma file_reported sm l fs : Forall item_shape l -> Forall item_in_range l ->
  text_features sm (file_text l) fs -> Forall reported fs.
Proof.
  intros S R T. rewrite (text_features_fun _ _ _ _ T (file_features sm l S R)).
  apply Forall_forall. intros f I. apply in_flat_map in I as (i & Ii & I). rewrite item_line_features in I.
  rewrite Forall_forall in R. specialize (R i Ii). unfold item_in_range in R.
  destruct (i_feature i) as [g|]; [|destruct I]. rewrite feature_features in I.
  apply in_map_iff in I as (n & <- & In). apply in_seq in In. unfold reported, chunk_feature.
  cbn [ff_width ff_start]. split; [lia|]. destruct R as (H & L & _).
  assert (C : 64 * N.of_nat n < feature_width g + 63).
  { unfold chunk_count in In. pose proof (N.div_mod (feature_width g + 63) 64 ltac:(lia)).
    pose proof (N.mod_lt (feature_width g + 63) 64 ltac:(lia)). lia. }
  unfold feature_width in C. assert (P : 2 ^ 16 + 2 ^ 16 + 256 <= 2 ^ 31) by (vm_compute; discriminate).
  revert P H L C. generalize (2 ^ 31) (2 ^ 16). lia.
Qed.

(** ** Only the names and the bits matter *)
Definition requests_at (tls : tiles) (name : text) (k a w i : N) : Prop :=
  exists tile rest bus b l sb, first_dot name tile rest /\ entry tls tile rest k bus b l /\ In sb l
    /\ sb_set sb = true /\ lands_at b sb a w i.
Lemma requested_at tls f a w i :
  requested tls f a w i <-> exists k, enables f k /\ requests_at tls (ff_name f) k a w i.
Proof.
  unfold requested, requests_at, asks. split.
  - intros (bus & b & sb & (tile & rest & k & l & F & E & N & I) & S & L).
    exists k. split; [exact E|]. exists tile, rest, bus, b, l, sb. auto.
  - intros (k & E & tile & rest & bus & b & l & sb & F & N & I & S & L).
    exists bus, b, sb. split; [|auto]. exists tile, rest, k, l. auto.
Qed.
Definition touches_at (tls : tiles) (name : text) (k a : N) : Prop :=
  exists tile rest bus b l sb, first_dot name tile rest /\ entry tls tile rest k bus b l /\ In sb l
    /\ (a = (bb_base b + sb_column sb) mod 2 ^ 32
        \/ exists j, j < bb_frames b /\ a = (bb_base b + j) mod 2 ^ 64).
Lemma touched_at tls f a :
  touched tls f a <-> exists k, enables f k /\ touches_at tls (ff_name f) k a.
Proof.
  unfold touched, touches_at, asks. split.
  - intros (bus & b & sb & (tile & rest & k & l & F & E & N & I) & S).
    exists k. split; [exact E|]. exists tile, rest, bus, b, l, sb. auto.
  - intros (k & E & tile & rest & bus & b & l & sb & F & N & I & S).
    exists bus, b, sb. split; [|auto]. exists tile, rest, k, l. auto.
Qed.

Lemma on_uses fs fs' : Forall live fs -> (forall n k, on fs n k -> on fs' n k) ->
  forall t s g, (exists f, In f fs /\ uses f t s g) -> exists f, In f fs' /\ uses f t s g.
Proof.
  intros L S t s g (f & I & NZ & P). rewrite Forall_forall in L. destruct (L f I NZ) as (k & E).
  destruct (S (ff_name f) k) as (f' & I' & N' & E'); [exists f; auto|].
  exists f'. split; [exact I'|]. split; [eapply enables_bits; eauto|]. now rewrite N'.
Qed.

Lemma all_features_on tls fs fs' (Q : text -> N -> Prop) : Forall live fs -> Forall live fs' ->
  (forall n k, on fs n k <-> on fs' n k) ->
  (exists f, all_features tls fs f /\ exists k, enables f k /\ Q (ff_name f) k) ->
  exists f, all_features tls fs' f /\ exists k, enables f k /\ Q (ff_name f) k.
Proof.
  intros L L' S (f & A & k & E & H). destruct A as [I|(name & SN & ->)].
  - destruct (proj1 (S (ff_name f) k)) as (f' & I' & N' & E'); [exists f; auto|].
    exists f'. split; [now left|]. exists k. split; [exact E'|now rewrite N'].
  - exists (plain_feature name). split; [|exists k; auto]. right. exists name. split; [|reflexivity].
    assert (U : forall t s g, (exists f, In f fs /\ uses f t s g) -> exists f, In f fs' /\ uses f t s g).
    { apply on_uses; [exact L|]. intros n x. apply S. }
    assert (U' : forall t s g, (exists f, In f fs' /\ uses f t s g) -> exists f, In f fs /\ uses f t s g).
    { apply on_uses; [exact L'|]. intros n x. apply S. }
    assert (W : forall b t, wants_stepdown (tl_banks tls) fs b t -> wants_stepdown (tl_banks tls) fs' b t).
    { intros b t (g & ti & si & bs & I & Us & C & R).
      destruct (U ti si t) as (g' & I' & Us'); [eauto|]. exists g', ti, si, bs. auto. }
    destruct SN as [bank tag ts tile t s fn label Wa R It C M Is La NU|bank tag ts tile Wa R It C].
    + apply (sd_site _ _ fs' bank tag ts tile t s fn label); auto.
      intros (g & tg & I & Us). apply NU. destruct (U' tile label tg) as (g' & I' & Us'); [eauto|].
      exists g', tg. auto.
    + apply (sd_clock _ _ fs' bank tag ts tile); auto.
Qed.
