(** Properties C46, C52, C63: pseudo pips, bad lines, skipped lines. *)
From Verif Require Import Base BaseFacts Absl Part Frame Fasm FasmSpec FasmFacts FasmSafe FasmShape
  FasmFile FasmLines FasmSkip DbText DbJson Database Assembler EncodeSpec AsmSpec MapFacts AsmFacts
  LookupFacts ProcessFacts ProcessCrash OutcomeFacts StepdownFacts AsmLines AsmWhole RegistryFacts AsmItems
  P_Fasm AsmExample P_Assembler P_Assembler2 P_Assembler3.
From Coq Require Import ZifyBool ZifyN ZifyNat.

(** ** C46 *)
Lemma pip_asks_nothing tls f tile rest : usable_grid (tl_grid tls) ->
  first_dot (ff_name f) tile rest -> pseudo_pip tls tile rest -> forall bus b sb, ~ asks tls f bus b sb.
Proof.
  intros U FD (t & ty & seen & d & M & S & B & P) bus b sb
    (tile' & rest' & k & l & FD' & _ & (t' & ty' & seen' & d' & segs & M' & S' & B' & N1 & N2 & _) & _).
  destruct (first_dot_fun _ _ _ _ _ FD FD') as [<- <-].
  pose proof (maps_to_fun _ text_eqb_eq _ _ _ _ M M'). subst t'.
  destruct (U _ _ M) as [_ US]. destruct (US _ _ _ _ _ S S') as [<- <-].
  rewrite B in B'. inversion B'; subst d'. destruct P; contradiction.
Qed.

Lemma pip_fine tls f tile rest : usable_grid (tl_grid tls) ->
  first_dot (ff_name f) tile rest -> pseudo_pip tls tile rest ->
  known tls f /\ fits tls f /\ (forall a, ~ touched tls f a) /\ (forall a w i, ~ requested tls f a w i).
Proof.
  intros U FD P. pose proof (pip_asks_nothing tls f tile rest U FD P) as N.
  assert (R : forall a w i, ~ requested tls f a w i).
  { intros a w i (bus & b & sb & A & _). now apply N in A. }
  split; [exists tile, rest; auto|]. split; [intros a w i Q; now apply R in Q|].
  split; [|exact R]. intros a (bus & b & sb & A & _). now apply N in A.
Qed.

(** A pseudo pip is accepted whatever bits are written, needs no segbits entry and changes no
    frame: none is added, no bit is set. *)
Theorem C46_pseudo_pip_changes_nothing :
  forall sm ord tls i cache fr f tile rest,
  usable_grid (tl_grid tls) -> good_orders ord -> reported f ->
  first_dot (ff_name f) tile rest -> pseudo_pip tls tile rest ->
  consistent tls cache -> wf_frames fr ->
  exists cache', process_feature sm ord tls i (cache, fr) f = Ok (cache', fr).
Proof.
  intros sm ord tls i cache fr f tile rest U G R FD P C W.
  destruct (pip_fine tls f tile rest U FD P) as (K & FI & NT & NR).
  destruct (process_feature_ok sm ord tls i cache fr f) as (c & fr' & E & _ & W' & PR & BT); auto.
  exists c. rewrite E. f_equal. f_equal. apply frames_ext; auto.
  - intros a. rewrite PR. split; [intros [X|X]; [exact X|now apply NT in X]|now left].
  - intros a w k Hw _. apply eq_true_iff_eq. rewrite BT by exact Hw.
    split; [intros [X|X]; [exact X|now apply NR in X]|now left].
Qed.
Print Assumptions C46_pseudo_pip_changes_nothing.

(** Features that play no role in the STEPDOWN pass. *)
Definition quiet (f : fasm_feature) : Prop :=
  forall tile site tag, uses f tile site tag -> ~ contains (tx "IOB33") tile /\ ~ contains (tx "STEPDOWN") tag.

Lemma stepdown_quiet tls fs fs' :
  (forall f, In f fs' -> In f fs) -> (forall f, In f fs -> In f fs' \/ quiet f) ->
  (forall n, stepdown_name (tl_banks tls) (tl_grid tls) fs n <-> stepdown_name (tl_banks tls) (tl_grid tls) fs' n) /\
  (stepdown_ready (tl_banks tls) (tl_grid tls) fs <-> stepdown_ready (tl_banks tls) (tl_grid tls) fs').
Proof.
  intros Sub Q.
  assert (W : forall b t, wants_stepdown (tl_banks tls) fs b t <-> wants_stepdown (tl_banks tls) fs' b t).
  { intros b t. unfold wants_stepdown. split; intros (f & ti & si & bs & I & Us & C & R).
    - destruct (Q f I) as [I'|Qf]; [exists f, ti, si, bs; auto|]. exfalso. apply (proj2 (Qf _ _ _ Us)). exact C.
    - exists f, ti, si, bs. auto. }
  assert (SU : forall t s, contains (tx "IOB33") t -> site_in_use fs t s <-> site_in_use fs' t s).
  { intros t s C. unfold site_in_use. split; intros (f & g & I & Us).
    - destruct (Q f I) as [I'|Qf]; [exists f, g; auto|]. exfalso. apply (proj1 (Qf _ _ _ Us)). exact C.
    - exists f, g. auto. }
  split.
  - intros n. split; intros H; destruct H as [bank tag ts tile t s fn label Wa R It C M Is L NU|bank tag ts tile Wa R It C].
    + apply (sd_site _ _ fs' bank tag ts tile t s fn label); try assumption; [apply W; assumption|].
      intros X. apply NU. now apply SU.
    + apply (sd_clock _ _ fs' bank tag ts tile); try assumption. apply W. assumption.
    + apply (sd_site _ _ fs bank tag ts tile t s fn label); try assumption; [apply W; assumption|].
      intros X. apply NU. now apply SU.
    + apply (sd_clock _ _ fs bank tag ts tile); try assumption. apply W. assumption.
  - split; intros [A B]; split.
    + intros f ti si tg I Us C. apply (A f ti si tg); auto.
    + intros b t X. apply (B b t). now apply W.
    + intros f ti si tg I Us C. destruct (Q f I) as [I'|Qf]; [eapply A; eauto|].
      exfalso. apply (proj2 (Qf _ _ _ Us)). exact C.
    + intros b t X. apply (B b t). now apply W.
Qed.

(** Two texts whose features differ by features that ask for nothing. *)
Lemma same_but_idle sm ord ord' tls t t' pud fs fs' fr :
  usable_grid (tl_grid tls) -> numbered_grid (tl_grid tls) -> good_orders ord -> good_orders ord' ->
  pudcb_features (tl_grid tls) = Ok pud ->
  text_features sm t fs -> text_features sm t' fs' -> Forall reported fs -> Forall reported fs' ->
  (forall f, In f fs' -> In f fs) ->
  (forall f, In f fs -> In f fs' \/ quiet f /\ exists tile rest, first_dot (ff_name f) tile rest /\ pseudo_pip tls tile rest) ->
  (assemble_frames sm ord tls t = Ok fr <-> assemble_frames sm ord' tls t' = Ok fr).
Proof.
  intros U NG G G' EP T T' R R' Sub Q.
  assert (RT : forall x, text_features sm t x -> Forall reported x) by (intros x Tx; now rewrite (text_features_fun _ _ _ _ Tx T)).
  assert (RT' : forall x, text_features sm t' x -> Forall reported x) by (intros x Tx; now rewrite (text_features_fun _ _ _ _ Tx T')).
  destruct (stepdown_quiet tls (pud ++ fs) (pud ++ fs')) as [SN SR].
  { intros f I. apply in_app_iff in I as [I|I]; apply in_app_iff; auto. }
  { intros f I. apply in_app_iff in I as [I|I]; [left; apply in_app_iff; auto|].
    destruct (Q f I) as [I'|[X _]]; [left; apply in_app_iff; auto|now right]. }
  assert (AF' : forall f, all_features tls (pud ++ fs') f -> all_features tls (pud ++ fs) f).
  { intros f [I|(n & X & ->)]; [left|right; exists n; split; [now apply SN|reflexivity]].
    apply in_app_iff in I as [I|I]; apply in_app_iff; auto. }
  assert (AF : forall f, all_features tls (pud ++ fs) f -> all_features tls (pud ++ fs') f \/
     (known tls f /\ fits tls f /\ (forall a, ~ touched tls f a) /\ (forall a w i, ~ requested tls f a w i))).
  { intros f [I|(n & X & ->)]; [|left; right; exists n; split; [now apply SN|reflexivity]].
    apply in_app_iff in I as [I|I]; [left; left; apply in_app_iff; auto|].
    destruct (Q f I) as [I'|[_ (ti & re & FD & P)]]; [left; left; apply in_app_iff; auto|right].
    eapply pip_fine; eauto. }
  assert (Key : forall fr1 fr2, assemble_frames sm ord tls t = Ok fr1 -> assemble_frames sm ord' tls t' = Ok fr2 -> fr1 = fr2).
  { intros fr1 fr2 H1 H2.
    destruct (run_result sm ord tls t pud fr1 U NG G RT EP H1) as (x & Tx & _ & _ & W1 & P1 & B1).
    destruct (run_result sm ord' tls t' pud fr2 U NG G' RT' EP H2) as (y & Ty & _ & _ & W2 & P2 & B2).
    rewrite (text_features_fun _ _ _ _ Tx T) in *. rewrite (text_features_fun _ _ _ _ Ty T') in *.
    apply frames_ext; auto.
    - intros a. rewrite P1, P2. split; intros (f & A & X); [|exists f; auto].
      destruct (AF f A) as [A'|(_ & _ & N & _)]; [exists f; auto|now apply N in X].
    - intros a w i _ _. apply eq_true_iff_eq. rewrite B1, B2. split; intros (f & A & X); [|exists f; auto].
      destruct (AF f A) as [A'|(_ & _ & _ & N)]; [exists f; auto|now apply N in X]. }
  split; intros H.
  - destruct (run_result sm ord tls t pud fr U NG G RT EP H) as (x & Tx & RD & K & _).
    rewrite (text_features_fun _ _ _ _ Tx T) in *.
    destruct (assemble_spec_gen sm ord' tls t' pud U NG G' RT' EP) as [Suf _].
    destruct (Suf fs' T') as (fr' & H'); [now apply SR|auto|]. rewrite H'. f_equal. symmetry. eapply Key; eauto.
  - destruct (run_result sm ord' tls t' pud fr U NG G' RT' EP H) as (x & Tx & RD & K & _).
    rewrite (text_features_fun _ _ _ _ Tx T') in *.
    destruct (assemble_spec_gen sm ord tls t pud U NG G RT EP) as [Suf _].
    destruct (Suf fs T) as (fr' & H'); [now apply SR| |].
    { intros f A. destruct (AF f A) as [A'|(X & Y & _)]; auto. }
    rewrite H'. f_equal. eapply Key; eauto.
Qed.

Lemma contains_sub n (a b c : text) : contains n b -> contains n (a ++ b ++ c).
Proof.
  intros (x & y & ->). exists (a ++ x), (y ++ c). now rewrite <- !app_assoc.
Qed.

(** Whole files: a line that names a pseudo pip, with any value, can be dropped (for a tile
    that is not an IO buffer, and a name that does not speak of STEPDOWN). *)
Theorem C46_pseudo_pip_line_is_idle :
  forall sm ord ord' tls l1 l2 i f tile rest fr,
  usable_grid (tl_grid tls) -> numbered_grid (tl_grid tls) -> good_orders ord -> good_orders ord' ->
  Forall item_shape (l1 ++ i :: l2) -> Forall item_in_range (l1 ++ i :: l2) ->
  i_feature i = Some f -> first_dot (f_name f) tile rest -> pseudo_pip tls tile rest ->
  ~ contains (tx "IOB33") tile -> ~ contains (tx "STEPDOWN") (f_name f) ->
  (assemble_frames sm ord tls (file_text (l1 ++ i :: l2)) = Ok fr <->
   assemble_frames sm ord' tls (file_text (l1 ++ l2)) = Ok fr).
Proof.
  intros sm ord ord' tls l1 l2 i f tile rest fr U NG G G' S R Ei FD PP NI NS.
  destruct (pudcb_ok _ NG) as (pud & EP & _ & _).
  assert (S2 : Forall item_shape (l1 ++ l2)).
  { apply Forall_app in S as [A B]. inversion B; subst. apply Forall_app. auto. }
  assert (R2 : Forall item_in_range (l1 ++ l2)).
  { apply Forall_app in R as [A B]. inversion B; subst. apply Forall_app. auto. }
  pose proof (file_features sm _ S R) as T. pose proof (file_features sm _ S2 R2) as T2.
  eapply same_but_idle; [exact U|exact NG|exact G|exact G'|exact EP|exact T|exact T2| | | |].
  - eapply file_reported; [exact S|exact R|exact T].
  - eapply file_reported; [exact S2|exact R2|exact T2].
  - intros g I. rewrite flat_map_app in *. cbn [flat_map]. rewrite !in_app_iff in *. tauto.
  - intros g I. rewrite flat_map_app in *. cbn [flat_map] in I. rewrite !in_app_iff in *.
    destruct I as [I|[I|I]]; [left; now left| |left; now right]. right.
    rewrite item_line_features, Ei in I. apply line_features_name in I. split; [|exists tile, rest; now rewrite I].
    intros ti si tg [_ (D1 & D2 & D3 & E)]. rewrite I in E.
    assert (FD' : exists r, first_dot (f_name f) ti r).
    { destruct E as [E|(r & E)]; eexists; split; [exact E|exact D1|exact E|exact D1]. }
    destruct FD' as (r & FD'). destruct (first_dot_fun _ _ _ _ _ FD FD') as [<- _].
    split; [exact NI|]. intros C. apply NS. destruct E as [E|(r' & E)]; rewrite E.
    + replace (dotted tile (dotted si tg)) with ((tile ++ dot :: si ++ [dot]) ++ tg ++ []); [now apply contains_sub|].
      unfold dotted. rewrite app_nil_r, <- !app_assoc. cbn [app]. now rewrite <- !app_assoc.
    + replace (dotted tile (dotted si (dotted tg r'))) with ((tile ++ dot :: si ++ [dot]) ++ tg ++ dot :: r');
        [now apply contains_sub|].
      unfold dotted. rewrite <- !app_assoc. cbn [app]. now rewrite <- !app_assoc.
Qed.
Print Assumptions C46_pseudo_pip_line_is_idle.

Example C46_case : pseudo_pip ex_db (tx "CLBLL_L_X2Y1") (tx "CLBLL_L_A1.IMUX_L6") /\
  pseudo_pip ex_db (tx "CLBLL_L_X2Y1") (tx "LOCAL.PIP") /\
  first_dot (tx "CLBLL_L_X2Y1.CLBLL_L_A1.IMUX_L6") (tx "CLBLL_L_X2Y1") (tx "CLBLL_L_A1.IMUX_L6").
Proof.
  assert (M : exists t, maps_to ex_grid (tx "CLBLL_L_X2Y1") t /\ t_type t = tx "CLBLL_L"
     /\ forall bus b, In (bus, b) (t_bits t) -> bb_alias b = None).
  { eexists. split; [exists []; eexists; split; [reflexivity|intros []]|]. split; [reflexivity|].
    intros bus b [H|[]]. inversion H; reflexivity. }
  destruct M as (t & M & Ty & A). split; [|split].
  - exists t, (tx "CLBLL_L"), (tx "CLBLL_L_A1.IMUX_L6"), ex_clb. split; [exact M|].
    split; [rewrite <- Ty; now apply seen_plain|]. split; [reflexivity|]. right. now left.
  - exists t, (tx "CLBLL_L"), (tx "LOCAL.PIP"), ex_clb. split; [exact M|].
    split; [rewrite <- Ty; now apply seen_plain|]. split; [reflexivity|]. left. right. now left.
  - split; [reflexivity|]. vm_compute. intuition discriminate.
Qed.
Example C46_case_run :
  assemble_frames Iso ex_orders ex_db (unlines [tx "CLBLL_L_X2Y1.LOCAL.PIP[7:0] = 8'hff"; tx "CLBLL_L_X2Y1.CLBLL_L_A1.IMUX_L6"])
  = assemble_frames Iso ex_orders ex_db [].
Proof. vm_compute. reflexivity. Qed.

(** ** C52 *)
(** A line that is rejected stops the run with an error, whatever follows. *)
Theorem C52_bad_line_stops :
  forall sm ord tls input good bad rest, numbered_grid (tl_grid tls) ->
  getlines input = good ++ bad :: rest ->
  Forall (fun line => exists evs, line_parsed sm line evs) good -> line_failed sm bad ->
  assemble_frames sm ord tls input = Err.
Proof.
  intros sm ord tls input good bad rest NG E F B. destruct (pudcb_ok _ NG) as (pud & EP & _ & _).
  unfold assemble_frames. rewrite EP, E. cbn [obind]. rewrite assemble_lines_err; [reflexivity| |exact B].
  clear - F. induction F as [|l ls (evs & P) F (es & IH)]; [exists []; constructor|]. exists (evs :: es). now constructor.
Qed.
Print Assumptions C52_bad_line_stops.

(** Success: every line, up to the last one, ends with a newline and is a line of the
    grammar, or was skipped because of an inverted range. *)
Theorem C52_success_means_accepted :
  forall sm ord tls input fr, assemble_frames sm ord tls input = Ok fr ->
  exists lines, input = concat lines /\
    forall line, In line lines -> (exists i, item_shape i /\ line = item_text i) \/ skipped_line line.
Proof.
  intros sm ord tls input fr H. unfold assemble_frames in H.
  apply obind_inv in H. destruct H as (pud & _ & H). apply obind_inv in H. destruct H as (fs & E & _).
  apply assemble_lines_ok in E as (evss & F & _).
  destruct (split_lines input) as (ps & r & Et & Hp & Hr & Eg). rewrite Eg in F.
  assert (A : forall line, In line (map (fun p => p ++ newline) ps ++ match r with [] => [] | _ => [r] end) ->
                exists evs, line_parsed sm line evs).
  { clear - F. induction F as [|l e ls es P F IH]; intros line []; subst; eauto. }
  assert (R0 : r = []).
  { destruct r as [|c r]; [reflexivity|]. exfalso.
    destruct (A (c :: r)) as (evs & res & E & L); [apply in_app_iff; right; now left|].
    assert (X : fasm_parse sm (fun _ => true) true (c :: r) = Ok {| p_events := []; p_result := kError |}).
    { unfold fasm_parse. destruct (ch_is (last (c :: r) ch_nl) ch_nl) eqn:C; [|reflexivity].
      apply ch_is_true in C. exfalso. clear - Hr C. 
      assert (I : In (last (c :: r) ch_nl) (c :: r)).
      { destruct (exists_last (l := c :: r)) as (u & x & ->); [discriminate|]. rewrite last_last. apply in_app_iff. right. now left. }
      unfold no_newline in Hr. rewrite Forall_forall in Hr. apply (Hr _ I). exact C. }
    rewrite X in E. inversion E; subst. vm_compute in L. discriminate L. }
  subst r. exists (map (fun p => p ++ newline) ps). split.
  { rewrite Et, app_nil_r. reflexivity. }
  intros line I. destruct (A line) as (evs & res & E & L); [apply in_app_iff; now left|].
  assert (O : one_line line).
  { apply in_map_iff in I as (p & <- & I). rewrite Forall_forall in Hp. exists p. auto. }
  destruct (accepted_line sm _ line _ O E) as [(_ & X)|(_ & X)]; auto.
Qed.
Print Assumptions C52_success_means_accepted.

Example C52_case :
  line_failed Iso (tx "T.X = 8'q3" ++ newline) /\
  assemble_frames Iso ex_orders ex_db (unlines [tx "CLBLL_L_X2Y1.SLICEL_X0.FFSYNC"; tx "T.X = 8'q3"; tx "garbage ["]) = Err /\
  assemble_frames Iso ex_orders ex_db (tx "CLBLL_L_X2Y1.SLICEL_X0.FFSYNC") = Err.
Proof.
  split; [eexists; split; [vm_compute; reflexivity|vm_compute; discriminate]|]. split; vm_compute; reflexivity.
Qed.

(** ** C63 *)
(** A line with an inverted range is dropped without a trace in the result: the run ends as
    if the line were not there. *)
Theorem C63_inverted_range_is_dropped :
  forall sm ord tls ps bad rest, Forall no_newline ps -> skipped_line bad ->
  assemble_frames sm ord tls (unlines ps ++ bad ++ rest) = assemble_frames sm ord tls (unlines ps ++ rest).
Proof.
  intros sm ord tls ps bad rest Hp Sk.
  assert (GL : forall t, getlines (unlines ps ++ t) = map (fun p => p ++ newline) ps ++ getlines t).
  { intros t. clear Sk. induction Hp as [|p ps Np Hp IH]; [reflexivity|].
    rewrite unlines_cons. unfold unlines at 1. cbn [map concat]. rewrite app_nil_r, <- !app_assoc.
    rewrite getlines_cut by exact Np. cbn [map app]. f_equal. exact IH. }
  unfold assemble_frames. rewrite !GL.
  assert (GB : getlines (bad ++ rest) = bad :: getlines rest).
  { destruct (skipped_one_line _ Sk) as (p & Np & ->). rewrite <- app_assoc. now rewrite getlines_cut. }
  rewrite GB. destruct (pudcb_features (tl_grid tls)) as [pud| | | |]; cbn [obind]; try reflexivity.
  rewrite !ofold_app. set (ls := map (fun p => p ++ newline) ps). destruct (ofold (assemble_line sm) ls pud) as [fs| | | |]; cbn [obind]; try reflexivity.
  cbn [ofold]. replace (assemble_line sm fs bad) with (Ok fs); [reflexivity|].
  unfold assemble_line. rewrite (skipped_line_parse sm always true bad Sk). cbn [obind p_result p_events flat_map].
  rewrite app_nil_r. reflexivity.
Qed.
Print Assumptions C63_inverted_range_is_dropped.

Example C63_case : skipped_line (tx "NO_SUCH_TILE.X[0:3] = 4'b1111" ++ newline) /\
  run_check (assemble_frames Iso ex_orders ex_db (unlines [tx "NO_SUCH_TILE.X[0:3] = 4'b1111"])) (fun _ => true) = true.
Proof.
  split; [|vm_compute; reflexivity].
  exists [], (tx "NO_SUCH_TILE.X"), [], {| r_b0 := []; r_hi := tx "0"; r_b1 := []; r_lo := Some ([], tx "3", []) |},
    0, 3, (tx " = 4'b1111").
  split; [reflexivity|]. split; [constructor|]. split; [discriminate|]. split; [name_chars|]. split; [constructor|].
  split. { split; [constructor|]. split; [numerals|]. split; [constructor|]. split; [constructor|]. split; [numerals|constructor]. }
  split. { repeat (constructor; [discriminate|]). constructor. }
  split; [reflexivity|]. split; [exists [], (tx "3"), []; split; reflexivity|]. reflexivity.
Qed.
