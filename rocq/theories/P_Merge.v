(** Property C117: designs that are accepted separately are accepted together. *)
From Verif Require Import Base BaseFacts Absl Part PartSpec Frame Frames Fasm FasmSpec
  DbText DbJson Database Packet Writer WriterFacts ConfigSpec ContainerSpec Reader Encode EncodeSpec EncodeFacts
  Assembler AsmSpec LookupFacts AsmLines AsmWhole DbSpec DbFacts JsonSpec JsonFacts LoadSpec LoadFacts AsmItems P_Fasm P_Database4 P_Main P_Main2 EndSpec AsmExample P_EndToEnd SameSpec SameFacts
  OrderFacts P_Repro P_Equiv P_Place P_Cut MapFacts EndFacts P_Local ResultSpec P_Result P_Input SpellSpec P_Spelling OpensSpec P_LoadLog GrowthSpec P_Growth ConflictSpec P_Conflict
  DisasmSpec P_Disasm MergeSpec.
From Coq Require Import Lia.
Local Notation implied := EndSpec.implied (only parsing).
Local Notation covered := EndSpec.covered (only parsing).
Local Notation bank_steps_down := EndSpec.bank_steps_down (only parsing).

Lemma parsed_whole sm t fs : text_features sm t fs -> whole_lines t.
Proof.
  intros (evss & F & _). destruct t as [|c t']; [now left|]. right.
  destruct (Ascii.ascii_dec (last (c :: t') "010"%char) "010"%char) as [E|NE].
  - exists (removelast (c :: t')). pose proof (app_removelast_last "010"%char (l := c :: t') ltac:(discriminate)) as X. rewrite E in X. exact X.
  - exfalso. set (t := c :: t') in *. assert (NW : ~ whole_lines t).
    { intros [W|(u & W)]; [discriminate W|]. apply NE. rewrite W. unfold FasmSpec.newline. now rewrite last_last. }
    destruct (getlines_broken t [] NW) as (ls & r & rest & G1 & _ & R & Nr). rewrite G1 in F.
    apply Forall2_app_inv_l in F as (e1 & e2 & _ & F & _). inversion F as [|? ev ? ? (x & P & L) _]; subst.
    rewrite (C35_no_final_newline_rejected sm _ true r R (last_no_newline r R Nr)) in P. injection P as _ <-. vm_compute in L. discriminate L.
Qed.
Lemma features_joined sm t1 t2 fs1 fs2 : text_features sm t1 fs1 -> text_features sm t2 fs2 -> text_features sm (t1 ++ t2) (fs1 ++ fs2).
Proof.
  intros T1 T2. pose proof (parsed_whole _ _ _ T1) as W. destruct T1 as (e1 & F1 & ->), T2 as (e2 & F2 & ->).
  exists (e1 ++ e2). rewrite (getlines_whole _ _ W). split; [now apply Forall2_app|]. now rewrite flat_map_app.
Qed.

Section Joined.
  Context (e : environment) (root : text) (g : tilegrid) (p : db_part) (pins : list package_pin) (pud fs1 fs2 : list fasm_feature).
  Local Notation d1 := (pud ++ fs1).
  Local Notation d2 := (pud ++ fs2).
  Local Notation d := (pud ++ fs1 ++ fs2).
  Lemma in_joined f : In f d <-> In f d1 \/ In f d2.
  Proof. rewrite !in_app_iff. tauto. Qed.
  Lemma steps_joined bank tag : bank_steps_down p pins d bank tag <-> bank_steps_down p pins d1 bank tag \/ bank_steps_down p pins d2 bank tag.
  Proof.
    split.
    - intros (f & tile & site & I & R). apply in_joined in I as [I|I]; [left|right]; exists f, tile, site; auto.
    - intros [(f & tile & site & I & R)|(f & tile & site & I & R)]; exists f, tile, site; (split; [apply in_joined; auto|exact R]).
  Qed.
  Lemma in_use_joined tile site : site_in_use d tile site <-> site_in_use d1 tile site \/ site_in_use d2 tile site.
  Proof.
    split.
    - intros (f & tag & I & U). apply in_joined in I as [I|I]; [left|right]; exists f, tag; auto.
    - intros [(f & tag & I & U)|(f & tag & I & U)]; exists f, tag; (split; [apply in_joined; auto|exact U]).
  Qed.
  Lemma implied_joined name : implied g p pins d name -> implied g p pins d1 name \/ implied g p pins d2 name.
  Proof.
    intros [bank tag tile t s fn label B IB C M Is La NU|bank tag tile B IB C]; apply steps_joined in B as [B|B]; [left|right|left|right].
    - eapply implied_site; eauto. intros U. apply NU, in_use_joined. auto.
    - eapply implied_site; eauto. intros U. apply NU, in_use_joined. auto.
    - eapply implied_clock; eauto.
    - eapply implied_clock; eauto.
  Qed.
  Lemma design_joined f : in_design g p pins d f -> in_design g p pins d1 f \/ in_design g p pins d2 f.
  Proof.
    intros [I|(name & IM & ->)].
    - apply in_joined in I as [I|I]; [left|right]; now left.
    - apply implied_joined in IM as [IM|IM]; [left|right]; right; exists name; auto.
  Qed.
  Lemma site_in_use_dec tile site (fs : list fasm_feature) : site_in_use fs tile site \/ ~ site_in_use fs tile site.
  Proof.
    induction fs as [|f fs [IH|IH]].
    - right. intros (f & tag & [] & _).
    - left. destruct IH as (f' & tag & I & U). exists f', tag. split; [now right|exact U].
    - destruct (N.eq_dec (ff_bits f) 0) as [Z|NZ].
      + right. intros (f' & tag & [<-|I] & U); [now destruct U|]. apply IH. exists f', tag. auto.
      + assert (NO : parts (ff_name f) <> Some (tile, site, match parts (ff_name f) with Some (_, _, c) => c | None => [] end) -> ~ site_in_use (f :: fs) tile site).
        { intros NP (f' & tag & [<-|I] & U); [|apply IH; exists f', tag; auto]. destruct U as [_ U]. apply parts_path3 in U. rewrite U in NP. now apply NP. }
        destruct (parts (ff_name f)) as [[[a b] c]|] eqn:SP; [|right; apply NO; discriminate].
        destruct (list_eq_dec Ascii.ascii_dec a tile) as [->|N1]; [|right; apply NO; congruence].
        destruct (list_eq_dec Ascii.ascii_dec b site) as [->|N2]; [|right; apply NO; congruence].
        left. exists f, c. split; [now left|]. split; [exact NZ|now apply parts_path3].
  Qed.
End Joined.

Section Bits.
  Context (e : environment) (root : text) (g : tilegrid) (p : db_part) (pins : list package_pin) (pud fs1 fs2 : list fasm_feature).
  (** What the first design sets is still set, or given up for the second one. *)
  Lemma kept a w i f : in_design g p pins (pud ++ fs1) f -> sets_bit e root g f a w i ->
    (exists f', in_design g p pins (pud ++ fs1 ++ fs2) f' /\ sets_bit e root g f' a w i) \/
    given_up e root g p pins (pud ++ fs1) (pud ++ fs2) a w i.
  Proof.
    intros [I|(name & IM & ->)] S.
    - left. exists f. split; [left; apply in_joined; auto|exact S].
    - destruct IM as [bank tag tile t s fn label B IB C M Is La NU|bank tag tile B IB C].
      + destruct (site_in_use_dec tile label (pud ++ fs2)) as [U|NU2].
        * right. exists bank, tag, tile, label. auto 10.
        * left. exists (plain_feature (dotted tile (dotted label tag))). split; [|exact S]. right. exists (dotted tile (dotted label tag)). split; [|reflexivity].
          eapply (implied_site g p pins _ bank tag tile t s fn label); [apply steps_joined; now left|exact IB|exact C|exact M|exact Is|exact La|]. intros U. apply in_use_joined in U as [U|U]; auto.
      + left. exists (plain_feature (dotted tile (tx "STEPDOWN"))). split; [|exact S]. right. exists (dotted tile (tx "STEPDOWN")). split; [|reflexivity].
        assert (B' : bank_steps_down p pins (pud ++ fs1 ++ fs2) bank tag) by (apply steps_joined; now left).
        eapply (implied_clock g p pins _ bank tag tile B' IB C).
  Qed.
  Lemma kept_out a w i : keeps_out p pins (pud ++ fs1) (pud ++ fs2) -> ~ given_up e root g p pins (pud ++ fs1) (pud ++ fs2) a w i.
  Proof. intros K (bank & tag & tile & site & B & IB & C & NU & U & _). exact (NU (K _ _ _ _ B IB C U)). Qed.
End Bits.
Lemma in_swapped (pud fs1 fs2 : list fasm_feature) f : In f (pud ++ fs2 ++ fs1) <-> In f (pud ++ fs1 ++ fs2).
Proof. rewrite !in_app_iff. tauto. Qed.
Lemma steps_swapped p pins (d d' : list fasm_feature) bank tag : (forall f, In f d <-> In f d') -> bank_steps_down p pins d bank tag -> bank_steps_down p pins d' bank tag.
Proof. intros S (f & tile & site & I & R). exists f, tile, site. split; [now apply S|exact R]. Qed.
Lemma design_swapped g p pins d d' f : (forall f, In f d <-> In f d') -> in_design g p pins d f -> in_design g p pins d' f.
Proof.
  intros S [I|(name & IM & ->)]; [left; now apply S|]. right. exists name. split; [|reflexivity].
  destruct IM as [bank tag tile t s fn label B IB C M Is La NU|bank tag tile B IB C].
  - eapply implied_site; eauto using steps_swapped. intros (f & tg & I & U). apply NU. exists f, tg. split; [now apply S|exact U].
  - eapply implied_clock; eauto using steps_swapped.
Qed.

(** The text of the one followed by the text of the other is accepted. *)
Lemma joined_succeeds :
  forall fuel1 fuel2 ord1 ord2 ord c1 c2 c root input1 input2 g p pins feats1 feats2 s1 s2,
  run_succeeds fuel1 ord1 c1 root input1 g p pins feats1 s1 -> run_succeeds fuel2 ord2 c2 root input2 g p pins feats2 s2 ->
  e_walk (c_env c1) root <> None -> inside_frames (c_env c1) root g -> good_orders ord ->
  same_but_input c1 c2 -> same_but_input c1 c -> input_text c = Some (input1 ++ input2) ->
  exists fuel0 s, (forall fuel, (fuel0 <= fuel)%nat -> main_program fuel Iso ord c = Ok (0, s)) /\
    run_succeeds fuel0 ord c root (input1 ++ input2) g p pins (feats1 ++ feats2) s.
Proof.
  intros fuel1 fuel2 ord1 ord2 ord c1 c2 c root input1 input2 g p pins feats1 feats2 s1 s2 R1 R2 WK IF G
    (Q1 & Q2 & Q3 & Q4 & Q5 & Q6 & Q7 & Q8) (S1 & S2 & S3 & S4 & S5 & S6 & S7 & S8) EI.
  destruct (run_covered _ _ _ _ _ _ _ _ _ _ R1 WK IF) as (pud & PD & _).
  pose proof (rs_pudcb _ _ _ _ _ _ _ _ _ _ R1) as OP.
  assert (X1 : package_covers g p pins (pud ++ feats1) /\ forall f, in_design g p pins (pud ++ feats1) f -> covered (c_env c1) root g f).
  { destruct (run_covered _ _ _ _ _ _ _ _ _ _ R1 WK IF) as (q & PQ & PK & CV). assert (E : q = pud) by (eapply pudcb_unique; eauto). rewrite E in *. auto. }
  assert (X2 : package_covers g p pins (pud ++ feats2) /\ forall f, in_design g p pins (pud ++ feats2) f -> covered (c_env c1) root g f).
  { rewrite <- Q4 in WK, IF |- *. destruct (run_covered _ _ _ _ _ _ _ _ _ _ R2 WK IF) as (q & PQ & PK & CV).
    assert (E : q = pud) by (eapply pudcb_unique; eauto). rewrite E in *. auto. }
  destruct X1 as [[P1 P1'] V1], X2 as [[P2 P2'] V2].
  pose proof (run_proper _ _ _ _ _ _ _ _ _ _ R1) as [LA PR PN PX PP PI PO PDt PT].
  pose proof (rs_features _ _ _ _ _ _ _ _ _ _ R1) as T1. pose proof (rs_features _ _ _ _ _ _ _ _ _ _ R2) as T2.
  pose proof (features_joined _ _ _ _ _ T1 T2) as T. pose proof (parsed_whole _ _ _ T1) as W.
  assert (SL : short_lines (input1 ++ input2)).
  { intros l I. rewrite (getlines_whole _ _ W) in I. apply in_app_iff in I as [I|I].
    - exact (rs_short _ _ _ _ _ _ _ _ _ _ R1 l I).
    - exact (rs_short _ _ _ _ _ _ _ _ _ _ R2 l I). }
  pose proof R1 as [G1 ES [HD LD] [HT LT] SF SW ER EI1 SL1 _ DS CD DB _ H1].
  assert (ER' : db_path c = Some root) by (unfold db_path in *; now rewrite S1, S2).
  destruct (C71_covered_designs_are_written_for_any_reading ord c root (input1 ++ input2) g p pins (feats1 ++ feats2) pud) as (fuel0 & s & H'); try assumption; rewrite ?S3, ?S4, ?S5, ?S6, ?S7; try assumption.
  - apply SW.
  - split.
    + intros f tile site tag I. apply in_joined in I as [I|I]; eauto.
    + intros bank tag tile B. apply steps_joined in B as [B|B]; eauto.
  - intros f I. apply design_joined in I as [I|I]; auto.
  - specialize (H' fuel0 (le_n _)) as H0.
    assert (R : run_succeeds fuel0 ord c root (input1 ++ input2) g p pins (feats1 ++ feats2) s).
    { constructor; rewrite ?S3, ?S4, ?S5, ?S6, ?S7; try assumption; split; assumption. }
    exists fuel0, s. split; [exact H'|exact R].
Qed.

(** Property C117.  Two designs are accepted separately.  The text of the one followed by the text of the other is accepted too.  Each bit of
    its file is a bit of one of the two files; each bit of the two files is in it, but for those of a STEPDOWN implied by the one for a site
    that the other uses. *)
Theorem C117_accepted_together :
  forall fuel1 fuel2 ord1 ord2 ord c1 c2 c root input1 input2 g p pins feats1 feats2 s1 s2 pud fs1 fs2,
  run_succeeds fuel1 ord1 c1 root input1 g p pins feats1 s1 -> run_succeeds fuel2 ord2 c2 root input2 g p pins feats2 s2 ->
  e_walk (c_env c1) root <> None -> inside_frames (c_env c1) root g -> good_orders ord ->
  same_but_input c1 c2 -> same_but_input c1 c -> input_text c = Some (input1 ++ input2) ->
  pudcb_default g pud -> decode p (st_bytes s1) = Ok (Some fs1) -> decode p (st_bytes s2) = Ok (Some fs2) ->
  exists fuel0 s fs, (forall fuel, (fuel0 <= fuel)%nat -> main_program fuel Iso ord c = Ok (0, s)) /\ decode p (st_bytes s) = Ok (Some fs) /\
    (forall a w i, frames_have fs a w i -> frames_have fs1 a w i \/ frames_have fs2 a w i) /\
    (forall a w i, frames_have fs1 a w i ->
       frames_have fs a w i \/ given_up (c_env c1) root g p pins (pud ++ feats1) (pud ++ feats2) a w i) /\
    (forall a w i, frames_have fs2 a w i ->
       frames_have fs a w i \/ given_up (c_env c1) root g p pins (pud ++ feats2) (pud ++ feats1) a w i).
Proof.
  intros fuel1 fuel2 ord1 ord2 ord c1 c2 c root input1 input2 g p pins feats1 feats2 s1 s2 pud fs1 fs2 R1 R2 WK IF G
    (Q1 & Q2 & Q3 & Q4 & Q5 & Q6 & Q7 & Q8) (S1 & S2 & S3 & S4 & S5 & S6 & S7 & S8) EI PD D1 D2.
  destruct (joined_succeeds fuel1 fuel2 ord1 ord2 ord c1 c2 c root input1 input2 g p pins feats1 feats2 s1 s2 R1 R2 WK IF G
    (conj Q1 (conj Q2 (conj Q3 (conj Q4 (conj Q5 (conj Q6 (conj Q7 Q8))))))) (conj S1 (conj S2 (conj S3 (conj S4 (conj S5 (conj S6 (conj S7 S8))))))) EI) as (fuel0 & s & H' & R).
  pose proof (rs_pudcb _ _ _ _ _ _ _ _ _ _ R1) as OP.
  destruct (run_decodes _ _ _ _ _ _ _ _ _ _ R1) as (fs1' & _ & _ & _ & B1 & _ & E1). assert (EF1 : fs1' = fs1) by congruence. rewrite EF1 in *. clear EF1 E1.
  destruct (run_decodes _ _ _ _ _ _ _ _ _ _ R2) as (fs2' & _ & _ & _ & B2 & _ & E2). assert (EF2 : fs2' = fs2) by congruence. rewrite EF2 in *. clear EF2 E2.
  rewrite Q4 in B2.
    destruct (run_decodes _ _ _ _ _ _ _ _ _ _ R) as (fs & _ & _ & _ & B & _ & E). rewrite S4 in B.
    exists fuel0, s, fs. split; [exact H'|]. split; [exact E|]. unfold frames_have.
    split; [|split]; intros a w i Sh.
    + apply B in Sh as (q & f & PQ & I & X). assert (Eq : q = pud) by (eapply pudcb_unique; eauto). rewrite Eq in I.
      apply design_joined in I as [I|I]; [left; apply B1|right; apply B2]; exists pud, f; auto.
    + apply B1 in Sh as (q & f & PQ & I & X). assert (Eq : q = pud) by (eapply pudcb_unique; eauto). rewrite Eq in I.
      destruct (kept (c_env c1) root g p pins pud feats1 feats2 a w i f I X) as [(f' & I' & X')|GU]; [left; apply B; exists pud, f'; auto|now right].
    + apply B2 in Sh as (q & f & PQ & I & X). assert (Eq : q = pud) by (eapply pudcb_unique; eauto). rewrite Eq in I.
      destruct (kept (c_env c1) root g p pins pud feats2 feats1 a w i f I X) as [(f' & I' & X')|GU]; [|now right].
      left. apply B. exists pud, f'. split; [exact PD|]. split; [|exact X']. eapply design_swapped; [|exact I']. apply in_swapped.
Qed.
Print Assumptions C117_accepted_together.

(** If, in the banks in which the one steps down, the other one uses no IO sites but those the one uses, and the other way round, the bits are
    exactly those of both. *)
Corollary C117_apart_the_bits_add_up :
  forall fuel1 fuel2 ord1 ord2 ord c1 c2 c root input1 input2 g p pins feats1 feats2 s1 s2 pud fs1 fs2,
  run_succeeds fuel1 ord1 c1 root input1 g p pins feats1 s1 -> run_succeeds fuel2 ord2 c2 root input2 g p pins feats2 s2 ->
  e_walk (c_env c1) root <> None -> inside_frames (c_env c1) root g -> good_orders ord ->
  same_but_input c1 c2 -> same_but_input c1 c -> input_text c = Some (input1 ++ input2) ->
  pudcb_default g pud -> decode p (st_bytes s1) = Ok (Some fs1) -> decode p (st_bytes s2) = Ok (Some fs2) ->
  keeps_out p pins (pud ++ feats1) (pud ++ feats2) -> keeps_out p pins (pud ++ feats2) (pud ++ feats1) ->
  exists fuel0 s fs, (forall fuel, (fuel0 <= fuel)%nat -> main_program fuel Iso ord c = Ok (0, s)) /\ decode p (st_bytes s) = Ok (Some fs) /\
    forall a w i, frames_have fs a w i <-> frames_have fs1 a w i \/ frames_have fs2 a w i.
Proof.
  intros fuel1 fuel2 ord1 ord2 ord c1 c2 c root input1 input2 g p pins feats1 feats2 s1 s2 pud fs1 fs2 R1 R2 WK IF G Q S EI PD D1 D2 K1 K2.
  destruct (C117_accepted_together fuel1 fuel2 ord1 ord2 ord c1 c2 c root input1 input2 g p pins feats1 feats2 s1 s2 pud fs1 fs2 R1 R2 WK IF G Q S EI PD D1 D2)
    as (fuel0 & s & fs & H & D & A & B1 & B2).
  exists fuel0, s, fs. split; [exact H|]. split; [exact D|]. intros a w i. split; [apply A|]. intros [X|X].
  - destruct (B1 _ _ _ X) as [Y|Y]; [exact Y|]. exfalso. exact (kept_out _ _ _ _ _ _ _ _ _ _ _ K1 Y).
  - destruct (B2 _ _ _ X) as [Y|Y]; [exact Y|]. exfalso. exact (kept_out _ _ _ _ _ _ _ _ _ _ _ K2 Y).
Qed.
Print Assumptions C117_apart_the_bits_add_up.

(** Both orders give the same file. *)
Corollary C117_in_either_order :
  forall fuel1 fuel2 ord1 ord2 ord ord' c1 c2 c c' root input1 input2 g p pins feats1 feats2 s1 s2,
  run_succeeds fuel1 ord1 c1 root input1 g p pins feats1 s1 -> run_succeeds fuel2 ord2 c2 root input2 g p pins feats2 s2 ->
  e_walk (c_env c1) root <> None -> inside_frames (c_env c1) root g -> good_orders ord -> good_orders ord' ->
  same_but_input c1 c2 -> same_but_input c1 c -> input_text c = Some (input1 ++ input2) ->
  same_but_input c1 c' -> input_text c' = Some (input2 ++ input1) ->
  exists fuel0 s s', (forall fuel, (fuel0 <= fuel)%nat -> main_program fuel Iso ord c = Ok (0, s) /\ main_program fuel Iso ord' c' = Ok (0, s')) /\
    st_bytes s = st_bytes s'.
Proof.
  intros fuel1 fuel2 ord1 ord2 ord ord' c1 c2 c c' root input1 input2 g p pins feats1 feats2 s1 s2 R1 R2 WK IF G G' Q S EI S' EI'.
  destruct (joined_succeeds fuel1 fuel2 ord1 ord2 ord c1 c2 c root input1 input2 g p pins feats1 feats2 s1 s2 R1 R2 WK IF G Q S EI) as (f1 & s & H & R).
  pose proof (parsed_whole _ _ _ (rs_features _ _ _ _ _ _ _ _ _ _ R1)) as W1. pose proof (parsed_whole _ _ _ (rs_features _ _ _ _ _ _ _ _ _ _ R2)) as W2.
  assert (E4 : c_env c = c_env c1) by apply S.
  destruct (C114_order_and_repetition_of_lines f1 ord ord' c c' root (input1 ++ input2) (input2 ++ input1) g p pins (feats1 ++ feats2) s R) as (f2 & s' & H2 & B); try assumption.
  - now rewrite E4.
  - now rewrite E4.
  - destruct S as (? & ? & ? & ? & ? & ? & ? & ?), S' as (? & ? & ? & ? & ? & ? & ? & ?). unfold same_but_input. intuition congruence.
  - intros l. rewrite !getlines_whole by assumption. rewrite !in_app_iff. tauto.
  - exists (Nat.max f1 f2), s, s'. split; [|now symmetry]. intros fuel L. split; [apply H|apply H2]; lia.
Qed.
Print Assumptions C117_in_either_order.

(** A design all bits of which the other one has adds nothing. *)
Corollary C117_contained_adds_nothing :
  forall fuel1 fuel2 ord1 ord2 ord c1 c2 c root input1 input2 g p pins feats1 feats2 s1 s2,
  run_succeeds fuel1 ord1 c1 root input1 g p pins feats1 s1 -> run_succeeds fuel2 ord2 c2 root input2 g p pins feats2 s2 ->
  e_walk (c_env c1) root <> None -> inside_frames (c_env c1) root g -> good_orders ord ->
  same_but_input c1 c2 -> same_but_input c1 c -> input_text c = Some (input1 ++ input2) ->
  (forall name k, switches feats2 name k -> switches feats1 name k) ->
  exists fuel0 s, (forall fuel, (fuel0 <= fuel)%nat -> main_program fuel Iso ord c = Ok (0, s)) /\ st_bytes s = st_bytes s1.
Proof.
  intros fuel1 fuel2 ord1 ord2 ord c1 c2 c root input1 input2 g p pins feats1 feats2 s1 s2 R1 R2 WK IF G Q S EI SS.
  destruct (joined_succeeds fuel1 fuel2 ord1 ord2 ord c1 c2 c root input1 input2 g p pins feats1 feats2 s1 s2 R1 R2 WK IF G Q S EI) as (f1 & s & H & R).
  eapply (C114_only_the_bits_matter fuel1 ord1 ord c1 c root input1 (input1 ++ input2) g p pins feats1 (feats1 ++ feats2) s1 R1 WK IF G S EI).
  - exact (rs_short _ _ _ _ _ _ _ _ _ _ R).
  - exact (rs_features _ _ _ _ _ _ _ _ _ _ R).
  - intros n k. split.
    + intros (f & I & X). exists f. split; [apply in_or_app; now left|exact X].
    + intros (f & I & X). apply in_app_or in I as [I|I]; [|apply SS]; exists f; auto.
  - intros f I. assert (E4 : c_env c = c_env c1) by apply S.
    destruct (run_covered _ _ _ _ _ _ _ _ _ _ R) as (pud & _ & _ & CV); [now rewrite E4|now rewrite E4|].
    destruct (CV f) as [(tile & rest & F & _) _]; [left; apply in_app_iff; auto|]. exists tile, rest. exact F.
Qed.
Print Assumptions C117_contained_adds_nothing.

(** ** The demonstration design, and a second one for the same database *)
Definition down_input : text := unlines [tx "LIOB33_X0Y1.IOB_Y0.PULLTYPE.PULLDOWN"].
Definition clb_input : text := unlines [tx "CLBLL_L_X2Y1.SLICEL_X0.ALUT.INIT[0]"].
Definition clb_feats : list fasm_feature := [bit_feature (dotted clb (tx "SLICEL_X0.ALUT.INIT")) 0].
Lemma down_says : text_features Iso down_input [down].
Proof.
  pose proof (features_compute down_input ltac:(vm_compute; reflexivity)) as H.
  assert (E : flat_map line_features (map line_calls (getlines down_input)) = [down]) by (vm_compute; reflexivity). now rewrite E in H.
Qed.
Lemma clb_says : text_features Iso clb_input clb_feats.
Proof.
  pose proof (features_compute clb_input ltac:(vm_compute; reflexivity)) as H.
  assert (E : flat_map line_features (map line_calls (getlines clb_input)) = clb_feats) by (vm_compute; reflexivity). now rewrite E in H.
Qed.
Lemma down_run : exists s, pull_succeeds down_input [down] s.
Proof. apply (pull_run _ _ down_says); vm_compute; reflexivity. Qed.
Lemma clb_run : exists s, pull_succeeds clb_input clb_feats s.
Proof. apply (pull_run _ _ clb_says); vm_compute; reflexivity. Qed.
Lemma pull_same_input i1 i2 : same_but_input (with_env pull_env (demo_command i1)) (with_env pull_env (demo_command i2)).
Proof. unfold same_but_input. cbn [c_db_flag c_db_env c_part c_env c_date c_time c_stdout c_args with_env demo_command List.length]. repeat split; lia. Qed.

(** The bits need not add up: the demonstration design has the STEPDOWN of the IO site that it does not use, and loses it when the other
    design uses that site. *)
Lemma y0_wants : wants pull_env (tx "db") (tl_grid demo_db) y0 true 129 5 4.
Proof.
  rewrite <- (proj1 pull_same).
  apply (wants_check_ok pull_env (tx "db") (tx "xc7a35t") document_order pull_db iob (tx "IOB_Y0.STEPDOWN") (match hm_find text_eqb iob (tl_grid pull_db) with Some x => t_type x | None => [] end) 0 BusCLBIOCLK true 129 5 4 y0);
    [exact pull_sound|exact (demo_sound_walk _)|exact pull_parsed|vm_compute; reflexivity| |now apply plain_enables].
  split; [reflexivity|cbn; intuition discriminate].
Qed.
Theorem C117_bits_add_up_refuted : exists s1 s2 s fs1 fs2 fs,
  pull_succeeds demo_input demo_feats1 s1 /\ pull_succeeds down_input [down] s2 /\ pull_succeeds (demo_input ++ down_input) (demo_feats1 ++ [down]) s /\
  decode (tl_part demo_db) (st_bytes s1) = Ok (Some fs1) /\ decode (tl_part demo_db) (st_bytes s2) = Ok (Some fs2) /\ decode (tl_part demo_db) (st_bytes s) = Ok (Some fs) /\
  frames_have fs1 129 5 4 /\ ~ frames_have fs 129 5 4.
Proof.
  destruct demo_pull_run as (s1 & R1), down_run as (s2 & R2), pull_pull_run as (s & R).
  destruct (pull_decodes _ _ _ R1) as (fs1 & D1), (pull_decodes _ _ _ R2) as (fs2 & D2), (pull_decodes _ _ _ R) as (fs & D).
  exists s1, s2, s, fs1, fs2, fs. split; [exact R1|]. split; [exact R2|]. split; [exact R|]. split; [exact D1|]. split; [exact D2|]. split; [exact D|].
  destruct feats1_members as [_ I1]. split.
  - assert (U : used_check (the_pud ++ demo_feats1) iob (tx "IOB_Y0") = false) by (vm_compute; reflexivity).
    assert (I : in_design (tl_grid demo_db) (tl_part demo_db) [demo_pin] (the_pud ++ demo_feats1) y0).
    { right. exists (dotted iob (dotted (tx "IOB_Y0") (tx "STEPDOWN"))). split; [|reflexivity]. apply y0_implied; [apply in_or_app; now right|exact U]. }
    apply (pull_satisfied _ _ _ _ R1 D1 y0 I true 129 5 4 y0_wants). reflexivity.
  - intros H. destruct (pull_frames _ _ _ _ R D 129 5 4 H) as (f & I & W). apply pull_wants in W as (t & r & k & pos & IE & [FD _] & En & P & _).
    assert (X : (t, r, k) = (iob, tx "IOB_Y0.STEPDOWN", 0)).
    { clear - IE P. change (Z.of_N (32 * 5 + 4)) with 164%Z in P. unfold entries in IE. cbn [In] in IE.
      repeat (destruct IE as [IE|IE]; [injection IE as <- <- <- <-; cbn [In] in P; first [reflexivity|exfalso; repeat (destruct P as [P|P]; [discriminate P|]); exact P]|]). destruct IE. }
    injection X as -> -> ->.
    assert (U : used_check (the_pud ++ pull_feats) iob (tx "IOB_Y0") = true) by (vm_compute; reflexivity).
    assert (N0 : existsb (named (dotted iob (tx "IOB_Y0.STEPDOWN")) 0) (the_pud ++ pull_feats) = false) by (vm_compute; reflexivity).
    exact (no_y0 _ _ N0 U I FD En).
Qed.
Print Assumptions C117_bits_add_up_refuted.

(** Apart: the second design uses a slice only. *)
Lemma clb_keeps_out : keeps_out (tl_part demo_db) [demo_pin] (the_pud ++ demo_feats1) (the_pud ++ clb_feats) /\
  keeps_out (tl_part demo_db) [demo_pin] (the_pud ++ clb_feats) (the_pud ++ demo_feats1).
Proof.
  split.
  - intros bank tag tile site _ _ C U. apply (used_names _ _ _ C) in U as [-> ->]; [|vm_compute; reflexivity]. apply used_check_ok. vm_compute. reflexivity.
  - intros bank tag tile site (f & t & s & If & [_ P] & C & _) _ _ _. exfalso. apply parts_path3 in P. apply str_contains_spec in C.
    assert (X : forallb (fun f => match parts (ff_name f) with Some (_, _, tag) => negb (str_contains (tx "STEPDOWN") tag) | None => true end) (the_pud ++ clb_feats) = true)
      by (vm_compute; reflexivity).
    rewrite forallb_forall in X. specialize (X _ If). rewrite P, C in X. discriminate X.
Qed.
Example C117_case : exists s1 s2 s fs1 fs2 fs fuel,
  pull_succeeds demo_input demo_feats1 s1 /\ pull_succeeds clb_input clb_feats s2 /\
  decode (tl_part demo_db) (st_bytes s1) = Ok (Some fs1) /\ decode (tl_part demo_db) (st_bytes s2) = Ok (Some fs2) /\
  main_program fuel Iso ex_orders (with_env pull_env (demo_command (demo_input ++ clb_input))) = Ok (0, s) /\
  decode (tl_part demo_db) (st_bytes s) = Ok (Some fs) /\ forall a w i, frames_have fs a w i <-> frames_have fs1 a w i \/ frames_have fs2 a w i.
Proof.
  destruct demo_pull_run as (s1 & R1), clb_run as (s2 & R2). destruct (pull_decodes _ _ _ R1) as (fs1 & D1), (pull_decodes _ _ _ R2) as (fs2 & D2).
  destruct clb_keeps_out as [K1 K2].
  destruct (C117_apart_the_bits_add_up _ _ _ _ ex_orders _ _ (with_env pull_env (demo_command (demo_input ++ clb_input))) _ _ _ _ _ _ _ _ _ _ the_pud fs1 fs2 R1 R2)
    as (fuel0 & s & fs & H & D & B).
  - vm_compute. discriminate.
  - exact pull_inside.
  - exact ex_orders_good.
  - apply pull_same_input.
  - apply pull_same_input.
  - reflexivity.
  - exact the_pud_default.
  - exact D1.
  - exact D2.
  - exact K1.
  - exact K2.
  - exists s1, s2, s, fs1, fs2, fs, fuel0. split; [exact R1|]. split; [exact R2|]. split; [exact D1|]. split; [exact D2|]. split; [apply H; lia|]. split; [exact D|exact B].
Qed.
Print Assumptions C117_case.

(** Both orders, and a second design that is a bit of the first one. *)
Definition one_input : text := unlines [tx "CLBLL_L_X2Y1.SLICEL_X0.ALUT.INIT[1]"].
Definition one_feats : list fasm_feature := [bit_feature (dotted clb (tx "SLICEL_X0.ALUT.INIT")) 1].
Lemma one_says : text_features Iso one_input one_feats.
Proof.
  pose proof (features_compute one_input ltac:(vm_compute; reflexivity)) as H.
  assert (E : flat_map line_features (map line_calls (getlines one_input)) = one_feats) by (vm_compute; reflexivity). now rewrite E in H.
Qed.
Lemma one_run : exists s, pull_succeeds one_input one_feats s.
Proof. apply (pull_run _ _ one_says); vm_compute; reflexivity. Qed.
Example C117_case_contained : exists s1 s2 s fuel,
  pull_succeeds demo_input demo_feats1 s1 /\ pull_succeeds one_input one_feats s2 /\
  main_program fuel Iso ex_orders (with_env pull_env (demo_command (demo_input ++ one_input))) = Ok (0, s) /\ st_bytes s = st_bytes s1.
Proof.
  destruct demo_pull_run as (s1 & R1), one_run as (s2 & R2).
  destruct (C117_contained_adds_nothing _ _ _ _ ex_orders _ _ (with_env pull_env (demo_command (demo_input ++ one_input))) _ _ _ _ _ _ _ _ _ _ R1 R2)
    as (fuel0 & s & H & B).
  - vm_compute. discriminate.
  - exact pull_inside.
  - exact ex_orders_good.
  - apply pull_same_input.
  - apply pull_same_input.
  - reflexivity.
  - intros name k (f & [<-|[]] & En & K). apply enables_bit in K; [|reflexivity]. subst k. exists (lut 2). split; [apply feats1_members|].
    split; [exact En|]. now apply lut_enables.
  - exists s1, s2, s, fuel0. split; [exact R1|]. split; [exact R2|]. split; [apply H; lia|exact B].
Qed.
Print Assumptions C117_case_contained.
Example C117_case_orders : exists s s' fuel,
  main_program fuel Iso ex_orders (with_env pull_env (demo_command (demo_input ++ down_input))) = Ok (0, s) /\
  main_program fuel Iso ex_orders (with_env pull_env (demo_command (down_input ++ demo_input))) = Ok (0, s') /\ st_bytes s = st_bytes s'.
Proof.
  destruct demo_pull_run as (s1 & R1), down_run as (s2 & R2).
  destruct (C117_in_either_order _ _ _ _ ex_orders ex_orders _ _ (with_env pull_env (demo_command (demo_input ++ down_input)))
    (with_env pull_env (demo_command (down_input ++ demo_input))) _ _ _ _ _ _ _ _ _ _ R1 R2) as (fuel0 & s & s' & H & B).
  - vm_compute. discriminate.
  - exact pull_inside.
  - exact ex_orders_good.
  - exact ex_orders_good.
  - apply pull_same_input.
  - apply pull_same_input.
  - reflexivity.
  - apply pull_same_input.
  - reflexivity.
  - exists s, s', fuel0. destruct (H fuel0 (le_n _)) as [H1 H2]. split; [exact H1|]. split; [exact H2|exact B].
Qed.
Print Assumptions C117_case_orders.
