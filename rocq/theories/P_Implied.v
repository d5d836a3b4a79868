(** Properties C50, C51, C64, C66: implied features and aliased names. *)
From Verif Require Import Base BaseFacts Absl Part Frame Fasm FasmSpec FasmLines DbText DbJson Database
  Assembler EncodeSpec AsmSpec MapFacts AsmFacts LookupFacts ProcessFacts RegistryFacts StepdownFacts
  AsmLines AsmWhole AsmExample P_Assembler P_Lookup.
From Coq Require Import ZifyBool ZifyN ZifyNat.

(** ** C50 *)

(** The bank of a tile: that of the first entry of the package about it (clock tiles first, then the
    pins, in their order). *)
Definition tile_bank (iobanks : list (N * text)) (pins : list package_pin) (bank : N) (tile : text) : Prop :=
  exists l1 l2, bank_pairs iobanks pins = l1 ++ (bank, tile) :: l2 /\ forall b, ~ In (b, tile) l1.

(** Some feature of a tile of this bank asks for STEPDOWN under this tag. *)
Definition bank_steps_down (iobanks : list (N * text)) (pins : list package_pin) (fs : list fasm_feature)
    (bank : N) (tag : text) : Prop :=
  exists f tile site, In f fs /\ uses f tile site tag /\ contains (tx "STEPDOWN") tag /\
    tile_bank iobanks pins bank tile.

(** What such a bank gets: every IOB33 site of the bank that the design does not use, under the
    same tag, and the clock tile of the bank. *)
Inductive stepped_down (iobanks : list (N * text)) (pins : list package_pin) (grid : tilegrid)
    (fs : list fasm_feature) (bank : N) (tag : text) : text -> Prop :=
| down_site : forall tile t s fn label,
    in_bank iobanks pins bank tile -> contains (tx "IOB33") tile ->
    maps_to grid tile t -> In (s, fn) (t_sites t) -> site_label s label ->
    ~ site_in_use fs tile label ->
    stepped_down iobanks pins grid fs bank tag (dotted tile (dotted label tag))
| down_clock : forall tile,
    in_bank iobanks pins bank tile -> contains (tx "HCLK_IOI3") tile ->
    stepped_down iobanks pins grid fs bank tag (dotted tile (tx "STEPDOWN")).

(** No tile is in two banks: then every entry of the package about a tile gives its bank
    ([C50_one_bank_each]). *)
Definition one_bank_each (iobanks : list (N * text)) (pins : list package_pin) : Prop :=
  forall b b' tile, in_bank iobanks pins b tile -> in_bank iobanks pins b' tile -> b = b'.

(** The description covers what the design asks for: STEPDOWN is asked for tiles in a bank,
    the IOB33 tiles of such banks are in the grid, their sites are numbered. *)
Definition covered (iobanks : list (N * text)) (pins : list package_pin) (grid : tilegrid)
    (fs : list fasm_feature) : Prop :=
  (forall f tile site tag, In f fs -> uses f tile site tag -> contains (tx "STEPDOWN") tag ->
     exists bank, tile_bank iobanks pins bank tile) /\
  (forall bank tag tile, bank_steps_down iobanks pins fs bank tag -> in_bank iobanks pins bank tile ->
     contains (tx "IOB33") tile ->
     exists t, maps_to grid tile t /\ forall s fn, In (s, fn) (t_sites t) -> site_name_ok s).

Lemma first_bank tile bank : forall l : list (N * text),
  (exists l1 l2, l = l1 ++ (bank, tile) :: l2 /\ forall b, ~ In (b, tile) l1) <->
  exists bs, map fst (filter (fun kv : N * text => text_eqb tile (snd kv)) l) = bank :: bs.
Proof.
  induction l as [|[b t] l IH].
  - split; [intros (l1 & l2 & E & _); destruct l1; discriminate E|intros (bs & E); discriminate E].
  - cbn [filter snd]. destruct (text_eqb tile t) eqn:Et.
    + apply text_eqb_eq in Et. subst t. cbn [map fst]. split.
      * intros (l1 & l2 & E & N). destruct l1 as [|x l1]; cbn [app] in E; injection E as E1 E2; [inversion E1; eauto|].
        exfalso. apply (N b). left. now rewrite <- E1.
      * intros (bs & E). injection E as -> _. exists [], l. split; [reflexivity|intros b' []].
    + rewrite <- IH. split.
      * intros (l1 & l2 & E & N). destruct l1 as [|x l1]; cbn [app] in E; injection E as E1 E2.
        -- exfalso. inversion E1; subst. rewrite (proj2 (text_eqb_eq _ _) eq_refl) in Et. discriminate Et.
        -- exists l1, l2. split; [exact E2|]. intros b' I. apply (N b'). now right.
      * intros (l1 & l2 & -> & N). exists ((b, t) :: l1), l2. split; [reflexivity|]. intros b' [I|I]; [|now apply (N b')].
        inversion I; subst. rewrite (proj2 (text_eqb_eq _ _) eq_refl) in Et. discriminate Et.
Qed.

Lemma bank_of ord iobanks pins tile :
  forall bank, tile_bank iobanks pins bank tile <->
    exists bs, reg_tile_banks (reg_create ord iobanks pins) tile = bank :: bs.
Proof. intros bank. rewrite reg_tile_banks_spec. apply first_bank. Qed.

Lemma tile_bank_in iobanks pins bank tile : tile_bank iobanks pins bank tile -> in_bank iobanks pins bank tile.
Proof. intros (l1 & l2 & E & _). apply bank_pairs_In. rewrite E. apply in_or_app. right. now left. Qed.

(** With no tile in two banks, any entry of the package about the tile gives its bank. *)
Theorem C50_one_bank_each :
  forall iobanks pins, one_bank_each iobanks pins ->
  forall bank tile, tile_bank iobanks pins bank tile <-> in_bank iobanks pins bank tile.
Proof.
  intros iobanks pins OB bank tile. split; [apply tile_bank_in|]. intros I.
  pose proof (proj2 (proj1 (C49_registry_is_the_package (fun _ l => l) iobanks pins bank tile
      (fun _ _ => Permutation_refl _))) I) as J.
  destruct (reg_tile_banks (reg_create (fun _ l => l) iobanks pins) tile) as [|b bs] eqn:E; [destruct J|].
  assert (T : tile_bank iobanks pins b tile) by (apply (bank_of (fun _ l => l)); eauto).
  now rewrite (OB bank b tile I (tile_bank_in _ _ _ _ T)).
Qed.
Print Assumptions C50_one_bank_each.

Lemma wants_bank ord iobanks pins fs bank tag : (forall b l, Permutation (ord b l) l) ->
  wants_stepdown (reg_create ord iobanks pins) fs bank tag <-> bank_steps_down iobanks pins fs bank tag.
Proof.
  intros P. unfold wants_stepdown, bank_steps_down. split.
  - intros (f & t & s & bs & I & U & C & E). exists f, t, s. repeat (split; [assumption|]).
    apply (bank_of ord iobanks pins t). eauto.
  - intros (f & t & s & I & U & C & B). apply (bank_of ord iobanks pins t) in B as (bs & E).
    exists f, t, s, bs. auto.
Qed.

Lemma tiles_of_bank ord iobanks pins bank tile : (forall b l, Permutation (ord b l) l) ->
  in_bank iobanks pins bank tile <->
  exists ts, reg_tiles (reg_create ord iobanks pins) bank = Some ts /\ In tile ts.
Proof.
  intros P. destruct (C49_registry_is_the_package ord iobanks pins bank tile P) as [_ B]. now rewrite B.
Qed.

Lemma stepdown_package ord iobanks pins grid fs name : (forall b l, Permutation (ord b l) l) ->
  stepdown_name (reg_create ord iobanks pins) grid fs name <->
  exists bank tag, bank_steps_down iobanks pins fs bank tag /\ stepped_down iobanks pins grid fs bank tag name.
Proof.
  intros P. split.
  - intros H. destruct H as [bank tag ts tile t s fn label W R I C M Is L NU|bank tag ts tile W R I C];
      exists bank, tag; (split; [now apply (wants_bank ord)|]).
    + econstructor; eauto. apply (tiles_of_bank ord _ _ _ _ P). eauto.
    + constructor; auto. apply (tiles_of_bank ord _ _ _ _ P). eauto.
  - intros (bank & tag & W & H). apply (wants_bank ord) in W; auto.
    destruct H as [tile t s fn label B C M Is L NU|tile B C];
      apply (tiles_of_bank ord _ _ _ _ P) in B as (ts & R & I).
    + eapply sd_site; eauto.
    + eapply sd_clock; eauto.
Qed.

Lemma covered_ready ord iobanks pins grid fs : (forall b l, Permutation (ord b l) l) ->
  covered iobanks pins grid fs <-> stepdown_ready (reg_create ord iobanks pins) grid fs.
Proof.
  intros P. split; intros [A B]; split.
  - intros f tile site tag I U C E. destruct (A f tile site tag I U C) as (bank & H).
    apply (bank_of ord iobanks pins tile) in H as (bs & H). rewrite E in H. discriminate H.
  - intros bank tag W. apply (wants_bank ord) in W; auto. pose proof W as (f & tile & site & I & U & C & Hb).
    apply tile_bank_in in Hb.
    apply (tiles_of_bank ord _ _ _ _ P) in Hb as (ts & R & It). exists ts. split; [exact R|].
    intros tile' It' C'. apply (B bank tag tile' W); auto. apply (tiles_of_bank ord _ _ _ _ P). eauto.
  - intros f tile site tag I U C. pose proof (A f tile site tag I U C) as H.
    destruct (reg_tile_banks (reg_create ord iobanks pins) tile) as [|b bs] eqn:E; [contradiction|].
    exists b. apply (bank_of ord iobanks pins tile). eauto.
  - intros bank tag tile W Hb C. apply (wants_bank ord) in W; auto. destruct (B bank tag W) as (ts & R & H).
    apply H; auto. apply (tiles_of_bank ord _ _ _ _ P) in Hb as (ts' & R' & I). rewrite R in R'. now inversion R'.
Qed.

(** The features the pass adds, exactly. *)
Theorem C50_stepdown_exactly_where_needed :
  forall ord ordb ordt iobanks pins grid fs,
  (forall b l, Permutation (ord b l) l) -> (forall l, Permutation (ordb l) l) ->
  (forall b l, Permutation (ordt b l) l) ->
  covered iobanks pins grid fs ->
  exists extra, add_stepdown ordb ordt (reg_create ord iobanks pins) grid fs = Ok (fs ++ extra) /\
    forall f, In f extra <->
      exists bank tag name, bank_steps_down iobanks pins fs bank tag /\
        stepped_down iobanks pins grid fs bank tag name /\ f = plain_feature name.
Proof.
  intros ord ordb ordt iobanks pins grid fs P PB PT CV.
  apply (covered_ready ord) in CV; auto.
  destruct (add_stepdown_ok ordb ordt _ _ _ PB PT CV) as (extra & E & H). exists extra. split; [exact E|].
  intros f. rewrite H. split.
  - intros (name & S & ->). apply stepdown_package in S as (bank & tag & W & D); auto. exists bank, tag, name. auto.
  - intros (bank & tag & name & W & D & ->). exists name. split; [|reflexivity]. apply stepdown_package; eauto.
Qed.
Print Assumptions C50_stepdown_exactly_where_needed.

(** A fold whose steps can only succeed or crash. *)
Lemma ofold_ok_crash {A S} (f : S -> A -> outcome S) l : forall s,
  (forall s x, In x l -> (exists s', f s x = Ok s') \/ f s x = Crash) ->
  (exists s', ofold f l s = Ok s') \/ ofold f l s = Crash.
Proof.
  induction l as [|x l IH]; intros s H; cbn [ofold]; [eauto|].
  destruct (H s x (or_introl eq_refl)) as [(s' & E)|E]; rewrite E; cbn [obind]; [|auto].
  apply IH. intros s0 y I. apply H. now right.
Qed.

Lemma add_stepdown_ok_crash ordb ordt banks grid fs :
  (forall l, Permutation (ordb l) l) -> (forall b l, Permutation (ordt b l) l) -> numbered_grid grid ->
  (exists fs', add_stepdown ordb ordt banks grid fs = Ok fs') \/ add_stepdown ordb ordt banks grid fs = Crash.
Proof.
  intros PB PT [NG _]. unfold add_stepdown.
  destruct (scan_ok banks fs [] [] [] (scan_inv_nil banks)) as [S C].
  destruct (Forall_dec_prop banks fs) as [F|F].
  2:{ right. now rewrite (C F). }
  destruct (S F) as (used & bt & E & _). rewrite E. cbn [obind].
  apply ofold_ok_crash. intros out [bank tags] _. unfold stepdown_bank. cbn [fst snd].
  destruct (reg_tiles banks bank) as [ts|]; [|auto].
  apply ofold_ok_crash. intros out' tile _. unfold stepdown_tile.
  destruct (str_contains (tx "IOB33") tile) eqn:Ct; [|cbn [obind]; eauto].
  apply str_contains_spec in Ct.
  destruct (hm_find text_eqb tile grid) as [t|] eqn:Ft.
  - pose proof Ft as M. apply (hm_find_maps _ text_eqb_eq) in M.
    destruct (iob_sites_ok grid tile t M) as (sites & Es & _).
    { intros s fn Is. eapply NG; eauto. }
    rewrite Es. cbn [obind]. eauto.
  - right. unfold iob_sites. rewrite Ft. reflexivity.
Qed.

(** If the description does not cover the design, the process aborts. *)
Theorem C50_uncovered_aborts :
  forall ord ordb ordt iobanks pins grid fs,
  (forall b l, Permutation (ord b l) l) -> (forall l, Permutation (ordb l) l) ->
  (forall b l, Permutation (ordt b l) l) -> numbered_grid grid ->
  ~ covered iobanks pins grid fs ->
  add_stepdown ordb ordt (reg_create ord iobanks pins) grid fs = Crash.
Proof.
  intros ord ordb ordt iobanks pins grid fs P PB PT NG NC.
  destruct (add_stepdown_ok_crash ordb ordt (reg_create ord iobanks pins) grid fs PB PT NG) as [(fs' & E)|E];
    [|exact E].
  exfalso. apply NC. apply (covered_ready ord); auto. eapply add_stepdown_inv; eauto.
Qed.
Print Assumptions C50_uncovered_aborts.

(** Sites the design uses, and banks that nobody asks to step down, are left alone. *)
Theorem C50_used_sites_and_other_banks_untouched :
  forall ord ordb ordt iobanks pins grid fs extra,
  (forall b l, Permutation (ord b l) l) -> (forall l, Permutation (ordb l) l) ->
  (forall b l, Permutation (ordt b l) l) ->
  covered iobanks pins grid fs ->
  (forall b t, in_bank iobanks pins b t -> ~ In dot t) ->
  add_stepdown ordb ordt (reg_create ord iobanks pins) grid fs = Ok (fs ++ extra) ->
  (forall tile site x f, site_in_use fs tile site -> In f extra -> ff_name f <> dotted tile (dotted site x)) /\
  (forall tile x f, In f extra -> ff_name f = dotted tile x -> ~ In dot tile ->
     exists bank tag, in_bank iobanks pins bank tile /\ bank_steps_down iobanks pins fs bank tag).
Proof.
  intros ord ordb ordt iobanks pins grid fs extra P PB PT CV ND E.
  destruct (C50_stepdown_exactly_where_needed ord ordb ordt iobanks pins grid fs P PB PT CV) as (ex & E' & H).
  rewrite E in E'. inversion E' as [E2]. apply app_inv_head in E2. subst ex. clear E'. split.
  - intros tile site x f U I N. apply H in I as (bank & tag & name & W & D & ->). cbn [plain_feature ff_name] in N.
    destruct U as (f0 & tg & I0 & U0). pose proof U0 as [_ (Nt & Ns & _)].
    destruct D as [tile' t s fn label B C M Is L NU|tile' B C].
    + pose proof (ND _ _ B) as Nt'. unfold dotted in N.
      apply cut_unique in N as [-> N]; auto. pose proof (site_label_nodot _ _ L) as Nl.
      apply cut_unique in N as [-> N]; auto. apply NU. exists f0, tg. auto.
    + pose proof (ND _ _ B) as Nt'. unfold dotted in N. apply cut_unique in N as [-> N]; auto.
      assert (X : In dot (tx "STEPDOWN")) by (rewrite N; apply in_or_app; right; now left).
      vm_compute in X. intuition discriminate.
  - intros tile x f I N Nt. apply H in I as (bank & tag & name & W & D & ->). cbn [plain_feature ff_name] in N.
    exists bank, tag. split; [|exact W].
    destruct D as [tile' t s fn label B C M Is L NU|tile' B C]; pose proof (ND _ _ B) as Nt';
      unfold dotted in N; apply cut_unique in N as [<- _]; auto.
Qed.
Print Assumptions C50_used_sites_and_other_banks_untouched.

(** In the frames of a successful run: every bit of a stepped down site is there. *)
Theorem C50_stepdown_bits_are_set :
  forall g bits iobanks pins p ord input fs fr bank tag name a w i,
  usable_grid g -> numbered_grid g -> good_orders ord -> short_lines input ->
  assemble_frames Iso ord (with_banks g bits iobanks pins p ord) input = Ok fr ->
  pudcb_features g = Ok [] -> text_features Iso input fs ->
  bank_steps_down iobanks pins fs bank tag -> stepped_down iobanks pins g fs bank tag name ->
  requested (with_banks g bits iobanks pins p ord) (plain_feature name) a w i ->
  bit_at fr a w i = true.
Proof.
  intros g bits iobanks pins p ord input fs fr bank tag name a w i U NG G SL H EP T W D R.
  destruct (run_result Iso ord (with_banks g bits iobanks pins p ord) input [] fr U NG G
              (fun fs => text_reported input fs SL) EP H) as (fs' & T' & _ & _ & _ & _ & B).
  rewrite (text_features_fun _ _ _ _ T' T) in *. apply B. exists (plain_feature name). split; [|exact R].
  right. exists name. split; [|reflexivity]. cbn [app tl_banks tl_grid with_banks].
  apply stepdown_package; [apply G|eauto].
Qed.
Print Assumptions C50_stepdown_bits_are_set.

Example C50_case_banks : one_bank_each ex_iobanks ex_pins.
Proof.
  intros b b' t H K. apply bank_pairs_In in H, K. vm_compute in H, K.
  repeat (destruct H as [H|H]; [inversion H; subst; clear H;
    repeat (destruct K as [K|K]; [first [discriminate K|inversion K; reflexivity]|]); destruct K|]).
  destruct H.
Qed.
Example C50_case : covered ex_iobanks ex_pins ex_grid [plain_feature (tx "LIOB33_X0Y1.IOB_Y0.STEPDOWN")]
  /\ bank_steps_down ex_iobanks ex_pins [plain_feature (tx "LIOB33_X0Y1.IOB_Y0.STEPDOWN")] 14 (tx "STEPDOWN").
Proof.
  assert (UP : path3 (tx "LIOB33_X0Y1.IOB_Y0.STEPDOWN") (tx "LIOB33_X0Y1") (tx "IOB_Y0") (tx "STEPDOWN")).
  { split; [vm_compute; intuition discriminate|]. split; [vm_compute; intuition discriminate|].
    split; [vm_compute; intuition discriminate|]. left. reflexivity. }
  assert (B14 : in_bank ex_iobanks ex_pins 14 (tx "LIOB33_X0Y1")).
  { right. eexists. split; [now left|]. split; reflexivity. }
  assert (T14 : tile_bank ex_iobanks ex_pins 14 (tx "LIOB33_X0Y1")) by (apply (C50_one_bank_each _ _ C50_case_banks); exact B14).
  split; [split|].
  - intros f tile site tag [<-|[]] [_ U] _. destruct (path3_fun _ _ _ _ _ _ _ UP U) as (<- & _). eauto.
  - intros bank tag tile _ B C.
    apply bank_pairs_In in B. unfold bank_pairs, ex_iobanks, ex_pins in B. cbn [map app fst snd In] in B.
    assert (X : forall t, In (tile, t) ex_grid ->
              NoDup (map fst ex_grid) -> maps_to ex_grid tile t).
    { intros t I ND. apply In_maps_to; assumption. }
    assert (ND : NoDup (map fst ex_grid)).
    { unfold ex_grid. cbn [map fst].
      repeat (apply NoDup_cons; [vm_compute; intuition discriminate|]). apply NoDup_nil. }
    destruct ex_numbered as [NG _].
    assert (Y : In tile (map fst ex_grid)).
    { repeat (destruct B as [B|B]; [inversion B; subst; clear B|]); try destruct B;
      try (vm_compute; tauto).
      exfalso. apply str_contains_spec in C. vm_compute in C. discriminate C. }
    apply in_map_iff in Y as ([k t] & <- & I). cbn [fst] in *. exists t. pose proof (X t I ND) as M.
    split; [exact M|]. intros s fn Is. eapply NG; eauto.
  - exists (plain_feature (tx "LIOB33_X0Y1.IOB_Y0.STEPDOWN")), (tx "LIOB33_X0Y1"), (tx "IOB_Y0").
    split; [now left|]. split; [split; [discriminate|exact UP]|]. split; [|exact T14].
    exists [], []. reflexivity.
Qed.
(** A package whose clock tile of bank 14 is also listed, as a pin, in bank 15: its bank is 14, though
    it is among the tiles of bank 15 too. *)
Definition two_banks_pins : list package_pin :=
  [{| pp_pin := tx "P1"; pp_bank := 15; pp_site := tx "IOB_X0Y9"; pp_tile := tx "HCLK_IOI3_X1Y26"; pp_function := tx "F" |}].
Example C50_case_two_banks :
  ~ one_bank_each [(14, tx "X1Y26")] two_banks_pins /\
  tile_bank [(14, tx "X1Y26")] two_banks_pins 14 (tx "HCLK_IOI3_X1Y26") /\
  ~ tile_bank [(14, tx "X1Y26")] two_banks_pins 15 (tx "HCLK_IOI3_X1Y26") /\
  in_bank [(14, tx "X1Y26")] two_banks_pins 15 (tx "HCLK_IOI3_X1Y26").
Proof.
  assert (I14 : in_bank [(14, tx "X1Y26")] two_banks_pins 14 (tx "HCLK_IOI3_X1Y26")) by (left; eexists; split; [now left|reflexivity]).
  assert (I15 : in_bank [(14, tx "X1Y26")] two_banks_pins 15 (tx "HCLK_IOI3_X1Y26")).
  { right. eexists. split; [now left|]. split; reflexivity. }
  split; [intros OB; discriminate (OB _ _ _ I14 I15)|].
  split; [apply (bank_of (fun _ l => l)); eexists; vm_compute; reflexivity|].
  split; [|exact I15].
  intros T. apply (bank_of (fun _ l => l)) in T as (bs & E). vm_compute in E. discriminate E.
Qed.
Example C50_case_abort :
  add_stepdown (fun l => l) (fun _ l => l) (reg_create (fun _ l => l) ex_iobanks ex_pins) ex_grid
    [plain_feature (tx "LIOB33_X9Y9.IOB_Y0.STEPDOWN")] = Crash.
Proof. vm_compute. reflexivity. Qed.

(** ** C66 *)

(** STEPDOWN counts only in the third component of a name. *)
Theorem C66_only_the_third_component_counts :
  forall ordb ordt banks grid fs,
  (forall l, Permutation (ordb l) l) -> (forall b l, Permutation (ordt b l) l) ->
  (forall f tile site tag, In f fs -> uses f tile site tag -> ~ contains (tx "STEPDOWN") tag) ->
  add_stepdown ordb ordt banks grid fs = Ok fs.
Proof.
  intros ordb ordt banks grid fs PB PT N.
  assert (NW : forall bank tag, ~ wants_stepdown banks fs bank tag).
  { intros bank tag (f & t & s & bs & I & U & C & _). eapply N; eauto. }
  destruct (add_stepdown_ok ordb ordt banks grid fs PB PT) as (extra & E & H).
  - split.
    + intros f t s g I U C. exfalso. eapply N; eauto.
    + intros bank tag W. exfalso. eapply NW; eauto.
  - destruct extra as [|f extra]; [now rewrite app_nil_r in E|]. exfalso.
    destruct (proj1 (H f) (or_introl eq_refl)) as (name & S & _).
    destruct S; eapply NW; eauto.
Qed.
Print Assumptions C66_only_the_third_component_counts.

(** So a name with a fourth component, TILE.SITE.STANDARDS.STEPDOWN, implies nothing, although it
    asks for STEPDOWN and its bank is known. *)
Theorem C66_every_stepdown_name_counts_refuted :
  exists fs f bank,
    In f fs /\ ff_bits f <> 0 /\ contains (tx ".STEPDOWN") (ff_name f) /\
    in_bank ex_iobanks ex_pins bank (tx "LIOB33_X0Y1") /\ contains (tx "LIOB33_X0Y1.") (ff_name f) /\
    forall ordb ordt ord, (forall l, Permutation (ordb l) l) -> (forall b l, Permutation (ordt b l) l) ->
      add_stepdown ordb ordt (reg_create ord ex_iobanks ex_pins) ex_grid fs = Ok fs.
Proof.
  exists [plain_feature (tx "LIOB33_X0Y1.IOB_Y0.LVCMOS12_LVCMOS15_LVCMOS18_SSTL135_SSTL15.STEPDOWN")],
    (plain_feature (tx "LIOB33_X0Y1.IOB_Y0.LVCMOS12_LVCMOS15_LVCMOS18_SSTL135_SSTL15.STEPDOWN")), 14.
  split; [now left|]. split; [discriminate|].
  split; [exists (tx "LIOB33_X0Y1.IOB_Y0.LVCMOS12_LVCMOS15_LVCMOS18_SSTL135_SSTL15"), []; reflexivity|].
  split; [right; eexists; split; [now left|]; split; reflexivity|].
  split; [exists [], (tx "IOB_Y0.LVCMOS12_LVCMOS15_LVCMOS18_SSTL135_SSTL15.STEPDOWN"); reflexivity|].
  intros ordb ordt ord PB PT. apply C66_only_the_third_component_counts; auto.
  intros f tile site tag [<-|[]] [_ U] C. cbn [plain_feature ff_name] in U.
  assert (UP : path3 (tx "LIOB33_X0Y1.IOB_Y0.LVCMOS12_LVCMOS15_LVCMOS18_SSTL135_SSTL15.STEPDOWN")
     (tx "LIOB33_X0Y1") (tx "IOB_Y0") (tx "LVCMOS12_LVCMOS15_LVCMOS18_SSTL135_SSTL15")).
  { split; [vm_compute; intuition discriminate|]. split; [vm_compute; intuition discriminate|].
    split; [vm_compute; intuition discriminate|]. right. exists (tx "STEPDOWN"). reflexivity. }
  destruct (path3_fun _ _ _ _ _ _ _ UP U) as (_ & _ & <-).
  apply str_contains_spec in C. vm_compute in C. discriminate C.
Qed.
Print Assumptions C66_every_stepdown_name_counts_refuted.

(** ** C51 *)

(** The features are fixed by the grid alone: none if no pin function contains PUDC_B, otherwise
    exactly the three defaults of the site of one such pin. *)
Theorem C51_pudcb_features :
  forall grid, numbered_grid grid ->
  exists l, pudcb_features grid = Ok l /\
    ((l = [] /\ forall tile site, ~ pudcb_pin grid tile site) \/
     exists tile site label, pudcb_pin grid tile site /\ site_label site label /\
       l = [plain_feature (dotted tile (dotted label (tx "LVCMOS12_LVCMOS15_LVCMOS18_LVCMOS25_LVCMOS33_LVDS_25_LVTTL_SSTL135_SSTL15_TMDS_33.IN_ONLY")));
            plain_feature (dotted tile (dotted label (tx "LVCMOS25_LVCMOS33_LVTTL.IN")));
            plain_feature (dotted tile (dotted label (tx "PULLTYPE.PULLUP")))]).
Proof.
  intros grid NG. destruct (pudcb_ok grid NG) as (l & E & [(-> & N)|(t & s & la & P & L & ->)] & _);
    eexists; (split; [exact E|]).
  - left. auto.
  - right. exists t, s, la. auto.
Qed.
Print Assumptions C51_pudcb_features.

(** Whatever the design, a successful run has the bits of these features. *)
Theorem C51_pudcb_bits_are_always_set :
  forall tls, usable_grid (tl_grid tls) -> numbered_grid (tl_grid tls) ->
  exists l, pudcb_default (tl_grid tls) l /\
  forall ord input fr, good_orders ord -> short_lines input ->
  assemble_frames Iso ord tls input = Ok fr ->
  forall f a w i, In f l -> requested tls f a w i -> bit_at fr a w i = true.
Proof.
  intros tls U NG. destruct (pudcb_ok _ NG) as (l & E & D & _). exists l. split; [exact D|].
  intros ord input fr G SL H f a w i I R.
  destruct (run_result Iso ord tls input l fr U NG G (fun fs => text_reported input fs SL) E H)
    as (fs & _ & _ & _ & _ & _ & B).
  apply B. exists f. split; [|exact R]. left. apply in_or_app. now left.
Qed.
Print Assumptions C51_pudcb_bits_are_always_set.

(** A design without features gives exactly the bits of the defaults. *)
Theorem C51_empty_design :
  forall tls ord fr, usable_grid (tl_grid tls) -> numbered_grid (tl_grid tls) -> good_orders ord ->
  (forall tile t, In (tile, t) (tl_grid tls) -> ~ In dot tile) ->
  assemble_frames Iso ord tls [] = Ok fr ->
  exists l, pudcb_default (tl_grid tls) l /\
  forall a w i, bit_at fr a w i = true <-> exists f, In f l /\ requested tls f a w i.
Proof.
  intros tls ord fr U NG G NDT H. destruct (pudcb_ok _ NG) as (l & E & D & _). exists l. split; [exact D|].
  assert (SL : short_lines []) by (intros line []).
  destruct (run_result Iso ord tls [] l fr U NG G (fun fs => text_reported [] fs SL) E H)
    as (fs & T & RD & K & _ & _ & B).
  assert (fs = []) by (destruct T as (evss & F & ->); inversion F; reflexivity). subst fs. rewrite app_nil_r in *.
  intros a w i. rewrite B. split; intros (f & I & R); exists f; (split; [|exact R]).
  - destruct I as [I|(name & S & ->)]; [exact I|]. exfalso.
    assert (NW : forall bank tag, ~ wants_stepdown (tl_banks tls) l bank tag).
    { intros bank tag (f & t & s & bs & I & [_ Pa] & C & _).
      destruct D as [[-> _]|(tile & site & label & (tt & fn & IT & _) & L & ->)]; [destruct I|].
      pose proof (NDT _ _ IT) as NT.
      pose proof (site_label_nodot _ _ L) as Nl.
      apply in_map_iff in I as (n & <- & I). cbn [plain_feature ff_name] in Pa.
      assert (Z : exists pre, n = dotted tile (dotted label pre) /\
         (pre = tx "LVCMOS12_LVCMOS15_LVCMOS18_LVCMOS25_LVCMOS33_LVDS_25_LVTTL_SSTL135_SSTL15_TMDS_33.IN_ONLY" \/
          pre = tx "LVCMOS25_LVCMOS33_LVTTL.IN" \/ pre = tx "PULLTYPE.PULLUP")).
      { unfold pudcb_names in I. cbn [map In] in I. destruct I as [<-|[<-|[<-|[]]]]; eauto. }
      destruct Z as (pre & -> & Hp).
      assert (NS : str_contains (tx "STEPDOWN") (dotted label pre) = false).
      { destruct L; destruct Hp as [->|[->| ->]]; vm_compute; reflexivity. }
      assert (CS : contains (tx "STEPDOWN") (dotted label pre) -> False).
      { intros X. apply str_contains_spec in X. rewrite NS in X. discriminate X. }
      destruct Pa as (Nt & Ns & Ng & Pa).
      destruct Pa as [Pa|(r & Pa)]; unfold dotted at 1 3 in Pa; apply cut_unique in Pa as [-> Pa]; auto;
        apply CS; rewrite Pa; destruct C as (x & y & ->).
      - exists (s ++ dot :: x), y. unfold dotted. rewrite <- !app_assoc. reflexivity.
      - exists (s ++ dot :: x), (y ++ dot :: r). unfold dotted.
        repeat (rewrite <- app_assoc || cbn [app]). reflexivity. }
    destruct S; eapply NW; eauto.
  - now left.
Qed.
Print Assumptions C51_empty_design.

Example C51_case : pudcb_pin ex_grid (tx "LIOB33_X0Y3") (tx "IOB_X0Y3") /\
  pudcb_features ex_grid = Ok (map plain_feature (pudcb_names (tx "LIOB33_X0Y3") (tx "IOB_Y1"))) /\
  run_check (assemble_frames Iso ex_orders ex_db []) (fun fr => bit_at fr 38 6 1 && bit_at fr 38 6 9 && bit_at fr 38 7 1) = true.
Proof.
  split; [|split; vm_compute; reflexivity].
  eexists. exists (tx "IO_L3P_T0_DQS_PUDC_B_14"). split; [right; right; right; right; now left|].
  split; [now left|]. exists (tx "IO_L3P_T0_DQS_"), (tx "_14"). reflexivity.
Qed.

(** ** C64 *)

(** The sites of an alias are compared with everything after the first dot of the feature, not
    with its first component: a feature is renamed only if its whole rest is listed. *)
Theorem C64_alias_renames_only_whole_rests :
  forall t feature ty seen m, NoDup (map fst (t_bits t)) ->
  resolve_alias t feature = (ty, seen, m) -> seen <> feature ->
  exists bus b al a rest rest',
    In (bus, b) (t_bits t) /\ bb_alias b = Some al /\ feature = dotted a rest /\ ~ In dot a /\
    maps_to (al_sites al) rest rest' /\ seen = dotted a rest'.
Proof.
  intros t feature ty seen m ND E0 NE. destruct (resolve_alias_spec t feature ND) as (ty' & seen' & R & S).
  rewrite E0 in R. inversion R; subst ty' seen' m. clear R.
  destruct S as [|bus b al f' I E R]; [contradiction|].
  destruct R as [a rest rest' [F NA] M| |]; try contradiction.
  exists bus, b, al, a, rest, rest'. repeat (split; [first [assumption|reflexivity]|]). reflexivity.
Qed.
Print Assumptions C64_alias_renames_only_whole_rests.

(** So every bit set for a feature SITE.A.B of an aliased tile is one the aliased type lists for
    SITE.A.B itself, whatever the alias says of SITE (its keys have no dots). *)
Theorem C64_aliased_site_not_renamed :
  forall tls ord tile t site rest k c calls,
  usable_grid (tl_grid tls) -> (forall l, Permutation (ord l) l) ->
  maps_to (tl_grid tls) tile t -> ~ In dot site -> In dot rest ->
  (forall bus b al x y, In (bus, b) (t_bits t) -> bb_alias b = Some al -> In (x, y) (al_sites al) -> ~ In dot x) ->
  config_bits record_bit ord tls [] tile (dotted site rest) k [] = Ok (c, calls) ->
  forall bus a w i v, In (bus, a, w, i, v) calls ->
  exists ty d segs l sb,
    tl_bits tls ty = Ok (Some d) /\ maps_to (td_bits d) bus segs /\
    maps_to segs (dotted ty (dotted site rest), k) l /\ In sb l /\ sb_set sb = v.
Proof.
  intros tls ord tile t site rest k c calls U P M NS IR NK H bus a w i v I.
  apply (C47_callback_arguments ord tls tile (dotted site rest) k c calls U P H) in I
    as (b & l & sb & (t' & ty & seen & d & segs & M' & S & B & _ & _ & _ & MB & ML) & Is & _ & V).
  pose proof (maps_to_fun _ text_eqb_eq _ _ _ _ M M'). subst t'. exists ty, d, segs, l, sb.
  assert (E : seen = dotted site rest).
  { destruct S as [|bus' b' al f' I E Rn]; [reflexivity|].
    destruct Rn as [a' r r' F M2| |]; try reflexivity. exfalso. destruct F as [F NA].
    unfold dotted in F. apply cut_unique in F as [_ F]; auto. subst r.
    apply maps_to_In in M2. eapply NK; eauto. }
  rewrite E in ML. auto.
Qed.
Print Assumptions C64_aliased_site_not_renamed.

(** The alias of the small database says that site IOB33_Y0 of the tile is site IOB33_Y1 of the
    aliased type; yet the feature of IOB33_Y0 is looked up as such. *)
Theorem C64_sites_are_renamed_refuted :
  exists b al, In (BusCLBIOCLK, b) (t_bits (snd (nth 3 ex_grid (tx "", mk_tile [] [] [] [])))) /\
    bb_alias b = Some al /\ maps_to (al_sites al) (tx "IOB33_Y0") (tx "IOB33_Y1") /\
    (exists c, config_bits record_bit (fun l => l) ex_db [] (tx "LIOB33_SING_X0Y0") (tx "IOB33_Y0.PULLTYPE.NONE") 0 []
       = Ok (c, [(BusCLBIOCLK, 38, (3 - 2) + 34 / 32, 34 mod 32, true)])) /\
    hm_find tf_eqb (tx "LIOB33.IOB33_Y1.PULLTYPE.NONE", 0) (snd (hd (BusCLBIOCLK, []) (td_bits ex_iob))) = None.
Proof.
  do 2 eexists. split; [now left|]. split; [reflexivity|].
  split; [exists [], []; split; [reflexivity|intros []]|].
  split; [eexists; vm_compute; reflexivity|]. vm_compute. reflexivity.
Qed.
Print Assumptions C64_sites_are_renamed_refuted.

