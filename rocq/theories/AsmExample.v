(** A small database, used for the concrete cases of the assembler's properties. *)
From Verif Require Import Base BaseFacts Absl Part PartSpec Frame Fasm FasmSpec DbText DbJson Database
  Assembler EncodeSpec AsmSpec MapFacts AsmFacts LookupFacts AsmWhole P_Part.
From Coq Require Import ZifyBool ZifyN ZifyNat.

(** ** Usable tiles *)
Lemma renamed_fun al feature x y : renamed al feature x -> renamed al feature y -> x = y.
Proof.
  intros H K. destruct H as [a site site' D M|a site D NM|ND]; destruct K as [a2 s2 s2' D2 M2|a2 s2 D2 NM2|ND2];
    try reflexivity;
    try (exfalso; destruct D as [E _]; apply ND2; rewrite E; apply in_or_app; right; now left);
    try (exfalso; destruct D2 as [E _]; apply ND; rewrite E; apply in_or_app; right; now left).
  - destruct (first_dot_fun _ _ _ _ _ D D2) as [-> ->].
    now rewrite (maps_to_fun _ text_eqb_eq _ _ _ _ M M2).
  - destruct (first_dot_fun _ _ _ _ _ D D2) as [-> ->]. exfalso. apply NM2. eapply maps_to_key; eauto.
  - destruct (first_dot_fun _ _ _ _ _ D D2) as [-> ->]. exfalso. apply NM. eapply maps_to_key; eauto.
Qed.

(** All blocks see the tile under the same alias, if any. *)
Definition one_alias (t : tile) (o : option bits_alias) : Prop :=
  Forall (fun p => bb_alias (snd p) = o) (t_bits t).
Lemma usable_one t o : NoDup (map fst (t_bits t)) -> one_alias t o -> usable_tile t.
Proof.
  intros ND O. split; [exact ND|]. unfold one_alias in O. rewrite Forall_forall in O.
  intros feature ty1 f1 ty2 f2 H K.
  destruct H as [A|bus b al f' I E R]; destruct K as [A2|bus2 b2 al2 f2' I2 E2 R2].
  - auto.
  - rewrite (A bus2 b2 I2) in E2. discriminate E2.
  - rewrite (A2 bus b I) in E. discriminate E.
  - pose proof (O _ I) as X. pose proof (O _ I2) as X2. cbn [snd] in *. rewrite E in X. rewrite E2 in X2.
    rewrite <- X in X2. inversion X2; subst. split; [reflexivity|]. eapply renamed_fun; eauto.
Qed.
Lemma usable_all (g : tilegrid) : Forall (fun p => usable_tile (snd p)) g -> usable_grid g.
Proof. intros F name t M. apply maps_to_In in M. rewrite Forall_forall in F. exact (F _ M). Qed.

(** ** The database *)
Definition mk_bit (c b : N) (v : bool) := {| sb_column := c; sb_bit := b; sb_set := v |}.
Definition mk_block (al : option bits_alias) base frames off words :=
  {| bb_alias := al; bb_base := base; bb_frames := frames; bb_offset := off; bb_words := words |}.
Definition mk_tile ty bits funs sites :=
  {| t_type := ty; t_x := 0; t_y := 0; t_clock_region := None; t_bits := bits;
     t_pin_functions := funs; t_sites := sites; t_prohibited := [] |}.

Definition ex_alias : bits_alias :=
  {| al_sites := [(tx "IOB33_Y0", tx "IOB33_Y1")]; al_start_offset := 2; al_type := tx "LIOB33" |}.

Definition ex_grid : tilegrid :=
  [(tx "CLBLL_L_X2Y1", mk_tile (tx "CLBLL_L") [(BusCLBIOCLK, mk_block None 0x100 36 4 2)] [] []);
   (tx "BRAM_L_X6Y0", mk_tile (tx "BRAM_L")
      [(BusBlockRam, mk_block None 0x800000 128 0 10); (BusCLBIOCLK, mk_block None 0x80 28 0 10)] [] []);
   (tx "LIOB33_X0Y1", mk_tile (tx "LIOB33") [(BusCLBIOCLK, mk_block None 0 42 2 4)] []
      [(tx "IOB_X0Y1", tx "IOB33S"); (tx "IOB_X0Y2", tx "IOB33M")]);
   (tx "LIOB33_SING_X0Y0", mk_tile (tx "LIOB33_SING") [(BusCLBIOCLK, mk_block (Some ex_alias) 0 42 3 2)] []
      [(tx "IOB_X0Y0", tx "IOB33")]);
   (tx "LIOB33_X0Y3", mk_tile (tx "LIOB33") [(BusCLBIOCLK, mk_block None 0 42 6 4)]
      [(tx "IOB_X0Y3", tx "IO_L3P_T0_DQS_PUDC_B_14")]
      [(tx "IOB_X0Y3", tx "IOB33S"); (tx "IOB_X0Y4", tx "IOB33M")]);
   (tx "HCLK_IOI3_X1Y26", mk_tile (tx "HCLK_IOI3") [(BusCLBIOCLK, mk_block None 0 42 50 1)] [] [])].

Definition ex_clb : tile_db :=
  {| td_pips := [(tx "CLBLL_L.CLBLL_L_A1.IMUX_L6", PpAlways); (tx "CLBLL_L_X2Y1.LOCAL.PIP", PpHint)];
     td_bits := [(BusCLBIOCLK,
       [((tx "CLBLL_L.SLICEL_X0.ALUT.INIT", 0), [mk_bit 33 15 true]);
        ((tx "CLBLL_L.SLICEL_X0.ALUT.INIT", 1), [mk_bit 32 15 true]);
        ((tx "CLBLL_L.SLICEL_X0.ALUT.INIT", 2), [mk_bit 33 14 true]);
        ((tx "CLBLL_L.SLICEL_X0.ALUT.INIT", 3), [mk_bit 32 14 true]);
        ((tx "CLBLL_L.SLICEL_X0.FFSYNC", 0), [mk_bit 31 2 false; mk_bit 30 33 true])])] |}.
Definition ex_bram : tile_db :=
  {| td_pips := [];
     td_bits := [(BusCLBIOCLK, [((tx "BRAM_L.RAMB18_Y0.IN_USE", 0), [mk_bit 27 99 true; mk_bit 27 100 true])]);
                 (BusBlockRam, [((tx "BRAM_L.RAMB18_Y0.INIT_00", 0), [mk_bit 0 0 true]);
                                ((tx "BRAM_L.RAMB18_Y0.INIT_00", 1), [mk_bit 0 16 true])])] |}.
Definition ex_iob : tile_db :=
  {| td_pips := [];
     td_bits := [(BusCLBIOCLK,
       map (fun p => ((tx "LIOB33." ++ fst p, 0), [mk_bit 38 (snd p) true]))
           [(tx "IOB_Y0.STEPDOWN", 100); (tx "IOB_Y1.STEPDOWN", 22);
            (tx "IOB_Y1.LVCMOS12_LVCMOS15_LVCMOS18_LVCMOS25_LVCMOS33_LVDS_25_LVTTL_SSTL135_SSTL15_TMDS_33.IN_ONLY", 1);
            (tx "IOB_Y1.LVCMOS25_LVCMOS33_LVTTL.IN", 9); (tx "IOB_Y1.PULLTYPE.PULLUP", 33);
            (tx "IOB33_Y0.PULLTYPE.NONE", 34)])] |}.
Definition ex_hclk : tile_db :=
  {| td_pips := []; td_bits := [(BusCLBIOCLK, [((tx "HCLK_IOI3.STEPDOWN", 0), [mk_bit 36 17 true])])] |}.

Definition ex_bits (ty : text) : outcome (option tile_db) :=
  Ok (hm_find text_eqb ty
        [(tx "CLBLL_L", ex_clb); (tx "BRAM_L", ex_bram); (tx "LIOB33", ex_iob); (tx "HCLK_IOI3", ex_hclk)]).

Definition mk_pin pin bank site t fn :=
  {| pp_pin := pin; pp_bank := bank; pp_site := site; pp_tile := t; pp_function := fn |}.
Definition ex_iobanks : list (N * text) := [(14, tx "X1Y26"); (15, tx "X1Y78")].
Definition ex_pins : list package_pin :=
  [mk_pin (tx "A1") 14 (tx "IOB_X0Y1") (tx "LIOB33_X0Y1") (tx "IO_L1N_14");
   mk_pin (tx "A2") 14 (tx "IOB_X0Y2") (tx "LIOB33_X0Y1") (tx "IO_L1P_14");
   mk_pin (tx "A3") 14 (tx "IOB_X0Y0") (tx "LIOB33_SING_X0Y0") (tx "IO_0_14");
   mk_pin (tx "B3") 15 (tx "IOB_X0Y3") (tx "LIOB33_X0Y3") (tx "IO_L3P_T0_DQS_PUDC_B_15")].
Definition ex_banks (ord : N -> list text -> list text) := reg_create ord ex_iobanks ex_pins.

(** The containers of the database in the order of the files, and in the opposite order. *)
Definition document_order : load_orders :=
  {| lo_tiles := fun _ l => l; lo_grid := fun l => l; lo_bits := fun _ l => l; lo_pins := fun _ l => l;
     lo_sites := fun _ l => l; lo_banks := fun l => l; lo_row := fun _ _ l => l |}.
Definition opposite_order : load_orders :=
  {| lo_tiles := fun _ l => rev l; lo_grid := fun l => rev l; lo_bits := fun _ l => rev l; lo_pins := fun _ l => rev l;
     lo_sites := fun _ l => rev l; lo_banks := fun l => rev l; lo_row := fun _ _ l => rev l |}.
Definition ex_orders : orders :=
  {| o_alias := fun _ _ l => l; o_buses := fun _ l => l; o_banks := fun l => l;
     o_tags := fun _ l => l; o_load := document_order |}.
(** The opposite orders. *)
Definition ex_orders' : orders :=
  {| o_alias := fun _ _ l => rev l; o_buses := fun _ l => rev l; o_banks := fun l => rev l;
     o_tags := fun _ l => rev l; o_load := opposite_order |}.
Definition ex_tiles (o : orders) : tiles :=
  {| tl_grid := ex_grid; tl_bits := ex_bits; tl_banks := ex_banks (lo_tiles (o_load o)); tl_part := small_part |}.
Definition ex_db : tiles := ex_tiles ex_orders.

Example document_order_good : good_load document_order.
Proof. repeat split; intros; apply Permutation_refl. Qed.
Example ex_orders_good : good_orders ex_orders.
Proof. repeat split; intros; apply Permutation_refl. Qed.
Example ex_orders'_good : good_orders ex_orders'.
Proof. repeat split; intros; cbn; apply Permutation_sym, Permutation_rev. Qed.

Example ex_usable : usable_grid ex_grid.
Proof.
  apply usable_all. unfold ex_grid.
  repeat (apply Forall_cons;
    [cbn [snd];
     first [apply (usable_one _ None); [|solve [repeat constructor]]
           |apply (usable_one _ (Some ex_alias)); [|solve [repeat constructor]]];
     repeat (apply NoDup_cons; [vm_compute; intuition discriminate|]); apply NoDup_nil|]).
  apply Forall_nil.
Qed.

Lemma maps_In {K A} (l : list (K * A)) k v : maps_to l k v -> In (k, v) l.
Proof. apply maps_to_In. Qed.

Lemma label_even (p : text) d : In d (tx "02468") -> site_name_ok (p ++ [d]).
Proof. intros H. exists (tx "IOB_Y0"). now constructor. Qed.
Lemma label_odd (p : text) d : In d (tx "13579") -> site_name_ok (p ++ [d]).
Proof. intros H. exists (tx "IOB_Y1"). now constructor. Qed.
Ltac site_ok :=
  match goal with
  | |- site_name_ok ?s =>
      let p := eval vm_compute in (removelast s) in
      let d := eval vm_compute in (last s " "%char) in
      change s with (p ++ [d]);
      first [apply label_even; vm_compute; tauto | apply label_odd; vm_compute; tauto]
  end.

Example ex_numbered : numbered_grid ex_grid.
Proof.
  split.
  - intros tile t s fn M _ I. apply maps_to_In in M. unfold ex_grid in M. cbn [In] in M.
    repeat (destruct M as [M|M]; [inversion M; subst; clear M; cbn [t_sites mk_tile In] in I;
      repeat (destruct I as [I|I]; [inversion I; subst; site_ok|]); destruct I|]). destruct M.
  - intros tile site (t & fn & M & I & _). unfold ex_grid in M. cbn [In] in M.
    repeat (destruct M as [M|M]; [inversion M; subst; clear M; cbn [t_pin_functions mk_tile In] in I;
      repeat (destruct I as [I|I]; [inversion I; subst; site_ok|]); destruct I|]). destruct M.
Qed.

Lemma present_key (fr : asm_frames) a : In a (map fst fr) -> present fr a.
Proof. intros I. apply in_map_iff in I as ([x f] & E & I). cbn [fst] in E. subst. now exists f. Qed.

(** ** A design *)
Definition mk_feature name range assign : item :=
  {| i_b0 := []; i_feature := Some {| f_name := tx name; f_b1 := []; f_range := range; f_b2 := [];
       f_assign := assign |}; i_end := EndNone |}.
Definition ex_items : list item :=
  [mk_feature "CLBLL_L_X2Y1.SLICEL_X0.ALUT.INIT"
     (Some {| r_b0 := []; r_hi := tx "3"; r_b1 := []; r_lo := Some ([], tx "0", []) |})
     (Some ([], Based (tx "4") [] [] Bin [] (tx "1010") []));
   mk_feature "CLBLL_L_X2Y1.SLICEL_X0.FFSYNC" None None;
   mk_feature "CLBLL_L_X2Y1.CLBLL_L_A1.IMUX_L6" None None;
   mk_feature "BRAM_L_X6Y0.RAMB18_Y0.INIT_00"
     (Some {| r_b0 := []; r_hi := tx "1"; r_b1 := []; r_lo := Some ([], tx "0", []) |})
     (Some ([], Plain (tx "2") []));
   mk_feature "LIOB33_X0Y1.IOB_Y0.STEPDOWN" None None].
Definition ex_text : text := file_text ex_items.

Definition has_frame (fr : asm_frames) (a : N) : bool := existsb (N.eqb a) (map fst fr).
Lemma has_frame_present fr a : has_frame fr a = true <-> present fr a.
Proof.
  unfold has_frame. rewrite existsb_exists. split.
  - intros (x & I & E). apply N.eqb_eq in E. subst x. now apply present_key.
  - intros (f & I). exists a. split; [now apply (in_map fst) in I|apply N.eqb_refl].
Qed.

(** Checks on the result of a run. *)
Definition run_check (o : outcome asm_frames) (c : asm_frames -> bool) : bool :=
  match o with Ok fr => c fr | _ => false end.
Lemma run_check_ok o c : run_check o c = true -> exists fr, o = Ok fr /\ c fr = true.
Proof. destruct o; try discriminate. eauto. Qed.

Example ex_runs : run_check (assemble_frames Iso ex_orders ex_db ex_text) (fun fr =>
  bit_at fr (0x100 + 32) 4 15 && negb (bit_at fr (0x100 + 33) 4 15) && bit_at fr (0x100 + 30) 5 1
  && bit_at fr 0x800000 0 16 && has_frame fr (0x800000 + 127) && negb (has_frame fr 0x80)) = true.
Proof. vm_compute. reflexivity. Qed.
