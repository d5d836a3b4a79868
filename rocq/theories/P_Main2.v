(** C65, and a complete run on a small database directory. *)
From Verif Require Import Base BaseFacts Absl Part PartSpec PartFromFacts Frame Frames Fasm FasmSpec FasmLines
  DbText DbJson Database Packet Writer WriterFacts Reader ContainerSpec Config ConfigFacts Encode EncodeSpec EncodeFacts
  Assembler AsmSpec MapFacts AsmFacts LookupFacts AsmLines AsmWhole AsmExample P_Part P_Packet P_Bitstream
  P_Assembler P_Assembler2 P_Main.
From Coq Require Import ZifyBool ZifyN ZifyNat.

(** ** C65 *)

(** The header of the file never names the part that was selected, nor the input: it always says
    part "fasm" and source "fpga-source". *)
Theorem C65_header_is_constant :
  forall fuel ord c s tls root input,
  good_orders ord -> c_stdout c = file_at_end [] -> header_text (c_date c) -> header_text (c_time c) ->
  db_path c = Some root -> parse_database (c_env c) (o_load ord) root (c_part c) = Ok tls ->
  input_text c = Some input -> sound_database tls -> short_lines input ->
  main_program fuel Iso ord c = Ok (0, s) ->
  exists words, st_bytes s
    = bit_file (tx "fpga-source") (tx "fpga-assembler") (tx "fasm") (c_date c) (c_time c) words.
Proof.
  intros fuel ord c s tls root input G ES HD HT ER ED EI D SL H. unfold main_program in H.
  destruct (2 <? List.length (c_args c))%nat; [discriminate H|]. rewrite ER in H.
  destruct (match root with [] => true | _ => negb (e_exists (c_env c) root) end); [discriminate H|].
  destruct (c_part c) as [|pc pr] eqn:EPT; [discriminate H|]. rewrite <- EPT in *. rewrite ED, EI in H.
  destruct (assemble_frames Iso ord tls input) as [fr| | | |] eqn:EA; try discriminate H.
  destruct (encode fuel (tl_part tls) (tx "fasm") (tx "fpga-source") (c_date c) (c_time c) fr (c_stdout c))
    as [s'| | | |] eqn:EE; try discriminate H. injection H as <-.
  rewrite ES in EE. pose proof (assembled_design _ _ _ _ D G SL EA) as DS.
  assert (HP : header_text (tx "fasm")) by (split; [repeat constructor|reflexivity]).
  assert (HS : header_text (tx "fpga-source")) by (split; [repeat constructor|reflexivity]).
  destruct (C12_emitted_payload (tl_part tls) fr (tx "fasm") (tx "fpga-source") (c_date c) (c_time c)
              (sd_device _ D) DS HP HS HD HT) as (fuel0 & s0 & fs & E0 & B & _).
  apply (encode_mono _ _ _ _ _ _ _ _ (fuel0 + fuel)%nat) in EE; [|lia].
  apply (encode_mono _ _ _ _ _ _ _ _ (fuel0 + fuel)%nat) in E0; [|lia].
  assert (s0 = s') by congruence. subst s0. eexists. exact B.
Qed.
Print Assumptions C65_header_is_constant.

(** ** A database directory *)
Definition str_obj (l : list (text * text)) : json := JObj (map (fun p => (fst p, JStr (snd p))) l).
Definition demo_block (base : text) (frames off words : Z) : json :=
  JObj [(tx "baseaddr", JStr base); (tx "frames", JInt frames); (tx "offset", JInt off); (tx "words", JInt words)].
Definition demo_tile (ty : text) (bits : json) (fns sites : list (text * text)) : json :=
  JObj [(tx "bits", bits); (tx "grid_x", JInt 1); (tx "grid_y", JInt 2);
        (tx "pin_functions", str_obj fns); (tx "prohibited_sites", JArr []);
        (tx "sites", str_obj sites); (tx "type", JStr ty)].
Definition demo_grid_json : json := JObj
  [(tx "CLBLL_L_X2Y1", demo_tile (tx "CLBLL_L")
      (JObj [(tx "CLB_IO_CLK", demo_block (tx "0x00000000") 3 4 2)]) [] []);
   (tx "LIOB33_X0Y1", demo_tile (tx "LIOB33")
      (JObj [(tx "CLB_IO_CLK", demo_block (tx "0x00000080") 2 2 4)])
      [(tx "IOB_X0Y1", tx "IO_L3P_T0_DQS_PUDC_B_14")] [(tx "IOB_X0Y1", tx "IOB33S"); (tx "IOB_X0Y2", tx "IOB33M")]);
   (tx "HCLK_IOI3_X1Y26", demo_tile (tx "HCLK_IOI3")
      (JObj [(tx "CLB_IO_CLK", demo_block (tx "0x00000080") 2 50 1)]) [] [])].
Definition demo_part_json : json := JObj
  [(tx "idcode", JInt 0x0362D093);
   (tx "iobanks", str_obj [(tx "14", tx "X1Y26")]);
   (tx "global_clock_regions", JObj
     [(tx "bottom", JObj [(tx "rows", JObj [])]);
      (tx "top", JObj [(tx "rows", JObj [(tx "0", JObj [(tx "configuration_buses", JObj
        [(tx "CLB_IO_CLK", JObj [(tx "configuration_columns", JObj
           [(tx "0", JObj [(tx "frame_count", JInt 3)]); (tx "1", JObj [(tx "frame_count", JInt 2)])])])])])])])])].

Definition demo_files : list (text * text) :=
  [(tx "db/mapping/parts.yaml",
    unlines [tx "# parts"; tx """xc7a35t"":"; tx "  device: dev"; tx "  package: 'csg'"; tx "  speedgrade: ""1"""]);
   (tx "db/mapping/devices.yaml", unlines [tx "dev:"; tx "  fabric: ""fab"""]);
   (tx "db/fab/tilegrid.json", tx "<grid>");
   (tx "db/xc7a35t/part.json", tx "<part>");
   (tx "db/xc7a35t/package_pins.csv",
    unlines [tx "pin,bank,site,tile,pin_function"; tx "A1,14,IOB_X0Y1,LIOB33_X0Y1,IO_L3P_T0_DQS_PUDC_B_14"]);
   (tx "db/tile_type_CLBLL_L.json", tx "{}");
   (tx "db/segbits_clbll_l.db",
    unlines [tx "CLBLL_L.SLICEL_X0.ALUT.INIT[00] 02_15"; tx "CLBLL_L.SLICEL_X0.ALUT.INIT[01] 01_15 !02_14"]);
   (tx "db/ppips_clbll_l.db", unlines [tx "CLBLL_L.CLBLL_L_A1.IMUX_L6 always"]);
   (tx "db/tile_type_LIOB33.json", tx "{}");
   (tx "db/segbits_liob33.db",
    unlines [tx "LIOB33.IOB_Y0.STEPDOWN 01_100"; tx "LIOB33.IOB_Y1.STEPDOWN 01_22";
             tx "LIOB33.IOB_Y1.LVCMOS12_LVCMOS15_LVCMOS18_LVCMOS25_LVCMOS33_LVDS_25_LVTTL_SSTL135_SSTL15_TMDS_33.IN_ONLY 00_01";
             tx "LIOB33.IOB_Y1.LVCMOS25_LVCMOS33_LVTTL.IN 00_09"; tx "LIOB33.IOB_Y1.PULLTYPE.PULLUP 00_33"]);
   (tx "db/tile_type_HCLK_IOI3.json", tx "{}");
   (tx "db/segbits_hclk_ioi3.db", unlines [tx "HCLK_IOI3.STEPDOWN 00_17"])].
Definition demo_env : environment :=
  {| e_read := fun p => hm_find text_eqb p demo_files;
     e_exists := fun p => text_eqb p (tx "db") || hm_contains text_eqb p demo_files;
     e_walk := fun p => if text_eqb p (tx "db") then Some (map fst demo_files) else None;
     e_json := fun s => if text_eqb s (tx "<grid>") then Some demo_grid_json
                        else if text_eqb s (tx "<part>") then Some demo_part_json else None |}.
Definition demo_command (input : text) : command :=
  {| c_args := [tx "fpga-as"]; c_db_flag := None; c_db_env := Some (tx "db"); c_part := tx "xc7a35t";
     c_stdin := input; c_open := fun _ => None; c_env := demo_env;
     c_date := tx "2024/10/01"; c_time := tx "12:00:00"; c_stdout := file_at_end [] |}.

Definition demo_input : text :=
  unlines [tx "# a comment"; tx "CLBLL_L_X2Y1.SLICEL_X0.ALUT.INIT[1:0] = 2'b10";
           tx "CLBLL_L_X2Y1.CLBLL_L_A1.IMUX_L6"; tx "LIOB33_X0Y1.IOB_Y1.STEPDOWN"].
Definition demo_tls : outcome tiles := parse_database demo_env document_order (tx "db") (tx "xc7a35t").

Example demo_parses : match demo_tls with
  | Ok tls => (List.length (tl_grid tls) =? 3)%nat
  | _ => false end = true.
Proof. vm_compute. reflexivity. Qed.

(** The complete run: status 0, the file decodes and has the bits of the design. *)
Definition demo_check : bool :=
  match main_program 3000 Iso ex_orders (demo_command demo_input) with
  | Ok (0, s) =>
      match demo_tls with
      | Ok tls =>
          match decode (tl_part tls) (st_bytes s) with
          | Ok (Some fs) =>
              bit_at fs 1 4 15 && negb (bit_at fs 2 4 15) && negb (bit_at fs 2 4 14)
              && bit_at fs 0x81 2 22 && bit_at fs 0x81 5 4 && bit_at fs 0x80 50 17 && bit_at fs 0x80 2 1
              && (List.length fs =? 5)%nat
          | _ => false
          end
      | _ => false
      end
  | _ => false
  end.
Example C62_case : demo_check = true.
Proof. vm_compute. reflexivity. Qed.
Example C62_case_failures :
  main_program 3000 Iso ex_orders (demo_command (tx "no newline")) = Ok (1, file_at_end []) /\
  main_program 3000 Iso ex_orders (demo_command (unlines [tx "CLBLL_L_X2Y1.UNKNOWN"])) = Crash.
Proof. split; vm_compute; reflexivity. Qed.

(** ** The demo database is sound *)

(** A sufficient test for databases without aliases. *)
Definition no_alias (t : tile) : bool :=
  forallb (fun p : bus_type * bits_block => match bb_alias (snd p) with None => true | Some _ => false end) (t_bits t).
Fixpoint nodup_bus (l : list bus_type) : bool :=
  match l with [] => true | b :: r => negb (existsb (bus_eqb b) r) && nodup_bus r end.
Definition numbered (s : text) : bool :=
  match rev s with [] => false | d :: _ => existsb (Ascii.eqb d) (tx "0123456789") end.
Definition sound_check (tls : tiles) : bool :=
  forallb (fun p : text * tile => let t := snd p in
    no_alias t && nodup_bus (map fst (t_bits t)) &&
    forallb (fun q : text * text => numbered (fst q)) (t_sites t) &&
    forallb (fun q : text * text => numbered (fst q)) (t_pin_functions t) &&
    forallb (fun q : bus_type * bits_block => let b := snd q in
      forallb (fun j => existsb (N.eqb (bb_base b + j)) (device_frames (tl_part tls))) (count_up (N.to_nat (bb_frames b))) &&
      match tl_bits tls (t_type t) with
      | Ok (Some d) => forallb (fun r : bus_type * segbits =>
          negb (bus_eqb (fst r) (fst q)) ||
          forallb (fun e : tile_feature * list segment_bit =>
             forallb (fun sb => sb_column sb <? bb_frames b) (snd e)) (snd r)) (td_bits d)
      | _ => true
      end) (t_bits t)) (tl_grid tls).

Lemma count_up_In n j : In j (count_up n) <-> j < N.of_nat n.
Proof.
  induction n as [|n IH]; cbn [count_up].
  - split; [intros []|lia].
  - rewrite in_app_iff, IH. cbn [In]. lia.
Qed.
Lemma nodup_bus_sound l : nodup_bus l = true -> NoDup l.
Proof.
  induction l as [|b l IH]; cbn [nodup_bus]; [constructor|]. intros H. apply andb_true_iff in H as [H K].
  constructor; [|auto]. intros I. apply negb_true_iff in H.
  assert (existsb (bus_eqb b) l = true); [|congruence]. apply existsb_exists. exists b. split; [exact I|].
  now apply bus_eqb_eq.
Qed.
Lemma numbered_sound s : numbered s = true -> site_name_ok s.
Proof.
  unfold numbered. destruct (rev s) as [|d r] eqn:E; [discriminate|]. intros H.
  assert (Es : s = rev r ++ [d]) by (rewrite <- (rev_involutive s), E; reflexivity).
  apply existsb_exists in H as (x & I & X). apply Ascii.eqb_eq in X. subst x. rewrite Es.
  cbn [tx list_ascii_of_string In] in I.
  repeat (destruct I as [<-|I];
    [first [apply label_even; vm_compute; tauto|apply label_odd; vm_compute; tauto]|]). destruct I.
Qed.

Lemma sound_check_ok tls : usable_device (tl_part tls) -> sound_check tls = true -> sound_database tls.
Proof.
  intros UD H. unfold sound_check in H. rewrite forallb_forall in H.
  assert (G : forall name t, In (name, t) (tl_grid tls) ->
     no_alias t = true /\ NoDup (map fst (t_bits t)) /\
     (forall s fn, In (s, fn) (t_sites t) -> site_name_ok s) /\
     (forall s fn, In (s, fn) (t_pin_functions t) -> site_name_ok s) /\
     (forall bus b, In (bus, b) (t_bits t) ->
        (forall j, j < bb_frames b -> is_frame_address (tl_part tls) (bb_base b + j)) /\
        forall d segs e sb, tl_bits tls (t_type t) = Ok (Some d) -> In (bus, segs) (td_bits d) ->
          In e segs -> In sb (snd e) -> sb_column sb < bb_frames b)).
  { intros name t I. specialize (H _ I). cbn [snd] in H.
    apply andb_true_iff in H as [H H5]. apply andb_true_iff in H as [H H4].
    apply andb_true_iff in H as [H H3]. apply andb_true_iff in H as [H1 H2].
    rewrite forallb_forall in H3, H4, H5.
    split; [exact H1|]. split; [now apply nodup_bus_sound|].
    split; [intros s fn J; apply numbered_sound; exact (H3 _ J)|].
    split; [intros s fn J; apply numbered_sound; exact (H4 _ J)|].
    intros bus b J. specialize (H5 _ J). cbn [fst snd] in H5. apply andb_true_iff in H5 as [A B]. split.
    - intros j L. rewrite forallb_forall in A. apply frame_address_dec. apply A. apply count_up_In.
      now rewrite N2Nat.id.
    - intros d segs e sb E K Ke Ks. rewrite E in B. rewrite forallb_forall in B. specialize (B _ K).
      cbn [fst snd] in B. apply orb_true_iff in B as [B|B].
      + apply negb_true_iff in B. rewrite (proj2 (bus_eqb_eq bus bus) eq_refl) in B. discriminate B.
      + rewrite forallb_forall in B. specialize (B _ Ke). rewrite forallb_forall in B. specialize (B _ Ks).
        now apply N.ltb_lt. }
  assert (NA : forall name t, In (name, t) (tl_grid tls) -> forall bus b, In (bus, b) (t_bits t) -> bb_alias b = None).
  { intros name t I bus b J. destruct (G _ _ I) as (A & _). unfold no_alias in A. rewrite forallb_forall in A.
    specialize (A _ J). cbn [snd] in A. destruct (bb_alias b); [discriminate A|reflexivity]. }
  constructor.
  - intros name t M. apply maps_to_In in M. destruct (G _ _ M) as (_ & ND & _).
    apply (usable_one t None); [exact ND|]. apply Forall_forall. intros [bus b] J. eapply NA; eauto.
  - split.
    + intros tile t s fn M _ I. apply maps_to_In in M. destruct (G _ _ M) as (_ & _ & S & _). eauto.
    + intros tile site (t & fn & M & I & _). destruct (G _ _ M) as (_ & _ & _ & S & _). eauto.
  - exact UD.
  - intros tile t bus b j M MB L. apply maps_to_In in M, MB. destruct (G _ _ M) as (_ & _ & _ & _ & S).
    destruct (S _ _ MB) as [S1 _]. auto.
  - intros tile rest k bus b l sb (t & ty & seen & d & segs & M & SA & B & _ & _ & MB & MS & ML) I.
    apply maps_to_In in M, MB, MS, ML. destruct (G _ _ M) as (_ & _ & _ & _ & S). destruct (S _ _ MB) as [_ S2].
    assert (ty = t_type t).
    { destruct SA as [|bus' b' al f' J E _]; [reflexivity|]. rewrite (NA _ _ M _ _ J) in E. discriminate E. }
    subst ty. exact (S2 d segs _ sb B MS ML I).
Qed.

Definition demo_db : tiles := match demo_tls with Ok t => t | _ => ex_db end.
Example demo_db_parsed : parse_database demo_env document_order (tx "db") (tx "xc7a35t") = Ok demo_db.
Proof.
  unfold demo_db, demo_tls. pose proof demo_parses as H. unfold demo_tls in H.
  destruct (parse_database demo_env document_order (tx "db") (tx "xc7a35t")); first [reflexivity|discriminate H].
Qed.
Example demo_part : tl_part demo_db =
  {| dp_idcode := 0x0362D093; dp_bottom_rows := []; dp_top_rows := [[(BusCLBIOCLK, [3; 2])]];
     dp_iobanks := [(14, tx "X1Y26")] |}.
Proof. vm_compute. reflexivity. Qed.
Example demo_usable : usable_device (tl_part demo_db).
Proof.
  rewrite demo_part. set (dp := Build_db_part _ _ _ _).
  assert (F : part_fits dp) by (apply part_fitsb_sound; reflexivity).
  split; [exact F|]. split.
  - apply (C09_regular_no_holes dp [BusCLBIOCLK]); [exact F|]. split; [discriminate|].
    intros [|] row; cbn; [intros []|]. intros [<-|[]]. split; [intros t; cbn; reflexivity|].
    intros t cols [E|[]]. injection E as <- <-. split; [discriminate|repeat constructor].
  - split; [apply frame_address_dec; reflexivity|]. split; [reflexivity|].
    apply Nat.leb_le. vm_compute. reflexivity.
Qed.
(** The hypotheses of C62 and C65 hold of the demo directory. *)
Example C62_case_sound : sound_database demo_db.
Proof. apply sound_check_ok; [exact demo_usable|]. vm_compute. reflexivity. Qed.
Example C62_case_short : short_lines demo_input.
Proof.
  unfold short_lines. intros line I.
  assert (H : forallb (fun l => N.of_nat (List.length l) <? 2 ^ 24 - 1) (getlines demo_input) = true)
    by (vm_compute; reflexivity).
  rewrite forallb_forall in H. specialize (H _ I). now apply N.ltb_lt.
Qed.
