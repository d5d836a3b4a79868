(** Properties C71 (for every reading of the files) and C77: the iteration order of the hash containers
    does not show in the output. *)
From Verif Require Import Base BaseFacts Absl Part PartSpec PartFromFacts Frame Frames Fasm FasmSpec FasmLines
  DbText DbJson Database Packet PacketFacts Writer WriterFacts Config ConfigSpec ContainerSpec Reader Encode EncodeSpec EncodeFacts
  Assembler AsmSpec MapFacts AsmFacts LookupFacts ProcessFacts RegistryFacts StepdownFacts
  AsmLines AsmWhole AsmItems JsonFacts JsonFacts2 DbSpec JsonSpec LoadSpec DbFacts LoadFacts OrderFacts P_Lookup P_Database P_Database3 P_Database4 OutcomeFacts
  P_Bitstream P_Assembler P_Main P_Main2 EndSpec EndFacts AsmExample P_EndToEnd SameSpec SameFacts.
From Coq Require Import ZifyBool ZifyN ZifyNat.

(** ** C77: one description *)

(** Two readings of the same files differ at most in the order of their containers; the pins are
    equal. *)
Theorem C77_one_description :
  forall e root part g p pins g' p' pins', sound_files e ->
  database_says e root part g p pins -> database_says e root part g' p' pins' ->
  same_grid g g' /\ same_part p p' /\ pins = pins'.
Proof. exact database_says_same. Qed.
Print Assumptions C77_one_description.

(** ** C71 for every description *)
Theorem C71_exit_zero_for_any_reading :
  forall fuel ord c s root input g p pins,
  good_orders ord -> c_stdout c = file_at_end [] -> header_text (c_date c) -> header_text (c_time c) ->
  sound_files (c_env c) -> (forall root, sound_walk (c_env c) root) ->
  main_program fuel Iso ord c = Ok (0, s) ->
  db_path c = Some root -> input_text c = Some input -> short_lines input ->
  database_says (c_env c) root (c_part c) g p pins ->
  consistent_description (c_env c) root g p -> distinct_banks p ->
  exists pud feats fs,
    pudcb_default g pud /\ text_features Iso input feats /\
    configuration_of (c_env c) root g p pins (pud ++ feats) fs /\
    programs p (c_date c) (c_time c) fs (st_bytes s) /\
    decode p (st_bytes s) = Ok (Some fs).
Proof.
  intros fuel ord c s root input g p pins G ES HD HT SF SW H ER EI SL DS CD DB.
  destruct (exit_zero _ _ _ _ _ H) as (root' & tls & input' & fr & Er & ED & Ei & EA & EE).
  assert (root' = root) as -> by congruence. assert (input' = input) as -> by congruence.
  pose proof G as (_ & _ & _ & _ & GT).
  destruct (loaded_registry _ _ _ _ _ SF GT ED) as (pins' & DS' & BK).
  destruct (database_says_same _ _ _ _ _ _ _ _ _ SF DS DS') as (SG & SP & <-).
  pose proof (consistent_same _ _ _ _ _ _ SG SP CD) as CD'.
  pose proof (sound_same (c_env c) root (c_part c) (o_load ord) tls SF (SW root) ED CD') as D.
  pose proof (assembled_design _ _ _ _ D G SL EA) as DG. rewrite ES in EE.
  destruct (written_file _ _ _ _ _ _ (sd_device _ D) DG HD HT EE) as (fs & S1 & S2 & S3 & S4 & S5 & S6).
  destruct (pudcb_ok _ (sd_sites _ D)) as (pud & EP & PD & _).
  destruct (run_result Iso ord tls input pud fr (sd_grid _ D) (sd_sites _ D) G
              (fun fs => text_reported input fs SL) EP EA) as (feats & T & _ & _ & _ & _ & B).
  exists pud, feats, fs. split; [eapply pudcb_default_same; [apply same_grid_sym, SG|exact PD]|]. split; [exact T|].
  assert (P5 : programs p (c_date c) (c_time c) fs (st_bytes s)) by (unfold programs in *; now rewrite (proj1 SP)).
  assert (CF : configuration_of (c_env c) root g p pins (pud ++ feats) fs).
  { eapply configuration_same; [apply same_grid_sym, SG|apply same_part_sym, SP|eapply distinct_banks_same; eauto|].
    split; [exact S1|]. split; [exact S2|]. split; [exact S3|]. intros a w i. rewrite S4, B.
    apply (bits_same (c_env c) root (c_part c) (o_load ord)); auto. }
  split; [exact CF|]. split; [exact P5|].
  unfold decode in *. rewrite (part_from_same p (tl_part tls)); [exact S6|apply CD|exact SP].
Qed.
Print Assumptions C71_exit_zero_for_any_reading.

Theorem C71_covered_designs_are_written_for_any_reading :
  forall ord c root input g p pins feats pud,
  good_orders ord -> c_stdout c = file_at_end [] -> header_text (c_date c) -> header_text (c_time c) ->
  sound_files (c_env c) -> sound_walk (c_env c) root -> e_walk (c_env c) root <> None ->
  (List.length (c_args c) <= 2)%nat -> db_path c = Some root -> root <> [] -> e_exists (c_env c) root = true ->
  c_part c <> [] -> input_text c = Some input -> short_lines input -> text_features Iso input feats ->
  database_says (c_env c) root (c_part c) g p pins ->
  consistent_description (c_env c) root g p -> distinct_banks p -> one_pudcb g -> pudcb_default g pud ->
  package_covers g p pins (pud ++ feats) ->
  (forall f, in_design g p pins (pud ++ feats) f -> covered (c_env c) root g f) ->
  exists fuel0 s, forall fuel, (fuel0 <= fuel)%nat -> main_program fuel Iso ord c = Ok (0, s).
Proof.
  intros ord c root input g p pins feats pud G ES HD HT SF SW WN LA ER NR EX NP EI SL T DS CD DB OP PD PC CV.
  destruct (C71_covered_designs_are_written ord c root input g p pins feats G ES HD HT SF SW WN LA ER NR EX NP EI SL T DS)
    as (g' & p' & pins' & DS' & H).
  destruct (database_says_same _ _ _ _ _ _ _ _ _ SF DS DS') as (SG & SP & <-).
  destruct (H (consistent_same _ _ _ _ _ _ SG SP CD)) as (pud' & PD' & H').
  assert (pud' = pud) as ->.
  { eapply pudcb_unique; [exact OP| |exact PD]. eapply pudcb_default_same; [apply same_grid_sym, SG|exact PD']. }
  apply H'; [eapply package_covers_same; eauto|]. intros f I. eapply covered_same; [exact SG|]. apply CV.
  eapply in_design_same; [apply same_grid_sym, SG|apply same_part_sym, SP|eapply distinct_banks_same; eauto|exact I].
Qed.
Print Assumptions C71_covered_designs_are_written_for_any_reading.

(** ** C77: reproducible output *)
Lemma wf_shows fr a w i : wf_frames fr -> (shows fr a w i <-> bit_at fr a w i = true).
Proof. intros [S _]. rewrite bit_at_In; [reflexivity|]. now apply bt_keys_NoDup. Qed.
Lemma present_key (fr : asm_frames) a : present fr a <-> In a (map fst fr).
Proof.
  unfold present. rewrite in_map_iff. split.
  - intros (f & I). exists (a, f). auto.
  - intros ([a' f] & E & I). cbn [fst] in E. subst a'. eauto.
Qed.
Lemma same_frames fr fr' : wf_frames fr -> wf_frames fr' ->
  (forall a, present fr a <-> present fr' a) -> (forall a w i, bit_at fr a w i = true <-> bit_at fr' a w i = true) -> fr = fr'.
Proof.
  intros W W' P B. pose proof W as [S C]. pose proof W' as [S' C']. apply frames_ext; auto.
  - intros a. rewrite <- !present_key. apply P.
  - intros a w i. rewrite !wf_shows by assumption. apply B.
Qed.

Lemma touched_same e root part o o' tls tls' f a :
  sound_files e -> sound_walk e root -> parse_database e o root part = Ok tls -> parse_database e o' root part = Ok tls' ->
  same_grid (tl_grid tls) (tl_grid tls') -> touched tls f a -> touched tls' f a.
Proof.
  intros SF SW L L' SG (bus & b & sb & (tile & rest & k & l & FD & En & Ent & I) & H).
  apply (entry_same e root part o tls SF SW L) in Ent.
  destruct (listed_same _ _ _ _ SG _ _ _ _ _ _ Ent) as (b' & L2 & SB). apply (entry_same e root part o' tls' SF SW L') in L2.
  exists bus, b', sb. split; [exists tile, rest, k, l; auto|]. rewrite <- (proj1 SB), <- (proj1 (proj2 SB)). exact H.
Qed.

Section Both.
  Context (ord ord' : orders) (e : environment) (root part input : text) (tls tls' : tiles) (g : tilegrid) (p : db_part) (pins : list package_pin).
  Hypothesis G : good_orders ord.
  Hypothesis G' : good_orders ord'.
  Hypothesis SF : sound_files e.
  Hypothesis SW : sound_walk e root.
  Hypothesis ED : parse_database e (o_load ord) root part = Ok tls.
  Hypothesis ED' : parse_database e (o_load ord') root part = Ok tls'.
  Hypothesis SL : short_lines input.
  Hypothesis DS : database_says e root part g p pins.
  Hypothesis CD : consistent_description e root g p.
  Hypothesis DB : distinct_banks p.
  Hypothesis OP : one_pudcb g.

  (** The frames and the part of the two runs. *)
  Lemma assemble_same fr : assemble_frames Iso ord tls input = Ok fr -> assemble_frames Iso ord' tls' input = Ok fr.
  Proof.
    intros EA. pose proof G as (_ & _ & _ & _ & GT). pose proof G' as (_ & _ & _ & _ & GT').
    destruct (loaded_registry _ _ _ _ _ SF GT ED) as (pins1 & DS1 & BK).
    destruct (database_says_same _ _ _ _ _ _ _ _ _ SF DS DS1) as (SG1 & SP1 & <-).
    destruct (loaded_registry _ _ _ _ _ SF GT' ED') as (pins2 & DS2 & BK').
    destruct (database_says_same _ _ _ _ _ _ _ _ _ SF DS1 DS2) as (SG & SP & <-).
    pose proof (consistent_same _ _ _ _ _ _ SG1 SP1 CD) as CD1. pose proof (consistent_same _ _ _ _ _ _ SG SP CD1) as CD2.
    pose proof (sound_same e root part (o_load ord) tls SF SW ED CD1) as D.
    pose proof (sound_same e root part (o_load ord') tls' SF SW ED' CD2) as D'.
    pose proof (distinct_banks_same _ _ SP1 DB) as DB1. pose proof (distinct_banks_same _ _ SP DB1) as DB2.
    pose proof (same_grid_sym _ _ SG) as SG'. pose proof (same_part_sym _ _ SP) as SP'.
    destruct (pudcb_ok _ (sd_sites _ D)) as (pud & EP & PD & _). destruct (pudcb_ok _ (sd_sites _ D')) as (pud' & EP' & PD' & _).
    assert (pud' = pud) as ->.
    { apply (pudcb_unique g); [exact OP| |]; (eapply pudcb_default_same; [apply same_grid_sym, SG1|]); [eapply pudcb_default_same; eauto|exact PD]. }
    destruct (run_result Iso ord tls input pud fr (sd_grid _ D) (sd_sites _ D) G
                (fun fs => text_reported input fs SL) EP EA) as (feats & T & RD & K & W & P & B).
    assert (AF : forall f, all_features tls (pud ++ feats) f <-> all_features tls' (pud ++ feats) f).
    { intros f. rewrite (features_same (o_load ord) tls pins GT BK), (features_same (o_load ord') tls' pins GT' BK').
      split; eapply in_design_same; eauto. }
    assert (KN : forall f, all_features tls' (pud ++ feats) f -> known tls' f /\ fits tls' f).
    { intros f F. apply AF in F. apply K in F. apply (known_same e root part (o_load ord) tls SF SW ED) in F.
      apply (known_same e root part (o_load ord') tls' SF SW ED'). eapply covered_same; eauto. }
    assert (RD' : stepdown_ready (tl_banks tls') (tl_grid tls') (pud ++ feats)).
    { rewrite BK in RD. rewrite BK'.
      apply (ready_same (tl_grid tls) (tl_part tls) pins (lo_tiles (o_load ord)) (proj1 GT) _ (sd_sites _ D)) in RD.
      apply (ready_same (tl_grid tls') (tl_part tls') pins (lo_tiles (o_load ord')) (proj1 GT') _ (sd_sites _ D')).
      eapply package_covers_same; eauto. }
    destruct (assemble_spec ord' tls' input pud (sd_grid _ D') (sd_sites _ D') G' SL EP') as [A _].
    destruct (A feats T RD' KN) as (fr' & EA').
    destruct (run_result Iso ord' tls' input pud fr' (sd_grid _ D') (sd_sites _ D') G'
                (fun fs => text_reported input fs SL) EP' EA') as (feats' & T' & _ & _ & W' & P' & B').
    assert (feats' = feats) as -> by (eapply text_features_fun; eauto).
    rewrite EA'. f_equal. apply same_frames; auto.
    - intros a. rewrite P, P'. split; intros (f & F & Q); exists f; (split; [now apply AF|]).
      + exact (touched_same _ _ _ _ _ _ _ f a SF SW ED' ED SG' Q).
      + exact (touched_same _ _ _ _ _ _ _ f a SF SW ED ED' SG Q).
    - intros a w i. rewrite B, B'. split; intros (f & F & Q); exists f; (split; [now apply AF|]).
      + apply (requested_same e root part (o_load ord') tls' SF SW ED') in Q.
        apply (requested_same e root part (o_load ord) tls SF SW ED). eapply sets_bit_same; eauto.
      + apply (requested_same e root part (o_load ord) tls SF SW ED) in Q.
        apply (requested_same e root part (o_load ord') tls' SF SW ED'). eapply sets_bit_same; eauto.
  Qed.
  Lemma encode_same fuel pn sn date time fr out :
    encode fuel (tl_part tls) pn sn date time fr out = encode fuel (tl_part tls') pn sn date time fr out.
  Proof.
    pose proof G as (_ & _ & _ & _ & GT). pose proof G' as (_ & _ & _ & _ & GT').
    destruct (loaded_registry _ _ _ _ _ SF GT ED) as (pins1 & DS1 & BK).
    destruct (database_says_same _ _ _ _ _ _ _ _ _ SF DS DS1) as (SG1 & SP1 & <-).
    destruct (loaded_registry _ _ _ _ _ SF GT' ED') as (pins2 & DS2 & BK').
    destruct (database_says_same _ _ _ _ _ _ _ _ _ SF DS1 DS2) as (SG & SP & <-).
    unfold encode. rewrite (part_from_same (tl_part tls) (tl_part tls')); [reflexivity| |exact SP].
    apply (consistent_same _ _ _ _ _ _ SG1 SP1 CD).
  Qed.
End Both.

(** If the program succeeds under one iteration order, it does the same under every other, byte for
    byte. *)
Theorem C77_reproducible :
  forall fuel ord ord' c s root input g p pins,
  good_orders ord -> good_orders ord' -> sound_files (c_env c) -> sound_walk (c_env c) root ->
  db_path c = Some root -> input_text c = Some input -> short_lines input ->
  database_says (c_env c) root (c_part c) g p pins -> consistent_description (c_env c) root g p ->
  distinct_banks p -> one_pudcb g ->
  main_program fuel Iso ord c = Ok (0, s) -> main_program fuel Iso ord' c = Ok (0, s).
Proof.
  intros fuel ord ord' c s root input g p pins G G' SF SW ER EI SL DS CD DB OP H.
  destruct (exit_zero _ _ _ _ _ H) as (root1 & tls & input1 & fr & Er & ED & Ei & EA & EE).
  assert (root1 = root) as -> by congruence. assert (input1 = input) as -> by congruence. clear Er Ei.
  assert (WN : e_walk (c_env c) root <> None).
  { intros W. unfold parse_database in ED. apply obind_ok in ED as (i & _ & ED). apply obind_ok in ED as (gt & _ & ED). apply obind_ok in ED as (gg & _ & ED).
    apply obind_ok in ED as (paths & X & _). unfold index_tile_types in X. rewrite W in X. discriminate X. }
  destruct (C69_described_database_is_accepted _ (o_load ord') _ _ _ _ _ SF WN DS) as (tls' & ED').
  pose proof (assemble_same ord ord' (c_env c) root (c_part c) input tls tls' g p pins G G' SF SW ED ED' SL DS CD DB OP fr EA) as EA'.
  rewrite (encode_same ord ord' (c_env c) root (c_part c) tls tls' g p pins G G' SF ED ED' DS CD) in EE.
  unfold main_program in *.
  destruct (2 <? List.length (c_args c))%nat; [discriminate H|]. rewrite ER in *.
  destruct (match root with [] => true | _ => negb (e_exists (c_env c) root) end); [discriminate H|].
  destruct (c_part c) as [|pc pr] eqn:EPT; [discriminate H|]. rewrite ED', EI, EA', EE. reflexivity.
Qed.
Print Assumptions C77_reproducible.

(** *** Concrete cases *)
Lemma demo_one_pudcb : one_pudcb (tl_grid demo_db).
Proof.
  assert (X : forallb (fun p : text * tile => forallb (fun sf : text * text =>
      negb (str_contains (tx "PUDC_B") (snd sf)) || (text_eqb (fst p) (tx "LIOB33_X0Y1") && text_eqb (fst sf) (tx "IOB_X0Y1")))
      (t_pin_functions (snd p))) (tl_grid demo_db) = true) by (vm_compute; reflexivity).
  rewrite forallb_forall in X.
  assert (Y : forall tile site, pudcb_pin (tl_grid demo_db) tile site -> tile = tx "LIOB33_X0Y1" /\ site = tx "IOB_X0Y1").
  { intros tile site (t & fn & I & I2 & C). specialize (X _ I). cbn [fst snd] in X. rewrite forallb_forall in X. specialize (X _ I2). cbn [fst snd] in X.
    apply orb_prop in X as [X|X].
    - apply negb_true_iff in X. apply str_contains_spec in C. congruence.
    - apply andb_prop in X as [X1 X2]. apply text_eqb_eq in X1. apply text_eqb_eq in X2. auto. }
  intros tile site tile' site' H H'. apply Y in H as [-> ->]. apply Y in H' as [-> ->]. auto.
Qed.

(** The demonstration database meets the hypotheses, and the two opposite orders agree. *)
Example C77_case : exists s pins,
  good_orders ex_orders /\ good_orders ex_orders' /\ sound_files demo_env /\ sound_walk demo_env (tx "db") /\
  db_path (demo_command demo_input) = Some (tx "db") /\ input_text (demo_command demo_input) = Some demo_input /\
  short_lines demo_input /\
  database_says demo_env (tx "db") (tx "xc7a35t") (tl_grid demo_db) (tl_part demo_db) pins /\
  consistent_description demo_env (tx "db") (tl_grid demo_db) (tl_part demo_db) /\
  distinct_banks (tl_part demo_db) /\ one_pudcb (tl_grid demo_db) /\
  main_program 3000 Iso ex_orders (demo_command demo_input) = Ok (0, s) /\
  main_program 3000 Iso ex_orders' (demo_command demo_input) = Ok (0, s).
Proof.
  destruct C71_case as (s & R & _). destruct C71_case_database as (pins & DS & CD). exists s, pins.
  assert (DB : distinct_banks (tl_part demo_db)) by (rewrite demo_part; repeat constructor; cbn; tauto).
  assert (RR : main_program 3000 Iso ex_orders' (demo_command demo_input) = Ok (0, s)).
  { eapply (C77_reproducible 3000 ex_orders ex_orders' (demo_command demo_input) s (tx "db") demo_input);
      eauto using ex_orders_good, ex_orders'_good, demo_sound_files, demo_sound_walk, C62_case_short, demo_one_pudcb. }
  exact (conj ex_orders_good (conj ex_orders'_good (conj demo_sound_files (conj (demo_sound_walk _)
    (conj eq_refl (conj eq_refl (conj C62_case_short (conj DS (conj CD (conj DB (conj demo_one_pudcb (conj R RR)))))))))))).
Qed.

(** *** Two PUDC_B pins *)

(** The same directory, with a second pin whose function names PUDC_B. *)
Definition twin_grid_json : json := JObj
  [(tx "LIOB33_X0Y1", demo_tile (tx "LIOB33")
      (JObj [(tx "CLB_IO_CLK", demo_block (tx "0x00000080") 2 2 4)])
      [(tx "IOB_X0Y1", tx "IO_L3P_T0_DQS_PUDC_B_14"); (tx "IOB_X0Y2", tx "IO_L3N_T0_DQS_PUDC_B_14")]
      [(tx "IOB_X0Y1", tx "IOB33S"); (tx "IOB_X0Y2", tx "IOB33M")]);
   (tx "HCLK_IOI3_X1Y26", demo_tile (tx "HCLK_IOI3")
      (JObj [(tx "CLB_IO_CLK", demo_block (tx "0x00000080") 2 50 1)]) [] [])].
Definition twin_files : list (text * text) :=
  map (fun p : text * text => if text_eqb (fst p) (tx "db/segbits_liob33.db") then
     (fst p, snd p ++ unlines
        [tx "LIOB33.IOB_Y0.LVCMOS12_LVCMOS15_LVCMOS18_LVCMOS25_LVCMOS33_LVDS_25_LVTTL_SSTL135_SSTL15_TMDS_33.IN_ONLY 00_02";
         tx "LIOB33.IOB_Y0.LVCMOS25_LVCMOS33_LVTTL.IN 00_10"; tx "LIOB33.IOB_Y0.PULLTYPE.PULLUP 00_34"])
     else p) demo_files.
Definition twin_env : environment :=
  {| e_read := fun p => hm_find text_eqb p twin_files;
     e_exists := fun p => text_eqb p (tx "db") || hm_contains text_eqb p twin_files;
     e_walk := fun p => if text_eqb p (tx "db") then Some (map fst twin_files) else None;
     e_json := fun s => if text_eqb s (tx "<grid>") then Some twin_grid_json
                        else if text_eqb s (tx "<part>") then Some demo_part_json else None |}.
Definition twin_command (input : text) : command :=
  {| c_args := [tx "fpga-as"]; c_db_flag := None; c_db_env := Some (tx "db"); c_part := tx "xc7a35t";
     c_stdin := input; c_open := fun _ => None; c_env := twin_env;
     c_date := tx "2024/10/01"; c_time := tx "12:00:00"; c_stdout := file_at_end [] |}.

Definition different (a b : outcome (N * stream)) : bool :=
  match a, b with
  | Ok (0, s), Ok (0, s') => negb (if list_eq_dec N.eq_dec (st_bytes s) (st_bytes s') then true else false)
  | _, _ => false
  end.

Definition twin_tls : outcome tiles := parse_database twin_env document_order (tx "db") (tx "xc7a35t").
Example twin_parses : match twin_tls with
  | Ok tls => (List.length (tl_grid tls) =? 2)%nat
  | _ => false end = true.
Proof. vm_compute. reflexivity. Qed.
Definition twin_db : tiles := match twin_tls with Ok t => t | _ => ex_db end.
Example twin_db_parsed : parse_database twin_env document_order (tx "db") (tx "xc7a35t") = Ok twin_db.
Proof.
  unfold twin_db, twin_tls. pose proof twin_parses as H. unfold twin_tls in H.
  destruct (parse_database twin_env document_order (tx "db") (tx "xc7a35t")); first [reflexivity|discriminate H].
Qed.
Example twin_part : tl_part twin_db = tl_part demo_db.
Proof. vm_compute. reflexivity. Qed.
Example twin_sound : sound_database twin_db.
Proof. apply sound_check_ok; [rewrite twin_part; exact demo_usable|]. vm_compute. reflexivity. Qed.
Lemma twin_sound_files : sound_files twin_env.
Proof.
  intros p c F. unfold file, twin_env in F. cbn [e_read] in F. apply (hm_find_maps _ text_eqb_eq) in F. apply maps_to_In in F.
  assert (X : Forall (fun pc : text * text => N.of_nat (List.length (snd pc)) < 2 ^ 32 - 1 /\ splittable (after_mapping (snd pc)) (snd pc)) twin_files).
  { unfold twin_files. apply Forall_map. repeat apply Forall_cons; [..|apply Forall_nil]; (split; [vm_compute; reflexivity|right; right; vm_compute; discriminate]). }
  rewrite Forall_forall in X. exact (X _ F).
Qed.
Lemma twin_sound_walk root : sound_walk twin_env root.
Proof.
  intros l E. cbn [twin_env e_walk] in E. destruct (text_eqb root (tx "db")); [|discriminate E].
  assert (l = map fst demo_files) as -> by (injection E as <-; vm_compute; reflexivity).
  repeat apply Forall_cons; [..|apply Forall_nil]; do 2 right; now left.
Qed.
Lemma twin_database : exists pins,
  database_says twin_env (tx "db") (tx "xc7a35t") (tl_grid twin_db) (tl_part twin_db) pins /\
  consistent_description twin_env (tx "db") (tl_grid twin_db) (tl_part twin_db).
Proof.
  destruct (loaded_registry _ _ _ _ _ twin_sound_files document_order_good twin_db_parsed) as (pins & DS & _). exists pins. split; [exact DS|].
  destruct twin_sound as [A B C D E]. constructor; try assumption. intros tile rest k bus b l sb En I.
  apply (entry_same _ _ _ _ _ twin_sound_files (twin_sound_walk _) twin_db_parsed) in En. eauto.
Qed.

(** Without [one_pudcb] the output does depend on the iteration order: the first PUDC_B pin met is
    the one that is configured. *)
Theorem C77_two_pudcb_pins_refuted :
  exists fuel ord ord' c s s' root input g p pins,
  good_orders ord /\ good_orders ord' /\ sound_files (c_env c) /\ sound_walk (c_env c) root /\
  db_path c = Some root /\ input_text c = Some input /\ short_lines input /\
  database_says (c_env c) root (c_part c) g p pins /\ consistent_description (c_env c) root g p /\
  distinct_banks p /\
  main_program fuel Iso ord c = Ok (0, s) /\ main_program fuel Iso ord' c = Ok (0, s') /\
  st_bytes s <> st_bytes s'.
Proof.
  destruct twin_database as (pins & DS & CD).
  assert (X : different (main_program 3000 Iso ex_orders (twin_command [])) (main_program 3000 Iso ex_orders' (twin_command [])) = true)
    by (vm_compute; reflexivity).
  unfold different in X.
  destruct (main_program 3000 Iso ex_orders (twin_command [])) as [[n s]| | | |] eqn:R; try discriminate X.
  destruct n; [|discriminate X].
  destruct (main_program 3000 Iso ex_orders' (twin_command [])) as [[n s']| | | |] eqn:R'; try discriminate X.
  destruct n; [|discriminate X].
  exists 3000%nat, ex_orders, ex_orders', (twin_command []), s, s', (tx "db"), [], (tl_grid twin_db), (tl_part twin_db), pins.
  assert (DB : distinct_banks (tl_part twin_db)) by (rewrite twin_part, demo_part; repeat constructor; cbn; tauto).
  assert (SL : short_lines []).
  { intros l I. destruct I. }
  assert (NE : st_bytes s <> st_bytes s').
  { intros E. destruct (list_eq_dec N.eq_dec (st_bytes s) (st_bytes s')); [discriminate X|contradiction]. }
  exact (conj ex_orders_good (conj ex_orders'_good (conj twin_sound_files (conj (twin_sound_walk _)
    (conj eq_refl (conj eq_refl (conj SL (conj DS (conj CD (conj DB (conj R (conj R' NE)))))))))))).
Qed.
Print Assumptions C77_two_pudcb_pins_refuted.
