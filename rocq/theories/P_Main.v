(** Properties C62, C65: the whole program. *)
From Verif Require Import Base BaseFacts Absl Part PartSpec PartFromFacts Frame Frames Fasm FasmSpec FasmLines
  DbText DbJson Database Packet Writer WriterFacts Reader Encode EncodeSpec EncodeFacts
  Assembler AsmSpec MapFacts AsmFacts LookupFacts ProcessFacts RegistryFacts StepdownFacts
  AsmLines AsmWhole AsmExample P_Bitstream P_Assembler P_Assembler2.
From Coq Require Import ZifyBool ZifyN ZifyNat.

(** ** C62 *)

(** The database is consistent: the grid and the device are usable, the blocks of the tiles are
    frames of the device, and the segment bits lie in the columns of their block. *)
Record sound_database (tls : tiles) : Prop := {
  sd_grid : usable_grid (tl_grid tls);
  sd_sites : numbered_grid (tl_grid tls);
  sd_device : usable_device (tl_part tls);
  sd_blocks : forall tile t bus b j, maps_to (tl_grid tls) tile t -> maps_to (t_bits t) bus b ->
    j < bb_frames b -> is_frame_address (tl_part tls) (bb_base b + j);
  sd_columns : forall tile rest k bus b l sb, entry tls tile rest k bus b l -> In sb l ->
    sb_column sb < bb_frames b
}.

Lemma touched_in_device tls f a : sound_database tls -> touched tls f a -> is_frame_address (tl_part tls) a.
Proof.
  intros D (bus & b & sb & (tile & rest & k & l & FD & En & Ent & Is) & X).
  pose proof (sd_columns _ D _ _ _ _ _ _ _ Ent Is) as C.
  destruct Ent as (t & ty & seen & d & segs & M & _ & _ & _ & _ & MB & _).
  destruct (sd_device _ D) as [F _].
  assert (L : forall j, j < bb_frames b -> is_frame_address (tl_part tls) (bb_base b + j) /\ bb_base b + j < 2 ^ 26).
  { intros j J. pose proof (sd_blocks _ D _ _ _ _ _ M MB J) as Q. split; [exact Q|].
    eapply is_frame_address_lt; eauto. }
  assert (P32 : 2 ^ 26 < 2 ^ 32) by (vm_compute; reflexivity).
  assert (P64 : 2 ^ 26 < 2 ^ 64) by (vm_compute; reflexivity).
  destruct X as [->|(j & J & ->)].
  - destruct (L _ C) as [Q Lt]. rewrite N.mod_small; [exact Q|]. eapply N.lt_trans; eauto.
  - destruct (L _ J) as [Q Lt]. rewrite N.mod_small; [exact Q|]. eapply N.lt_trans; eauto.
Qed.

(** The frames of a successful run are a design for the device. *)
Lemma assembled_design tls ord input fr : sound_database tls -> good_orders ord -> short_lines input ->
  assemble_frames Iso ord tls input = Ok fr -> design (tl_part tls) fr.
Proof.
  intros D G SL H. destruct (pudcb_ok _ (sd_sites _ D)) as (pud & EP & _).
  destruct (run_result Iso ord tls input pud fr (sd_grid _ D) (sd_sites _ D) G
              (fun fs => text_reported input fs SL) EP H) as (fs & _ & _ & _ & W & P & _).
  split; [apply bt_keys_NoDup; apply W|]. destruct W as [S W].
  rewrite Forall_forall in *. intros [a f] I. split; [|exact (W _ I)]. cbn [fst].
  assert (PR : present fr a) by (exists f; exact I). apply P in PR as (g & _ & T).
  eapply touched_in_device; eauto.
Qed.

Lemma bt_find_content (fr : asm_frames) a : bt_find a fr = content fr a.
Proof.
  unfold asm_frames, btmap in fr. induction fr as [|[k f] fr IH]; [reflexivity|].
  cbn [bt_find content]. destruct (a =? k); [reflexivity|exact IH].
Qed.

Lemma completed_bit dp (fr fs : asm_frames) a w i :
  (forall a, bt_find a fs = completed dp fr a) -> bit_at fs a w i = bit_at fr a w i.
Proof.
  intros H. unfold bit_at. rewrite H. unfold completed. rewrite bt_find_content.
  destruct (content fr a) as [f|]; [reflexivity|].
  destruct (existsb (N.eqb a) (device_frames dp)); [|reflexivity].
  rewrite nth_repeat. apply N.bits_0.
Qed.

(** Exit status 0 with standard output redirected to an empty file: the file decodes, for the
    selected part, to a configuration of all the frames of the device whose bits are exactly those
    requested by the features of the input and the implied ones. *)
Theorem C62_exit_zero_means_a_bitstream_of_the_design :
  forall fuel ord c s,
  good_orders ord -> c_stdout c = file_at_end [] -> header_text (c_date c) -> header_text (c_time c) ->
  main_program fuel Iso ord c = Ok (0, s) ->
  exists root tls input,
    db_path c = Some root /\
    parse_database (c_env c) (o_load ord) root (c_part c) = Ok tls /\
    input_text c = Some input /\
    (sound_database tls -> short_lines input ->
     exists fs pud feats,
       decode (tl_part tls) (st_bytes s) = Ok (Some fs) /\
       (forall a, (exists f, bt_find a fs = Some f) <-> is_frame_address (tl_part tls) a) /\
       pudcb_default (tl_grid tls) pud /\ text_features Iso input feats /\
       forall a w i, bit_at fs a w i = true <->
         exists f, all_features tls (pud ++ feats) f /\ requested tls f a w i).
Proof.
  intros fuel ord c s G ES HD HT H. unfold main_program in H.
  destruct (2 <? List.length (c_args c))%nat; [discriminate H|].
  destruct (db_path c) as [root|]; [|discriminate H].
  destruct (match root with [] => true | _ => negb (e_exists (c_env c) root) end); [discriminate H|].
  destruct (c_part c) as [|pc pr] eqn:EPT; [discriminate H|]. rewrite <- EPT in *.
  destruct (parse_database (c_env c) (o_load ord) root (c_part c)) as [tls| | | |] eqn:ED; try discriminate H.
  destruct (input_text c) as [input|]; [|discriminate H].
  destruct (assemble_frames Iso ord tls input) as [fr| | | |] eqn:EA; try discriminate H.
  destruct (encode fuel (tl_part tls) (tx "fasm") (tx "fpga-source") (c_date c) (c_time c) fr (c_stdout c))
    as [s'| | | |] eqn:EE; try discriminate H. injection H as <-.
  exists root, tls, input. split; [reflexivity|]. split; [exact ED|]. split; [reflexivity|].
  intros D SL. pose proof (assembled_design _ _ _ _ D G SL EA) as DS. rewrite ES in EE.
  assert (HP : header_text (tx "fasm")) by (split; [repeat constructor|reflexivity]).
  assert (HS : header_text (tx "fpga-source")) by (split; [repeat constructor|reflexivity]).
  destruct (C23_any_run _ _ _ _ _ _ _ _ (sd_device _ D) DS HP HS HD HT EE) as (fs & DC & CP).
  destruct (pudcb_ok _ (sd_sites _ D)) as (pud & EP & PD & _).
  destruct (run_result Iso ord tls input pud fr (sd_grid _ D) (sd_sites _ D) G
              (fun fs => text_reported input fs SL) EP EA) as (feats & T & _ & _ & _ & _ & B).
  exists fs, pud, feats. split; [exact DC|]. split.
  - intros a. rewrite CP. unfold completed. rewrite <- device_frames_spec.
    destruct (content fr a) as [f|] eqn:EC.
    + split; [|eauto]. intros _. apply device_frames_spec. destruct DS as [_ DS].
      rewrite <- bt_find_content in EC. rewrite Forall_forall in DS.
      assert (I : In (a, f) fr).
      { clear - EC. unfold asm_frames, btmap in fr. induction fr as [|[k g] fr IH]; [discriminate EC|].
        cbn [bt_find] in EC. destruct (N.eqb_spec a k) as [->|]; [inversion EC; now left|right; auto]. }
      apply (DS _ I).
    + destruct (existsb (N.eqb a) (device_frames (tl_part tls))) eqn:EX.
      * split; [|eauto]. intros _. apply existsb_exists in EX as (x & I & E). apply N.eqb_eq in E. now subst.
      * split; [intros (f & X); discriminate X|]. intros I. exfalso.
        assert (existsb (N.eqb a) (device_frames (tl_part tls)) = true); [|congruence].
        apply existsb_exists. exists a. split; [exact I|apply N.eqb_refl].
  - split; [exact PD|]. split; [exact T|]. intros a w i. rewrite (completed_bit _ _ _ _ _ _ CP). apply B.
Qed.
Print Assumptions C62_exit_zero_means_a_bitstream_of_the_design.

(** Conversely, a design that the database covers is written: the program ends with status 0. *)
Theorem C62_good_designs_are_written :
  forall ord c root tls input fr,
  good_orders ord -> c_stdout c = file_at_end [] -> header_text (c_date c) -> header_text (c_time c) ->
  (List.length (c_args c) <= 2)%nat -> db_path c = Some root -> root <> [] -> e_exists (c_env c) root = true ->
  c_part c <> [] -> parse_database (c_env c) (o_load ord) root (c_part c) = Ok tls ->
  input_text c = Some input -> sound_database tls -> short_lines input ->
  assemble_frames Iso ord tls input = Ok fr ->
  exists fuel0 s, forall fuel, (fuel0 <= fuel)%nat -> main_program fuel Iso ord c = Ok (0, s).
Proof.
  intros ord c root tls input fr G ES HD HT LA ER NR EX NP ED EI D SL EA.
  assert (HP : header_text (tx "fasm")) by (split; [repeat constructor|reflexivity]).
  assert (HS : header_text (tx "fpga-source")) by (split; [repeat constructor|reflexivity]).
  destruct (C23_frames_survive (tl_part tls) fr _ _ _ _ (sd_device _ D)
              (assembled_design _ _ _ _ D G SL EA) HP HS HD HT) as (fuel0 & fs & _ & E).
  destruct (E fuel0 (le_n _)) as (s & E0 & _). exists fuel0, s. intros fuel LF.
  apply (encode_mono _ _ _ _ _ _ _ _ fuel) in E0; [|exact LF]. unfold main_program.
  assert (X : (2 <? List.length (c_args c))%nat = false) by (apply Nat.ltb_ge; exact LA). rewrite X, ER.
  destruct root as [|r0 rs]; [contradiction|]. rewrite EX. cbn [negb].
  destruct (c_part c) as [|pc pr] eqn:EPT; [contradiction|]. rewrite ED, EI, EA, ES, E0. reflexivity.
Qed.
Print Assumptions C62_good_designs_are_written.

(** The reasons to give up before writing. *)
Inductive gives_up (ord : orders) (sm : shift_model) (c : command) : Prop :=
| too_many_arguments : (2 < List.length (c_args c))%nat -> gives_up ord sm c
| no_database_path : db_path c = None -> gives_up ord sm c
| bad_database_path : forall root, db_path c = Some root ->
    root = [] \/ e_exists (c_env c) root = false -> gives_up ord sm c
| no_part : c_part c = [] -> gives_up ord sm c
| database_rejected : forall root, db_path c = Some root ->
    parse_database (c_env c) (o_load ord) root (c_part c) = Err -> gives_up ord sm c
| no_input : input_text c = None -> gives_up ord sm c
| design_rejected : forall root tls input, db_path c = Some root ->
    parse_database (c_env c) (o_load ord) root (c_part c) = Ok tls -> input_text c = Some input ->
    assemble_frames sm ord tls input = Err -> gives_up ord sm c.

Lemma wi_words_not_err ks : forall fuel i, wi_words fuel ks i <> Err.
Proof.
  induction fuel as [|fuel IH]; intros i; cbn [wi_words]; [discriminate|].
  destruct (wi_eqb i (wi_end ks)); [discriminate|].
  assert (A : wi_deref i <> Err).
  { unfold wi_deref. destruct (negb _); [destruct (nth_error _ _); discriminate|].
    destruct (wi_op i) as [pi|]; [|discriminate]. unfold pi_deref.
    destruct (pi_st pi); try discriminate. destruct (nth_error _ _); discriminate. }
  assert (B : wi_next ks i <> Err).
  { unfold wi_next. destruct (negb _).
    - destruct (Nat.eqb _ _); [destruct ks; discriminate|discriminate].
    - destruct (wi_op i) as [pi|]; [|discriminate]. destruct (nth_error ks (wi_pkt i)); [|discriminate].
      destruct (pi_eqb _ _); [destruct (nth_error ks _); discriminate|discriminate]. }
  destruct (wi_deref i) as [w| | | |]; cbn [obind]; try discriminate; [|contradiction].
  destruct (wi_next ks i) as [i'| | | |]; cbn [obind]; try discriminate; [|contradiction].
  specialize (IH i'). destruct (wi_words fuel ks i') as [ws| | | |]; cbn [obind]; try discriminate. contradiction.
Qed.

Lemma encode_not_err fuel dp part source date time fd out :
  encode fuel dp part source date time fd out <> Err.
Proof.
  unfold encode, add_missing_frames. generalize (convert_frames fd) as m. generalize 0 as a.
  assert (A : forall fl a m, add_missing_from fl (part_from dp) a m <> Err).
  { induction fl as [|fl IH]; intros a m; cbn [add_missing_from]; [discriminate|].
    destruct (part_next (part_from dp) a); [apply IH|discriminate]. }
  intros a m. specialize (A fuel a m).
  destruct (add_missing_from fuel (part_from dp) a m) as [fs| | | |]; cbn [obind]; try discriminate; [|contradiction].
  unfold write_bitstream, writer_words.
  match goal with |- context [wi_words ?f ?k ?i] => pose proof (wi_words_not_err k f i) as B;
    destruct (wi_words f k i); cbn [obind]; try discriminate; contradiction end.
Qed.

(** The program ends with status 0 or 1; with status 1 nothing was written, and it ends so exactly
    when it gives up. *)
Theorem C62_status_and_output :
  forall fuel sm ord c n s, main_program fuel sm ord c = Ok (n, s) ->
  n = 0 \/ (n = 1 /\ s = c_stdout c).
Proof.
  intros fuel sm ord c n s H. unfold main_program in H.
  repeat match type of H with
  | (if ?x then _ else _) = _ => destruct x
  | match ?x with _ => _ end = _ => destruct x
  end; try discriminate H; inversion H; auto.
Qed.
Print Assumptions C62_status_and_output.

Theorem C62_exit_one_means_it_gives_up :
  forall fuel sm ord c s, main_program fuel sm ord c = Ok (1, s) -> gives_up ord sm c.
Proof.
  intros fuel sm ord c s H. unfold main_program in H.
  destruct (2 <? List.length (c_args c))%nat eqn:E1.
  { apply too_many_arguments. now apply Nat.ltb_lt. }
  destruct (db_path c) as [root|] eqn:E2; [|now apply no_database_path].
  destruct (match root with [] => true | _ => negb (e_exists (c_env c) root) end) eqn:E3.
  { apply (bad_database_path ord sm c root E2). destruct root as [|r rs]; [now left|]. right.
    now apply negb_true_iff. }
  destruct (c_part c) as [|pc pr] eqn:EPT; [now apply no_part|]. rewrite <- EPT in *.
  destruct (parse_database (c_env c) (o_load ord) root (c_part c)) as [tls| | | |] eqn:ED; try discriminate H.
  2:{ eapply database_rejected; eauto. }
  destruct (input_text c) as [input|] eqn:EI; [|now apply no_input].
  destruct (assemble_frames sm ord tls input) as [fr| | | |] eqn:EA; try discriminate H.
  2:{ eapply design_rejected; eauto. }
  pose proof (encode_not_err fuel (tl_part tls) (tx "fasm") (tx "fpga-source") (c_date c) (c_time c) fr (c_stdout c)).
  destruct (encode fuel (tl_part tls) (tx "fasm") (tx "fpga-source") (c_date c) (c_time c) fr (c_stdout c));
    try discriminate H. contradiction.
Qed.
Print Assumptions C62_exit_one_means_it_gives_up.

Theorem C62_giving_up_is_not_success :
  forall fuel sm ord c s, gives_up ord sm c -> main_program fuel sm ord c <> Ok (0, s).
Proof.
  intros fuel sm ord c s G H. unfold main_program in H.
  destruct (2 <? List.length (c_args c))%nat eqn:E1; [discriminate H|].
  destruct (db_path c) as [root|] eqn:E2; [|discriminate H].
  destruct (match root with [] => true | _ => negb (e_exists (c_env c) root) end) eqn:E3; [discriminate H|].
  destruct (c_part c) as [|pc pr] eqn:EPT; [discriminate H|]. rewrite <- EPT in *.
  destruct (parse_database (c_env c) (o_load ord) root (c_part c)) as [tls| | | |] eqn:ED; try discriminate H.
  destruct (input_text c) as [input|] eqn:EI; [|discriminate H].
  destruct (assemble_frames sm ord tls input) as [fr| | | |] eqn:EA; try discriminate H.
  destruct G as [L|N|root' R X|N|root' R X|N|root' tls' input' R X Y Z].
  - apply Nat.ltb_ge in E1. lia.
  - congruence.
  - assert (root' = root) by congruence. subst root'. destruct X as [-> |X]; [discriminate E3|].
    destruct root as [|r rs]; [discriminate E3|]. rewrite X in E3. discriminate E3.
  - congruence.
  - assert (root' = root) by congruence. subst root'. congruence.
  - congruence.
  - assert (root' = root) by congruence. subst root'. assert (tls' = tls) by congruence. subst tls'.
    assert (input' = input) by congruence. subst input'. congruence.
Qed.
Print Assumptions C62_giving_up_is_not_success.

(** *** Where the program looks *)
(** The same command line with other sources of the database path and of the input. *)
Definition with_db (flag env : option text) (c : command) : command :=
  {| c_args := c_args c; c_db_flag := flag; c_db_env := env; c_part := c_part c; c_stdin := c_stdin c; c_open := c_open c;
     c_env := c_env c; c_date := c_date c; c_time := c_time c; c_stdout := c_stdout c |}.
Definition with_input (args : list text) (stdin : text) (opened : text -> option text) (c : command) : command :=
  {| c_args := args; c_db_flag := c_db_flag c; c_db_env := c_db_env c; c_part := c_part c; c_stdin := stdin; c_open := opened;
     c_env := c_env c; c_date := c_date c; c_time := c_time c; c_stdout := c_stdout c |}.

(** The flag wins: with it the environment variable does not matter; without it the variable counts like the flag; with
    neither the program fails. *)
Theorem C62_database_path :
  forall fuel sm ord c p e e',
  main_program fuel sm ord (with_db (Some p) e c) = main_program fuel sm ord (with_db (Some p) e' c) /\
  main_program fuel sm ord (with_db None (Some p) c) = main_program fuel sm ord (with_db (Some p) None c) /\
  main_program fuel sm ord (with_db None None c) = Ok (1, c_stdout c).
Proof.
  intros fuel sm ord c p e e'. split; [reflexivity|]. split; [reflexivity|]. unfold main_program. cbn.
  match goal with |- (if ?x then _ else _) = _ => destruct x; reflexivity end.
Qed.
Print Assumptions C62_database_path.

(** The database that is loaded is the one at the path of the flag: with a flag whose path does not exist the program fails,
    whatever the variable says. *)
Theorem C62_flag_decides :
  forall fuel sm ord c p e, e_exists (c_env c) p = false ->
  main_program fuel sm ord (with_db (Some p) e c) = Ok (1, c_stdout c).
Proof.
  intros fuel sm ord c p e X. unfold main_program, db_path. cbn.
  match goal with |- (if ?x then _ else _) = _ => destruct x; [reflexivity|] end. rewrite X. destruct p; reflexivity.
Qed.
Print Assumptions C62_flag_decides.

(** Without an argument, or with "-", the design is read from standard input and no file is opened; with the name of a file it
    is that file's content, and standard input does not matter. *)
Theorem C62_input :
  forall fuel sm ord c name stdin stdin' o o',
  main_program fuel sm ord (with_input [name] stdin o c) = main_program fuel sm ord (with_input [name; tx "-"] stdin o' c) /\
  (forall f text, f <> tx "-" -> o f = Some text ->
     main_program fuel sm ord (with_input [name; f] stdin o c) = main_program fuel sm ord (with_input [name] text o' c)) /\
  (forall f, f <> tx "-" ->
     main_program fuel sm ord (with_input [name; f] stdin o c) = main_program fuel sm ord (with_input [name; f] stdin' o c)).
Proof.
  intros fuel sm ord c name stdin stdin' o o'.
  assert (NE : forall f, f <> tx "-" -> text_eqb f (tx "-") = false).
  { intros f H. destruct (text_eqb f (tx "-")) eqn:E; [|reflexivity]. apply text_eqb_eq in E. contradiction. }
  split; [reflexivity|]. split.
  - intros f text H E. unfold main_program, input_text, with_input, db_path. cbn [c_args c_db_flag c_db_env c_part c_stdin c_open c_env c_date c_time c_stdout]. rewrite (NE f H), E. reflexivity.
  - intros f H. unfold main_program, input_text, with_input, db_path. cbn [c_args c_db_flag c_db_env c_part c_stdin c_open c_env c_date c_time c_stdout]. rewrite (NE f H). reflexivity.
Qed.
Print Assumptions C62_input.
(** A file that cannot be opened is a failure, if the program gets as far as that. *)
Theorem C62_unopened_file :
  forall fuel sm ord c name f stdin o n s, f <> tx "-" -> o f = None ->
  main_program fuel sm ord (with_input [name; f] stdin o c) = Ok (n, s) -> n = 1 /\ s = c_stdout c.
Proof.
  intros fuel sm ord c name f stdin o n s H E R. unfold main_program, input_text, with_input, db_path in R. cbn [c_args c_db_flag c_db_env c_part c_stdin c_open c_env c_date c_time c_stdout] in R.
  assert (NE : text_eqb f (tx "-") = false).
  { destruct (text_eqb f (tx "-")) eqn:X; [|reflexivity]. apply text_eqb_eq in X. contradiction. }
  rewrite NE, E in R.
  repeat match type of R with
  | (if ?x then _ else _) = _ => destruct x
  | match ?x with _ => _ end = _ => destruct x
  end; try discriminate R; inversion R; auto.
Qed.
Print Assumptions C62_unopened_file.
