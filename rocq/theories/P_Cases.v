(** C65 for every successful run, and concrete cases of C04, C12, C13, C23, C26, C28 and C65. *)
From Verif Require Import Base BaseFacts BitOps EccSpec Absl Part PartSpec PartFromFacts Frame FrameFacts Frames Fasm FasmSpec FasmLines
  DbText DbJson Database Packet Writer WriterFacts Reader ContainerSpec Config ConfigSpec ConfigFacts Encode EncodeSpec EncodeFacts
  Assembler AsmSpec MapFacts AsmFacts AsmExample P_Part P_Packet P_Bitstream P_Bitstream2 P_Frame
  P_Assembler P_Assembler2 P_Main P_Main2 P_Equiv.
From Coq Require Import ZifyBool ZifyN ZifyNat Permutation.

Lemma write_mono fuel fuel' ks part source gen date time out s : (fuel <= fuel')%nat ->
  write_bitstream fuel ks part source gen date time out = Ok s ->
  write_bitstream fuel' ks part source gen date time out = Ok s.
Proof.
  intros L H. unfold write_bitstream in *.
  destruct (writer_words fuel ks) as [ws| | | |] eqn:E; try discriminate H.
  apply (writer_words_mono _ fuel') in E; [|exact L]. rewrite E. exact H.
Qed.

(** ** C65 *)
(** Whatever the database, the input, the part and the destination are: a run that reports success
    has sent the fixed header fields, the date and the time, then the length and the data. *)
Theorem C65_every_run :
  forall fuel sm ord c s,
    (st_pos (c_stdout c) <= length (st_bytes (c_stdout c)))%nat ->
    main_program fuel sm ord c = Ok (0, s) ->
    exists packets,
      st_bytes s =
        if st_fail (c_stdout c) then st_bytes (c_stdout c)
        else delivered (st_kind (c_stdout c)) (st_pos (c_stdout c)) (st_bytes (c_stdout c))
               (header_bytes (tx "fasm") (tx "fpga-source") (tx "fpga-assembler") (c_date c) (c_time c))
               (be_bytes (data_length packets)) (data_bytes packets).
Proof.
  intros fuel sm ord c s LP H. unfold main_program in H.
  destruct (2 <? List.length (c_args c))%nat; [discriminate H|].
  destruct (db_path c) as [root|]; [|discriminate H].
  destruct (match root with [] => true | _ => negb (e_exists (c_env c) root) end); [discriminate H|].
  destruct (c_part c) as [|pc pr] eqn:EPT; [discriminate H|]. rewrite <- EPT in *.
  destruct (parse_database (c_env c) (o_load ord) root (c_part c)) as [tls| | | |]; try discriminate H.
  destruct (input_text c) as [input|]; [|discriminate H].
  destruct (assemble_frames sm ord tls input) as [fr| | | |]; try discriminate H.
  destruct (encode fuel (tl_part tls) (tx "fasm") (tx "fpga-source") (c_date c) (c_time c) fr (c_stdout c))
    as [s'| | | |] eqn:EE; try discriminate H. assert (s' = s) by congruence. subst s'. clear H.
  unfold encode in EE.
  destruct (add_missing_frames fuel (part_from (tl_part tls)) (convert_frames fr)) as [fs| | | |]; try discriminate EE.
  cbn [obind] in EE. set (ks := configuration_package (type2_data (part_from (tl_part tls)) fs) (part_from (tl_part tls))) in EE.
  clearbody ks. exists ks.
  destruct (C19_every_destination ks (tx "fasm") (tx "fpga-source") kGeneratorName (c_date c) (c_time c) (c_stdout c) LP)
    as (f0 & W).
  destruct (W (f0 + fuel)%nat) as (s1 & E1 & B); [lia|]. change (tx "fpga-assembler") with kGeneratorName. rewrite <- B.
  f_equal. 
  assert (E2 : write_bitstream (f0 + fuel) ks (tx "fasm") (tx "fpga-source") kGeneratorName (c_date c) (c_time c) (c_stdout c) = Ok s).
  { apply (write_mono fuel); [lia|assumption]. }
  congruence.
Qed.
Print Assumptions C65_every_run.

(** The runs of the demo directory are such runs, whatever the input adds to the file. *)
Example C65_case : exists s packets,
  main_program 3000 Iso ex_orders (demo_command demo_input) = Ok (0, s) /\
  st_bytes s = header_bytes (tx "fasm") (tx "fpga-source") (tx "fpga-assembler") (tx "2024/10/01") (tx "12:00:00")
    ++ be_bytes (data_length packets) ++ data_bytes packets.
Proof.
  destruct C81_case as (s & _ & _ & (_ & _ & E) & _).
  destruct (C65_every_run 3000 Iso ex_orders (demo_command demo_input) s (le_n 0) E) as (ks & B). exists s, ks. split; [exact E|]. clear E. rewrite B.
  cbn [demo_command c_stdout c_date c_time file_at_end st_fail st_kind st_pos st_bytes]. unfold delivered.
  cbn [List.length firstn app]. rewrite skipn_nil, app_nil_r. reflexivity.
Qed.

(** ** C04 *)
Example C04_case :
  frame_ok (repeat 7 101) /\ update_ecc (repeat 7 101) <> repeat 7 101 /\
  update_ecc (update_ecc (repeat 7 101)) = update_ecc (repeat 7 101).
Proof.
  assert (F : frame_ok (repeat 7 101)) by (apply (repeat_content 7); reflexivity). split; [exact F|].
  split; [vm_compute; discriminate|]. exact (proj1 (C04_ecc_update_stable _ F)).
Qed.

(** ** C12: three frames, the third one in the next row *)
Example C12_case :
  let fs := [(address 0 false 0 0 0, repeat 1 101); (address 0 false 0 0 1, repeat 2 101); (address 0 false 1 0 0, repeat 3 101)] in
  payload fs = repeat 1 101 ++ repeat 2 101 ++ repeat 0 202 ++ repeat 3 101 ++ repeat 0 202 /\
  row_changes fs = 1 /\ len_N (payload fs) = 101 * 7.
Proof. vm_compute. repeat split; reflexivity. Qed.

(** ** C13: the writes that carry the payload, for a payload of three words *)
Example C13_case :
  exists before after,
    register_writes (configuration_package [1; 2; 3] (part_from small_part))
    = before ++ [(12, [0x0362D093])] ++ after /\
    In (2, [1; 2; 3]) after /\ ~ In 2 (map fst before).
Proof.
  rewrite (proj1 (C13_program _ _)). eexists _, _. split; [|split].
  - instantiate (1 := skipn 8 (series7_program 0x0362D093 [1; 2; 3])).
    instantiate (1 := firstn 7 (series7_program 0x0362D093 [1; 2; 3])). vm_compute. reflexivity.
  - vm_compute. intuition.
  - vm_compute. intuition discriminate.
Qed.

(** ** C23, C26, C28: the small device and its design with two frames *)
Lemma short_header t : (length t <= 3)%nat -> Forall (fun c => N_of_ascii c < 128) t -> header_text t.
Proof. intros L F. split; [assumption|]. unfold len_N. lia. Qed.

Lemma small_encoded : exists fuel s, encode fuel small_part (tx "p") (tx "s") (tx "d") (tx "t") small_design (file_at_end []) = Ok s.
Proof.
  destruct (C23_frames_survive small_part small_design (tx "p") (tx "s") (tx "d") (tx "t")
    small_usable small_design_ok) as (fuel & fs & Hf & Henc);
    try (apply short_header; [cbn; lia|repeat constructor]).
  destruct (Henc fuel (le_n _)) as (s & E & _). eauto.
Qed.

Example C23_case : exists fuel s fs,
  encode fuel small_part (tx "p") (tx "s") (tx "d") (tx "t") small_design (file_at_end []) = Ok s /\
  decode small_part (st_bytes s) = Ok (Some fs) /\
  bt_find 3 fs = Some (repeat 7 101) /\ bt_find (address 1 true 0 0 5) fs = Some (repeat 0xAA995566 101) /\
  bt_find 4 fs = Some (repeat 0 101) /\ bt_find (address 1 true 0 1 0) fs = None.
Proof.
  destruct small_encoded as (fuel & s & E). exists fuel, s.
  destruct (C23_any_run small_part small_design (tx "p") (tx "s") (tx "d") (tx "t") fuel s small_usable small_design_ok)
    as (fs & Dc & Hf); try (apply short_header; [cbn; lia|repeat constructor]); [exact E|].
  exists fs. split; [exact E|]. split; [exact Dc|]. rewrite !Hf. repeat split; vm_compute; reflexivity.
Qed.

Example C26_case : exists fuel s,
  encode fuel small_part (tx "p") (tx "s") (tx "d") (tx "t") small_design (file_at_end []) = Ok s /\
  decode {| dp_idcode := 0x0362D094; dp_bottom_rows := dp_bottom_rows small_part; dp_top_rows := dp_top_rows small_part;
            dp_iobanks := [] |} (st_bytes s) = Ok None.
Proof.
  destruct small_encoded as (fuel & s & E). exists fuel, s. split; [exact E|].
  apply (C26_other_device small_part _ small_design (tx "p") (tx "s") (tx "d") (tx "t") fuel s small_usable small_design_ok);
    try (apply short_header; [cbn; lia|repeat constructor]); [exact E|]. cbn. discriminate.
Qed.

Example C28_case : forall fuel out,
  rev small_design <> small_design /\
  encode fuel small_part (tx "p") (tx "s") (tx "d") (tx "t") (rev small_design) out
  = encode fuel small_part (tx "p") (tx "s") (tx "d") (tx "t") small_design out.
Proof.
  intros fuel out. split; [vm_compute; discriminate|]. symmetry. apply C28_deterministic.
  - exact (proj1 small_design_ok).
  - repeat constructor.
  - apply Permutation_rev.
Qed.
