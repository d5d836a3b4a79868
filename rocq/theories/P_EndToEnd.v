(** Property C71: from the files to the bytes. *)
From Verif Require Import Base BaseFacts Absl Part PartSpec PartFromFacts Frame Frames Fasm FasmSpec FasmLines
  DbText DbJson Database Packet PacketFacts Writer WriterFacts Config ConfigSpec ContainerSpec Reader Encode EncodeSpec EncodeFacts
  Assembler AsmSpec MapFacts AsmFacts LookupFacts ProcessFacts RegistryFacts StepdownFacts
  AsmLines AsmWhole AsmItems JsonFacts JsonFacts2 DbSpec JsonSpec LoadSpec DbFacts LoadFacts OrderFacts P_Lookup P_Database P_Database3 P_Database4 OutcomeFacts
  P_Bitstream P_Assembler P_Main P_Main2 EndSpec EndFacts AsmExample.
From Coq Require Import ZifyBool ZifyN ZifyNat.

Lemma loaded_registry e dord root part tls : sound_files e -> good_load dord -> parse_database e dord root part = Ok tls ->
  exists pins, database_says e root part (tl_grid tls) (tl_part tls) pins /\
    tl_banks tls = reg_create (lo_tiles dord) (dp_iobanks (tl_part tls)) pins.
Proof.
  intros SF OK H. unfold parse_database in H.
  apply obind_ok in H as (info & Ei & H). apply part_info_spec in Ei.
  apply obind_ok in H as (gt & Eg & H). apply obind_ok in H as (g & Egj & H). apply obind_ok in H as (paths & Ex & H).
  apply obind_ok in H as (pt & Ep & H). apply obind_ok in H as (p & Epj & H). apply obind_ok in H as (bk & Eb & H). injection H as <-.
  cbn [tl_grid tl_part tl_banks]. unfold create_banks_registry in Eb. apply obind_ok in Eb as (csv & Ec & Eb). apply obind_ok in Eb as (pins & Es & Eb).
  injection Eb as <-. destruct (e_json e gt) as [gj|] eqn:Jg; [|discriminate Egj]. destruct (e_json e pt) as [pj|] eqn:Jp; [|discriminate Epj].
  apply C68_grid_is_read in Egj. apply C59_part_is_read in Epj. apply (order_grid_json _ OK) in Egj. apply (order_part_json _ OK) in Epj.
  apply map_file_in in Eg. apply map_file_in in Ep. apply map_file_in in Ec.
  exists pins. split; [|reflexivity].
  exists info, (path_join root (pi_fabric info)), (path_join root part), gt, gj, pt, pj, csv.
  split; [exact Ei|]. split; [apply path_join_inside|]. split; [apply path_join_inside|]. do 7 (split; [assumption|]).
  destruct Ec as (cp & _ & F). destruct (SF _ _ F) as [B S]. eapply pins_sound; eauto.
Qed.

Section Loaded.
  Context (e : environment) (root part : text) (dord : load_orders) (tls : tiles) (pins : list package_pin).
  Hypothesis SF : sound_files e.
  Hypothesis SW : sound_walk e root.
  Hypothesis OD : good_load dord.
  Hypothesis LD : parse_database e dord root part = Ok tls.
  Hypothesis BK : tl_banks tls = reg_create (lo_tiles dord) (dp_iobanks (tl_part tls)) pins.

  Lemma sound_same : consistent_description e root (tl_grid tls) (tl_part tls) -> sound_database tls.
  Proof.
    intros [A B C D E]. constructor; try assumption. intros tile rest k bus b l sb En I.
    apply (entry_same e root part dord tls SF SW LD) in En. eauto.
  Qed.
  Lemma features_same fs f : all_features tls fs f <-> in_design (tl_grid tls) (tl_part tls) pins fs f.
  Proof.
    unfold all_features, in_design. rewrite BK. split; intros [I|(n & S & E)]; auto; right; exists n; (split; [|exact E]);
      now apply (stepdown_same_name (tl_grid tls) (tl_part tls) pins (lo_tiles dord) (proj1 OD)).
  Qed.
  Lemma bits_same fs a w i : (exists f, all_features tls fs f /\ requested tls f a w i) <->
    (exists f, in_design (tl_grid tls) (tl_part tls) pins fs f /\ sets_bit e root (tl_grid tls) f a w i).
  Proof.
    split; intros (f & A & B); exists f; (split; [now apply features_same|]);
      now apply (requested_same e root part dord tls SF SW LD).
  Qed.
End Loaded.

Lemma bit_at_In (fs : asm_frames) a w i : NoDup (map fst fs) ->
  (bit_at fs a w i = true <-> exists ws x, In (a, ws) fs /\ nth_error ws (N.to_nat w) = Some x /\ N.testbit x i = true).
Proof.
  intros ND. unfold bit_at. split.
  - intros H. destruct (bt_find a fs) as [f|] eqn:E; [|discriminate H].
    assert (I : In (a, f) fs).
    { clear - E. unfold asm_frames, btmap in fs. induction fs as [|[k g] fs IH]; [discriminate E|].
      cbn [bt_find] in E. destruct (N.eqb_spec a k) as [->|]; [inversion E; now left|right; auto]. }
    exists f, (nth (N.to_nat w) f 0). split; [exact I|]. split; [|exact H].
    destruct (nth_error f (N.to_nat w)) as [y|] eqn:E'.
    + f_equal. symmetry. now apply nth_error_nth.
    + apply nth_error_None in E'. rewrite nth_overflow in H by exact E'. rewrite N.bits_0 in H. discriminate H.
  - intros (ws & x & I & E & B). assert (F : bt_find a fs = Some ws).
    { clear - I ND. unfold asm_frames, btmap in fs. induction fs as [|[k g] fs IH]; [destruct I|].
      cbn [map fst] in ND. inversion ND as [|? ? NI ND']; subst. cbn [bt_find]. destruct I as [I|I].
      - injection I as -> ->. now rewrite N.eqb_refl.
      - destruct (N.eqb_spec a k) as [->|]; [|auto]. exfalso. apply NI. apply in_map_iff. exists (k, ws). auto. }
    rewrite F. erewrite nth_error_nth; eauto.
Qed.

Lemma written_file dp (fr : asm_frames) date time fuel s :
  usable_device dp -> design dp fr -> header_text date -> header_text time ->
  encode fuel dp (tx "fasm") (tx "fpga-source") date time fr (file_at_end []) = Ok s ->
  exists fs, StronglySorted N.lt (map fst fs) /\ (forall a, In a (map fst fs) <-> is_frame_address dp a) /\
    Forall (fun kv => is_frame_content (snd kv)) fs /\
    (forall a w i, (exists ws x, In (a, ws) fs /\ nth_error ws (N.to_nat w) = Some x /\ N.testbit x i = true)
                   <-> bit_at fr a w i = true) /\
    programs dp date time fs (st_bytes s) /\ decode dp (st_bytes s) = Ok (Some fs).
Proof.
  intros U D HD HT E.
  assert (HP : header_text (tx "fasm")) by (split; [repeat constructor|reflexivity]).
  assert (HS : header_text (tx "fpga-source")) by (split; [repeat constructor|reflexivity]).
  destruct (encode_decode dp fr _ _ date time U D HP HS HD HT) as (fuel0 & fs & Hf & Hc & Hs & Hk & _ & Henc).
  destruct (Henc (fuel0 + fuel)%nat) as (s' & E' & _ & B & _ & Dc); [lia|].
  apply (encode_mono _ _ _ _ _ _ _ _ (fuel0 + fuel)%nat) in E; [|lia]. assert (s' = s) by congruence. subst s'.
  exists fs. split; [exact Hs|]. split; [exact Hk|]. split; [exact Hc|]. split; [|split; [|exact Dc]].
  - intros a w i. rewrite <- (completed_bit _ _ _ a w i Hf). rewrite bit_at_In; [reflexivity|].
    now apply bt_keys_NoDup.
  - unfold programs. rewrite B. unfold packets_words. rewrite C13_words; [reflexivity|].
    assert (ND : NoDup (map fst fs)) by now apply bt_keys_NoDup.
    assert (L : (List.length (map fst fs) <= List.length (device_frames dp))%nat).
    { apply NoDup_incl_length; [exact ND|]. intros x Hx. apply device_frames_spec, Hk, Hx. }
    rewrite map_length in L. destruct U as (_ & _ & _ & _ & Hlen).
    assert (Hcl : Forall (fun kv : N * list N => List.length (snd kv) = 101%nat) fs).
    { eapply Forall_impl; [|exact Hc]. intros kv [H _]. exact H. }
    pose proof (C12_payload_length fs Hcl) as P. pose proof (row_changes_le fs) as R.
    assert (Hn : len_N fs <= 400000) by (unfold len_N; lia).
    change (2 ^ 27) with 134217728. revert P R Hn. generalize (len_N (payload fs)) (len_N fs) (row_changes fs). clear. lia.
Qed.

(** ** Exit status 0 *)

(** What has happened when the program ends with status 0. *)
Lemma exit_zero fuel sm ord c s : main_program fuel sm ord c = Ok (0, s) ->
  exists root tls input fr, db_path c = Some root /\ parse_database (c_env c) (o_load ord) root (c_part c) = Ok tls /\
    input_text c = Some input /\ assemble_frames sm ord tls input = Ok fr /\
    encode fuel (tl_part tls) (tx "fasm") (tx "fpga-source") (c_date c) (c_time c) fr (c_stdout c) = Ok s.
Proof.
  intros H. unfold main_program in H.
  destruct (2 <? List.length (c_args c))%nat; [discriminate H|].
  destruct (db_path c) as [root|]; [|discriminate H].
  destruct (match root with [] => true | _ => negb (e_exists (c_env c) root) end); [discriminate H|].
  destruct (c_part c) as [|pc pr] eqn:EPT; [discriminate H|]. rewrite <- EPT in *.
  destruct (parse_database (c_env c) (o_load ord) root (c_part c)) as [tls| | | |] eqn:ED; try discriminate H.
  destruct (input_text c) as [input|]; [|discriminate H].
  destruct (assemble_frames sm ord tls input) as [fr| | | |] eqn:EA; try discriminate H.
  destruct (encode fuel (tl_part tls) (tx "fasm") (tx "fpga-source") (c_date c) (c_time c) fr (c_stdout c))
    as [s'| | | |] eqn:EE; try discriminate H. injection H as <-. exists root, tls, input, fr. auto.
Qed.

(** Whatever the input: the file is a bitstream for the device of the part that programs all its
    frames, with exactly the bits that the database files list for the features of the input and the
    features these imply. *)
Theorem C71_exit_zero_from_the_files :
  forall fuel ord c s,
  good_orders ord -> c_stdout c = file_at_end [] -> header_text (c_date c) -> header_text (c_time c) ->
  sound_files (c_env c) -> (forall root, sound_walk (c_env c) root) ->
  main_program fuel Iso ord c = Ok (0, s) ->
  exists root input g p pins,
    db_path c = Some root /\ input_text c = Some input /\ database_says (c_env c) root (c_part c) g p pins /\
    (consistent_description (c_env c) root g p -> short_lines input ->
     exists pud feats fs,
       pudcb_default g pud /\ text_features Iso input feats /\
       configuration_of (c_env c) root g p pins (pud ++ feats) fs /\
       programs p (c_date c) (c_time c) fs (st_bytes s) /\
       decode p (st_bytes s) = Ok (Some fs)).
Proof.
  intros fuel ord c s G ES HD HT SF SW H.
  destruct (exit_zero _ _ _ _ _ H) as (root & tls & input & fr & Er & ED & Ei & EA & EE). clear H.
  destruct (loaded_registry _ _ _ _ _ SF (proj2 (proj2 (proj2 (proj2 G)))) ED) as (pins & DS & BK).
  exists root, input, (tl_grid tls), (tl_part tls), pins. split; [exact Er|]. split; [exact Ei|]. split; [exact DS|].
  intros CD SL. pose proof G as (_ & _ & _ & _ & GT).
  pose proof (sound_same (c_env c) root (c_part c) (o_load ord) tls SF (SW root) ED CD) as D.
  pose proof (assembled_design _ _ _ _ D G SL EA) as DG. rewrite ES in EE.
  destruct (written_file _ _ _ _ _ _ (sd_device _ D) DG HD HT EE) as (fs & S1 & S2 & S3 & S4 & S5 & S6).
  destruct (pudcb_ok _ (sd_sites _ D)) as (pud & EP & PD & _).
  destruct (run_result Iso ord tls input pud fr (sd_grid _ D) (sd_sites _ D) G
              (fun fs => text_reported input fs SL) EP EA) as (feats & T & _ & _ & _ & _ & B).
  exists pud, feats, fs. split; [exact PD|]. split; [exact T|]. split; [|split; [exact S5|exact S6]].
  split; [exact S1|]. split; [exact S2|]. split; [exact S3|]. intros a w i. rewrite S4, B.
  apply (bits_same (c_env c) root (c_part c) (o_load ord)); auto.
Qed.
Print Assumptions C71_exit_zero_from_the_files.

(** If the input is a file of the FASM grammar, the features are the bits written as 1. *)
Theorem C71_exit_zero_for_a_fasm_file :
  forall fuel sm ord c s items,
  good_orders ord -> c_stdout c = file_at_end [] -> header_text (c_date c) -> header_text (c_time c) ->
  sound_files (c_env c) -> (forall root, sound_walk (c_env c) root) ->
  input_text c = Some (file_text items) -> Forall item_shape items -> Forall item_in_range items ->
  main_program fuel sm ord c = Ok (0, s) ->
  exists root g p pins,
    db_path c = Some root /\ database_says (c_env c) root (c_part c) g p pins /\
    (consistent_description (c_env c) root g p ->
     exists pud fs, pudcb_default g pud /\
       configuration_of (c_env c) root g p pins (pud ++ file_ones items) fs /\
       programs p (c_date c) (c_time c) fs (st_bytes s)).
Proof.
  intros fuel sm ord c s items G ES HD HT SF SW EI IS IR H.
  destruct (exit_zero _ _ _ _ _ H) as (root & tls & input & fr & Er & ED & Ei & EA & EE). clear H.
  rewrite EI in Ei. injection Ei as <-.
  destruct (loaded_registry _ _ _ _ _ SF (proj2 (proj2 (proj2 (proj2 G)))) ED) as (pins & DS & BK).
  exists root, (tl_grid tls), (tl_part tls), pins. split; [exact Er|]. split; [exact DS|].
  intros CD. pose proof G as (_ & _ & _ & _ & GT).
  pose proof (sound_same (c_env c) root (c_part c) (o_load ord) tls SF (SW root) ED CD) as D.
  destruct (pudcb_ok _ (sd_sites _ D)) as (pud & EP & PD & _).
  assert (DG : design (tl_part tls) fr).
  { destruct (run_result sm ord tls (file_text items) pud fr (sd_grid _ D) (sd_sites _ D) G
      (fun fs => file_reported sm items fs IS IR) EP EA) as (fs0 & _ & _ & _ & W & P & _).
    split; [apply bt_keys_NoDup; apply W|]. destruct W as [S W].
    rewrite Forall_forall in *. intros [a f] I. split; [|exact (W _ I)]. cbn [fst].
    assert (PR : present fr a) by (exists f; exact I). apply P in PR as (g0 & _ & T). eapply touched_in_device; eauto. }
  rewrite ES in EE.
  destruct (written_file _ _ _ _ _ _ (sd_device _ D) DG HD HT EE) as (fs & S1 & S2 & S3 & S4 & S5 & _).
  destruct (C40_file_to_bits sm ord tls items fr (sd_grid _ D) (sd_sites _ D) G IS IR EA) as (pud' & PD' & B).
  exists pud', fs. split; [exact PD'|]. split; [|exact S5].
  split; [exact S1|]. split; [exact S2|]. split; [exact S3|]. intros a w i. rewrite S4, B.
  apply (bits_same (c_env c) root (c_part c) (o_load ord)); auto.
Qed.
Print Assumptions C71_exit_zero_for_a_fasm_file.

(** ** And the other way round *)

(** A design whose features (and the implied ones) are covered by a described, consistent database is
    written: the program ends with status 0. *)
Theorem C71_covered_designs_are_written :
  forall ord c root input g0 p0 pins0 feats,
  good_orders ord -> c_stdout c = file_at_end [] -> header_text (c_date c) -> header_text (c_time c) ->
  sound_files (c_env c) -> sound_walk (c_env c) root -> e_walk (c_env c) root <> None ->
  (List.length (c_args c) <= 2)%nat -> db_path c = Some root -> root <> [] -> e_exists (c_env c) root = true ->
  c_part c <> [] -> input_text c = Some input -> short_lines input -> text_features Iso input feats ->
  database_says (c_env c) root (c_part c) g0 p0 pins0 ->
  exists g p pins, database_says (c_env c) root (c_part c) g p pins /\
    (consistent_description (c_env c) root g p ->
     exists pud, pudcb_default g pud /\
      (package_covers g p pins (pud ++ feats) ->
       (forall f, in_design g p pins (pud ++ feats) f -> covered (c_env c) root g f) ->
       exists fuel0 s, forall fuel, (fuel0 <= fuel)%nat -> main_program fuel Iso ord c = Ok (0, s))).
Proof.
  intros ord c root input g0 p0 pins0 feats G ES HD HT SF SW WN LA ER NR EX NP EI SL T DS0.
  destruct (C69_described_database_is_accepted _ (o_load ord) _ _ _ _ _ SF WN DS0) as (tls & ED).
  destruct (loaded_registry _ _ _ _ _ SF (proj2 (proj2 (proj2 (proj2 G)))) ED) as (pins & DS & BK).
  exists (tl_grid tls), (tl_part tls), pins. split; [exact DS|]. intros CD. pose proof G as (_ & _ & _ & _ & GT).
  pose proof (sound_same (c_env c) root (c_part c) (o_load ord) tls SF SW ED CD) as D.
  destruct (pudcb_ok _ (sd_sites _ D)) as (pud & EP & PD & _). exists pud. split; [exact PD|]. intros PC CV.
  destruct (assemble_spec ord tls input pud (sd_grid _ D) (sd_sites _ D) G SL EP) as [A _].
  destruct (A feats T) as (fr & EA).
  - rewrite BK. now apply (ready_same (tl_grid tls) (tl_part tls) pins (lo_tiles (o_load ord)) (proj1 GT) _ (sd_sites _ D)).
  - intros f F. apply (known_same (c_env c) root (c_part c) (o_load ord) tls SF SW ED). apply CV.
    now apply (features_same (o_load ord) tls pins GT BK).
  - eapply C62_good_designs_are_written; eauto.
Qed.
Print Assumptions C71_covered_designs_are_written.

(** ** The demo directory of P_Main2.v meets the hypotheses *)
Lemma demo_sound_files : sound_files demo_env.
Proof.
  intros p c F. unfold file, demo_env in F. cbn [e_read] in F. apply (hm_find_maps _ text_eqb_eq) in F. apply maps_to_In in F.
  assert (X : Forall (fun pc : text * text => N.of_nat (List.length (snd pc)) < 2 ^ 32 - 1 /\ splittable (after_mapping (snd pc)) (snd pc)) demo_files).
  { repeat apply Forall_cons; [..|apply Forall_nil]; (split; [vm_compute; reflexivity|right; right; vm_compute; discriminate]). }
  rewrite Forall_forall in X. exact (X _ F).
Qed.
Lemma demo_sound_walk root : sound_walk demo_env root.
Proof.
  intros l E. cbn [demo_env e_walk] in E. destruct (text_eqb root (tx "db")); [|discriminate E]. injection E as <-.
  repeat apply Forall_cons; [..|apply Forall_nil]; do 2 right; now left.
Qed.
Example C71_case_database : exists pins,
  database_says demo_env (tx "db") (tx "xc7a35t") (tl_grid demo_db) (tl_part demo_db) pins /\
  consistent_description demo_env (tx "db") (tl_grid demo_db) (tl_part demo_db).
Proof.
  destruct (loaded_registry _ _ _ _ _ demo_sound_files document_order_good demo_db_parsed) as (pins & DS & _). exists pins. split; [exact DS|].
  destruct C62_case_sound as [A B C D E]. constructor; try assumption. intros tile rest k bus b l sb En I.
  apply (entry_same _ _ _ _ _ demo_sound_files (demo_sound_walk _) demo_db_parsed) in En. eauto.
Qed.
Example C71_case : exists s, let c := demo_command demo_input in
  main_program 3000 Iso ex_orders c = Ok (0, s) /\ good_orders ex_orders /\ c_stdout c = file_at_end [] /\
  header_text (c_date c) /\ header_text (c_time c) /\ short_lines demo_input /\
  decode (tl_part demo_db) (st_bytes s) <> Ok None.
Proof.
  assert (X : match main_program 3000 Iso ex_orders (demo_command demo_input) with
              | Ok (n, s) => (n =? 0) && match decode (tl_part demo_db) (st_bytes s) with Ok (Some _) => true | _ => false end
              | _ => false end = true) by (vm_compute; reflexivity).
  destruct (main_program 3000 Iso ex_orders (demo_command demo_input)) as [[n s]| | | |] eqn:ER; try discriminate X.
  apply andb_true_iff in X as [X Y]. apply N.eqb_eq in X. subst n. exists s. cbv zeta. split; [exact ER|].
  split; [exact ex_orders_good|]. split; [reflexivity|].
  split; [split; [repeat constructor|reflexivity]|]. split; [split; [repeat constructor|reflexivity]|].
  split; [exact C62_case_short|]. intros E. rewrite E in Y. discriminate Y.
Qed.
