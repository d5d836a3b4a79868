(** Property C95: the date and time in the header. *)
From Verif Require Import Base BaseFacts Absl Part PartSpec Frame Frames Fasm FasmSpec
  DbText DbJson Database Packet PacketFacts Config Writer WriterFacts ConfigSpec ConfigFacts ContainerSpec Reader ReaderFacts Encode EncodeSpec EncodeFacts
  Assembler AsmSpec P_Main P_Main2 AsmExample P_Equiv Device DeviceFacts P_Device Clock ClockSpec ClockFacts.
From Coq Require Import Lia.

(** The texts are such as the other theorems about whole runs ask for. *)
Theorem C95_header_texts : forall t, t < year_10000 ->
  header_text (date_text t) /\ List.length (date_text t) = 10%nat /\ header_text (time_text t) /\ List.length (time_text t) = 8%nat.
Proof.
  assert (D : forall n v, Forall (fun b => b < 128) (decimal n v)).
  { induction n as [|n IH]; intros v; [constructor|]. cbn [decimal]. constructor; [|apply IH]. assert ((v / 10 ^ N.of_nat n) mod 10 < 10) by (apply N.mod_lt; discriminate). lia. }
  assert (A : forall x, Forall (fun b => b < 128) (bytes_of_text x) -> ascii_text x).
  { intros x F. unfold ascii_text, bytes_of_text in *. rewrite Forall_forall in *. intros c I. apply F, in_map, I. }
  intros t H. split; [split; [|unfold len_N; rewrite date_length; reflexivity]|]; [|split; [apply date_length|split; [split; [|unfold len_N; rewrite time_length; reflexivity]|apply time_length]]].
  - apply A. rewrite date_is by exact H. unfold date_bytes. rewrite !Forall_app. repeat split; try apply D; repeat constructor.
  - apply A. rewrite time_is. unfold time_bytes. rewrite !Forall_app. repeat split; try apply D; repeat constructor.
Qed.
Print Assumptions C95_header_texts.

Lemma header_parts date time : List.length date = 10%nat -> List.length time = 8%nat ->
  let raw := raw_header (tx "fasm") (tx "fpga-source") kGeneratorName date time in
  exists a b c, List.length a = 64%nat /\ List.length b = 4%nat /\ List.length c = 2%nat /\ raw = a ++ bytes_of_text date ++ b ++ bytes_of_text time ++ c /\
    forall date' time', List.length date' = 10%nat -> List.length time' = 8%nat ->
      raw_header (tx "fasm") (tx "fpga-source") kGeneratorName date' time' = a ++ bytes_of_text date' ++ b ++ bytes_of_text time' ++ c.
Proof.
  intros Ld Lt raw. unfold raw, raw_header.
  exists ([0x0; 0x9; 0x0f; 0xf0; 0x0f; 0xf0; 0x0f; 0xf0; 0x0f; 0xf0; 0x00; 0x00; 0x01; 97] ++ tlv_field (tx "fpga-source" ++ tx ";Generator=" ++ kGeneratorName) ++ [98] ++ tlv_field (tx "fasm") ++ [99] ++ [0; 11]).
  exists ([0] ++ [100] ++ [0; 9]), ([0] ++ [101]).
  assert (G : forall date time, List.length date = 10%nat -> List.length time = 8%nat ->
    [0x0; 0x9; 0x0f; 0xf0; 0x0f; 0xf0; 0x0f; 0xf0; 0x0f; 0xf0; 0x00; 0x00; 0x01; 97] ++ tlv_field (tx "fpga-source" ++ tx ";Generator=" ++ kGeneratorName)
      ++ [98] ++ tlv_field (tx "fasm") ++ [99] ++ tlv_field date ++ [100] ++ tlv_field time ++ [101] =
    ([0x0; 0x9; 0x0f; 0xf0; 0x0f; 0xf0; 0x0f; 0xf0; 0x0f; 0xf0; 0x00; 0x00; 0x01; 97] ++ tlv_field (tx "fpga-source" ++ tx ";Generator=" ++ kGeneratorName)
      ++ [98] ++ tlv_field (tx "fasm") ++ [99] ++ [0; 11]) ++ bytes_of_text date ++ ([0] ++ [100] ++ [0; 9]) ++ bytes_of_text time ++ ([0] ++ [101])).
  { clear. intros date time Ld Lt. rewrite <- !app_assoc. do 5 f_equal. change (tlv_field date) with ([u8 (N.shiftr (len_N date + 1) 8); u8 (len_N date + 1)] ++ bytes_of_text date ++ [0]).
    change (tlv_field time) with ([u8 (N.shiftr (len_N time + 1) 8); u8 (len_N time + 1)] ++ bytes_of_text time ++ [0]). unfold len_N. rewrite Ld, Lt.
    rewrite <- !app_assoc. reflexivity. }
  split; [reflexivity|]. split; [reflexivity|]. split; [reflexivity|]. split; [now apply G|]. intros. now apply G.
Qed.
Lemma slice_mid {A} (a x b : list A) : firstn (List.length x) (skipn (List.length a) (a ++ x ++ b)) = x.
Proof.
  rewrite skipn_app, skipn_all, Nat.sub_diag. cbn [app skipn]. rewrite firstn_app, Nat.sub_diag, firstn_all. cbn [firstn]. apply app_nil_r.
Qed.

(** Runs that differ in the clock only. *)
Lemma two_clocks fuel sm ord c t s : c_stdout c = file_at_end [] -> main_program fuel sm ord (command_at t c) = Ok (0, s) ->
  exists rest, forall t', exists s', main_program fuel sm ord (command_at t' c) = Ok (0, s') /\ (t' = t -> s' = s) /\
    st_bytes s' = raw_header (tx "fasm") (tx "fpga-source") kGeneratorName (date_text t') (time_text t') ++ rest.
Proof.
  intros ES H. unfold main_program in H. cbn [command_at c_args c_part c_env c_date c_time c_stdout] in H. change (db_path (command_at t c)) with (db_path c) in H.
  change (input_text (command_at t c)) with (input_text c) in H. unfold main_program. cbn [command_at c_args c_part c_env c_date c_time c_stdout].
  rewrite ES in *. destruct (2 <? List.length (c_args c))%nat; [discriminate H|].
  assert (DP : forall t', db_path (command_at t' c) = db_path c) by reflexivity. assert (IT : forall t', input_text (command_at t' c) = input_text c) by reflexivity.
  destruct (db_path c) as [root|] eqn:ER; [|discriminate H].
  destruct (match root with [] => true | _ => negb (e_exists (c_env c) root) end) eqn:EX; [discriminate H|].
  destruct (c_part c) as [|pc pr] eqn:EPT; [discriminate H|]. rewrite <- EPT in *.
  destruct (parse_database (c_env c) (o_load ord) root (c_part c)) as [tls| | | |] eqn:PD; try discriminate H.
  destruct (input_text c) as [input|] eqn:EI; [|discriminate H]. destruct (assemble_frames sm ord tls input) as [fr| | | |] eqn:AF; try discriminate H.
  unfold encode in H. destruct (add_missing_frames fuel (part_from (tl_part tls)) (convert_frames fr)) as [fs| | | |] eqn:AM; try discriminate H. cbn [obind] in H.
  set (ks := configuration_package (type2_data (part_from (tl_part tls)) fs) (part_from (tl_part tls))) in *.
  destruct (writer_words fuel ks) as [ws| | | |] eqn:W; [|unfold write_bitstream in H; rewrite W in H; discriminate H..].
  exists (be_bytes (N.of_nat (List.length (flat_map be_bytes ws)) mod 2 ^ 32) ++ flat_map be_bytes ws). intros t'.
  assert (Q : exists s', write_bitstream fuel ks (tx "fasm") (tx "fpga-source") kGeneratorName (date_text t') (time_text t') (file_at_end []) = Ok s' /\
     st_bytes s' = raw_header (tx "fasm") (tx "fpga-source") kGeneratorName (date_text t') (time_text t') ++ be_bytes (N.of_nat (List.length (flat_map be_bytes ws)) mod 2 ^ 32) ++ flat_map be_bytes ws).
  { pose proof (device_bitstream_none fuel ks (tx "fasm") (tx "fpga-source") kGeneratorName (date_text t') (time_text t') {| d_stream := file_at_end []; d_ops := []; d_room := None |} eq_refl) as N1.
    rewrite (device_bitstream_file fuel ks _ _ _ _ _ None ws W) in N1. cbn [d_stream] in N1.
    rewrite <- N1. eexists. split; [reflexivity|]. reflexivity. }
  destruct Q as (s' & Q & B). exists s'. split; [|split; [|exact B]].
  - rewrite DP, IT, EX. cbv iota. rewrite PD, AF. unfold encode. rewrite AM. cbn [obind]. fold ks. rewrite Q. reflexivity.
  - intros ->. rewrite Q in H. congruence.
Qed.

(** The header of the file of a successful run holds the UTC date and time of the second in which it was written. *)
Theorem C95_header_time :
  forall t fuel sm ord c s, t < year_10000 -> c_stdout c = file_at_end [] ->
  main_program fuel sm ord (command_at t c) = Ok (0, s) ->
  firstn 10 (skipn 64 (st_bytes s)) = date_bytes (instant_of t) /\
  firstn 8 (skipn 78 (st_bytes s)) = time_bytes (instant_of t).
Proof.
  intros t fuel sm ord c s H ES M. destruct (two_clocks _ _ _ _ _ _ ES M) as (rest & Q). destruct (Q t) as (s' & _ & E & B). rewrite (E eq_refl) in B. rewrite B.
  destruct (header_parts _ _ (date_length t) (time_length t)) as (a & b & d & La & Lb & Ld & R & _). rewrite R. clear Q M B R E.
  rewrite <- date_is by exact H. rewrite <- time_is. pose proof (date_length t) as X. pose proof (time_length t) as Y.
  set (dt := bytes_of_text (date_text t)). set (tm := bytes_of_text (time_text t)). assert (X' : List.length dt = 10%nat) by (unfold dt, bytes_of_text; now rewrite map_length).
  assert (Y' : List.length tm = 8%nat) by (unfold tm, bytes_of_text; now rewrite map_length). clearbody dt tm. split.
  - rewrite <- !app_assoc. rewrite <- La, <- X'. apply slice_mid.
  - rewrite <- !app_assoc. replace 78%nat with (List.length (a ++ dt ++ b)) by (rewrite !app_length; lia). rewrite <- Y'.
    replace (a ++ dt ++ b ++ tm ++ d ++ rest) with ((a ++ dt ++ b) ++ tm ++ (d ++ rest)) by (rewrite <- !app_assoc; reflexivity). apply slice_mid.
Qed.
Print Assumptions C95_header_time.

(** The clock has no other effect: how the run ends, and every byte of the file outside the two texts, do not depend on it; two files of the
    same run at different seconds differ. *)
Theorem C95_only_the_clock :
  forall t t' fuel sm ord c s, c_stdout c = file_at_end [] -> main_program fuel sm ord (command_at t c) = Ok (0, s) ->
  exists s', main_program fuel sm ord (command_at t' c) = Ok (0, s') /\
    List.length (st_bytes s') = List.length (st_bytes s) /\
    (forall j, ~ (64 <= j < 74)%nat -> ~ (78 <= j < 86)%nat -> nth_error (st_bytes s') j = nth_error (st_bytes s) j) /\
    (t < year_10000 -> t' < year_10000 -> st_bytes s' = st_bytes s -> t' = t).
Proof.
  intros t t' fuel sm ord c s ES M. pose proof (two_clocks _ _ _ _ _ _ ES M) as (rest & Q). destruct (Q t) as (s0 & _ & E & B). rewrite (E eq_refl) in B. clear s0 E.
  destruct (Q t') as (s' & M' & _ & B'). exists s'. split; [exact M'|]. clear Q.
  destruct (header_parts _ _ (date_length t) (time_length t)) as (a & b & d & La & Lb & Ld & R & R'). specialize (R' _ _ (date_length t') (time_length t')).
  assert (LD : forall t, List.length (bytes_of_text (date_text t)) = 10%nat) by (intros; unfold bytes_of_text; rewrite map_length; apply date_length).
  assert (LT : forall t, List.length (bytes_of_text (time_text t)) = 8%nat) by (intros; unfold bytes_of_text; rewrite map_length; apply time_length).
  split; [|split].
  - rewrite B, B', R, R', !app_length, !LD, !LT. reflexivity.
  - intros j J1 J2. rewrite B, B', R, R', <- !app_assoc.
    assert (C : forall (x y z z' w : list N), List.length x = List.length y -> ~ (List.length w <= j < List.length w + List.length x)%nat ->
        ((List.length w + List.length x <= j)%nat -> nth_error z (j - (List.length w + List.length x)) = nth_error z' (j - (List.length w + List.length x))) ->
        nth_error (w ++ x ++ z) j = nth_error (w ++ y ++ z') j).
    { clear. intros x y z z' w L J E. destruct (Nat.lt_ge_cases j (List.length w)) as [K|K].
      - rewrite !nth_error_app1 by lia. reflexivity.
      - rewrite !(nth_error_app2 w) by lia. rewrite !nth_error_app2 by lia. rewrite <- L. replace (j - List.length w - List.length x)%nat with (j - (List.length w + List.length x))%nat by lia. apply E. lia. }
    apply C; [now rewrite !LD|rewrite LD, La; lia|]. rewrite LD, La. intros K.
    destruct (Nat.lt_ge_cases (j - 74) 4) as [K2|K2]; [rewrite !nth_error_app1 by lia; reflexivity|].
    rewrite !(nth_error_app2 b) by lia. rewrite Lb. destruct (Nat.lt_ge_cases (j - 78) 8) as [K3|K3]; [lia|].
    rewrite (nth_error_app2 (bytes_of_text (time_text t'))), (nth_error_app2 (bytes_of_text (time_text t))); rewrite ?LT; try lia. reflexivity.
  - intros T1 T2 EB. destruct (C95_header_time t fuel sm ord c s T1 ES M) as [D1 D2]. destruct (C95_header_time t' fuel sm ord c s' T2 ES M') as [D1' D2'].
    rewrite EB in D1', D2'. apply bytes_inj; congruence.
Qed.
Print Assumptions C95_only_the_clock.

(** ** Cases: the demo database's run in a second of 2023, on a leap day, and on the last second of 9999. *)
Example C95_case_texts :
  date_text 1700000000 = tx "2023/11/14" /\ time_text 1700000000 = tx "22:13:20" /\
  date_text 1709164800 = tx "2024/02/29" /\ date_text 4107542399 = tx "2100/02/28" /\ date_text 4107542400 = tx "2100/03/01" /\
  date_text (year_10000 - 1) = tx "9999/12/31" /\ time_text (year_10000 - 1) = tx "23:59:59".
Proof. repeat split; vm_compute; reflexivity. Qed.
Theorem C95_case_run : exists s, main_program 3000 Iso ex_orders (command_at 1700000000 (demo_command demo_input)) = Ok (0, s) /\
  1700000000 < year_10000 /\ c_stdout (demo_command demo_input) = file_at_end [] /\
  date_bytes (instant_of 1700000000) = bytes_of_text (tx "2023/11/14").
Proof.
  assert (X : match main_program 3000 Iso ex_orders (command_at 1700000000 (demo_command demo_input)) with Ok (0, _) => true | _ => false end = true) by (vm_compute; reflexivity).
  destruct (main_program 3000 Iso ex_orders (command_at 1700000000 (demo_command demo_input))) as [[n s]| | | |]; try discriminate X. destruct n; [|discriminate X].
  exists s. split; [reflexivity|]. split; [reflexivity|]. split; [reflexivity|].
  refine (eq_trans (eq_sym (date_is 1700000000 eq_refl)) _). apply f_equal. apply C95_case_texts.
Qed.
Print Assumptions C95_case_run.
