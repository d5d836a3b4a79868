(** Property C81: two inputs give the same bytes exactly when they ask for the same bits. *)
From Verif Require Import Base BaseFacts Absl Part PartSpec Frame Frames Fasm FasmSpec
  DbText DbJson Database Packet Writer WriterFacts ConfigSpec ContainerSpec Reader Encode EncodeSpec EncodeFacts
  Assembler AsmSpec LookupFacts AsmWhole DbSpec JsonSpec LoadSpec P_Database4 P_Main P_Main2 EndSpec AsmExample P_EndToEnd SameSpec SameFacts P_Repro.

(** The bits the features ask for, with the defaults and what they imply. *)
Definition asks_for (e : environment) (root : text) (g : tilegrid) (p : db_part) (pins : list package_pin)
    (feats : list fasm_feature) (a w i : N) : Prop :=
  exists pud f, pudcb_default g pud /\ in_design g p pins (pud ++ feats) f /\ sets_bit e root g f a w i.

Lemma field_split t t' r r' : header_text t -> header_text t' -> ContainerSpec.field t ++ r = ContainerSpec.field t' ++ r' -> t = t' /\ r = r'.
Proof.
  intros [_ L] [_ L'] H. unfold ContainerSpec.field in H. rewrite <- !app_assoc in H. unfold be16 in H. cbn [app] in H.
  apply (f_equal (fun l => (nth 0 l 0, nth 1 l 0, skipn 2 l))) in H. cbn [nth skipn] in H.
  apply pair_equal_spec in H as [H H3]. apply pair_equal_spec in H as [H1 H2].
  assert (E : len_N t = len_N t').
  { pose proof (N.div_mod (len_N t + 1) 256 ltac:(discriminate)). pose proof (N.div_mod (len_N t' + 1) 256 ltac:(discriminate)).
    rewrite H1, H2 in *. lia. }
  assert (LN : List.length t = List.length t') by (unfold len_N in E; lia). clear - H3 LN.
  revert t' LN H3. induction t as [|c t IH]; intros [|c' t'] LN H; try discriminate LN.
  - cbn [bytes_of_text map app] in H. apply (f_equal (@tl N)) in H. now split.
  - cbn [bytes_of_text map app] in H. pose proof (f_equal (fun l => hd 0 l) H) as H1. apply (f_equal (@tl N)) in H. cbn [hd tl] in *.
    destruct (IH t') as [-> ->]; [now injection LN|exact H|]. split; [|reflexivity]. f_equal.
    rewrite <- (ascii_N_embedding c), <- (ascii_N_embedding c'), H1. reflexivity.
Qed.
Lemma app_head (a b c : list N) : a ++ b = a ++ c -> b = c.
Proof. apply app_inv_head. Qed.
Lemma bit_file_date s g p date date' time time' ws ws' :
  header_text date -> header_text date' -> header_text time -> header_text time' ->
  bit_file s g p date time ws = bit_file s g p date' time' ws' -> date = date' /\ time = time'.
Proof.
  intros D D' T T' H. unfold bit_file, bit_header in H. rewrite <- !app_assoc in H.
  do 5 apply app_head in H.
  cbn [app] in H. apply (f_equal (@tl N)) in H. cbn [tl] in H.
  apply field_split in H as [-> H]; auto. cbn [app] in H. apply (f_equal (@tl N)) in H. cbn [tl] in H.
  apply field_split in H as [-> _]; auto.
Qed.

(** Two runs of the program on the same database and part that both succeed, on any inputs, with any
    iteration orders: the files are equal exactly when they carry the same date and time and the two
    inputs ask for the same bits. *)
Theorem C81_same_bytes_exactly_for_the_same_bits :
  forall fuel fuel' ord ord' c c' s s' root input input' g p pins feats feats',
  good_orders ord -> good_orders ord' ->
  c_env c' = c_env c -> c_part c' = c_part c -> db_path c = Some root -> db_path c' = Some root ->
  sound_files (c_env c) -> (forall root, sound_walk (c_env c) root) ->
  database_says (c_env c) root (c_part c) g p pins ->
  consistent_description (c_env c) root g p -> distinct_banks p -> one_pudcb g ->
  c_stdout c = file_at_end [] -> c_stdout c' = file_at_end [] ->
  header_text (c_date c) -> header_text (c_time c) -> header_text (c_date c') -> header_text (c_time c') ->
  input_text c = Some input -> input_text c' = Some input' -> short_lines input -> short_lines input' ->
  text_features Iso input feats -> text_features Iso input' feats' ->
  main_program fuel Iso ord c = Ok (0, s) -> main_program fuel' Iso ord' c' = Ok (0, s') ->
  (st_bytes s = st_bytes s' <->
   c_date c = c_date c' /\ c_time c = c_time c' /\
   forall a w i, asks_for (c_env c) root g p pins feats a w i <-> asks_for (c_env c) root g p pins feats' a w i).
Proof.
  intros fuel fuel' ord ord' c c' s s' root input input' g p pins feats feats' G G' EE EP ER ER' SF SW DS CD DB OP
    ES ES' HD HT HD' HT' EI EI' SL SL' T T' H H'.
  destruct (C71_exit_zero_for_any_reading fuel ord c s root input g p pins G ES HD HT SF SW H ER EI SL DS CD DB)
    as (pud & fe & fs & PD & TF & CF & PR & DE).
  assert (fe = feats) as -> by (eapply text_features_fun; eauto).
  destruct (C71_exit_zero_for_any_reading fuel' ord' c' s' root input' g p pins G' ES' HD' HT'
      ltac:(rewrite EE; exact SF) ltac:(rewrite EE; exact SW) H' ER' EI' SL' ltac:(rewrite EE, EP; exact DS) ltac:(rewrite EE; exact CD) DB)
    as (pud' & fe' & fs' & PD' & TF' & CF' & PR' & DE').
  assert (fe' = feats') as -> by (eapply text_features_fun; eauto).
  assert (pud' = pud) as -> by (eapply pudcb_unique; eauto).
  rewrite EE in CF'.
  destruct CF as (A1 & A2 & A3 & A4). destruct CF' as (B1 & B2 & B3 & B4).
  assert (W : forall fe fs, (forall a w i, (exists ws x, In (a, ws) fs /\ nth_error ws (N.to_nat w) = Some x /\ N.testbit x i = true) <->
      exists f, in_design g p pins (pud ++ fe) f /\ sets_bit (c_env c) root g f a w i) ->
      forall a w i, asks_for (c_env c) root g p pins fe a w i <-> (exists ws x, In (a, ws) fs /\ nth_error ws (N.to_nat w) = Some x /\ N.testbit x i = true)).
  { intros fe fx X a w i. rewrite X. split.
    - intros (q & f & Q & I & S). assert (q = pud) as -> by (eapply pudcb_unique; eauto). eauto.
    - intros (f & I & S). exists pud, f. auto. }
  pose proof (W _ _ A4) as WA. pose proof (W _ _ B4) as WB. clear W. split.
  - intros EB. unfold programs in PR, PR'.
    assert (DT : c_date c = c_date c' /\ c_time c = c_time c').
    { rewrite PR, PR' in EB. apply bit_file_date in EB; auto. }
    split; [apply DT|]. split; [apply DT|]. rewrite EB in DE. assert (fs' = fs) as -> by congruence.
    intros a w i. rewrite WA, WB. reflexivity.
  - intros (E1 & E2 & X). assert (fs = fs') as <-.
    { apply frames_ext; auto. - intros a. rewrite A2, B2. reflexivity.
      - intros a w i. unfold shows. rewrite <- WA, <- WB. apply X. }
    unfold programs in PR, PR'. rewrite PR, PR', E1, E2. reflexivity.
Qed.
Print Assumptions C81_same_bytes_exactly_for_the_same_bits.

(** ** A case *)
(** The same lines in another order, one twice and one as an address of width one; and a design without the last line. *)
Definition same_input : text :=
  unlines [tx "LIOB33_X0Y1.IOB_Y1.STEPDOWN"; tx "CLBLL_L_X2Y1.CLBLL_L_A1.IMUX_L6  # routing";
           tx "CLBLL_L_X2Y1.SLICEL_X0.ALUT.INIT[1] = 1"; tx "LIOB33_X0Y1.IOB_Y1.STEPDOWN"].
Definition other_input : text :=
  unlines [tx "CLBLL_L_X2Y1.SLICEL_X0.ALUT.INIT[1:0] = 2'b10"; tx "CLBLL_L_X2Y1.CLBLL_L_A1.IMUX_L6"].
Definition runs (input : text) (s : stream) : Prop :=
  short_lines input /\ (exists feats, text_features Iso input feats) /\
  main_program 3000 Iso ex_orders (demo_command input) = Ok (0, s).
Lemma run_shape input : forallb (fun l => N.of_nat (List.length l) <? 2 ^ 24 - 1) (getlines input) = true ->
  match main_program 3000 Iso ex_orders (demo_command input) with Ok (0, _) => true | _ => false end = true -> exists s, runs input s.
Proof.
  intros F M. destruct (main_program 3000 Iso ex_orders (demo_command input)) as [[n s]| | | |] eqn:E; try discriminate M.
  destruct n; [|discriminate M]. exists s.
  assert (SL : short_lines input).
  { unfold short_lines. intros line I. rewrite forallb_forall in F. specialize (F _ I). now apply N.ltb_lt. }
  split; [exact SL|]. split; [|exact E].
  destruct C71_case_database as (pins & DS & CD).
  destruct (C71_exit_zero_for_any_reading 3000 ex_orders (demo_command input) s (tx "db") input _ _ pins ex_orders_good eq_refl
     ltac:(split; [repeat constructor|reflexivity]) ltac:(split; [repeat constructor|reflexivity]) demo_sound_files demo_sound_walk E eq_refl eq_refl SL DS CD
     ltac:(rewrite demo_part; repeat constructor; cbn; tauto)) as (pud & feats & fs & _ & T & _). eauto.
Qed.
Example C81_case : exists s s1 s2, runs demo_input s /\ runs same_input s1 /\ runs other_input s2 /\
  one_pudcb (tl_grid demo_db) /\ distinct_banks (tl_part demo_db) /\
  st_bytes s = st_bytes s1 /\ st_bytes s <> st_bytes s2.
Proof.
  destruct (run_shape demo_input) as (s & R); [vm_compute; reflexivity..|].
  destruct (run_shape same_input) as (s1 & R1); [vm_compute; reflexivity..|].
  destruct (run_shape other_input) as (s2 & R2); [vm_compute; reflexivity..|].
  exists s, s1, s2. split; [exact R|]. split; [exact R1|]. split; [exact R2|].
  split; [exact demo_one_pudcb|]. split; [rewrite demo_part; repeat constructor; cbn; tauto|].
  destruct R as (_ & _ & R). destruct R1 as (_ & _ & R1). destruct R2 as (_ & _ & R2).
  assert (X : match main_program 3000 Iso ex_orders (demo_command demo_input), main_program 3000 Iso ex_orders (demo_command same_input),
                main_program 3000 Iso ex_orders (demo_command other_input) with
     | Ok (_, s), Ok (_, s1), Ok (_, s2) => (if list_eq_dec N.eq_dec (st_bytes s) (st_bytes s1) then true else false)
                                            && (if list_eq_dec N.eq_dec (st_bytes s) (st_bytes s2) then false else true)
     | _, _, _ => false end = true) by (vm_compute; reflexivity).
  rewrite R, R1, R2 in X. apply andb_true_iff in X as [X Y].
  destruct (list_eq_dec N.eq_dec (st_bytes s) (st_bytes s1)); [|discriminate X].
  destruct (list_eq_dec N.eq_dec (st_bytes s) (st_bytes s2)); [discriminate Y|]. now split.
Qed.
