(** Property C109: database files replaced while the program runs. *)
From Verif Require Import Base BaseFacts Absl Part Frame Frames Fasm DbText DbJson Database Assembler AsmSpec MapFacts PartSpec
  DbSpec JsonSpec LoadSpec LoadFacts EndSpec P_Main P_Main2 P_Database4 P_EndToEnd
  AsmExample JsonFacts FasmSpec OpensSpec Opens OpensFacts OpensFacts2 P_Opens Writer SnapSpec SnapFacts.
From Coq Require Import Lia.

(** ** How many files *)
Definition all_paths (paths : list (text * tile_paths)) : list text :=
  flat_map (fun kp => opt_opens (tp_ppips (snd kp)) ++ opt_opens (tp_segbits (snd kp)) ++ opt_opens (tp_block_ram (snd kp))) paths.
Lemma getter_paths e paths ty : incl (getter_opens e paths ty) (all_paths paths).
Proof.
  unfold getter_opens. destruct (hm_find text_eqb ty paths) as [p|] eqn:E; [|intros x []]. apply hm_find_maps in E; [|exact text_eqb_eq]. apply maps_to_In in E.
  intros x I. unfold all_paths. apply in_flat_map. exists (ty, p). split; [exact E|]. cbn [snd]. unfold tile_type_opens in I. rewrite !in_app_iff in *.
  destruct I as [I|I]; [now left|]. right. destruct (parse_opt e parse_ppips (tp_ppips p)); try contradiction. rewrite in_app_iff in I.
  destruct I as [I|I]; [now left|]. right. destruct (parse_opt e parse_segbits (tp_segbits p)); try contradiction. exact I.
Qed.
Lemma database_short e root part : (List.length (database_opens e root part) <= 5)%nat.
Proof.
  destruct (database_tails e root part) as (n & E). apply (f_equal (@List.length _)) in E. rewrite map_length in E. rewrite E, firstn_length.
  change (List.length fixed_tails) with 5%nat. lia.
Qed.
Section Walk.
  Context (c : command).
  Hypothesis WALK : forall root, db_path c = Some root -> sound_walk (c_env c) root /\ distinct_types (c_env c) root.
  Lemma walk_env e : same_directory (c_env c) e ->
    forall root, db_path (with_env e c) = Some root -> sound_walk (c_env (with_env e c)) root /\ distinct_types (c_env (with_env e c)) root.
  Proof.
    intros (A & B & C) root R. change (db_path (with_env e c)) with (db_path c) in R. destruct (WALK root R) as [W D]. cbn [with_env c_env]. split.
    - intros l E. apply W. now rewrite <- B.
    - intros all p p' dir dir' ty ty' low E. apply D. now rewrite <- B.
  Qed.
  Lemma opens_once sm ord e : same_directory (c_env c) e -> NoDup (main_opens sm ord (with_env e c)).
  Proof. intros S. apply C96_no_file_twice. now apply walk_env. Qed.
  Lemma opens_short sm ord : exists n, forall e, same_directory (c_env c) e -> (List.length (main_opens sm ord (with_env e c)) <= n)%nat.
  Proof.
    exists (5 + List.length (match db_path c with Some root => match index_tile_types (c_env c) root with Ok paths => all_paths paths | _ => [] end | None => [] end))%nat.
    intros e S. pose proof (opens_once sm ord e S) as ND. destruct S as (A & B & C). unfold main_opens in *. cbn [with_env c_args c_part c_env] in *.
    change (db_path (with_env e c)) with (db_path c) in *. change (input_text (with_env e c)) with (input_text c) in *.
    destruct (2 <? List.length (c_args c))%nat; [cbn [List.length]; lia|]. destruct (db_path c) as [root|]; [|cbn [List.length]; lia].
    destruct (match root with [] => true | _ => negb (e_exists e root) end); [cbn [List.length]; lia|]. destruct (c_part c) as [|pc pr]; [cbn [List.length]; lia|].
    set (part := pc :: pr) in *. clearbody part. rewrite (index_agree _ _ A B) in *. pose proof (database_short e root part) as L. rewrite app_length.
    destruct (parse_database e (o_load ord) root part) as [tls| | | |]; [|cbn [List.length]; lia..].
    destruct (index_tile_types (c_env c) root) as [paths| | | |]; [|cbn [List.length]; lia..]. destruct (input_text c) as [input|]; [|cbn [List.length]; lia].
    assert (H : (List.length (frames_opens (getter_opens e paths) sm ord tls input) <= List.length (all_paths paths))%nat); [|lia].
    apply NoDup_incl_length.
    - clear - ND. induction (database_opens e root part) as [|x l IH]; [exact ND|]. inversion ND; subst. auto.
    - destruct (frames_types (getter_opens e paths) sm ord tls input) as (tys & E & _). rewrite E.
      intros x I. apply in_flat_map in I as (ty & _ & I). now apply getter_paths in I.
  Qed.

  (** ** File after file *)
  Lemma first_files sm ord seen n : exists e, same_directory (c_env c) e /\
    forall i path, (i < n)%nat -> nth_error (main_opens sm ord (with_env e c)) i = Some path -> e_read e path = seen i path.
  Proof.
    induction n as [|n (e & SD & H)]; [exists (c_env c); split; [apply same_directory_refl|intros; lia]|].
    destruct (nth_error (main_opens sm ord (with_env e c)) n) as [p|] eqn:EN.
    2:{ exists e. split; [exact SD|]. intros i path L E. apply H; [|exact E]. destruct (Nat.eq_dec i n) as [->|]; [congruence|lia]. }
    set (e' := put e p (seen n p)). assert (SD' : same_directory (c_env c) e') by now apply same_directory_put. exists e'. split; [exact SD'|].
    pose proof (opens_once sm ord e SD) as ND. pose proof (opens_once sm ord e' SD') as ND'. pose proof (causal sm ord c e e' SD SD') as CS.
    (** the first n+1 opens are the same *)
    assert (SAME : forall i, (i <= n)%nat -> nth_error (main_opens sm ord (with_env e' c)) i = nth_error (main_opens sm ord (with_env e c)) i).
    { destruct CS as [[_ ->]|(l & q & r & r' & E1 & E2 & AG & D)]; [reflexivity|].
      assert (q = p) as ->. { destruct (list_eq_dec ascii_dec q p) as [->|NE]; [reflexivity|]. exfalso. apply D. unfold e'. now apply put_other. }
      assert (LL : List.length l = n).
      { assert (EQ : nth_error (main_opens sm ord (with_env e c)) (List.length l) = Some p) by (rewrite E1, nth_error_app2, Nat.sub_diag by lia; reflexivity).
        rewrite NoDup_nth_error in ND. apply ND; [apply nth_error_Some; congruence|congruence]. }
      intros i L. rewrite E1, E2. destruct (Nat.eq_dec i n) as [->|NE].
      - rewrite !nth_error_app2 by lia. rewrite LL, Nat.sub_diag. reflexivity.
      - rewrite !nth_error_app1 by lia. reflexivity. }
    intros i path L E. rewrite SAME in E by lia. destruct (Nat.eq_dec i n) as [->|NE].
    - assert (path = p) as -> by congruence. apply put_there.
    - unfold e'. rewrite put_other; [apply H; [lia|exact E]|]. intros ->. apply NE.
      rewrite NoDup_nth_error in ND. apply ND; [apply nth_error_Some; congruence|congruence].
  Qed.
End Walk.

(** Whatever replacements of files happen between the opens, there is a fixed directory on which the run opens the same files and reads the same contents. *)
Theorem C109_a_fixed_directory_explains_the_run :
  forall sm ord c seen, (forall root, db_path c = Some root -> sound_walk (c_env c) root /\ distinct_types (c_env c) root) ->
  exists e, snapshot sm ord c seen e.
Proof.
  intros sm ord c seen W. destruct (opens_short c W sm ord) as (n & L). destruct (first_files c W sm ord seen n) as (e & SD & H). exists e. split; [exact SD|].
  intros i path E. apply H; [|exact E]. specialize (L e SD). assert (i < List.length (main_opens sm ord (with_env e c)))%nat by (apply nth_error_Some; congruence). lia.
Qed.
Print Assumptions C109_a_fixed_directory_explains_the_run.

(** And only one such run: what is seen at each open determines which files are opened, the exit status and the output. *)
Theorem C109_what_is_seen_determines_the_run :
  forall fuel sm ord c seen e e', snapshot sm ord c seen e -> snapshot sm ord c seen e' ->
  main_opens sm ord (with_env e' c) = main_opens sm ord (with_env e c) /\
  main_program fuel sm ord (with_env e' c) = main_program fuel sm ord (with_env e c).
Proof.
  intros fuel sm ord c seen e e' [SD H] [SD' H'].
  assert (AG : agree e e' (main_opens sm ord (with_env e c))).
  { destruct (causal sm ord c e e' SD SD') as [[AG _]|(l & p & r & r' & E & E' & AG & D)]; [exact AG|]. exfalso. apply D.
    rewrite (H' (List.length l) p), (H (List.length l) p); [reflexivity| |]; [rewrite E|rewrite E']; rewrite nth_error_app2, Nat.sub_diag by lia; reflexivity. }
  destruct SD as (A & B & C). destruct SD' as (A' & B' & C').
  assert (SD : same_directory (c_env (with_env e c)) e') by (cbn [with_env c_env]; repeat split; intros x; [rewrite A', A|rewrite B', B|rewrite C', C]; reflexivity).
  destruct (C96_nothing_else_is_read fuel sm ord (with_env e c) e' SD AG) as [P O]. split; [exact O|exact P].
Qed.
Print Assumptions C109_what_is_seen_determines_the_run.

(** Replacements after the last open, and those before the first, leave a run on the old and on the new directory. *)
Theorem C109_replaced_outside_the_run :
  forall fuel sm ord c old new k e, same_directory (c_env c) old -> same_directory (c_env c) new ->
  snapshot sm ord c (replaced_at k (e_read old) (e_read new)) e ->
  ((List.length (main_opens sm ord (with_env old c)) <= k)%nat -> main_program fuel sm ord (with_env e c) = main_program fuel sm ord (with_env old c)) /\
  (k = O -> main_program fuel sm ord (with_env e c) = main_program fuel sm ord (with_env new c)).
Proof.
  intros fuel sm ord c old new k e SO SN S. split.
  - intros L. eapply C109_what_is_seen_determines_the_run; [|exact S]. split; [exact SO|]. intros i path E. unfold replaced_at.
    assert (I : (i < List.length (main_opens sm ord (with_env old c)))%nat) by (apply nth_error_Some; congruence).
    destruct (Nat.ltb_spec i k); [reflexivity|lia].
  - intros ->. eapply C109_what_is_seen_determines_the_run; [|exact S]. split; [exact SN|]. reflexivity.
Qed.
Print Assumptions C109_replaced_outside_the_run.

(** In between, the run has the first [k] files it opens from the old directory and all others from the new one. *)
Theorem C109_replaced_during_the_run :
  forall sm ord c old new k e, snapshot sm ord c (replaced_at k (e_read old) (e_read new)) e ->
  (forall path, In path (firstn k (main_opens sm ord (with_env e c))) -> e_read e path = e_read old path) /\
  (forall path, In path (skipn k (main_opens sm ord (with_env e c))) -> e_read e path = e_read new path).
Proof.
  intros sm ord c old new k e [_ H]. split; intros path I.
  - apply In_nth_error in I as (i & E). assert (L : (i < k)%nat).
    { assert (i < List.length (firstn k (main_opens sm ord (with_env e c))))%nat by (apply nth_error_Some; congruence). rewrite firstn_length in *. lia. }
    assert (E' : nth_error (main_opens sm ord (with_env e c)) i = Some path).
    { rewrite <- (firstn_skipn k (main_opens sm ord (with_env e c))). rewrite nth_error_app1; [exact E|]. apply nth_error_Some. congruence. }
    rewrite (H _ _ E'). unfold replaced_at. destruct (Nat.ltb_spec i k); [reflexivity|lia].
  - apply In_nth_error in I as (i & E).
    assert (E' : nth_error (main_opens sm ord (with_env e c)) (k + i) = Some path).
    { revert E. generalize (main_opens sm ord (with_env e c)). clear. induction k as [|k IH]; intros l E; [exact E|]. destruct l as [|x l]; [destruct i; discriminate E|]. apply IH, E. }
    rewrite (H _ _ E'). unfold replaced_at. destruct (Nat.ltb_spec (k + i) k); [lia|reflexivity].
Qed.
Print Assumptions C109_replaced_during_the_run.

(** The directory is not read as a whole: two databases, each fine, and a run during whose course the one replaces the other, that ends well
    with an output that is neither the output for the one nor that for the other. *)
Definition next_part_json : json :=
  match demo_part_json with JObj (_ :: fields) => JObj ((tx "idcode", JInt 0x0362C093) :: fields) | j => j end.
Definition old_env : environment :=
  {| e_read := e_read demo_env; e_exists := e_exists demo_env; e_walk := e_walk demo_env;
     e_json := fun s => if text_eqb s (tx "<next part>") then Some next_part_json else e_json demo_env s |}.
Definition new_segbits : text := unlines [tx "CLBLL_L.SLICEL_X0.ALUT.INIT[00] 02_15"; tx "CLBLL_L.SLICEL_X0.ALUT.INIT[01] 00_15 !02_14"].
(** The two databases differ in the IDCODE of the part and in the place of one bit of CLBLL_L tiles. *)
Definition new_env : environment :=
  {| e_read := fun p => if text_eqb p (tx "db/xc7a35t/part.json") then Some (tx "<next part>")
                        else if text_eqb p (tx "db/segbits_clbll_l.db") then Some new_segbits else e_read demo_env p;
     e_exists := e_exists demo_env; e_walk := e_walk demo_env; e_json := e_json old_env |}.
(** The old IDCODE, the new bit. *)
Definition mixed_env : environment :=
  {| e_read := fun p => if text_eqb p (tx "db/segbits_clbll_l.db") then Some new_segbits else e_read demo_env p;
     e_exists := e_exists demo_env; e_walk := e_walk demo_env; e_json := e_json old_env |}.
Definition switch_command : command := with_env old_env (demo_command demo_input).
Definition byte {S} (bytes : S -> list N) (i : nat) (r : outcome (N * S)) : option N := match r with Ok (0, s) => nth_error (bytes s) i | _ => None end.
Lemma byte_there {S} (bytes : S -> list N) i r x : byte bytes i r = Some x -> exists s, r = Ok (0, s) /\ nth_error (bytes s) i = Some x.
Proof. destruct r as [[[|n] s]| | | |]; try discriminate. intros E. now exists s. Qed.
Lemma three_runs {S} (bytes : S -> list N) a b m : byte bytes 346 a = Some 0 -> byte bytes 222 b = Some 192 ->
  match m with Ok (0, s) => (nth_error (bytes s) 222, nth_error (bytes s) 346) | _ => (None, None) end = (Some 208, Some 128) ->
  exists so sn s, a = Ok (0, so) /\ b = Ok (0, sn) /\ m = Ok (0, s) /\ bytes s <> bytes so /\ bytes s <> bytes sn.
Proof.
  intros E1 E2 E3. apply byte_there in E1 as (so & -> & E1). apply byte_there in E2 as (sn & -> & E2).
  destruct m as [[[|n] s]| | | |]; try discriminate E3. exists so, sn, s. repeat (split; [reflexivity|]). split; intros X; rewrite X in *; congruence.
Qed.
Definition nine : list text :=
  map tx ["db/mapping/parts.yaml"; "db/mapping/devices.yaml"; "db/fab/tilegrid.json"; "db/xc7a35t/part.json"; "db/xc7a35t/package_pins.csv";
          "db/segbits_liob33.db"; "db/ppips_clbll_l.db"; "db/segbits_clbll_l.db"; "db/segbits_hclk_ioi3.db"]%string.
Lemma mixed_opens : main_opens Iso ex_orders (with_env mixed_env switch_command) = nine.
Proof. vm_compute. reflexivity. Qed.
Lemma mixed_seen i path : nth_error nine i = Some path -> e_read mixed_env path = replaced_at 6 (e_read old_env) (e_read new_env) i path.
Proof.
  assert (X : forall a : text, Some a = Some path -> path = a) by congruence.
  do 9 (destruct i as [|i]; [intros E; apply X in E; subst path; vm_compute; reflexivity|]). destruct i; discriminate.
Qed.
Theorem C109_refuted_one_database_or_the_other :
  exists fuel sm ord c new k e so sn s,
    same_directory (c_env c) new /\ snapshot sm ord c (replaced_at k (e_read (c_env c)) (e_read new)) e /\
    main_program fuel sm ord c = Ok (0, so) /\
    main_program fuel sm ord (with_env new c) = Ok (0, sn) /\
    main_program fuel sm ord (with_env e c) = Ok (0, s) /\ st_bytes s <> st_bytes so /\ st_bytes s <> st_bytes sn.
Proof.
  destruct (three_runs st_bytes (main_program 3000 Iso ex_orders switch_command)
    (main_program 3000 Iso ex_orders (with_env new_env switch_command)) (main_program 3000 Iso ex_orders (with_env mixed_env switch_command)))
    as (so & sn & s & H); [vm_compute; reflexivity..|].
  exists 3000%nat, Iso, ex_orders, switch_command, new_env, 6%nat, mixed_env, so, sn, s.
  split; [repeat split|]. split; [|exact H]. clear H. split; [repeat split|]. rewrite mixed_opens. exact mixed_seen.
Qed.
Print Assumptions C109_refuted_one_database_or_the_other.

(** The hypotheses of the theorems above, for the demo run: the walk is sound, and what is seen may change at every open. *)
Example C109_case : exists e, snapshot Iso ex_orders switch_command (fun i path => if Nat.even i then e_read old_env path else e_read new_env path) e.
Proof. apply C109_a_fixed_directory_explains_the_run. exact C96_case_twice. Qed.
