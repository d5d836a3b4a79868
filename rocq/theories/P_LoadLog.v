(** C104: what fpga-as says about a database that it cannot load. *)
From Verif Require Import Base BaseFacts Absl Part DbText DbJson Database Fasm FasmSpec Writer WriterFacts Encode Assembler AsmExample AsmSpec MapFacts OutcomeFacts
  DbSpec JsonSpec LoadSpec RefuseSpec EndSpec JsonFacts JsonFacts2 DbFacts YamlFacts LoadFacts P_Database P_Database2 P_Database3 P_Database4
  P_Refuse P_Main2 P_EndToEnd FasmLog AsmLog MainLog MainLogSpec LoadLog LoadLogSpec LoadLogFacts LoadLogTrue LoadLogTrue2 LoadLogTrue3 LoadLogRefute.
From Coq Require Import Lia.

(** Leaving out the messages gives the loader of Database.v. *)
Theorem C104_same_load : forall lt e ord root part, unsaid (say_database lt e ord root part) = parse_database e ord root part.
Proof. exact database_erase. Qed.

(** The message names a fault that the directory has, and with that fault it describes no database. *)
Theorem C104_message_is_true : forall lt e ord root part m, sound_files e ->
  say_database lt e ord root part = Says m -> explains lt e root part m /\ ~ loadable e root part.
Proof.
  intros lt e ord root part m SF H. pose proof (database_tells lt e root part ord m SF H) as T. split; [exact T|].
  eapply explained_refutes; exact T.
Qed.
(** Every directory that is not loaded gets a message, unless the loader aborts. *)
Theorem C104_every_failure_is_explained : forall lt e ord root part, sound_files e -> good_load ord ->
  ~ loadable e root part -> ~ loading_aborts e root part ->
  exists m, say_database lt e ord root part = Says m /\ explains lt e root part m.
Proof.
  intros lt e ord root part SF GL NL NA. destruct (C79_loading e ord root part SF GL) as (_ & _ & X). specialize (X NL NA).
  rewrite <- (database_erase lt) in X. destruct (say_database lt e ord root part) as [t|m| | |] eqn:E; try discriminate X.
  exists m. split; [reflexivity|]. now apply (database_tells lt e root part ord).
Qed.

(** In the program: the message of the loader is the status that is printed. *)
Definition loader_status (lt : library_texts) (ord : orders) (c : command) : text :=
  match db_path c with
  | Some root => match say_database lt (c_env c) (o_load ord) root (c_part c) with Says m => m | _ => [] end
  | None => []
  end.
Theorem C104_what_the_program_says : forall lt fuel sm ord open enc c n s notes m, sound_files (c_env c) ->
  main_log fuel sm ord {| s_database := loader_status lt ord c; s_open := open; s_encode := enc |} c = Ok (n, s, notes) ->
  In (NDatabase m) notes ->
  n = 1 /\ s = c_stdout c /\ notes = [NDatabase m] /\
  exists root, part_given c root /\ explains lt (c_env c) root (c_part c) m /\ ~ loadable (c_env c) root (c_part c).
Proof.
  intros lt fuel sm ord open enc c n s notes m SF H I. unfold main_log in H. cbv zeta in H.
  destruct (2 <? List.length (c_args c))%nat eqn:EA; [injection H as _ _ <-; destruct I as [I|[]]; discriminate I|].
  destruct (db_path c) as [root|] eqn:ED; [|injection H as _ _ <-; repeat destruct I as [I|I]; try discriminate I; destruct I].
  destruct (match root with [] => true | _ => negb (e_exists (c_env c) root) end) eqn:ER; [injection H as _ _ <-; destruct I as [I|[]]; discriminate I|].
  destruct (c_part c) as [|pc pr] eqn:EP; [injection H as _ _ <-; repeat destruct I as [I|I]; try discriminate I; destruct I|].
  rewrite <- EP in *.
  assert (ND : forall ms n', n' <> NDatabase m -> In (NDatabase m) (map NFasm ms ++ [n']) -> False).
  { intros ms n' NE J. apply in_app_or in J as [J|[J|[]]]; [|contradiction]. apply in_map_iff in J as (x & E & _). discriminate E. }
  destruct (parse_database (c_env c) (o_load ord) root (c_part c)) as [tls| | | |] eqn:EL; try discriminate H.
  - exfalso. destruct (input_text c) as [input|]; [|injection H as _ _ <-; destruct I as [I|[]]; discriminate I].
    destruct (assemble_log sm ord tls input) as [[ms [fr|st]]| | | |]; try discriminate H; cbn [obind] in H.
    + destruct (encode _ _ _ _ _ _ _ _); try discriminate H; injection H as _ _ <-.
      * apply in_map_iff in I as (x & E & _). discriminate E.
      * eapply ND; [|exact I]. discriminate.
    + injection H as _ _ <-. eapply ND; [|exact I]. discriminate.
  - injection H as <- <- <-. cbn [s_database] in *. destruct I as [I|[]]. injection I as I.
    split; [reflexivity|]. split; [reflexivity|]. split; [now rewrite <- I|]. exists root.
    assert (PG : part_given c root).
    { unfold part_given, path_usable, path_is, one_file. apply Nat.ltb_ge in EA. rewrite EP. destruct root as [|rc rr]; [discriminate ER|].
      apply Bool.negb_false_iff in ER. split; [|discriminate]. split; [|split; [discriminate|exact ER]]. split; [exact EA|exact ED]. }
    split; [exact PG|]. unfold loader_status in I. rewrite ED in I. rewrite <- (database_erase lt) in EL.
    destruct (say_database lt (c_env c) (o_load ord) root (c_part c)) as [t|m'| | |] eqn:ES; try discriminate EL. subst m'.
    now apply (C104_message_is_true lt (c_env c) (o_load ord)).
Qed.
Print Assumptions C104_same_load.
Print Assumptions C104_message_is_true.
Print Assumptions C104_every_failure_is_explained.
Print Assumptions C104_what_the_program_says.

(** ** Cases: the demonstration database with one file changed *)
Definition with_file (p c : text) (e : environment) : environment :=
  {| e_read := fun q => if text_eqb q p then Some c else e_read e q; e_exists := e_exists e; e_walk := e_walk e; e_json := e_json e |}.
Definition without_file (p : text) (e : environment) : environment :=
  {| e_read := fun q => if text_eqb q p then None else e_read e q; e_exists := e_exists e; e_walk := e_walk e; e_json := e_json e |}.
Definition with_json (s : text) (j : option json) (e : environment) : environment :=
  {| e_read := e_read e; e_exists := e_exists e; e_walk := e_walk e; e_json := fun t => if text_eqb t s then j else e_json e t |}.
Definition demo_texts : library_texts :=
  {| lt_value := fun _ => tx "<value>"; lt_parse := fun _ => tx "<parse error>"; lt_errno := fun _ => tx "No such file or directory" |}.
Definition demo_says (e : environment) (part : text) : said unit :=
  match say_database demo_texts e document_order (tx "db") part with Fine _ => Fine tt | Says m => Says m | Aborts => Aborts | Undefined => Undefined | Unfinished => Unfinished end.
Lemma demo_says_spec e part m : demo_says e part = Says m -> say_database demo_texts e document_order (tx "db") part = Says m.
Proof. unfold demo_says. destruct (say_database _ _ _ _ _); congruence. Qed.

Lemma with_file_sound p c e : sound_files e -> N.of_nat (List.length c) < 2 ^ 32 - 1 -> splittable (after_mapping c) c -> sound_files (with_file p c e).
Proof. intros SF B S q d F. unfold file, with_file in F. cbn [e_read] in F. destruct (text_eqb q p); [|now apply SF in F]. injection F as <-. auto. Qed.
Lemma without_file_sound p e : sound_files e -> sound_files (without_file p e).
Proof. intros SF q d F. unfold file, without_file in F. cbn [e_read] in F. destruct (text_eqb q p); [discriminate F|now apply SF in F]. Qed.
Lemma with_json_sound s j e : sound_files e -> sound_files (with_json s j e).
Proof. intros SF q d F. now apply (SF q d). Qed.

Definition parts_path := tx "db/mapping/parts.yaml".
Definition devices_path := tx "db/mapping/devices.yaml".
Definition no_colon : text := unlines [tx "dev"; tx "  fabric: ""fab"""].
Definition no_fabric : text := unlines [tx "dev:"; tx "  fabrik: ""fab"""].
Example C104_cases :
  demo_says demo_env (tx "xc7a35t") = Fine tt /\
  demo_says demo_env (tx "xc7z") = Says (tx "invalid or unknown part ""xc7z""") /\
  demo_says (without_file (tx "db/fab/tilegrid.json") demo_env) (tx "xc7a35t") =
    Says (tx "could not open file: db/fab/tilegrid.json: No such file or directory") /\
  demo_says (with_file (tx "db/xc7a35t/package_pins.csv") (unlines [tx "pin,bank,site,tile,pin_function"; tx "A1,x,IOB,LIOB,IO"]) demo_env) (tx "xc7a35t") =
    Says (tx "2: could not parse bank (second column) ""A1,x,IOB,LIOB,IO""") /\
  demo_says (with_file (tx "db/xc7a35t/package_pins.csv") (unlines [tx "pin,bank,site,tile,pin_function"; []; tx "A1,IOB,LIOB,IO"]) demo_env) (tx "xc7a35t") =
    Says (tx "3: invalid line ""A1,IOB,LIOB,IO""") /\
  demo_says (with_file parts_path (unlines [tx "xc7a35t:"; tx "  device: dev2"; tx "  package: csg"; tx "  speedgrade: 1"]) demo_env) (tx "xc7a35t") =
    Says (tx "could not find fabric for device: ""dev2""") /\
  demo_says (with_file parts_path (unlines [tx "xc7a35t:"; tx "  device: dev"; tx "  speedgrade: 1"]) demo_env) (tx "xc7a35t") =
    Says (tx "key ""package"" not found") /\
  demo_says (with_json (tx "<part>") (Some (JObj [(tx "iobanks", JObj [])])) demo_env) (tx "xc7a35t") =
    Says (tx "json attribute ""idcode"" not found in <value>") /\
  demo_says (with_json (tx "<grid>") (Some (JObj [(tx "T", JObj [(tx "type", JInt 3)])])) demo_env) (tx "xc7a35t") =
    Says (tx "could not unmarshal tile T: could not unmarshal <value>, unexpected type: number") /\
  demo_says (with_json (tx "<grid>") None demo_env) (tx "xc7a35t") = Says (tx "json parsing error, <parse error>").
Proof. repeat split; vm_compute; reflexivity. Qed.

(** "The message tells which file of the database is at fault": not so.  A key without its colon in one table or in the other, and a
    description of the grid or of the part that is no JSON text, are reported alike. *)
Theorem C104_message_names_the_file_refuted :
  (exists m, explains demo_texts (with_file parts_path no_colon demo_env) (tx "db") (tx "xc7a35t") m /\
     explains demo_texts (with_file devices_path no_colon demo_env) (tx "db") (tx "xc7a35t") m /\
     demo_says (with_file parts_path no_colon demo_env) (tx "xc7a35t") = Says m /\
     demo_says (with_file devices_path no_colon demo_env) (tx "xc7a35t") = Says m) /\
  (exists m, demo_says (with_json (tx "<grid>") None demo_env) (tx "xc7a35t") = Says m /\
     demo_says (with_json (tx "<part>") None demo_env) (tx "xc7a35t") = Says m).
Proof.
  assert (S : sound_files (with_file parts_path no_colon demo_env) /\ sound_files (with_file devices_path no_colon demo_env)).
  { split; (apply with_file_sound; [exact demo_sound_files|vm_compute; reflexivity|right; right; vm_compute; discriminate]). }
  split; [|exists (tx "json parsing error, <parse error>"); split; vm_compute; reflexivity].
  exists (tx "Top-level key missing trailing colon").
  assert (E1 : demo_says (with_file parts_path no_colon demo_env) (tx "xc7a35t") = Says (tx "Top-level key missing trailing colon")) by (vm_compute; reflexivity).
  assert (E2 : demo_says (with_file devices_path no_colon demo_env) (tx "xc7a35t") = Says (tx "Top-level key missing trailing colon")) by (vm_compute; reflexivity).
  split; [eapply database_tells; [apply S|apply demo_says_spec; exact E1]|].
  split; [eapply database_tells; [apply S|apply demo_says_spec; exact E2]|]. split; [exact E1|exact E2].
Qed.
(** A table that the message names need not be the one at fault: devices.yaml lacks a fabric, the message speaks of the parts. *)
Theorem C104_named_table_is_at_fault_refuted :
  exists e esp, (forall p, p <> devices_path -> e_read e p = e_read demo_env p) /\ loadable demo_env (tx "db") (tx "xc7a35t") /\
    file e parts_path esp /\ file demo_env parts_path esp /\
    demo_says e (tx "xc7a35t") = Says (tx "parts yaml doesn't contain fabric").
Proof.
  exists (with_file devices_path no_fabric demo_env). eexists. split; [|split; [|split; [|split]]].
  - intros p N. unfold with_file. cbn [e_read]. destruct (text_eqb p devices_path) eqn:E; [|reflexivity]. now apply text_eqb_eq in E.
  - apply (proj1 (C79_loading _ _ _ _ demo_sound_files document_order_good)). exists demo_db. exact demo_db_parsed.
  - unfold file. vm_compute. reflexivity.
  - unfold file. vm_compute. reflexivity.
  - vm_compute. reflexivity.
Qed.
(** The program's own output for a part that is not listed. *)
Definition other_part : command :=
  let c := demo_command demo_input in
  {| c_args := c_args c; c_db_flag := c_db_flag c; c_db_env := c_db_env c; c_part := tx "xc7z"; c_stdin := c_stdin c; c_open := c_open c;
     c_env := c_env c; c_date := c_date c; c_time := c_time c; c_stdout := c_stdout c |}.
Example C104_case_program : exists notes,
  main_log 3000 Iso ex_orders {| s_database := loader_status demo_texts ex_orders other_part; s_open := []; s_encode := [] |} other_part
    = Ok (1, file_at_end [], notes) /\
  concat (map (render_note (tx "fpga-as")) notes) = unlines [tx "part mapping parsing: invalid or unknown part ""xc7z"""].
Proof. eexists. split; [vm_compute; reflexivity|]. vm_compute. reflexivity. Qed.
Print Assumptions C104_message_names_the_file_refuted.
Print Assumptions C104_named_table_is_at_fault_refuted.
