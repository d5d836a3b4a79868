(** Property C79: which databases and command lines are refused, and how. *)
From Verif Require Import Base BaseFacts Absl Part DbText DbJson Database Assembler AsmSpec MapFacts
  DbSpec JsonSpec LoadSpec JsonFacts JsonFacts2 DbFacts LoadFacts OutcomeFacts P_Database P_Database2 P_Database3 P_Database4
  P_Main P_Main2 EndSpec P_EndToEnd AsmExample SameSpec ResultSpec RefuseSpec P_Result.

Lemma map_file_cases e p : (exists c, map_file e p = Ok c) \/ map_file e p = Err.
Proof. unfold map_file. destruct (e_read e p); eauto. Qed.
Lemma part_info_cases e root part : (exists i, parse_part_info e root part = Ok i) \/ parse_part_info e root part = Err.
Proof.
  unfold parse_part_info. destruct (map_file_cases e (path_join (path_join root (tx "mapping")) (tx "parts.yaml"))) as [(a & ->)| ->]; [|now right]. cbn [obind].
  destruct (map_file_cases e (path_join (path_join root (tx "mapping")) (tx "devices.yaml"))) as [(b & ->)| ->]; [|now right]. cbn [obind].
  destruct (C61_parts_tables a b) as [(m & ->)| ->]; [|now right]. cbn [obind]. destruct (hm_find _ _ _); eauto.
Qed.
Lemma grid_document_spec e root part j : grid_document e root part j <->
  exists info gt, parse_part_info e root part = Ok info /\
    map_file e (path_join (path_join root (pi_fabric info)) (tx "tilegrid.json")) = Ok gt /\ e_json e gt = Some j.
Proof.
  split.
  - intros (info & fd & c & Hi & I & F & J). rewrite (inside_fun _ _ _ _ I (path_join_inside _ _)) in *.
    exists info, c. split; [now apply part_info_spec|]. split; [now apply map_file_in|exact J].
  - intros (info & gt & Hi & F & J). exists info, (path_join root (pi_fabric info)), gt.
    split; [now apply part_info_spec|]. split; [apply path_join_inside|]. split; [now apply map_file_in|exact J].
Qed.
Lemma part_document_spec e root part j : part_document e root part j <->
  exists pt, map_file e (path_join (path_join root part) (tx "part.json")) = Ok pt /\ e_json e pt = Some j.
Proof.
  split.
  - intros (pd & c & I & F & J). rewrite (inside_fun _ _ _ _ I (path_join_inside _ _)) in *.
    exists c. split; [now apply map_file_in|exact J].
  - intros (pt & F & J). exists (path_join root part), pt.
    split; [apply path_join_inside|]. split; [now apply map_file_in|exact J].
Qed.

(** Loading succeeds exactly for the directories that describe a database, aborts exactly for those
    [loading_aborts] names, and otherwise reports an error.  It always ends. *)
Theorem C79_loading : forall e ord root part, sound_files e -> good_load ord ->
  ((exists tls, parse_database e ord root part = Ok tls) <-> loadable e root part) /\
  (aborted (parse_database e ord root part) <-> loading_aborts e root part) /\
  (~ loadable e root part -> ~ loading_aborts e root part -> parse_database e ord root part = Err).
Proof.
  intros e ord root part SF GL.
  assert (A : (exists tls, parse_database e ord root part = Ok tls) <-> loadable e root part).
  { split.
    - intros (tls & E). destruct (loaded_bits _ _ _ _ _ E) as (l & W & _).
      destruct (C69_database_is_loaded _ _ _ _ _ SF GL E) as (pins & D & _). split; [congruence|eauto].
    - intros (W & g & p & pins & D). eapply C69_described_database_is_accepted; eauto. }
  assert (B : (aborted (parse_database e ord root part) <-> loading_aborts e root part) /\
              (parse_database e ord root part <> NoFuel)).
  { assert (LA : loading_aborts e root part <-> exists gj, grid_document e root part gj /\
      (grid_aborts gj \/ (exists g, json_grid gj g) /\ e_walk e root <> None /\ exists pj, part_document e root part pj /\ part_aborts pj)) by reflexivity.
    setoid_rewrite grid_document_spec in LA. setoid_rewrite part_document_spec in LA.
    unfold parse_database.
    assert (NA : forall A, aborted (@Err A) <-> False) by (intros T; split; [intros [X|X]; discriminate X|intros []]).
    destruct (part_info_cases e root part) as [(info & Ei)|Ei]; rewrite Ei; cbn [obind].
    2:{ split; [|discriminate]. rewrite NA. split; [intros []|]. intros (gj & (i & gt & X & _) & _)%LA. rewrite Ei in X. discriminate X. }
    destruct (map_file_cases e (path_join (path_join root (pi_fabric info)) (tx "tilegrid.json"))) as [(gt & Eg)|Eg]; rewrite Eg; cbn [obind].
    2:{ split; [|discriminate]. rewrite NA. split; [intros []|]. intros (gj & (i & gt & X & Y & _) & _)%LA.
        rewrite Ei in X. injection X as <-. rewrite Eg in Y. discriminate Y. }
    assert (GJ : forall gj, (exists i gt, parse_part_info e root part = Ok i /\
       map_file e (path_join (path_join root (pi_fabric i)) (tx "tilegrid.json")) = Ok gt /\ e_json e gt = Some gj) <-> e_json e gt = Some gj).
    { intros gj. split; [|eauto]. intros (i & gt' & X & Y & Z). rewrite Ei in X. injection X as <-. rewrite Eg in Y. injection Y as <-. exact Z. }
    setoid_rewrite GJ in LA. clear GJ.
    destruct (C61_tilegrid (e_json e gt)) as [GA GD].
    destruct GD as [GD|[(g & Gg)|Gg]].
    - assert (NF : parse_tilegrid (e_json e gt) <> NoFuel) by (intros Q; rewrite Q in GD; destruct GD; discriminate).
      split.
      + split; intros _.
        * apply LA. apply GA in GD as (j & Ej & X). eauto.
        * destruct GD as [-> | ->]; [now left|now right].
      + destruct GD as [-> | ->]; discriminate.
    - rewrite Gg. cbn [obind].
      destruct (e_json e gt) as [gj|] eqn:Jg; [|discriminate Gg].
      assert (NG : ~ grid_aborts gj).
      { intros X. assert (Y : aborted (parse_tilegrid (Some gj))) by (apply GA; eauto). rewrite Gg in Y. destruct Y; discriminate. }
      assert (LA' : loading_aborts e root part <-> (e_walk e root <> None /\ exists pj, (exists pt, map_file e (path_join (path_join root part) (tx "part.json")) = Ok pt /\ e_json e pt = Some pj) /\ part_aborts pj)).
      { rewrite LA. split.
        - intros (gj' & E & [X|(_ & X)]); injection E as <-; [contradiction|exact X].
        - intros X. exists gj. split; [reflexivity|]. right. split; [exists g; now apply C68_grid_is_read|exact X]. }
      clear LA. unfold index_tile_types. destruct (e_walk e root) as [l|]; cbn [obind].
      2:{ split; [|discriminate]. rewrite NA, LA'. split; [intros []|]. intros (X & _). now apply X. }
      destruct (map_file_cases e (path_join (path_join root part) (tx "part.json"))) as [(pt & Ep)|Ep]; rewrite Ep; cbn [obind].
      2:{ split; [|discriminate]. rewrite NA, LA'. split; [intros []|]. intros (_ & pj & (pt & X & _) & _). rewrite Ep in X. discriminate X. }
      assert (LA : loading_aborts e root part <-> exists pj, e_json e pt = Some pj /\ part_aborts pj).
      { rewrite LA'. split.
        - intros (_ & pj & (pt' & X & Y) & Z). rewrite Ep in X. injection X as <-. eauto.
        - intros (pj & X & Y). split; [discriminate|]. exists pj. split; [eauto|exact Y]. }
      clear LA'. destruct (C61_part (e_json e pt)) as [PA PD].
      destruct PD as [PD|[(q & Pq)|Pq]].
      + assert (NF : parse_part_json (e_json e pt) <> NoFuel) by (intros Q; rewrite Q in PD; destruct PD; discriminate).
        split.
        * rewrite LA, <- PA. split; intros _; [exact PD|]. destruct PD as [-> | ->]; [now left|now right].
        * destruct PD as [-> | ->]; discriminate.
      + rewrite Pq. cbn [obind].
        assert (NP : ~ loading_aborts e root part).
        { rewrite LA, <- PA, Pq. intros [X|X]; discriminate X. }
        unfold create_banks_registry.
        destruct (map_file_cases e (path_join (path_join root part) (tx "package_pins.csv"))) as [(csv & Ec)|Ec]; rewrite Ec; cbn [obind].
        2:{ split; [|discriminate]. rewrite NA. tauto. }
        assert (S : splittable (after_mapping csv) csv).
        { apply map_file_in in Ec as (cp & _ & F). apply (SF _ _ F). }
        destruct (C61_text_files _ _ S) as (_ & _ & [(pins & ->)| ->]); cbn [obind].
        * split; [|discriminate]. split; [intros [X|X]; discriminate X|tauto].
        * split; [|discriminate]. rewrite NA. tauto.
      + rewrite Pq. cbn [obind]. split; [|discriminate]. rewrite NA, LA, <- PA, Pq. split; [intros []|]. intros [X|X]; discriminate X.
    - rewrite Gg. cbn [obind]. split; [|discriminate]. rewrite NA, LA. split; [intros []|].
      intros (gj & Ej & [X|((g & X) & _)]).
      + assert (Y : aborted (parse_tilegrid (e_json e gt))) by (apply GA; eauto). rewrite Gg in Y. destruct Y; discriminate.
      + rewrite Ej in Gg. destruct (C68_described_grid_is_accepted gj g X) as (g' & Y & _). rewrite Gg in Y. discriminate Y. }
  destruct B as [B NF]. split; [exact A|]. split; [exact B|].
  intros NL NA. destruct (parse_database e ord root part) as [tls| | | |] eqn:E; [|reflexivity| | |].
  - exfalso. apply NL, A. eauto.
  - exfalso. apply NA, B. now left.
  - exfalso. apply NA, B. now right.
  - now elim NF.
Qed.

(** Every command line either is unusable, which gives exit status 1 with nothing written whatever the
    database holds, or names a database, whose loading then decides. *)
Theorem C79_unusable_command : forall fuel sm ord c, unusable_command c -> main_program fuel sm ord c = Ok (1, c_stdout c).
Proof.
  intros fuel sm ord c U. unfold main_program. destruct (2 <? List.length (c_args c))%nat eqn:E1; [reflexivity|].
  apply Nat.ltb_ge in E1.
  destruct U as [L|D|root D X|P].
  - lia.
  - now rewrite D.
  - rewrite D. destruct X as [-> |X]; [reflexivity|]. rewrite X. destruct root; reflexivity.
  - destruct (db_path c) as [root|]; [|reflexivity]. rewrite P. destruct (match root with [] => true | _ => negb (e_exists (c_env c) root) end); reflexivity.
Qed.
Theorem C79_undescribed_database : forall fuel sm ord c,
  sound_files (c_env c) -> good_orders ord -> ~ unusable_command c ->
  exists root, db_path c = Some root /\
  (~ loadable (c_env c) root (c_part c) ->
   (loading_aborts (c_env c) root (c_part c) -> aborted (main_program fuel sm ord c)) /\
   (~ loading_aborts (c_env c) root (c_part c) -> main_program fuel sm ord c = Ok (1, c_stdout c))).
Proof.
  intros fuel sm ord c SF GO NU.
  destruct (db_path c) as [root|] eqn:ED; [|destruct NU; now apply path_not_given].
  exists root. split; [reflexivity|]. intros NL.
  assert (L : (2 <? List.length (c_args c))%nat = false).
  { apply Nat.ltb_ge. destruct (le_lt_dec (List.length (c_args c)) 2) as [X|X]; [exact X|]. destruct NU. now apply more_than_one_file. }
  assert (R : match root with [] => true | _ => negb (e_exists (c_env c) root) end = false).
  { destruct root as [|x r].
    - destruct NU. eapply path_not_there; [exact ED|now left].
    - destruct (e_exists (c_env c) (x :: r)) eqn:X; [reflexivity|]. destruct NU. eapply path_not_there; [exact ED|now right]. }
  assert (P : c_part c <> []) by (intros P; apply NU; now apply part_not_given).
  assert (GL : good_load (o_load ord)) by (apply GO).
  destruct (C79_loading (c_env c) (o_load ord) root (c_part c) SF GL) as (A & B & C).
  unfold main_program. rewrite L, ED, R. destruct (c_part c) as [|pc pr] eqn:EP; [now elim P|]. rewrite <- EP in *. split.
  - intros X. apply B in X as [-> | ->]; [now left|now right].
  - intros X. now rewrite (C NL X).
Qed.
Print Assumptions C79_loading.
Print Assumptions C79_unusable_command.
Print Assumptions C79_undescribed_database.

(** The demonstration database: loadable; with the name of another part, an error; with a numeric I/O
    bank location, an abort. *)
Definition damaged_env : environment :=
  {| e_read := e_read demo_env; e_exists := e_exists demo_env; e_walk := e_walk demo_env;
     e_json := fun s => if text_eqb s (tx "<part>") then Some (JObj [(tx "idcode", JInt 3); (tx "iobanks", JObj [(tx "14", JInt 26)])])
                        else e_json demo_env s |}.
Example C79_cases :
  sound_files demo_env /\ sound_files damaged_env /\ good_load document_order /\
  loadable demo_env (tx "db") (tx "xc7a35t") /\
  (~ loadable demo_env (tx "db") (tx "xc7z") /\ ~ loading_aborts demo_env (tx "db") (tx "xc7z")) /\
  (~ loadable damaged_env (tx "db") (tx "xc7a35t") /\ loading_aborts damaged_env (tx "db") (tx "xc7a35t")) /\
  ~ unusable_command (demo_command demo_input).
Proof.
  assert (SD : sound_files damaged_env) by exact demo_sound_files.
  destruct (C79_loading _ _ (tx "db") (tx "xc7a35t") demo_sound_files document_order_good) as (A1 & _ & _).
  destruct (C79_loading _ _ (tx "db") (tx "xc7z") demo_sound_files document_order_good) as (A2 & B2 & _).
  destruct (C79_loading _ _ (tx "db") (tx "xc7a35t") SD document_order_good) as (A3 & B3 & _).
  assert (E2 : parse_database demo_env document_order (tx "db") (tx "xc7z") = Err) by (vm_compute; reflexivity).
  assert (E3 : parse_database damaged_env document_order (tx "db") (tx "xc7a35t") = Crash) by (vm_compute; reflexivity).
  split; [exact demo_sound_files|]. split; [exact SD|]. split; [exact document_order_good|].
  split; [apply A1; exists demo_db; exact demo_db_parsed|].
  split; [rewrite <- A2, <- B2, E2; split; [intros (t & X); discriminate X|intros [X|X]; discriminate X]|].
  split; [rewrite <- A3, <- B3, E3; split; [intros (t & X); discriminate X|now left]|].
  intros [L|D|r D X|P]; cbn in *; try discriminate; [lia|]. unfold db_path in D. cbn in D. injection D as <-.
  destruct X as [X|X]; [discriminate X|vm_compute in X; discriminate X].
Qed.
