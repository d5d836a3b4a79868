(** A fault of the specification (LoadLogSpec) is one: a directory with it does not describe a database. *)
From Verif Require Import Base BaseFacts Absl Part DbText DbJson Database Fasm Assembler AsmSpec MapFacts OutcomeFacts
  DbSpec JsonSpec LoadSpec RefuseSpec JsonFacts JsonFacts2 DbFacts YamlFacts LoadFacts P_Database P_Database2 P_Database3 P_Database4 P_Refuse
  FasmLog LoadLog LoadLogSpec LoadLogFacts LoadLogTrue LoadLogTrue2 LoadLogTrue3.
From Coq Require Import Lia.

Section Json.
  Context (lt : library_texts).
  Definition refutes {A} (F : fault) (R : json -> A -> Prop) : Prop := forall j m x, F j m -> ~ R j x.
  Lemma not_a_refutes {A} (R : json -> A -> Prop) : refutes (not_a lt R) R.
  Proof. intros j m x [N _]. apply N. Qed.
  Lemma field_object {A} name (R : json -> A -> Prop) j x : field name R j x -> is_object j.
  Proof. intros (v & (l & -> & _) & _). now exists l. Qed.
  Lemma member_refutes {A} name F (R : json -> A -> Prop) : refutes F R -> refutes (bad_member lt name F) (field name R).
  Proof.
    intros RF j m x H FI. destruct H as [m [N _]|NM|v m M H].
    - apply N. eapply field_object; eauto.
    - destruct FI as (v & (l & -> & M) & _). destruct NM as (l' & E & NK). injection E as <-. apply NK. eapply maps_to_key; eauto.
    - destruct FI as (v' & M' & R'). rewrite (member_fun _ _ _ _ M' M) in R'. eapply RF; eauto.
  Qed.
  Lemma opt_member_refutes {A} name F (R : json -> A -> Prop) : refutes F R -> refutes (bad_opt_member name F) (opt_field name R).
  Proof.
    intros RF j m x H FI. destruct H as [m [N _]|v m M H].
    - apply N. destruct FI as [x FI|(l & -> & _)]; [eapply field_object; eauto|now exists l].
    - destruct FI as [x (v' & M' & R')|(l & -> & NK)].
      + rewrite (member_fun _ _ _ _ M' M) in R'. eapply RF; eauto.
      + destruct M as (l' & E & M). injection E as <-. apply NK. eapply maps_to_key; eauto.
  Qed.
  Lemma Forall2_in_l {X Y} (P : X -> Y -> Prop) l l' a : Forall2 P l l' -> In a l -> exists b, In b l' /\ P a b.
  Proof. induction 1 as [|x y l l' H F IH]; [intros []|]. intros [<-|I]; [exists y; split; [now left|exact H]|]. destruct (IH I) as (b & I' & Q). exists b. split; [now right|exact Q]. Qed.
  Lemma no_object_map {K A} (key : text -> K -> Prop) (R : json -> A -> Prop) : refutes no_object (json_map key R).
  Proof. intros j m x [N _] (l & es & -> & _). apply N. now exists l. Qed.
  Lemma no_object_array {A} (R : json -> A -> Prop) : refutes no_object (json_array R).
  Proof. intros j m x [N _] (l & -> & _). apply N. now exists l. Qed.
  Lemma entry_map {K A} (B : json -> text -> text -> Prop) F (key : text -> K -> Prop) (R : json -> A -> Prop) :
    (forall j k m x, B j k m -> ~ key k x) -> refutes F R -> refutes (bad_entry B F) (json_map key R).
  Proof.
    intros RK RF j m x (l & k & v & -> & I & H) (l' & es & E & FA & _). injection E as <-.
    apply (Forall2_in_l _ _ _ _ FA) in I as ([k' y] & _ & KK & RR). cbn [fst snd] in *. destruct H as [H|H]; [eapply RK; eauto|eapply RF; eauto].
  Qed.
  Lemma numbered_in {A} (R : json -> A -> Prop) n l xs k v : numbered R n l xs -> In (k, v) l -> (exists z, int_key k z) /\ exists x, R v x.
  Proof. induction 1 as [|n k' v' l x xs K RR H IH]; [intros []|]. intros [E|I]; [injection E as <- <-; eauto|auto]. Qed.
  Lemma entry_array {A} (B : json -> text -> text -> Prop) F (R : json -> A -> Prop) :
    (forall j k m z, B j k m -> ~ int_key k z) -> refutes F R -> refutes (bad_entry B F) (json_array R).
  Proof.
    intros RK RF j m x (l & k & v & -> & I & H) (l' & E & NU). injection E as <-.
    destruct (numbered_in _ _ _ _ _ _ NU I) as ((z & KK) & (y & RR)). destruct H as [H|H]; [eapply RK; eauto|eapply RF; eauto].
  Qed.
  Lemma either_refutes {A} F G (R : json -> A -> Prop) : refutes F R -> refutes G R -> refutes (either F G) R.
  Proof. intros HF HG j m x [H|H]; [eapply HF; eauto|eapply HG; eauto]. Qed.
  Lemma no_key_refutes {K} (key : text -> K -> Prop) : forall j k m x, any_key j k m -> ~ key k x.
  Proof. intros j k m x []. Qed.
  Lemma bus_refutes w : forall j k m t, unknown_bus w j k m -> ~ bus_key k t.
  Proof. intros j k m t (k' & C & N & _) (k2 & C2 & B). rewrite (c_string_fun _ _ _ C2 C) in B. eapply N; eauto. Qed.
  Lemma int_refutes : forall j k m z, no_number lt (fun k => exists z, int_key k z) j k m -> ~ int_key k z.
  Proof. intros j k m z (k' & _ & N & _) X. apply N. eauto. Qed.
  Lemma bank_refutes : forall j k m z, no_number lt (fun k => exists z, bank_key k z) j k m -> ~ bank_key k z.
  Proof. intros j k m z (k' & _ & N & _) X. apply N. eauto. Qed.

  Lemma string_map_refutes : refutes (bad_string_map lt) json_string_map.
  Proof. apply either_refutes; [apply no_object_map|]. apply entry_map; [intros j k m x []|apply not_a_refutes]. Qed.
  Lemma string_list_refutes : refutes (bad_string_list lt) json_strings.
  Proof.
    intros j m x [[N _]|(l & v & -> & I & [N _])] (l' & E & F); [apply N; eauto|]. injection E as <-.
    apply (Forall2_in_l _ _ _ _ F) in I as (b & _ & s' & E & _). apply (N s'). exact E.
  Qed.
  Lemma address_refutes : refutes (bad_address lt) json_address.
  Proof.
    intros j m x [[N _]|(s & -> & N & _)] (s' & E & T); [apply (N s'); exact E|]. injection E as <-. eapply N; eauto.
  Qed.
  Lemma alias_refutes : refutes (bad_alias lt) json_alias.
  Proof.
    intros j m x [H|[H|H]] (F1 & F2 & F3); revert H.
    - intros H. eapply member_refutes; [apply string_map_refutes|exact H|exact F1].
    - intros H. eapply member_refutes; [apply not_a_refutes|exact H|exact F2].
    - intros H. eapply member_refutes; [apply not_a_refutes|exact H|exact F3].
  Qed.
  Lemma block_refutes : refutes (bad_block lt) json_block.
  Proof.
    intros j m x [H|[H|[H|[H|H]]]] (F1 & F2 & F3 & F4 & F5).
    - eapply opt_member_refutes; [apply alias_refutes|exact H|exact F1].
    - eapply member_refutes; [apply address_refutes|exact H|exact F2].
    - eapply member_refutes; [apply not_a_refutes|exact H|exact F3].
    - eapply member_refutes; [apply not_a_refutes|exact H|exact F4].
    - eapply member_refutes; [apply not_a_refutes|exact H|exact F5].
  Qed.
  Lemma bits_refutes : refutes (bad_bits lt) json_bits.
  Proof. apply entry_map; [apply bus_refutes|apply block_refutes]. Qed.
  Lemma tile_refutes : refutes (bad_tile lt) json_tile.
  Proof.
    intros j m x [H|[H|[H|[H|[H|[H|[H|H]]]]]]] (F1 & F2 & F3 & F4 & F5 & F6 & F7 & F8).
    - eapply member_refutes; [apply not_a_refutes|exact H|exact F1].
    - eapply member_refutes; [apply not_a_refutes|exact H|exact F2].
    - eapply member_refutes; [apply not_a_refutes|exact H|exact F3].
    - eapply opt_member_refutes; [apply not_a_refutes|exact H|exact F4].
    - eapply member_refutes; [apply bits_refutes|exact H|exact F5].
    - eapply member_refutes; [apply string_map_refutes|exact H|exact F6].
    - eapply member_refutes; [apply string_map_refutes|exact H|exact F7].
    - eapply member_refutes; [apply string_list_refutes|exact H|exact F8].
  Qed.
  Lemma grid_refutes : refutes (bad_grid lt) json_grid.
  Proof.
    intros j m x [N|(l & k & v & name & m' & -> & I & _ & H & _)]; [eapply no_object_map; exact N|].
    intros (l' & es & E & FA & _). injection E as <-. apply (Forall2_in_l _ _ _ _ FA) in I as ([k' y] & _ & _ & RR). eapply tile_refutes; eauto.
  Qed.
  Lemma columns_refute : refutes (bad_columns lt) json_columns.
  Proof. apply either_refutes; [apply no_object_array|]. apply entry_array; [apply int_refutes|apply member_refutes, not_a_refutes]. Qed.
  Lemma row_refutes : refutes (bad_row lt) json_row.
  Proof. apply either_refutes; [apply no_object_map|]. apply entry_map; [apply bus_refutes|apply member_refutes, columns_refute]. Qed.
  Lemma half_refutes : refutes (bad_half lt) json_half.
  Proof. apply either_refutes; [apply no_object_array|]. apply entry_array; [apply int_refutes|apply member_refutes, row_refutes]. Qed.
  Lemma side_refutes side : refutes (bad_side lt side) (field side (field (tx "rows") json_half)).
  Proof.
    intros j m x [[N _]|(rows & (h & M & M') & H)] (h2 & M2 & r2 & M3 & R).
    - apply (N r2). exists h2. auto.
    - rewrite (member_fun _ _ _ _ M2 M) in M3. rewrite (member_fun _ _ _ _ M3 M') in R. eapply half_refutes; eauto.
  Qed.
  Lemma regions_refute : refutes (bad_regions lt) json_regions.
  Proof. intros j m x [H|H] [B T]; eapply side_refutes; eauto. Qed.
  Lemma banks_refute : refutes (bad_banks lt) json_banks.
  Proof. apply entry_map; [apply bank_refutes|]. intros j m x []. Qed.
  Lemma part_refutes : refutes (bad_part lt) json_part.
  Proof.
    intros j m x [H|[H|H]] [banks F1 F2 _ F3].
    - eapply member_refutes; [apply not_a_refutes|exact H|exact F1].
    - eapply opt_member_refutes; [apply banks_refute|exact H|exact F2].
    - eapply member_refutes; [apply regions_refute|exact H|exact F3].
  Qed.
End Json.

(** ** Package pins *)
Lemma columns_fun l a b : columns l a -> columns l b -> a = b.
Proof. intros H K. apply columns_spec in H. apply columns_spec in K. congruence. Qed.
Lemma Forall2_middle {X Y} (P : X -> Y -> Prop) a x b l : Forall2 P (a ++ x :: b) l -> exists y, P x y.
Proof. intros F. apply Forall2_app_inv_l in F as (l1 & l2 & _ & F & _). inversion F; eauto. Qed.
Lemma row_blank_columns l : Forall (fun c => c = ","%char) l -> columns l [].
Proof.
  intros F. induction F as [|c l -> F IH].
  - exists [[]]. split; [constructor; intros []|constructor].
  - destruct IH as (ps & P & Q). exists ([] :: ps). split; [|exact Q]. change (","%char :: l) with ([] ++ ","%char :: l). constructor; [intros []|exact P].
Qed.
Lemma pins_refute c m pins : bad_pins c m -> ~ pins_content c pins.
Proof.
  intros (before & l & after & n & m' & T & _ & H & _) [[-> _]|(h & ls & es & T' & PH & FA & _)].
  - inversion T as [E1 E2|l0 NE N E1 E2|l0 r ls N T' E1 E2]; [destruct before; discriminate|now elim NE|destruct l0; discriminate].
  - pose proof (text_lines_fun _ _ _ T T') as E. destruct before as [|b before].
    + cbn [app List.length] in *. injection E as -> ->. cbn in H.
      inversion H as [l0 N|n0 l0 cols NE C L0 L5|n0 l0 pin bank site tile fn NE C N]; subst; contradiction.
    + cbn [app] in E. injection E as -> <-. apply Forall2_middle in FA as (y & RO).
      assert (B : N.of_nat (List.length (h :: before)) + 1 <> 1) by (cbn [List.length]; lia).
      remember (N.of_nat (List.length (h :: before)) + 1) as k eqn:EK. clear EK.
      inversion H as [l0 N|n0 l0 cols NE C L0 L5|n0 l0 pin bank site tile fn NE C N]; subst; [now elim B| |].
      * destruct RO as [l BL|l pin bank site tile fn b C2 U L].
        -- apply row_blank_columns in BL. rewrite (columns_fun _ _ _ C BL) in L0. now elim L0.
        -- rewrite (columns_fun _ _ _ C C2) in L5. now elim L5.
      * destruct RO as [l BL|l pin2 bank2 site2 tile2 fn2 b C2 U L].
        -- apply row_blank_columns in BL. pose proof (columns_fun _ _ _ C BL) as E. discriminate E.
        -- pose proof (columns_fun _ _ _ C C2) as E. injection E as _ -> _ _ _. specialize (N _ U). lia.
Qed.

(** ** Mappings *)
Lemma pieces_fun d s a b : pieces d s a -> pieces d s b -> a = b.
Proof. intros H K. apply split_char_spec in H. apply split_char_spec in K. congruence. Qed.
Lemma trimmed_fun s a b : trimmed s a -> trimmed s b -> a = b.
Proof. intros H K. apply strip_spec in H. apply strip_spec in K. congruence. Qed.
Lemma reads_fun l i j : yaml_reads l i -> yaml_reads l j -> i = j.
Proof.
  pose (probe := fun (s : list (text * props)) k p => Ok (s ++ [(k, p)]) : outcome (list (text * props))).
  assert (PD : forall s k p, ok_or_err (probe s k p)) by (intros s k p; left; eexists; reflexivity).
  intros H K. pose proof (yaml_line_reads probe PD l i (["a"%char], [], []) H) as E1.
  rewrite (yaml_line_reads probe PD l j (["a"%char], [], []) K) in E1.
  destruct i, j; cbn in E1; try discriminate E1; try congruence.
Qed.
Lemma reads_fun_all ls a b : Forall2 yaml_reads ls a -> Forall2 yaml_reads ls b -> a = b.
Proof.
  intros F. revert b. induction F as [|l i ls a R F IH]; intros b G; inversion G as [|? j ? b' R' G']; subst; [reflexivity|].
  f_equal; [eapply reads_fun; eauto|auto].
Qed.
Lemma bad_line_reads l m i : bad_yaml_line l m -> ~ yaml_reads l i.
Proof.
  intros H R. destruct H as [t (T & NE & NC) NI N|t (T & NE & NC) IN N].
  - destruct R as [l S|l r T2|l t2 k _ T2 _ _|l c r name value n' v' v -> SC _ _ _ _ _ _].
    + apply strip_nil in S. apply strip_spec in S. now elim NE; eapply trimmed_fun; eauto.
    + now apply (NC r); eapply trimmed_fun; eauto.
    + now apply (N t2); eapply trimmed_fun; eauto.
    + apply NI. exists c, r. auto.
  - destruct R as [l S|l r T2|l t2 k H T2 _ _|l c r name value n' v' v -> SC T2 _ _ _ _ _].
    + apply strip_nil in S. apply strip_spec in S. now elim NE; eapply trimmed_fun; eauto.
    + now apply (NC r); eapply trimmed_fun; eauto.
    + destruct IN as (c & r & -> & SC). now apply (H c r).
    + apply N. rewrite (trimmed_fun _ _ _ T T2). apply in_or_app. right. now left.
Qed.
Lemma written_reads l t i : written l t -> ~ indented l -> yaml_reads l i -> exists k, i = YKey k.
Proof.
  intros (T & NE & NC) NI R. destruct R as [l S|l r T2|l t2 k H T2 _ _|l c r name value n' v' v -> SC T2 _ _ _ _ _]; [| |eauto|].
  - apply strip_nil in S. apply strip_spec in S. now elim NE; eapply trimmed_fun; eauto.
  - elim (NC r). eapply trimmed_fun; eauto.
  - elim NI. exists c, r. auto.
Qed.
Lemma group_app_key a k b : group (a ++ YKey k :: b) = (fst (group a), snd (group a) ++ (k, fst (group b)) :: snd (group b)).
Proof.
  induction a as [|i a IH]; cbn [app group].
  - destruct (group b). reflexivity.
  - destruct i; rewrite IH; destruct (group a); reflexivity.
Qed.
Lemma entries_prefix a b es es' k ps : yaml_entries a (es ++ [(k, ps)]) -> (b = [] \/ exists k' r, b = YKey k' :: r) ->
  yaml_entries (a ++ b) es' -> In (k, ps) es'.
Proof.
  intros A B E. apply yaml_entries_group in A. apply yaml_entries_group in E.
  assert (I : In (k, ps) (map (fun e => (fst e, rev (snd e))) (snd (group a)))) by (rewrite <- A; apply in_or_app; right; now left).
  rewrite E. destruct B as [->|(k' & r & ->)].
  - now rewrite app_nil_r.
  - rewrite group_app_key. cbn [snd]. rewrite map_app. apply in_or_app. now left.
Qed.
Lemma yaml_refutes F c m es : bad_yaml F c m -> yaml_document c es -> exists k ps, In (k, ps) (named es) /\ F ps m.
Proof.
  intros [(ls & l & P & I & H)|(ls1 & ls2 & items & es0 & k & ps & P & FA & E & NE & L & H)] (ls' & items' & P' & FA' & E').
  - exfalso. rewrite (pieces_fun _ _ _ _ P P') in I. apply (Forall2_in_l _ _ _ _ FA') in I as (i & _ & R). eapply bad_line_reads; eauto.
  - exists k, ps. split; [|exact H]. rewrite (pieces_fun _ _ _ _ P' P) in FA'. apply Forall2_app_inv_l in FA' as (i1 & i2 & F1 & F2 & ->).
    rewrite (reads_fun_all _ _ _ F1 FA) in E'. apply filter_In. split; [|destruct k; [now elim NE|reflexivity]].
    eapply entries_prefix; [exact E| |exact E']. destruct L as [->|(l & t & ls3 & -> & W & NI)].
    + inversion F2. now left.
    + inversion F2 as [|? i ? i2' R F3]; subst. right. destruct (written_reads _ _ _ W NI R) as (k' & ->). eauto.
Qed.
Lemma document_fun c a b : yaml_document c a -> yaml_document c b -> a = b.
Proof.
  intros (ls & items & P & F & E) (ls' & items' & P' & F' & E'). rewrite (pieces_fun _ _ _ _ P' P) in F'. rewrite (reads_fun_all _ _ _ F' F) in E'.
  apply yaml_entries_group in E. apply yaml_entries_group in E'. congruence.
Qed.

(** ** The directory *)
Section Directory.
  Context (lt : library_texts) (e : environment) (root part : text).
  Lemma listed_fun i j : part_listed e root part i -> part_listed e root part j -> i = j.
  Proof. intros H K. apply part_info_spec in H. apply part_info_spec in K. congruence. Qed.
  Lemma database_file_fun name p q : database_file e root part name p -> database_file e root part name q -> p = q.
  Proof.
    intros H K. destruct H as [dir name p I N J|info dir p L I J|dir name p I N J].
    - inversion K as [dir' name' p' I' N' J'|info' dir' p' L' I' J' E|dir' name' p' I' N' J']; subst.
      + rewrite (inside_fun _ _ _ _ I' I) in J'. eapply inside_fun; eauto.
      + exfalso. repeat destruct N as [N|N]; try discriminate N; destruct N.
      + exfalso. repeat destruct N as [<-|N]; repeat destruct N' as [N'|N']; try discriminate N'; try destruct N'; destruct N.
    - inversion K as [dir' name' p' I' N' J' E|info' dir' p' L' I' J'|dir' name' p' I' N' J' E]; subst.
      + exfalso. repeat destruct N' as [N'|N']; try discriminate N'; destruct N'.
      + rewrite (listed_fun _ _ L' L) in I'. rewrite (inside_fun _ _ _ _ I' I) in J'. eapply inside_fun; eauto.
      + exfalso. repeat destruct N' as [N'|N']; try discriminate N'; destruct N'.
    - inversion K as [dir' name' p' I' N' J'|info' dir' p' L' I' J' E|dir' name' p' I' N' J']; subst.
      + exfalso. repeat destruct N as [<-|N]; repeat destruct N' as [N'|N']; try discriminate N'; try destruct N'; destruct N.
      + exfalso. repeat destruct N as [N|N]; try discriminate N; destruct N.
      + rewrite (inside_fun _ _ _ _ I' I) in J'. eapply inside_fun; eauto.
  Qed.
  Lemma database_text_fun name a b : database_text e root part name a -> database_text e root part name b -> a = b.
  Proof. intros (p & D & F) (q & D' & F'). rewrite (database_file_fun _ _ _ D' D) in F'. unfold file in *. congruence. Qed.
  Lemma file_in_text dir name c : (forall p, inside dir name p -> database_file e root part name p) -> file_in e dir name c -> database_text e root part name c.
  Proof. intros H (p & I & F). exists p. auto. Qed.

  Lemma explained_refutes m : explains lt e root part m -> ~ loadable e root part.
  Proof.
    intros H (W & g & p & pins & info & fd & pd & gt & gj & pt & pj & csv & Hi & If & Ip & Fg & Jg & G & Fp & Jp & P & Fc & Cs).
    destruct Hi as (mp & parts & devices & esp & esd & ps & Im & Fpa & Fd & PY & DY & HD & HP & Mp & RS) eqn:EH. pose proof Hi as HL. clear EH.
    apply (file_in_text fd) in Fg; [|intros q Q; eapply fabric_file; eauto].
    apply (file_in_text pd) in Fp; [|intros q Q; eapply part_file; eauto; now left].
    apply (file_in_text pd) in Fc; [|intros q Q; eapply part_file; eauto; right; now left].
    apply (file_in_text mp) in Fpa; [|intros q Q; eapply mapping_file; eauto; now left].
    apply (file_in_text mp) in Fd; [|intros q Q; eapply mapping_file; eauto; right; now left].
    destruct H as [name q D N|dv m D B|pa dv es m Dp Dd Y B|pa es D Y N|name c I D N|c j m D J B|N|c j m D J B|c m D B].
    - assert (X : exists c, database_text e root part name c).
      { destruct D as [dir name q _ I _|info' dir q _ _ _|dir name q _ I _].
        - repeat destruct I as [<-|I]; eauto. destruct I.
        - eauto.
        - repeat destruct I as [<-|I]; eauto. destruct I. }
      destruct X as (c & q' & D' & F). rewrite (database_file_fun _ _ _ D' D) in F. eapply N; eauto.
    - rewrite (database_text_fun _ _ _ D Fd) in B. destruct (yaml_refutes _ _ _ _ B DY) as (k & q & I & N & _). apply N. eapply HD; eauto.
    - rewrite (database_text_fun _ _ _ Dp Fpa) in B. rewrite (database_text_fun _ _ _ Dd Fd) in Y. rewrite (document_fun _ _ _ Y DY) in B.
      destruct (yaml_refutes _ _ _ _ B PY) as (k & q & I & U). destruct (HP _ _ I) as (inf & R1 & R2 & R3 & dps & R4 & R5).
      destruct U as [key KI NK|d M NK].
      + apply NK. repeat destruct KI as [<-|KI]; try (eapply maps_to_key; eassumption). destruct KI.
      + apply NK. rewrite (maps_to_fun text_eqb text_eqb_eq _ _ _ _ M R1). eapply maps_to_key; eauto.
    - rewrite (database_text_fun _ _ _ D Fpa) in Y. apply N. rewrite (document_fun _ _ _ Y PY). eapply maps_to_key; eauto.
    - destruct I as [<-|[<-|[]]].
      + rewrite (database_text_fun _ _ _ D Fg) in N. congruence.
      + rewrite (database_text_fun _ _ _ D Fp) in N. congruence.
    - rewrite (database_text_fun _ _ _ D Fg) in J. assert (j = gj) as -> by congruence. eapply grid_refutes; eauto.
    - contradiction.
    - rewrite (database_text_fun _ _ _ D Fp) in J. assert (j = pj) as -> by congruence. eapply part_refutes; eauto.
    - rewrite (database_text_fun _ _ _ D Fc) in B. eapply pins_refute; eauto.
  Qed.
End Directory.
