(** What is said is a fault of the specification (LoadLogSpec): JSON values and text files. *)
From Verif Require Import Base BaseFacts Absl Part DbText DbJson Database Fasm Assembler AsmSpec MapFacts OutcomeFacts
  DbSpec JsonSpec LoadSpec JsonFacts JsonFacts2 DbFacts YamlFacts LoadFacts FasmLog LoadLog LoadLogSpec LoadLogFacts.
From Coq Require Import Lia.

Lemma sbind_says {A B} (o : said A) (f : A -> said B) m : sbind o f = Says m -> o = Says m \/ exists x, o = Fine x /\ f x = Says m.
Proof. destruct o; cbn [sbind]; intros H; try discriminate; [right; eauto|left; congruence]. Qed.
Lemma sfold_says {A S} (f : S -> A -> said S) l m : forall s, sfold f l s = Says m -> exists s' a, In a l /\ f s' a = Says m.
Proof.
  induction l as [|a l IH]; intros s H; [discriminate|]. cbn [sfold] in H. apply sbind_says in H as [H|(x & _ & H)].
  - exists s, a. split; [now left|exact H].
  - apply IH in H as (s' & b & I & H). exists s', b. split; [now right|exact H].
Qed.
Lemma unchecked_says {A} (o : outcome A) t m : unchecked o t = Says m -> o = Err /\ m = t.
Proof. destruct o; cbn; intros H; try discriminate. split; [reflexivity|congruence]. Qed.
Lemma check_next_not_err a b : check_next a b <> Err.
Proof. unfold check_next. destruct (_ =? _)%Z; [discriminate|]. destruct (_ =? _)%Z; discriminate. Qed.
Ltac says H := let x := fresh "x" in let E := fresh "E" in apply sbind_says in H as [H|(x & E & H)].

Section True.
  Context (lt : library_texts).
  Definition tells {A} (f : json -> said A) (F : fault) : Prop := forall j m, f j = Says m -> F j m.

  Lemma type_string_kind j : kind_name j (type_string j).
  Proof. destruct j; constructor. Qed.
  Lemma unexpected_not_a {A B} (R : json -> A -> Prop) j m : (forall x, ~ R j x) -> @unexpected_type lt B j = Says m -> not_a lt R j m.
  Proof. intros N H. split; [exact N|]. exists (type_string j). split; [apply type_string_kind|]. unfold unexpected_type in H. congruence. Qed.
  Lemma basic_tells {A} (un : json -> outcome A) (R : json -> A -> Prop) : reader un R never -> tells (say_basic lt un) (not_a lt R).
  Proof.
    intros Rd j m H. unfold say_basic in H. destruct (un j) as [x| | | |] eqn:E; [discriminate H| | | |];
    (eapply unexpected_not_a; [|exact H]; intros x X; apply (rd_complete Rd) in X as (y & X); congruence).
  Qed.
  Lemma string_tells : tells (say_basic lt un_string) (not_a lt json_string).
  Proof. apply basic_tells, un_string_reader. Qed.
  Lemma u32_tells : tells (say_basic lt un_u32) (not_a lt json_u32).
  Proof. apply basic_tells, un_u32_reader. Qed.
  Lemma i32_tells : tells (say_basic lt un_i32) (not_a lt json_i32).
  Proof. apply basic_tells, un_i32_reader. Qed.
  Lemma members_tells : tells say_members no_object.
  Proof. intros j m H. destruct j; cbn [say_members] in H; try discriminate H; (split; [intros (l' & X); discriminate X|congruence]). Qed.
  Lemma find_member_some l name v : find_member name l = Some v -> member (JObj l) name v.
  Proof. intros H. exists l. split; [reflexivity|]. now apply (hm_find_maps _ text_eqb_eq). Qed.
  Lemma find_member_none l name : find_member name l = None -> no_member (JObj l) name.
  Proof. intros H. exists l. split; [reflexivity|]. now apply (hm_find_none _ text_eqb_eq). Qed.
  Lemma members_fine j l : say_members j = Fine l -> j = JObj l.
  Proof. destruct j; cbn; congruence. Qed.
  Lemma members_unchecked_fine j l : say_members_unchecked j = Fine l -> j = JObj l.
  Proof. destruct j; cbn; congruence. Qed.
  Lemma members_unchecked_quiet j m : say_members_unchecked j <> Says m.
  Proof. destruct j; cbn; congruence. Qed.
  Lemma member_tells {A} (f : json -> said A) F name : tells f F -> tells (fun j => say_member lt f j name) (bad_member lt name F).
  Proof.
    intros T j m H. unfold say_member in H. says H; [now apply member_of_nothing, members_tells|].
    apply members_fine in E as ->. destruct (find_member name x) as [v|] eqn:E.
    - apply (member_bad lt name F _ v); [now apply find_member_some|now apply T].
    - assert (m = tx "json attribute """ ++ name ++ tx """ not found in " ++ lt_value lt (JObj x)) as ->.
      { unfold quoted in H. rewrite <- !app_assoc in H. assert (X : m = tx "json attribute " ++ tx """" ++ name ++ tx """" ++ tx " not found in " ++ lt_value lt (JObj x)) by congruence.
        exact X. }
      apply LoadLogSpec.member_missing. now apply find_member_none.
  Qed.
  Lemma opt_member_tells {A} (f : json -> said A) F name : tells f F -> tells (fun j => say_opt_member f j name) (bad_opt_member name F).
  Proof.
    intros T j m H. unfold say_opt_member in H. says H; [now apply opt_member_of_nothing, members_tells|].
    apply members_fine in E as ->. destruct (find_member name x) as [v|] eqn:E; [|discriminate H]. says H; [|discriminate H].
    apply (opt_member_bad name F _ v); [now apply find_member_some|now apply T].
  Qed.
  Lemma string_map_tells : tells (say_string_map lt) (bad_string_map lt).
  Proof.
    intros j m H. unfold say_string_map in H. says H; [left; now apply members_tells|]. right.
    apply members_fine in E as ->. apply sfold_says in H as (s' & [k v] & I & H). cbn [fst snd] in H. says H; [|discriminate H].
    exists x, k, v. split; [reflexivity|]. split; [exact I|]. right. now apply string_tells.
  Qed.
  Lemma string_list_tells : tells (say_string_list lt) (bad_string_list lt).
  Proof.
    intros j m H. destruct j; cbn [say_string_list] in H; try (left; split; [intros (l' & X); discriminate X|congruence]).
    right. apply sfold_says in H as (s' & v & I & H). exists l, v. split; [reflexivity|]. split; [exact I|].
    destruct v; try discriminate H; (eapply unexpected_not_a; [|exact H]; intros y X; discriminate X).
  Qed.
  Lemma address_tells j m : (exists s, say_basic lt un_string j = Fine s /\ say_address s = Says m) \/ say_basic lt un_string j = Says m -> bad_address lt j m.
  Proof.
    intros [(s & E & H)|H]; [right|left; now apply string_tells].
    exists s. split; [destruct j; try discriminate E; injection E as ->; reflexivity|]. unfold say_address in H. split.
    - intros v X. apply base_address_spec in X. rewrite X in H. discriminate H.
    - destruct (base_address_of s); congruence.
  Qed.
  Lemma alias_tells : tells (say_alias lt) (bad_alias lt).
  Proof.
    intros j m H. unfold say_alias in H. says H; [left; exact (member_tells _ _ _ string_map_tells _ _ H)|right].
    says H; [left; exact (member_tells _ _ _ u32_tells _ _ H)|right]. says H; [exact (member_tells _ _ _ string_tells _ _ H)|discriminate H].
  Qed.
  Lemma member_fine {A} (f : json -> said A) j name x : say_member lt f j name = Fine x -> exists v, member j name v /\ f v = Fine x.
  Proof.
    intros H. unfold say_member in H. destruct (say_members j) as [l| | | |] eqn:E; try discriminate H. apply members_fine in E as ->. cbn [sbind] in H.
    destruct (find_member name l) as [v|] eqn:E; [|discriminate H]. exists v. split; [now apply find_member_some|exact H].
  Qed.
  Lemma block_tells : tells (say_block lt) (bad_block lt).
  Proof.
    intros j m H. unfold say_block in H. says H; [left; exact (opt_member_tells _ _ _ alias_tells _ _ H)|right].
    says H; [left|right].
    { says H.
      - pose proof (member_tells _ _ _ string_tells _ _ H) as X. destruct X as [m X|X|v m X Y]; [now apply member_of_nothing|now apply LoadLogSpec.member_missing|].
        apply (member_bad lt _ _ _ v); [exact X|]. now left.
      - apply member_fine in E0 as (v & M & E0). apply (member_bad lt _ _ _ v); [exact M|]. apply address_tells. left. eauto. }
    says H; [left; exact (member_tells _ _ _ u32_tells _ _ H)|right].
    says H; [left; exact (member_tells _ _ _ i32_tells _ _ H)|right].
    says H; [exact (member_tells _ _ _ u32_tells _ _ H)|discriminate H].
  Qed.
  Lemma bus_tells w k j m : say_bus w (c_str k) = Says m -> unknown_bus w j k m.
  Proof.
    intros H. exists (c_str k). split; [now apply c_str_spec|]. unfold say_bus in H. split.
    - intros t X. apply bus_of_string_spec in X. rewrite X in H. discriminate H.
    - unfold quoted in H. destruct (bus_of_string (c_str k)); congruence.
  Qed.
  Lemma bits_tells : tells (say_bits lt) (bad_bits lt).
  Proof.
    intros j m H. unfold say_bits in H. says H; [now apply members_unchecked_quiet in H|].
    apply members_unchecked_fine in E as ->. apply sfold_says in H as (s' & [k v] & I & H). cbn [fst snd] in H.
    exists x, k, v. split; [reflexivity|]. split; [exact I|]. says H; [left; now apply bus_tells|]. right.
    says H; [now apply block_tells|discriminate H].
  Qed.
  Lemma tile_tells : tells (say_tile lt) (bad_tile lt).
  Proof.
    intros j m H. unfold say_tile in H. says H; [left; exact (member_tells _ _ _ string_tells _ _ H)|right].
    says H; [left; exact (member_tells _ _ _ u32_tells _ _ H)|right].
    says H; [left; exact (member_tells _ _ _ u32_tells _ _ H)|right].
    says H; [left; exact (opt_member_tells _ _ _ string_tells _ _ H)|right].
    says H; [left; exact (member_tells _ _ _ bits_tells _ _ H)|right].
    says H; [left; exact (member_tells _ _ _ string_map_tells _ _ H)|right].
    says H; [left; exact (member_tells _ _ _ string_map_tells _ _ H)|right].
    says H; [exact (member_tells _ _ _ string_list_tells _ _ H)|discriminate H].
  Qed.
  Lemma tilegrid_tells c j m : say_tilegrid lt c (Some j) = Says m -> bad_grid lt j m.
  Proof.
    intros H. cbn [say_tilegrid] in H. destruct j; try (left; split; [intros (l' & X); discriminate X|congruence]).
    right. apply sfold_says in H as (s' & [k v] & I & H). cbn [fst snd] in H. cbv zeta in H.
    destruct (say_tile lt v) as [t|m'| | |] eqn:E; try discriminate H.
    exists l, k, v, (c_str k), m'. split; [reflexivity|]. split; [exact I|]. split; [now apply c_str_spec|].
    split; [now apply tile_tells|congruence].
  Qed.

  Lemma cannot_tells {A} (R : text -> Prop) k j m : ~ R k -> @cannot_parse lt A (c_str k) j = Says m -> no_number lt R j k m.
  Proof.
    intros N H. exists (c_str k). split; [now apply c_str_spec|]. split; [exact N|]. unfold cannot_parse, quoted in H.
    rewrite <- !app_assoc in H. assert (X : m = tx "cannot parse " ++ tx """" ++ c_str k ++ tx """" ++ tx " for " ++ lt_value lt j) by congruence. exact X.
  Qed.
  Lemma iobanks_tells : tells (say_iobanks lt) (bad_banks lt).
  Proof.
    intros j m H. unfold say_iobanks in H. says H; [now apply members_unchecked_quiet in H|].
    apply members_unchecked_fine in E as ->. apply sfold_says in H as (s' & [k v] & I & H). cbn [fst snd] in H.
    destruct (atoi_u32 (c_str k)) as [z b] eqn:E. destruct b; [destruct v; discriminate H|].
    exists x, k, v. split; [reflexivity|]. split; [exact I|]. left. apply (cannot_tells _ _ _ _) with (2 := H).
    intros (n & X). apply bank_of_key_spec in X. unfold bank_of_key in X. rewrite E in X. discriminate X.
  Qed.
  Lemma not_int_key k z : atoi_i32 (c_str k) = (z, false) -> ~ exists z, int_key k z.
  Proof. intros E (n & X). apply int_of_key_spec in X. unfold int_of_key in X. rewrite E in X. discriminate X. Qed.
  Lemma columns_tells : tells (say_columns lt) (bad_columns lt).
  Proof.
    intros j m H. unfold say_columns in H. says H; [left; now apply members_tells|]. right. apply members_fine in E as ->.
    says H; [|destruct x0; discriminate H]. apply sfold_says in H as ([prev w] & [k v] & I & H). cbn [fst snd] in H.
    exists x, k, v. split; [reflexivity|]. split; [exact I|]. destruct (atoi_i32 (c_str k)) as [z b] eqn:E. destruct b.
    - right. says H; [apply unchecked_says in H as [H _]; now apply check_next_not_err in H|].
      says H; [exact (member_tells _ _ _ u32_tells _ _ H)|discriminate H].
    - left. apply (cannot_tells _ _ _ _) with (2 := H). now apply (not_int_key k z).
  Qed.
  Lemma row_tells : tells (say_row lt) (bad_row lt).
  Proof.
    intros j m H. unfold say_row in H. says H; [left; now apply members_tells|]. right. apply members_fine in E as ->.
    apply sfold_says in H as (s' & [k v] & I & H). cbn [fst snd] in H.
    exists x, k, v. split; [reflexivity|]. split; [exact I|]. says H; [left; now apply bus_tells|]. right.
    says H; [exact (member_tells _ _ _ columns_tells _ _ H)|discriminate H].
  Qed.
  Lemma half_tells : tells (say_half lt) (bad_half lt).
  Proof.
    intros j m H. unfold say_half in H. says H; [left; now apply members_tells|]. right. apply members_fine in E as ->.
    says H; [|destruct x0; discriminate H]. apply sfold_says in H as ([prev w] & [k v] & I & H). cbn [fst snd] in H.
    exists x, k, v. split; [reflexivity|]. split; [exact I|]. destruct (atoi_i32 (c_str k)) as [z b] eqn:E. destruct b.
    - right. says H; [apply unchecked_says in H as [H _]; now apply check_next_not_err in H|].
      says H; [exact (member_tells _ _ _ row_tells _ _ H)|discriminate H].
    - left. apply (cannot_tells _ _ _ _) with (2 := H). now apply (not_int_key k z).
  Qed.
  Lemma rows_of_pointer side j rows : rows_of side j rows <-> pointer2 side (tx "rows") j = Some rows.
  Proof. symmetry. apply pointer2_spec. Qed.
  Lemma regions_tells : tells (say_regions lt) (bad_regions lt).
  Proof.
    intros j m H. unfold say_regions in H. destruct (pointer2 (tx "bottom") (tx "rows") j) as [jb|] eqn:EB.
    - says H; [left; right; exists jb; split; [now apply rows_of_pointer|now apply half_tells]|]. right.
      destruct (pointer2 (tx "top") (tx "rows") j) as [jt|] eqn:ET.
      + says H; [|discriminate H]. right. exists jt. split; [now apply rows_of_pointer|now apply half_tells].
      + left. split; [|injection H as <-; reflexivity]. intros r X. apply rows_of_pointer in X. congruence.
    - left. left. split; [|injection H as <-; reflexivity]. intros r X. apply rows_of_pointer in X. congruence.
  Qed.
  Lemma part_tells : tells (say_part lt) (bad_part lt).
  Proof.
    intros j m H. unfold say_part in H. says H; [left; now apply member_of_nothing, members_tells|].
    says H; [left; exact (member_tells _ _ _ u32_tells _ _ H)|right].
    says H; [left; exact (opt_member_tells _ _ _ iobanks_tells _ _ H)|right].
    says H; [exact (member_tells _ _ _ regions_tells _ _ H)|destruct x2; discriminate H].
  Qed.
End True.

(** ** Decimal numbers *)
Lemma dec_char_code d : d < 10 -> dec_code (dec_char d) d.
Proof.
  intros H. split; [exact H|]. assert (I : In d (map N.of_nat (seq 0 10))) by (apply in_map_iff; exists (N.to_nat d); split; [lia|apply in_seq; lia]).
  cbn in I. repeat destruct I as [<-|I]; try reflexivity. destruct I.
Qed.
Lemma dec_fuel_decimal : forall fuel n acc, n < 2 ^ N.of_nat fuel -> (0 < fuel)%nat ->
  exists ds, dec_fuel fuel n acc = ds ++ acc /\ decimal_text n ds.
Proof.
  induction fuel as [|fuel IH]; intros n acc H F; [lia|]. cbn [dec_fuel]. cbv zeta.
  pose proof (N.mod_lt n 10 ltac:(lia)) as M. pose proof (N.div_mod n 10 ltac:(lia)) as DM.
  pose proof (dec_char_code _ M) as DC.
  destruct (N.eqb_spec (n / 10) 0) as [Z|NZ].
  - assert (EN : n mod 10 = n) by lia. rewrite EN in *. exists [dec_char n]. split; [reflexivity|].
    split; [split; [discriminate|exists [n]; split; [constructor; [exact DC|constructor]|cbn [fold_left]; lia]]|].
    split; [intros ->; reflexivity|]. intros r NE X. injection X as X _. rewrite X in DC. destruct DC as [_ DC]. apply NE.
    change (N_of_ascii "0") with 48 in DC. lia.
  - rewrite Nat2N.inj_succ, N.pow_succ_r' in H.
    destruct fuel as [|fuel].
    { exfalso. change (2 ^ N.of_nat 0) with 1 in H. apply NZ. apply N.div_small. lia. }
    destruct (IH (n / 10) (dec_char (n mod 10) :: acc)) as (ds & E & (NE & es & Fs & V) & _ & L).
    { apply N.div_lt_upper_bound; [lia|]. generalize dependent (2 ^ N.of_nat (S fuel)). intros. lia. }
    { lia. }
    exists (ds ++ [dec_char (n mod 10)]). rewrite E, <- app_assoc. split; [reflexivity|]. split; [|split].
    + split; [destruct ds; discriminate|]. exists (es ++ [n mod 10]). split.
      * apply Forall2_app; [exact Fs|]. constructor; [exact DC|constructor].
      * rewrite fold_left_app. cbn [fold_left]. rewrite <- V. lia.
    + intros ->. exfalso. apply NZ. reflexivity.
    + intros r _ X. destruct ds as [|c ds]; [now elim NE|]. cbn [app] in X. injection X as -> _. exact (L ds NZ eq_refl).
Qed.
Lemma dec_text_decimal n : decimal_text n (dec_text n).
Proof.
  unfold dec_text. destruct (dec_fuel_decimal (S (N.to_nat (N.log2 n))) n []) as (ds & E & D); [|lia|].
  - rewrite Nat2N.inj_succ, N2Nat.id. destruct (N.eq_dec n 0) as [->|NZ]; [reflexivity|]. apply N.log2_spec. lia.
  - rewrite E, app_nil_r. exact D.
Qed.
