(** What is said is a fault of the specification (LoadLogSpec): text files and the directory. *)
From Verif Require Import Base BaseFacts Absl Part DbText DbJson Database Fasm Assembler AsmSpec MapFacts OutcomeFacts
  DbSpec JsonSpec LoadSpec JsonFacts JsonFacts2 DbFacts YamlFacts LoadFacts P_Database P_Database2 P_Database3 P_Database4 FasmLog LoadLog LoadLogSpec LoadLogFacts LoadLogTrue.
From Coq Require Import Lia.

(** ** Lines *)
Lemma say_lines_spec {S} after (sink : S -> N -> text -> said S) s0 ls :
  text_lines s0 ls -> splittable after s0 ->
  forall fuel n s, (List.length s0 <= fuel)%nat ->
  say_lines_loop fuel after sink n s s0 = sfold (fun s (l : N * text) => sink s (fst l) (snd l)) (number_from n ls) s.
Proof.
  intros H. induction H as [|l NE N|l r ls N H IH]; intros R fuel n s L.
  - destruct fuel; reflexivity.
  - destruct fuel as [|fuel]; [destruct l; [contradiction|cbn in L; lia]|].
    cbn [number_from sfold fst snd].
    replace (say_lines_loop (Datatypes.S fuel) after sink n s l)
      with (sbind (say_to_eol after l) (fun p => let '(line, it) := p in
              sbind (sink s (u32 (n + 1)) line) (fun s => say_lines_loop fuel after sink (u32 (n + 1)) s (tl it))))
      by (destruct l; [contradiction|reflexivity]).
    unfold say_to_eol. rewrite to_eol_last by exact N. destruct after as [c|].
    + cbn [unchecked sbind]. destruct (sink s (u32 (n + 1)) l); cbn [sbind]; try reflexivity. destruct fuel; reflexivity.
    + exfalso. destruct R as [->|[(s' & ->)|R]]; [contradiction| |contradiction].
      apply N. apply in_or_app. right. now left.
  - destruct fuel as [|fuel]; [destruct l; cbn in L; lia|].
    cbn [number_from sfold fst snd].
    replace (say_lines_loop (Datatypes.S fuel) after sink n s (l ++ newline :: r))
      with (sbind (say_to_eol after (l ++ nl :: r)) (fun p => let '(line, it) := p in
              sbind (sink s (u32 (n + 1)) line) (fun s => say_lines_loop fuel after sink (u32 (n + 1)) s (tl it))))
      by (destruct l; reflexivity).
    unfold say_to_eol. rewrite to_eol_cut by exact N. cbn [unchecked sbind tl].
    destruct (sink s (u32 (n + 1)) l); cbn [sbind]; try reflexivity.
    apply IH.
    + destruct R as [R|[(s' & E)|R]]; [destruct l; discriminate| |right; right; exact R].
      destruct r as [|c r]; [now left|]. right. left.
      destruct (@exists_last _ (c :: r)) as (r0 & c0 & E'); [discriminate|]. rewrite E' in *.
      change (newline :: r0 ++ [c0]) with ((newline :: r0) ++ [c0]) in E. rewrite app_assoc in E.
      apply app_inj_tail in E as [_ ->]. exists r0. reflexivity.
    + rewrite app_length in L. cbn in L. lia.
Qed.
Lemma numbered_says {S} (sink : S -> N -> text -> said S) m ls : forall n s, n + N.of_nat (List.length ls) < 2 ^ 32 ->
  sfold (fun s (l : N * text) => sink s (fst l) (snd l)) (number_from n ls) s = Says m ->
  exists before l after s', ls = before ++ l :: after /\ sink s' (n + N.of_nat (List.length before) + 1) l = Says m.
Proof.
  induction ls as [|l ls IH]; intros n s B H; [discriminate H|]. cbn [number_from sfold fst snd] in H. cbn [List.length] in B.
  assert (U : u32 (n + 1) = n + 1) by (apply u32_small; lia). rewrite U in H.
  apply sbind_says in H as [H|(x & E & H)].
  - exists [], l, ls, s. split; [reflexivity|]. cbn [List.length]. rewrite N.add_0_r. exact H.
  - apply IH in H as (before & l' & after & s' & -> & H); [|lia]. exists (l :: before), l', after, s'. split; [reflexivity|].
    cbn [List.length]. replace (n + N.of_nat (Datatypes.S (List.length before)) + 1) with (n + 1 + N.of_nat (List.length before) + 1) by lia. exact H.
Qed.
Lemma pin_line_tells s n l m : say_pin_line s n l = Says m -> exists m', bad_pin_line n l m' /\ m = dec_text n ++ tx ": " ++ m'.
Proof.
  intros H. unfold say_pin_line in H. cbv zeta in H. set (segs := map strip (skip_empty (split_char "," l))) in *.
  assert (C : columns l segs) by (now apply columns_spec). destruct (N.eqb_spec n 1) as [->|NE].
  - destruct (texts_eqb segs pins_header) eqn:E; [discriminate H|]. exists (tx "missing header"). unfold invalid_line in H. split.
    + apply header_missing. intros X. apply pin_header_spec in X. unfold segs in E. congruence.
    + assert (X : m = dec_text 1 ++ tx ": " ++ tx "missing header") by congruence. exact X.
  - assert (W : forall k, List.length segs = k -> k <> 0%nat -> k <> 5%nat -> invalid_line n (tx "invalid line " ++ quoted l) = Says m :> said (list package_pin) ->
      exists m', bad_pin_line n l m' /\ m = dec_text n ++ tx ": " ++ m').
    { intros k L K0 K5 X. exists (tx "invalid line """ ++ l ++ tx """"). split.
      - apply (columns_wrong n l segs); [exact NE|exact C|congruence|congruence].
      - unfold invalid_line, quoted in X. assert (Y : m = dec_text n ++ tx ": " ++ tx "invalid line " ++ tx """" ++ l ++ tx """") by congruence. exact Y. }
    clearbody segs. destruct segs as [|p [|b [|si [|t [|f [|x r]]]]]]; try discriminate H;
      try (apply (W _ eq_refl); [cbn [List.length]; discriminate|cbn [List.length]; discriminate|exact H]).
    clear W. destruct (atoi_u32 b) as [k ok] eqn:E. destruct ok; [discriminate H|].
    exists (tx "could not parse bank (second column) """ ++ l ++ tx """"). split.
    + eapply bank_wrong; [exact NE|exact C|]. intros v U. destruct (N.lt_ge_cases v (2 ^ 32)) as [L|L]; [|exact L]. exfalso.
      assert (X : atoi_u32 b = (v, true)) by (apply atoi_u32_ok; auto). congruence.
    + unfold invalid_line, quoted in H.
      assert (Y : m = dec_text n ++ tx ": " ++ tx "could not parse bank (second column) " ++ tx """" ++ l ++ tx """") by congruence. exact Y.
Qed.
Lemma pins_tells after c m : splittable after c -> N.of_nat (List.length c) < 2 ^ 32 - 1 -> say_pins after c = Says m -> bad_pins c m.
Proof.
  intros S B H. destruct c as [|ch c]; [discriminate H|]. unfold say_pins in H. destruct (text_lines_total (ch :: c)) as (ls & T).
  rewrite (say_lines_spec _ _ _ _ T S _ _ _ (le_n _)) in H. pose proof (lines_bound _ _ T) as L.
  apply numbered_says in H as (before & l & af & s' & -> & H).
  - rewrite N.add_0_l in H. apply pin_line_tells in H as (m' & W & ->).
    exists before, l, af, (dec_text (N.of_nat (List.length before) + 1)), m'. split; [exact T|]. split; [apply dec_text_decimal|]. split; [exact W|reflexivity].
  - rewrite N.add_0_l. eapply N.le_lt_trans; [|eapply N.lt_le_trans; [exact B|apply N.le_sub_l]]. lia.
Qed.

(** ** Mappings *)
Section Yaml.
  Context {S : Type} (sink : S -> text -> props -> said S) (F : list (text * text) -> text -> Prop)
    (sink_tells : forall s k p q m, (forall x, hm_find text_eqb x p = hm_find text_eqb x q) -> sink s k p = Says m -> F q m).

  Lemma indented_spec l : (List.length l =? List.length (strip_leading l))%nat = true <-> ~ indented l.
  Proof.
    rewrite indent_spec. split.
    - intros H (c & r & -> & X). exact (H c r eq_refl X).
    - intros H c r -> X. apply H. exists c, r. auto.
  Qed.
  Definition quiet (_ : unit) (_ : text) (_ : props) : outcome unit := Ok tt.
  Lemma quiet_dec s k p : ok_or_err (quiet s k p).
  Proof. left. exists tt. reflexivity. Qed.
  Lemma quiet_flush key ps : yaml_flush quiet key ps tt = Ok tt.
  Proof. destruct key; reflexivity. Qed.
  Lemma yaml_line_fine key ps s l key' ps' s' : say_yaml_line sink (key, ps, s) l = Fine (key', ps', s') ->
    exists i, yaml_reads l i /\ step quiet (key, ps, tt) i = Ok (key', ps', tt).
  Proof.
    intros H. assert (Q : yaml_line quiet (key, ps, tt) l = Ok (key', ps', tt)).
    { unfold say_yaml_line in H. unfold yaml_line.
      destruct (strip l) as [|c x]; [congruence|]. destruct (Ascii.eqb c "#"); [congruence|].
      destruct (Nat.eqb _ _).
      - rewrite quiet_flush. cbn [obind].
        destruct (say_flush sink key ps s); try discriminate H. cbn [sbind] in H. destruct (ends_with (tx ":") (c :: x)); [injection H as <- <- <-; reflexivity|discriminate H].
      - destruct (find_char ":" (c :: x)); [injection H as <- <- <-; reflexivity|discriminate H]. }
    destruct (yaml_line_dec quiet quiet_dec l) as [(i & R)|(_ & E)]; [|rewrite E in Q; discriminate Q].
    exists i. split; [exact R|]. now rewrite <- (yaml_line_reads quiet quiet_dec l i _ R).
  Qed.
  Lemma yaml_line_says key ps s l m : say_yaml_line sink (key, ps, s) l = Says m ->
    bad_yaml_line l m \/ (key <> [] /\ sink s key ps = Says m /\ exists t, written l t /\ ~ indented l).
  Proof.
    intros H. unfold say_yaml_line in H. destruct (strip l) as [|c x] eqn:E; [discriminate H|].
    assert (T : trimmed l (c :: x)) by (now apply strip_spec).
    destruct (Ascii.eqb_spec c "#") as [->|NC]; [discriminate H|].
    assert (W : written l (c :: x)) by (split; [exact T|]; split; [discriminate|]; intros r X; injection X as -> _; contradiction).
    destruct (List.length l =? List.length (strip_leading l))%nat eqn:EI.
    - apply indented_spec in EI. apply sbind_says in H as [H|(s2 & _ & H)].
      + right. unfold say_flush in H. destruct key as [|k0 key]; [discriminate H|]. split; [discriminate|]. split; [exact H|]. eauto.
      + destruct (ends_with (tx ":") (c :: x)) eqn:EW; [discriminate H|]. left. injection H as <-.
        apply (key_without_colon l (c :: x)); [exact W|exact EI|]. intros r X.
        assert (Y : ends_with (tx ":") (c :: x) = true) by (apply ends_with_char; exists r; exact X). congruence.
    - assert (IN : indented l).
      { destruct l as [|c0 r0]; [discriminate E|]. destruct (space_dec c0) as [SS|SS]; [exists c0, r0; auto|]. exfalso.
        assert (X : (List.length (c0 :: r0) =? List.length (strip_leading (c0 :: r0)))%nat = true).
        { apply indent_spec. intros ? ? [= <- <-]. exact SS. }
        congruence. }
      pose proof (find_char_spec ":" (c :: x)) as FC. destruct (find_char ":" (c :: x)) as [n|]; [discriminate H|].
      left. injection H as <-. now apply (property_without_colon l (c :: x)).
  Qed.

  (** *** Grouping, one line more *)
  Lemma group_nothing items : group (items ++ [YNothing]) = group items.
  Proof. induction items as [|i items IH]; [reflexivity|]. cbn [app group]. destruct i; rewrite ?IH; reflexivity. Qed.
  Lemma group_key items k : group (items ++ [YKey k]) = (fst (group items), snd (group items) ++ [(k, [])]).
  Proof.
    induction items as [|i items IH]; [reflexivity|]. cbn [app group]. destruct i; rewrite IH; [reflexivity| |]; destruct (group items) as [p es]; reflexivity.
  Qed.
  Lemma group_prop items n v k p es : snd (group items) = es ++ [(k, p)] ->
    snd (group (items ++ [YProp n v])) = es ++ [(k, p ++ [(n, v)])].
  Proof.
    assert (X : group (items ++ [YProp n v]) =
      match rev (snd (group items)) with
      | [] => (fst (group items) ++ [(n, v)], [])
      | (k, p) :: r => (fst (group items), rev r ++ [(k, p ++ [(n, v)])])
      end).
    { induction items as [|i items IH]; [reflexivity|]. cbn [app group]. destruct i as [|k'|n' v'].
      - exact IH.
      - rewrite IH. destruct (group items) as [q es']. cbn [fst snd rev]. destruct (rev es') as [|[k2 p2] r]; cbn [app]; [reflexivity|].
        rewrite rev_app_distr. reflexivity.
      - rewrite IH. destruct (group items) as [q es']. cbn [fst snd]. destruct (rev es') as [|[k2 p2] r]; reflexivity. }
    intros E. rewrite X, E, rev_app_distr. cbn [rev app snd]. now rewrite rev_involutive.
  Qed.
  Lemma entries_group items : yaml_entries items (map (fun e => (fst e, rev (snd e))) (snd (group items))).
  Proof. destruct (yaml_entries_total items) as (es & E). pose proof (yaml_entries_group _ _ E) as X. now rewrite <- X. Qed.

  (** The key and the properties after the lines [items]. *)
  Definition reached (items : list yaml_item) (key : text) (ps : props) : Prop :=
    key <> [] -> exists es p, snd (group items) = es ++ [(key, p)] /\ ps = set_all p [].
  Lemma reached_step items key ps i key' ps' : reached items key ps -> step quiet (key, ps, tt) i = Ok (key', ps', tt) -> reached (items ++ [i]) key' ps'.
  Proof.
    intros R H. destruct i as [|k|n v]; cbn [step] in H.
    - injection H as <- <-. unfold reached. rewrite group_nothing. exact R.
    - rewrite quiet_flush in H. cbn [obind] in H. injection H as <- <-. intros _. rewrite group_key. cbn [snd]. exists (snd (group items)), []. split; reflexivity.
    - injection H as <- <-. intros NE. destruct (R NE) as (es & p & E & ->). exists es, (p ++ [(n, v)]).
      split; [now apply group_prop|]. unfold set_all. rewrite fold_left_app. reflexivity.
  Qed.
  Lemma set_all_rev p x : hm_find text_eqb x (set_all p []) = hm_find text_eqb x (rev p).
  Proof. rewrite set_all_find. destruct (hm_find text_eqb x (rev p)); reflexivity. Qed.
  Lemma reached_entry items key ps : key <> [] -> reached items key ps ->
    exists es q, yaml_entries items (es ++ [(key, q)]) /\ forall x, hm_find text_eqb x ps = hm_find text_eqb x q.
  Proof.
    intros NE R. destruct (R NE) as (es & p & E & ->). exists (map (fun e => (fst e, rev (snd e))) es), (rev p). split; [|apply set_all_rev].
    pose proof (entries_group items) as X. rewrite E, map_app in X. exact X.
  Qed.

  Lemma yaml_fold_tells m ls2 : forall ls1 items key ps s, Forall2 yaml_reads ls1 items -> reached items key ps ->
    sbind (sfold (say_yaml_line sink) ls2 (key, ps, s)) (fun st => let '(key, ps, s) := st in say_flush sink key ps s) = Says m ->
    (exists l, In l (ls1 ++ ls2) /\ bad_yaml_line l m) \/
    (exists a b items es k ps, ls1 ++ ls2 = a ++ b /\ Forall2 yaml_reads a items /\ yaml_entries items (es ++ [(k, ps)]) /\ k <> [] /\
       (b = [] \/ exists l t ls3, b = l :: ls3 /\ written l t /\ ~ indented l) /\ F ps m).
  Proof.
    induction ls2 as [|l ls2 IH]; intros ls1 items key ps s FA R H.
    - cbn [sfold sbind] in H. right. unfold say_flush in H. destruct key as [|k0 key]; [discriminate H|].
      destruct (reached_entry items (k0 :: key) ps) as (es & q & E & Q); [discriminate|exact R|].
      exists ls1, [], items, es, (k0 :: key), q. split; [reflexivity|]. split; [exact FA|]. split; [exact E|]. split; [discriminate|].
      split; [now left|]. eapply sink_tells; eauto.
    - cbn [sfold] in H. destruct (say_yaml_line sink (key, ps, s) l) as [[[key' ps'] s']|m'| | |] eqn:EL; try discriminate H.
      + cbn [sbind] in H. apply yaml_line_fine in EL as (i & RI & ST).
        apply (IH (ls1 ++ [l]) (items ++ [i])) in H.
        * rewrite <- app_assoc in H. exact H.
        * apply Forall2_app; [exact FA|]. constructor; [exact RI|constructor].
        * eapply reached_step; eauto.
      + cbn [sbind] in H. injection H as ->. apply yaml_line_says in EL as [EL|(NE & EL & t & W & NI)].
        * left. exists l. split; [|exact EL]. apply in_or_app. right. now left.
        * right. destruct (reached_entry items key ps NE R) as (es & q & E & Q).
          exists ls1, (l :: ls2), items, es, key, q. split; [reflexivity|]. split; [exact FA|]. split; [exact E|]. split; [exact NE|].
          split; [right; exists l, t, ls2; auto|]. eapply sink_tells; eauto.
  Qed.
  Lemma yaml_tells c s m : say_yaml sink c s = Says m -> bad_yaml F c m.
  Proof.
    intros H. unfold say_yaml in H. destruct (pieces_total newline c) as (ls & P). pose proof P as P0. apply split_char_spec in P0.
    rewrite nl_newline, P0 in H.
    apply (yaml_fold_tells m ls [] []) in H as [(l & I & W)|(a & b & items & es & k & ps & E & H)].
    - left. exists ls, l. auto.
    - right. cbn [app] in E. subst ls. exists a, b, items, es, k, ps. auto.
    - constructor.
    - intros X. now elim X.
  Qed.
End Yaml.

Lemma fabric_sink_tells s k p q m : (forall x, hm_find text_eqb x p = hm_find text_eqb x q) -> say_fabric_sink s k p = Says m -> without_fabric q m.
Proof.
  intros Q H. unfold say_fabric_sink in H. rewrite Q in H. destruct (hm_find text_eqb (tx "fabric") q) eqn:E; [discriminate H|].
  split; [now apply (hm_find_none _ text_eqb_eq)|]. congruence.
Qed.
Lemma value_tells p q key m : (forall x, hm_find text_eqb x p = hm_find text_eqb x q) -> say_value p key = Says m ->
  ~ has_key q key /\ m = tx "key """ ++ key ++ tx """ not found".
Proof.
  intros Q H. unfold say_value in H. rewrite Q in H. destruct (hm_find text_eqb key q) eqn:E; [discriminate H|].
  split; [now apply (hm_find_none _ text_eqb_eq)|]. unfold quoted in H. rewrite <- !app_assoc in H.
  assert (X : m = tx "key " ++ tx """" ++ key ++ tx """" ++ tx " not found") by congruence. exact X.
Qed.
Lemma part_sink_tells esd fb s k p q m :
  (forall d f, hm_find text_eqb d fb = Some f <-> exists dps, maps_to (named esd) d dps /\ maps_to dps (tx "fabric") f) ->
  (forall k ps, In (k, ps) (named esd) -> has_key ps (tx "fabric")) ->
  (forall x, hm_find text_eqb x p = hm_find text_eqb x q) -> say_part_sink fb s k p = Says m -> unresolved esd q m.
Proof.
  intros FB HD Q H. unfold say_part_sink in H.
  says H; [apply (value_tells _ _ _ _ Q) in H as [NK ->]; apply key_missing; [now left|exact NK]|].
  says H; [apply (value_tells _ _ _ _ Q) in H as [NK ->]; apply key_missing; [right; now left|exact NK]|].
  says H; [apply (value_tells _ _ _ _ Q) in H as [NK ->]; apply key_missing; [right; right; now left|exact NK]|].
  destruct (hm_find text_eqb x fb) as [f|] eqn:EF; [discriminate H|].
  assert (X : m = tx "could not find fabric for device: """ ++ x ++ tx """").
  { unfold quoted in H. assert (Y : m = tx "could not find fabric for device: " ++ tx """" ++ x ++ tx """") by congruence. exact Y. }
  rewrite X. apply device_unknown.
  - unfold say_value in E. rewrite Q in E. destruct (hm_find text_eqb (tx "device") q) eqn:E2; [|discriminate E].
    apply (hm_find_maps _ text_eqb_eq). congruence.
  - intros K. apply (key_maps_to text_eqb text_eqb_eq) in K as (dps & M). pose proof (maps_to_In _ _ _ M) as I. pose proof (HD _ _ I) as K.
    apply (key_maps_to text_eqb text_eqb_eq) in K as (f & M'). assert (Y : hm_find text_eqb x fb = Some f) by (apply FB; eauto). congruence.
Qed.
