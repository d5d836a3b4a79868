(** Base addresses and the tile grid. *)
From Verif Require Import Base BaseFacts Absl Part DbText DbJson AsmSpec MapFacts DbSpec DbFacts JsonSpec JsonFacts.

(** ** Digits *)
Lemma base_digit_spec base c d : base <= 16 -> base_digit base c = Some d <-> digit_code base c d.
Proof.
  intros L. unfold base_digit, any_digit, digit_code. change (ccode c) with (N_of_ascii c).
  generalize (N_of_ascii c) as n. intros n. split.
  - destruct (N.leb_spec 48 n) as [A|A]; [destruct (N.leb_spec n 57) as [B|B]|]; cbn [andb].
    + destruct (N.ltb_spec (n - 48) base) as [D|D]; [|discriminate]. intros H. injection H as <-. split; [exact D|]. left. lia.
    + destruct (N.leb_spec 97 n) as [C|C]; [destruct (N.leb_spec n 122) as [E|E]|]; cbn [andb].
      * destruct (N.ltb_spec (n - 87) base) as [D|D]; [|discriminate]. intros H. injection H as <-. split; [exact D|]. right. lia.
      * destruct (N.leb_spec 65 n) as [F|F]; [destruct (N.leb_spec n 90) as [G|G]|]; cbn [andb]; try discriminate. lia.
      * destruct (N.leb_spec 65 n) as [F|F]; [destruct (N.leb_spec n 90) as [G|G]|]; cbn [andb]; try discriminate.
        destruct (N.ltb_spec (n - 55) base) as [D|D]; [|discriminate]. intros H. injection H as <-. split; [exact D|]. right. lia.
    + destruct (N.leb_spec 97 n) as [C|C]; [lia|]. cbn [andb].
      destruct (N.leb_spec 65 n) as [F|F]; [lia|]. discriminate.
  - intros [D [[E F]|[E [F|F]]]].
    + destruct (N.leb_spec 48 n) as [A|A]; [|lia]. destruct (N.leb_spec n 57) as [B|B]; [|lia]. cbn [andb].
      replace (n - 48) with d by lia. destruct (N.ltb_spec d base); [reflexivity|lia].
    + destruct (N.leb_spec 48 n) as [A|A]; [|lia]. destruct (N.leb_spec n 57) as [B|B]; [lia|]. cbn [andb].
      destruct (N.leb_spec 97 n) as [C|C]; [|lia]. destruct (N.leb_spec n 122) as [G|G]; [|lia]. cbn [andb].
      replace (n - 87) with d by lia. destruct (N.ltb_spec d base); [reflexivity|lia].
    + destruct (N.leb_spec 48 n) as [A|A]; [|lia]. destruct (N.leb_spec n 57) as [B|B]; [lia|]. cbn [andb].
      destruct (N.leb_spec 97 n) as [C|C]; [lia|]. cbn [andb].
      destruct (N.leb_spec 65 n) as [G|G]; [|lia]. destruct (N.leb_spec n 90) as [I|I]; [|lia]. cbn [andb].
      replace (n - 55) with d by lia. destruct (N.ltb_spec d base); [reflexivity|lia].
Qed.
Lemma base_digit_none base c : base <= 16 -> base_digit base c = None <-> forall d, ~ digit_code base c d.
Proof.
  intros L. split.
  - intros E d H. apply base_digit_spec in H; [congruence|exact L].
  - intros H. destruct (base_digit base c) as [d|] eqn:E; [|reflexivity]. apply base_digit_spec in E; [|exact L]. now elim (H d).
Qed.
Lemma stops_spec base r : base <= 16 -> stops base r <-> match r with [] => True | c :: _ => base_digit base c = None end.
Proof.
  intros L. unfold stops. destruct r as [|c r].
  - split; [auto|]. intros _ c r' d E. discriminate.
  - rewrite base_digit_none by exact L. split.
    + intros H d. apply (H c r d eq_refl).
    + intros H c' r' d E. injection E as <- <-. apply H.
Qed.

Lemma digits_prefix_app base ds vs r : base <= 16 -> Forall2 (digit_code base) ds vs -> stops base r -> forall acc,
  digits_prefix base acc (ds ++ r) = fold_left (fun a d => a * base + d) vs acc.
Proof.
  intros L F S. induction F as [|c d ds vs H F IH]; intros acc; cbn [app digits_prefix fold_left].
  - apply stops_spec in S; [|exact L]. destruct r as [|c r]; [reflexivity|]. cbn [digits_prefix]. rewrite S. reflexivity.
  - apply base_digit_spec in H; [|exact L]. rewrite H. apply IH.
Qed.
Lemma digits_cut base s : base <= 16 -> exists ds vs r, s = ds ++ r /\ Forall2 (digit_code base) ds vs /\ stops base r.
Proof.
  intros L. induction s as [|c s IH].
  - exists [], [], []. split; [reflexivity|]. split; [constructor|]. intros c r' d E. discriminate.
  - destruct (base_digit base c) as [d|] eqn:E.
    + apply base_digit_spec in E; [|exact L]. destruct IH as (ds & vs & r & -> & F & S).
      exists (c :: ds), (d :: vs), r. split; [reflexivity|]. split; [now constructor|exact S].
    + exists [], [], (c :: s). split; [reflexivity|]. split; [constructor|]. apply stops_spec; [exact L|exact E].
Qed.
Lemma numeral_prefix base ds r v : base <= 16 -> numeral base ds v -> stops base r -> digits_prefix base 0 (ds ++ r) = v.
Proof. intros L (vs & F & ->) S. now rewrite (digits_prefix_app base ds vs r L F S). Qed.

Lemma zero_octal : digit_code 8 "0" 0.
Proof. split; [reflexivity|]. left. split; reflexivity. Qed.
Lemma zero_only base c d : digit_code base c d -> d = 0 -> c = "0"%char.
Proof.
  intros [_ [[_ E]|[L _]]] ->; [|lia]. rewrite <- (ascii_N_embedding c), E. reflexivity.
Qed.

Lemma c_number_magnitude s v : c_number s v -> strtol_magnitude s = v.
Proof.
  intros [x ds r v0 Hx NE Hn Hs|ds r v0 Hn Hs Hno|c ds r v0 Nc Hn Hs|s0 Hs].
  - cbn [strtol_magnitude]. rewrite Ascii.eqb_refl. 
    replace (Ascii.eqb x "x" || Ascii.eqb x "X")%bool with true by (destruct Hx; subst; reflexivity).
    destruct ds as [|h ds]; [contradiction|]. cbn [app].
    destruct Hn as (vs & F & ->). inversion F as [|? d ? vs' H F']; subst.
    assert (H' := H). apply base_digit_spec in H'; [|vm_compute; discriminate]. rewrite H'.
    apply (digits_prefix_app 16 (h :: ds) (d :: vs') r); [vm_compute; discriminate|exact F|exact Hs].
  - destruct Hn as (vs & F & ->).
    assert (L8 : 8 <= 16) by (vm_compute; discriminate).
    assert (D : digits_prefix 8 0 ("0"%char :: ds ++ r) = fold_left (fun a d => a * 8 + d) vs 0).
    { rewrite (app_comm_cons ds r "0"%char).
      rewrite (digits_prefix_app 8 ("0"%char :: ds) (0 :: vs) r L8); [reflexivity| |exact Hs]. constructor; [exact zero_octal|exact F]. }
    destruct (ds ++ r) as [|x t] eqn:E.
    { cbn [strtol_magnitude]. apply app_eq_nil in E as [-> ->]. inversion F. reflexivity. }
    cbn [strtol_magnitude]. rewrite Ascii.eqb_refl.
    destruct (Ascii.eqb x "x" || Ascii.eqb x "X")%bool eqn:Ex; [|exact D].
    assert (Hx : (x = "x" \/ x = "X")%char).
    { apply orb_true_iff in Ex as [Ex|Ex]; apply Ascii.eqb_eq in Ex; auto. }
    assert (ds = []) as ->.
    { destruct ds as [|y ds]; [reflexivity|]. injection E as -> E. inversion F as [|? d ? vs' H F']; subst.
      apply base_digit_spec in H; [|exact L8]. destruct Hx; subst; discriminate. }
    inversion F; subst. cbn [app] in E. subst r. cbn [fold_left].
    destruct t as [|h t]; [reflexivity|].
    assert (N : base_digit 16 h = None).
    { apply base_digit_none; [vm_compute; discriminate|]. intros d. now apply (Hno x h t d). }
    rewrite N. reflexivity.
  - assert (D : digits_prefix 10 0 (c :: ds ++ r) = v0).
    { apply (numeral_prefix 10 (c :: ds) r); [vm_compute; discriminate|exact Hn|exact Hs]. }
    destruct (ds ++ r) as [|x t]; [exact D|]. cbn [strtol_magnitude].
    destruct (Ascii.eqb_spec c "0"); [contradiction|]. exact D.
  - apply stops_spec in Hs; [|vm_compute; discriminate]. destruct s0 as [|c [|x t]].
    + reflexivity.
    + cbn [strtol_magnitude digits_prefix]. now rewrite Hs.
    + cbn [strtol_magnitude]. destruct (Ascii.eqb_spec c "0") as [E|E]; [subst c; discriminate Hs|].
      cbn [digits_prefix]. now rewrite Hs.
Qed.
Lemma c_number_total s : exists v, c_number s v.
Proof.
  assert (L8 : 8 <= 16) by (vm_compute; discriminate). assert (L10 : 10 <= 16) by (vm_compute; discriminate).
  assert (L16 : 16 <= 16) by (vm_compute; discriminate).
  destruct s as [|c s]; [exists 0; apply c_none; intros c r d E; discriminate|].
  destruct (Ascii.eqb_spec c "0") as [E|E].
  - subst c. destruct (digits_cut 8 s L8) as (ds & vs & r & -> & F & S).
    assert (O : (forall x h r' d, ds = [] -> r = x :: h :: r' -> (x = "x" \/ x = "X")%char -> ~ digit_code 16 h d) ->
      exists v, c_number ("0"%char :: ds ++ r) v).
    { intros H. exists (fold_left (fun a d => a * 8 + d) vs 0). apply c_oct; auto. exists vs. auto. }
    destruct ds as [|y ds]; [|apply O; intros; discriminate].
    destruct r as [|x [|h r']]; [apply O; intros; discriminate|apply O; intros; discriminate|].
    destruct (Ascii.eqb x "x" || Ascii.eqb x "X")%bool eqn:Ex.
    2:{ apply O. intros x0 h0 r0 d _ E0 Hx. injection E0 as <- <- <-. apply orb_false_iff in Ex as [E1 E2].
        apply Ascii.eqb_neq in E1. apply Ascii.eqb_neq in E2. tauto. }
    assert (Hx : (x = "x" \/ x = "X")%char).
    { apply orb_true_iff in Ex as [Ex|Ex]; apply Ascii.eqb_eq in Ex; auto. }
    destruct (base_digit 16 h) as [d|] eqn:Eh.
    + destruct (digits_cut 16 (h :: r') L16) as (hs & ws & t & E & F' & S'). cbn [app]. rewrite E.
      exists (fold_left (fun a d => a * 16 + d) ws 0). apply c_hex; [exact Hx| |exists ws; auto|exact S'].
      intros ->. cbn [app] in E. subst t. apply stops_spec in S'; [|exact L16]. congruence.
    + apply O. intros x0 h0 r0 d _ E0 _. injection E0 as <- <- <-. revert d. apply base_digit_none; [exact L16|exact Eh].
  - destruct (digits_cut 10 (c :: s) L10) as (ds & vs & r & E' & F & S). destruct ds as [|y ds].
    + exists 0. cbn [app] in E'. rewrite E'. now apply c_none.
    + injection E' as <- ->. exists (fold_left (fun a d => a * 10 + d) vs 0). apply c_dec; [exact E| |exact S]. exists vs. auto.
Qed.
Lemma c_number_spec s v : c_number s v <-> strtol_magnitude s = v.
Proof.
  split; [apply c_number_magnitude|]. intros <-. destruct (c_number_total s) as (v & H). now rewrite (c_number_magnitude _ _ H).
Qed.

Lemma strip_leading_cut s : exists a, s = a ++ strip_leading s /\ spaces a /\ forall c r, strip_leading s = c :: r -> ~ space c.
Proof.
  induction s as [|c s (a & E & H & N)]; [exists []; split; [reflexivity|split; [constructor|intros; discriminate]]|].
  cbn [strip_leading]. destruct (is_space c) eqn:S.
  - exists (c :: a). split; [cbn; congruence|]. split; [constructor; [now apply is_space_spec|exact H]|exact N].
  - exists []. split; [reflexivity|]. split; [constructor|]. intros c' r E'. injection E' as <- <-. intros I. apply is_space_spec in I. congruence.
Qed.
Lemma strip_leading_app a s : spaces a -> (forall c r, s = c :: r -> ~ space c) -> strip_leading (a ++ s) = s.
Proof.
  intros H N. induction H as [|c a Hc H IH]; cbn [app].
  - destruct s as [|c s]; [reflexivity|]. cbn [strip_leading]. destruct (is_space c) eqn:E; [|reflexivity].
    apply is_space_spec in E. now elim (N c s eq_refl).
  - cbn [strip_leading]. apply is_space_spec in Hc. now rewrite Hc.
Qed.
Lemma plus_minus_solid : ~ space "+"%char /\ ~ space "-"%char.
Proof. split; intros H; apply is_space_spec in H; discriminate. Qed.

Lemma neg_mod v : v <= 2 ^ 63 -> Z.to_N ((- Z.of_N v) mod 2 ^ 64) = (2 ^ 64 - v) mod 2 ^ 64.
Proof.
  intros L. assert (P : 2 ^ 63 = 9223372036854775808) by reflexivity. rewrite P in L.
  assert (Q : 2 ^ 64 = 18446744073709551616) by reflexivity. rewrite Q.
  assert (R : (2 ^ 64 = 18446744073709551616)%Z) by reflexivity. rewrite R. clear P Q R.
  destruct (N.eq_dec v 0) as [E|NZ]; [subst v; reflexivity|].
  rewrite <- (Z.mod_unique (- Z.of_N v) 18446744073709551616 (-1) (18446744073709551616 - Z.of_N v)) by lia.
  rewrite N.mod_small by lia. lia.
Qed.
Lemma pos_mod v : v < 2 ^ 63 -> Z.to_N (Z.of_N v mod 2 ^ 64) = v.
Proof.
  intros L. assert (P : 2 ^ 63 = 9223372036854775808) by reflexivity. rewrite P in L.
  assert (R : (2 ^ 64 = 18446744073709551616)%Z) by reflexivity. rewrite R. clear P R.
  rewrite Z.mod_small by lia. apply N2Z.id.
Qed.

(** What base_address_of does, by the sign. *)
Definition signed_address (neg : bool) (m : N) : outcome N :=
  if neg then if m <=? 2 ^ 63 then Ok ((2 ^ 64 - m) mod 2 ^ 64) else Err
  else if m <? 2 ^ 63 then Ok m else Err.
Lemma base_address_cut s :
  base_address_of s = match strip_leading s with
                      | c :: r => if Ascii.eqb c "-" then signed_address true (strtol_magnitude r)
                                  else if Ascii.eqb c "+" then signed_address false (strtol_magnitude r)
                                  else signed_address false (strtol_magnitude (c :: r))
                      | [] => signed_address false (strtol_magnitude [])
                      end.
Proof.
  unfold base_address_of, strtol0, signed_address.
  assert (S : forall neg m,
    (let (v, er) := if (neg : bool) then if m <=? 2 ^ 63 then ((- Z.of_N m)%Z, false) else ((- 2 ^ 63)%Z, true)
                    else if m <? 2 ^ 63 then (Z.of_N m, false) else ((2 ^ 63 - 1)%Z, true) in
     if er then Err else Ok (Z.to_N (v mod 2 ^ 64))) =
    if neg then if m <=? 2 ^ 63 then Ok ((2 ^ 64 - m) mod 2 ^ 64) else Err else if m <? 2 ^ 63 then Ok m else Err).
  { intros neg m. destruct neg.
    - destruct (N.leb_spec m (2 ^ 63)) as [L|L]; [|reflexivity]. now rewrite neg_mod.
    - destruct (N.ltb_spec m (2 ^ 63)) as [L|L]; [|reflexivity]. now rewrite pos_mod. }
  destruct (strip_leading s) as [|c r]; [exact (S false (strtol_magnitude []))|].
  destruct (Ascii.eqb c "-"); [exact (S true (strtol_magnitude r))|].
  destruct (Ascii.eqb c "+"); [exact (S false (strtol_magnitude r))|exact (S false (strtol_magnitude (c :: r)))].
Qed.
Lemma signed_address_or neg m : ok_or_err (signed_address neg m).
Proof. unfold signed_address, ok_or_err. destruct neg; [destruct (_ <=? _)|destruct (_ <? _)]; eauto. Qed.
Lemma base_address_or s : ok_or_err (base_address_of s).
Proof.
  rewrite base_address_cut. destruct (strip_leading s) as [|c r]; [apply signed_address_or|].
  destruct (Ascii.eqb c "-"); [apply signed_address_or|]. destruct (Ascii.eqb c "+"); apply signed_address_or.
Qed.
Lemma base_address_spec s v : base_address_of s = Ok v <-> address_text s v.
Proof.
  split.
  - rewrite base_address_cut. destruct (strip_leading_cut s) as (a & E & Ha & N).
    assert (Pl : forall m, signed_address false m = Ok v -> m = v /\ v < 2 ^ 63).
    { intros m. unfold signed_address. destruct (N.ltb_spec m (2 ^ 63)) as [L|L]; [|discriminate]. intros H. injection H as <-. auto. }
    destruct (strip_leading s) as [|c r].
    + intros H. apply Pl in H as [M L]. rewrite E. apply addr_plain; auto; [intros; discriminate|]. now apply c_number_spec.
    + destruct (Ascii.eqb_spec c "-") as [Ec|Nc].
      { unfold signed_address. destruct (N.leb_spec (strtol_magnitude r) (2 ^ 63)) as [L|L]; [|discriminate].
        intros H. injection H as <-. rewrite E, Ec. apply addr_minus; auto. now apply c_number_spec. }
      destruct (Ascii.eqb_spec c "+") as [Ec|Nc'].
      * intros H. apply Pl in H as [M L]. rewrite E, Ec. apply addr_plus; auto. now apply c_number_spec.
      * intros H. apply Pl in H as [M L]. rewrite E. apply addr_plain; auto; [|now apply c_number_spec].
        intros c' r' E'. injection E' as <- <-. split; [now apply (N c r)|]. auto.
  - intros [a t w Ha N Hn L|a t w Ha Hn L|a t w Ha Hn L]; rewrite base_address_cut; apply c_number_spec in Hn.
    + rewrite strip_leading_app; [|exact Ha|intros c r E; now apply (N c r)].
      assert (S : signed_address false w = Ok w).
      { unfold signed_address. destruct (N.ltb_spec w (2 ^ 63)); [reflexivity|]. exfalso. eapply N.lt_irrefl, N.lt_le_trans; eauto. }
      destruct t as [|c r]; [now rewrite Hn|]. destruct (N c r eq_refl) as (_ & N1 & N2).
      apply Ascii.eqb_neq in N1. apply Ascii.eqb_neq in N2. rewrite N1, N2, Hn. exact S.
    + rewrite strip_leading_app; [|exact Ha|intros c r E; injection E as <- <-; apply plus_minus_solid].
      change (Ascii.eqb "+" "-") with false. cbv iota. rewrite Ascii.eqb_refl, Hn.
      unfold signed_address. destruct (N.ltb_spec w (2 ^ 63)); [reflexivity|]. exfalso. eapply N.lt_irrefl, N.lt_le_trans; eauto.
    + rewrite strip_leading_app; [|exact Ha|intros c r E; injection E as <- <-; apply plus_minus_solid].
      rewrite Ascii.eqb_refl, Hn.
      unfold signed_address. destruct (N.leb_spec w (2 ^ 63)); [reflexivity|]. exfalso. eapply N.lt_irrefl, N.lt_le_trans; eauto.
Qed.

(** ** Tiles *)
Definition un_address (j : json) : outcome N := obind (un_string j) base_address_of.
Lemma un_address_reader : reader un_address json_address never.
Proof.
  constructor.
  - intros j x H. apply obind_ok in H as (s & E & H). destruct j; try discriminate E. injection E as ->.
    exists s. split; [reflexivity|now apply base_address_spec].
  - intros j x (s & -> & H). exists x. apply base_address_spec in H. exact H.
  - intros j. split; [|intros []]. intros H. apply fatal_obind in H as [H|(s & E & H)].
    + destruct j; solve [now apply fatal_Ok in H|now apply fatal_Err in H].
    + destruct (base_address_or s) as [(y & E')|E']; rewrite E' in H; solve [now apply fatal_Ok in H|now apply fatal_Err in H].
  - intros j. apply obind_fuel; [destruct j; discriminate|]. intros s. destruct (base_address_or s) as [(y & E')|E']; rewrite E'; discriminate.
Qed.

Lemma un_string_map_reader : reader un_string_map json_string_map never.
Proof.
  eapply reader_ext; [apply (map_reader text_eqb text_eqb_eq (fun k => Ok k) same_key
     (fun k x => conj (fun H : Ok k = Ok x => f_equal (fun o => match o with Ok y => y | _ => x end) (eq_sym H)) (fun H => f_equal Ok (eq_sym H)))
     (fun k => or_introl (ex_intro _ k eq_refl))
     _ _ _ un_string_reader)|].
  - intros j. destruct j; reflexivity.
  - left. split; [reflexivity|]. intros j. reflexivity.
  - intros j. split; [|intros []]. intros (l1 & k & v & l2 & m & x & E & H & Hk & []).
Qed.
Lemma un_string_list_reader : reader un_string_list json_strings never.
Proof.
  assert (D : forall l acc, (exists ss, Forall2 (fun v s => exists s', v = JStr s' /\ c_string s' s) l ss /\
      ofold (fun acc v => match v with JStr s => Ok (acc ++ [c_str s]) | _ => Err end) l acc = Ok (acc ++ ss)) \/
      (forall ss, ~ Forall2 (fun v s => exists s', v = JStr s' /\ c_string s' s) l ss) /\
      ofold (fun acc v => match v with JStr s => Ok (acc ++ [c_str s]) | _ => Err end) l acc = Err).
  { induction l as [|v l IH]; intros acc.
    - left. exists []. split; [constructor|]. cbn [ofold]. now rewrite app_nil_r.
    - destruct v as [| | | |s| |]; try (right; split; [intros ss F; inversion F as [|? ? ? ? (s' & E & _)]; discriminate|reflexivity]).
      cbn [ofold obind]. destruct (IH (acc ++ [c_str s])) as [(ss & F & E)|(N & E)].
      + left. exists (c_str s :: ss). split; [constructor; [exists s; split; [reflexivity|now apply c_str_spec]|exact F]|].
        rewrite <- app_assoc in E. exact E.
      + right. split; [|exact E]. intros ss F. inversion F; subst. eapply N; eauto. }
  constructor.
  - intros j x H. destruct j as [| | | | |l|]; try discriminate H. unfold un_string_list in H.
    destruct (D l []) as [(ss & F & E)|(N & E)]; rewrite E in H; [|discriminate]. injection H as <-. exists l. auto.
  - intros j x (l & -> & F). unfold un_string_list. destruct (D l []) as [(ss & F' & E)|(N & E)]; [eauto|]. now elim (N x).
  - intros j. split; [|intros []]. intros H. destruct j as [| | | | |l|]; try now apply fatal_Err in H. unfold un_string_list in H.
    destruct (D l []) as [(ss & F & E)|(N & E)]; rewrite E in H; solve [now apply fatal_Ok in H|now apply fatal_Err in H].
  - intros j H. destruct j as [| | | | |l|]; try discriminate H. unfold un_string_list in H.
    destruct (D l []) as [(ss & F & E)|(N & E)]; rewrite E in H; discriminate.
Qed.

Lemma field_never {A} (un : json -> outcome A) R name : reader un R never -> reader (fun j => get_member un j name) (field name R) never.
Proof. intros H. eapply reader_ext; [exact (get_member_reader un R never name H)|]. intros j. split; [intros (v & _ & [])|intros []]. Qed.
Lemma opt_never {A} (un : json -> outcome A) R name : reader un R never -> reader (fun j => opt_get_member un j name) (opt_field name R) never.
Proof. intros H. eapply reader_ext; [exact (opt_get_member_reader un R never name H)|]. intros j. split; [intros (v & _ & [])|intros []]. Qed.

Lemma un_alias_reader : reader un_alias json_alias never.
Proof.
  pose proof (field_never _ _ (tx "sites") un_string_map_reader) as [So Sc Sf Sn].
  pose proof (field_never _ _ (tx "start_offset") un_u32_reader) as [Oo Oc Of On].
  pose proof (field_never _ _ (tx "type") un_string_reader) as [To Tc Tf Tn].
  constructor.
  - intros j al H. unfold un_alias in H. apply obind_ok in H as (s & Es & H). apply obind_ok in H as (o & Eo & H).
    apply obind_ok in H as (t & Et & H). injection H as <-. repeat split; cbn; auto.
  - intros j al (Hs & Ho & Ht). unfold un_alias. destruct (Sc _ _ Hs) as (s & ->). cbn [obind].
    destruct (Oc _ _ Ho) as (o & ->). cbn [obind]. destruct (Tc _ _ Ht) as (t & ->). cbn [obind]. eauto.
  - intros j. split; [|intros []]. unfold un_alias. intros H. apply fatal_obind in H as [H|(s & Es & H)]; [destruct (proj1 (Sf _) H)|].
    apply fatal_obind in H as [H|(o & Eo & H)]; [destruct (proj1 (Of _) H)|].
    apply fatal_obind in H as [H|(t & Et & H)]; [destruct (proj1 (Tf _) H)|now apply fatal_Ok in H].
  - intros j. unfold un_alias. apply obind_fuel; [apply Sn|]. intros s. apply obind_fuel; [apply On|]. intros o.
    apply obind_fuel; [apply Tn|]. discriminate.
Qed.

Lemma get_string_address j : obind (get_member un_string j (tx "baseaddr")) base_address_of = get_member un_address j (tx "baseaddr").
Proof.
  unfold get_member, un_address. destruct (members j) as [l| | | |]; cbn [obind]; auto. destruct (find_member _ l); reflexivity.
Qed.
Lemma un_block_reader : reader un_block json_block never.
Proof.
  pose proof (opt_never _ _ (tx "alias") un_alias_reader) as [Ao Ac Af An].
  pose proof (field_never _ _ (tx "baseaddr") un_address_reader) as [Bo Bc Bf Bn].
  pose proof (field_never _ _ (tx "frames") un_u32_reader) as [Fo Fc Ff Fn].
  pose proof (field_never _ _ (tx "offset") un_i32_reader) as [Oo Oc Of On].
  pose proof (field_never _ _ (tx "words") un_u32_reader) as [Wo Wc Wf Wn].
  constructor.
  - intros j b H. unfold un_block in H. rewrite get_string_address in H. apply obind_ok in H as (a & Ea & H).
    apply obind_ok in H as (x & Ex & H). apply obind_ok in H as (f & Ef & H). apply obind_ok in H as (o & Eo & H).
    apply obind_ok in H as (w & Ew & H). injection H as <-. split; [now apply Ao|]. split; [now apply Bo|].
    split; [now apply Fo|]. split; [now apply Oo|now apply Wo].
  - intros j b (Ha & Hb & Hf & Ho & Hw). unfold un_block. rewrite get_string_address.
    destruct (Ac _ _ Ha) as (a & ->). cbn [obind]. destruct (Bc _ _ Hb) as (x & ->). cbn [obind].
    destruct (Fc _ _ Hf) as (f & ->). cbn [obind]. destruct (Oc _ _ Ho) as (o & ->). cbn [obind].
    destruct (Wc _ _ Hw) as (w & ->). cbn [obind]. eauto.
  - intros j. split; [|intros []]. unfold un_block. rewrite get_string_address. intros H.
    apply fatal_obind in H as [H|(a & Ea & H)]; [destruct (proj1 (Af _) H)|].
    apply fatal_obind in H as [H|(x & Ex & H)]; [destruct (proj1 (Bf _) H)|].
    apply fatal_obind in H as [H|(f & Ef & H)]; [destruct (proj1 (Ff _) H)|].
    apply fatal_obind in H as [H|(o & Eo & H)]; [destruct (proj1 (Of _) H)|].
    apply fatal_obind in H as [H|(w & Ew & H)]; [destruct (proj1 (Wf _) H)|now apply fatal_Ok in H].
  - intros j. unfold un_block. rewrite get_string_address. apply obind_fuel; [apply An|]. intros a. apply obind_fuel; [apply Bn|]. intros x.
    apply obind_fuel; [apply Fn|]. intros f. apply obind_fuel; [apply On|]. intros o. apply obind_fuel; [apply Wn|]. discriminate.
Qed.

Lemma un_bits_reader : reader un_bits json_bits (fun j => ~ is_object j).
Proof.
  eapply reader_ext; [apply (map_reader bus_eqb bus_eqb_eq (fun k => bus_of_string (c_str k)) bus_key bus_key_spec (fun k => bus_of_string_or (c_str k))
     _ _ _ un_block_reader un_bits (fun j => ~ is_object j \/ map_fault bus_key json_block never j))|].
  - intros j. destruct j; reflexivity.
  - right. split; [reflexivity|]. intros j. reflexivity.
  - intros j. split; [|auto]. intros [H|(l1 & k & v & l2 & m & x & E & H & Hk & [])]. exact H.
Qed.

Lemma un_tile_reader : reader un_tile json_tile tile_aborts.
Proof.
  pose proof (field_never _ _ (tx "type") un_string_reader) as [To Tc Tf Tn].
  pose proof (field_never _ _ (tx "grid_x") un_u32_reader) as [Xo Xc Xf Xn].
  pose proof (field_never _ _ (tx "grid_y") un_u32_reader) as [Yo Yc Yf Yn].
  pose proof (opt_never _ _ (tx "clock_region") un_string_reader) as [Co Cc Cf Cn].
  pose proof (get_member_reader _ _ _ (tx "bits") un_bits_reader) as [Bo Bc Bf Bn].
  pose proof (field_never _ _ (tx "pin_functions") un_string_map_reader) as [Po Pc Pf Pn].
  pose proof (field_never _ _ (tx "sites") un_string_map_reader) as [So Sc Sf Sn].
  pose proof (field_never _ _ (tx "prohibited_sites") un_string_list_reader) as [Ho Hc Hf Hn].
  constructor.
  - intros j t H. unfold un_tile in H. apply obind_ok in H as (ty & Et & H). apply obind_ok in H as (x & Ex & H).
    apply obind_ok in H as (y & Ey & H). apply obind_ok in H as (c & Ec & H). apply obind_ok in H as (b & Eb & H).
    apply obind_ok in H as (p & Ep & H). apply obind_ok in H as (s & Es & H). apply obind_ok in H as (h & Eh & H).
    injection H as <-. split; [now apply To|]. split; [now apply Xo|]. split; [now apply Yo|]. split; [now apply Co|].
    split; [now apply Bo|]. split; [now apply Po|]. split; [now apply So|now apply Ho].
  - intros j t (Ht & Hx & Hy & Hcl & Hb & Hp & Hs & Hh). unfold un_tile.
    destruct (Tc _ _ Ht) as (ty & ->). cbn [obind]. destruct (Xc _ _ Hx) as (x & ->). cbn [obind].
    destruct (Yc _ _ Hy) as (y & ->). cbn [obind]. destruct (Cc _ _ Hcl) as (c & ->). cbn [obind].
    destruct (Bc _ _ Hb) as (b & ->). cbn [obind]. destruct (Pc _ _ Hp) as (p & ->). cbn [obind].
    destruct (Sc _ _ Hs) as (s & ->). cbn [obind]. destruct (Hc _ _ Hh) as (h & ->). cbn [obind]. eauto.
  - intros j. unfold un_tile, tile_aborts. split.
    + intros H. apply fatal_obind in H as [H|(ty & Et & H)]; [destruct (proj1 (Tf _) H)|].
      apply fatal_obind in H as [H|(x & Ex & H)]; [destruct (proj1 (Xf _) H)|].
      apply fatal_obind in H as [H|(y & Ey & H)]; [destruct (proj1 (Yf _) H)|].
      apply fatal_obind in H as [H|(c & Ec & H)]; [destruct (proj1 (Cf _) H)|].
      apply fatal_obind in H as [H|(b & Eb & H)].
      { split; [|now apply Bf in H]. exists ty, x, y, c. split; [now apply To|]. split; [now apply Xo|]. split; [now apply Yo|now apply Co]. }
      apply fatal_obind in H as [H|(p & Ep & H)]; [destruct (proj1 (Pf _) H)|].
      apply fatal_obind in H as [H|(s & Es & H)]; [destruct (proj1 (Sf _) H)|].
      apply fatal_obind in H as [H|(h & Eh & H)]; [destruct (proj1 (Hf _) H)|now apply fatal_Ok in H].
    + intros [(ty & x & y & c & Ht & Hx & Hy & Hcl) Hb].
      destruct (Tc _ _ Ht) as (ty' & ->). cbn [obind]. destruct (Xc _ _ Hx) as (x' & ->). cbn [obind].
      destruct (Yc _ _ Hy) as (y' & ->). cbn [obind]. destruct (Cc _ _ Hcl) as (c' & ->). cbn [obind].
      apply fatal_obind. left. now apply Bf.
  - intros j. unfold un_tile. apply obind_fuel; [apply Tn|]. intros ty. apply obind_fuel; [apply Xn|]. intros x.
    apply obind_fuel; [apply Yn|]. intros y. apply obind_fuel; [apply Cn|]. intros c. apply obind_fuel; [apply Bn|]. intros b.
    apply obind_fuel; [apply Pn|]. intros p. apply obind_fuel; [apply Sn|]. intros s. apply obind_fuel; [apply Hn|]. discriminate.
Qed.

Lemma c_key_spec k x : Ok (c_str k) = Ok x <-> c_string k x.
Proof. rewrite <- c_str_spec. split; [intros H; now injection H|now intros ->]. Qed.
Lemma grid_reader : reader (fun j => parse_tilegrid (Some j)) json_grid grid_aborts.
Proof.
  eapply reader_ext; [apply (map_reader text_eqb text_eqb_eq (fun k => Ok (c_str k)) c_string c_key_spec
     (fun k => or_introl (ex_intro _ (c_str k) eq_refl)) _ _ _ un_tile_reader (fun j => parse_tilegrid (Some j)) grid_aborts)|].
  - intros j. destruct j; reflexivity.
  - left. split; [reflexivity|]. intros j. unfold grid_aborts, map_fault. split.
    + intros (l1 & k & v & l2 & g & E & G & H). exists l1, k, v, l2, g, (c_str k). split; [exact E|]. split; [exact G|].
      split; [now apply c_str_spec|exact H].
    + intros (l1 & k & v & l2 & g & x & E & G & _ & H). exists l1, k, v, l2, g. auto.
  - intros j. reflexivity.
Qed.
