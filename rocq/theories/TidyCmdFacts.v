(** Facts about the command, the cache directory and the path clean-up of the cached clang-tidy, for P_TidyCmd.v. *)
From Verif Require Import Base BaseFacts Absl Print Tidy TidyPool TidyFacts TidyKeyFacts MapFacts TidyCmd TidyCmdSpec.

(** ** The shell *)
(** Inside apostrophes, up to the closing one. *)
Lemma tokens_quoted x : forall w plain r, unquoted x ->
  tokens (Some w) plain true (x ++ apostrophe :: r) = tokens (Some (w ++ x)) plain false r.
Proof.
  unfold unquoted. induction x as [|c x IH]; intros w plain r H; cbn [app tokens].
  - rewrite Ascii.eqb_refl. now rewrite app_nil_r.
  - destruct (Ascii.eqb_spec c apostrophe) as [->|NE]; [exfalso; apply H; now left|].
    rewrite IH by (intros J; apply H; now right). now rewrite <- app_assoc.
Qed.
(** A run of harmless characters. *)
Lemma harmless_not c : harmless c = true -> blank c = false /\ Ascii.eqb c apostrophe = false /\ Ascii.eqb c ">" = false.
Proof. destruct c as [[] [] [] [] [] [] [] []]; vm_compute; intros H; try discriminate H; auto. Qed.
Lemma tokens_harmless x : forall w plain r, forallb harmless x = true ->
  tokens (Some w) plain false (x ++ r) = tokens (Some (w ++ x)) plain false r.
Proof.
  induction x as [|c x IH]; intros w plain r H; cbn [app tokens].
  - now rewrite app_nil_r.
  - cbn [forallb] in H. apply andb_true_iff in H as [H1 H2]. destruct (harmless_not c H1) as (-> & -> & ->).
    rewrite H1, IH; [now rewrite <- app_assoc|exact H2].
Qed.
Lemma tokens_word x plain r : x <> [] -> forallb harmless x = true ->
  tokens None plain false (x ++ r) = tokens (Some x) plain false r.
Proof.
  destruct x as [|c x]; intros NE H; [contradiction|]. cbn [app tokens].
  cbn [forallb] in H. apply andb_true_iff in H as [H1 H2]. destruct (harmless_not c H1) as (-> & -> & ->).
  rewrite H1. now apply tokens_harmless.
Qed.
Lemma tokens_blank w plain r : tokens w plain false (" "%char :: r) = option_map (app (ended w)) (tokens None true false r).
Proof. reflexivity. Qed.
Lemma tokens_quote w plain r : tokens w plain false (apostrophe :: r) = tokens (Some match w with Some w => w | None => [] end) false true r.
Proof. reflexivity. Qed.
(** An unquoted word, or the unquoted start [p] of a word whose rest [x] is quoted, after a blank. *)
Lemma tokens_plain p w plain r : p <> [] -> forallb harmless p = true ->
  tokens w plain false (" "%char :: p ++ r) = option_map (app (ended w)) (tokens (Some p) true false r).
Proof. intros NE H. rewrite tokens_blank. now rewrite tokens_word. Qed.
Lemma tokens_mixed p x w plain r : p <> [] -> forallb harmless p = true -> unquoted x ->
  tokens w plain false (" "%char :: p ++ apostrophe :: x ++ apostrophe :: r) =
  option_map (app (ended w)) (tokens (Some (p ++ x)) false false r).
Proof. intros NE H U. rewrite tokens_plain by assumption. f_equal. rewrite tokens_quote. now apply tokens_quoted. Qed.
(** A quoted word after a blank: [ 'x'], nothing after it yet. *)
Lemma tokens_arg x w plain r : unquoted x ->
  tokens w plain false (" "%char :: apostrophe :: x ++ apostrophe :: r) = option_map (app (ended w)) (tokens (Some x) false false r).
Proof. intros H. rewrite tokens_blank, tokens_quote. now rewrite tokens_quoted. Qed.
(** A part that reads as whole words, before a blank. *)
Lemma tokens_before s : forall word plain q ts r, tokens word plain q s = Some ts ->
  tokens word plain q (s ++ " "%char :: r) = option_map (app ts) (tokens None true false r).
Proof.
  induction s as [|c s IH]; intros word plain q ts r H; cbn [app tokens] in *.
  - destruct q; [discriminate|]. injection H as <-. change (blank " ") with true. cbn iota. reflexivity.
  - destruct q.
    + destruct (Ascii.eqb c apostrophe); now apply IH.
    + destruct (blank c); [|destruct (Ascii.eqb c apostrophe); [now apply IH|destruct (Ascii.eqb c ">")]].
      * destruct (tokens None true false s) as [ts'|] eqn:E; [|discriminate]. injection H as <-. rewrite (IH _ _ _ _ r E).
        destruct (tokens None true false r); cbn [option_map]; [now rewrite app_assoc|reflexivity].
      * destruct (tokens None true false s) as [ts'|] eqn:E; [|discriminate]. injection H as <-. rewrite (IH _ _ _ _ r E).
        destruct (tokens None true false r); cbn [option_map]; [now rewrite app_assoc|reflexivity].
      * destruct (harmless c); [now apply IH|discriminate].
Qed.

Lemma omap_omap {A B C} (f : B -> C) (g : A -> B) o : option_map f (option_map g o) = option_map (fun x => f (g x)) o.
Proof. now destruct o. Qed.
Lemma omap_ext {A B} (f g : A -> B) o : (forall x, f x = g x) -> option_map f o = option_map g o.
Proof. intros H. destruct o; cbn; [now rewrite H|reflexivity]. Qed.

Lemma last_default {T} (l : list T) x a b : last (x :: l) a = last (x :: l) b.
Proof. revert x. induction l as [|y l IH]; intros x; [reflexivity|]. exact (IH y). Qed.
Lemma last_cons {T} (l : list T) x w : last (x :: l) w = last l x.
Proof. destruct l as [|y l]; [reflexivity|]. change (last (x :: y :: l) w) with (last (y :: l) w). apply last_default. Qed.
(** The words a quoted list of arguments makes, the last one under way. *)
Lemma tokens_args xs : forall w r, (forall x, In x xs -> unquoted x) ->
  tokens (Some w) false false (List.concat (map (fun x => tx " '" ++ x ++ tx "'") xs) ++ r) =
  option_map (app (map Word (removelast (w :: xs)))) (tokens (Some (last xs w)) false false r).
Proof.
  induction xs as [|x xs IH]; intros w r H.
  - cbn [map List.concat app removelast last]. destruct (tokens _ _ _ _); reflexivity.
  - cbn [map List.concat].
    replace (((tx " '" ++ x ++ tx "'") ++ List.concat (map (fun y => tx " '" ++ y ++ tx "'") xs)) ++ r)
      with (" "%char :: apostrophe :: x ++ apostrophe :: List.concat (map (fun y => tx " '" ++ y ++ tx "'") xs) ++ r)
      by (cbn [tx list_ascii_of_string app]; rewrite <- !app_assoc; reflexivity).
    rewrite tokens_arg by (apply H; now left). rewrite IH by (intros y Hy; apply H; now right).
    rewrite omap_omap, last_cons. apply omap_ext. intros ts. reflexivity.
Qed.

(** The whole command. *)
Lemma simple_words ws : forall r, simple (map Word ws ++ r) = option_map (fun x => (ws ++ fst x, snd x)) (simple r).
Proof.
  induction ws as [|w ws IH]; intros r; cbn [map app simple].
  - destruct (simple r) as [[a b]|]; reflexivity.
  - rewrite IH, omap_omap. apply omap_ext. reflexivity.
Qed.
Lemma removelast_last {T} (l : list T) w : removelast (w :: l) ++ [last l w] = w :: l.
Proof. rewrite <- (last_cons l w w). symmetry. apply app_removelast_last. discriminate. Qed.

Lemma omap_app {T} (a b : list T) o : option_map (app a) (option_map (app b) o) = option_map (app (a ++ b)) o.
Proof. rewrite omap_omap. apply omap_ext. intros x. apply app_assoc. Qed.

Lemma tokens_command a dir pid w ts : tokens None true false (tidy_program a) = Some ts ->
  unquoted (fst w) -> unquoted (tidy_config a) -> (forall x, In x (a_args a) -> unquoted x) -> unquoted (tmp_for dir pid w) ->
  tokens None true false (command a dir pid w) =
  Some (ts ++ map Word ([fst w; tx "--quiet"; tx "--config-file=" ++ tidy_config a;
                   tx "--extra-arg=-Wno-unknown-pragmas"; tx "--extra-arg=-Wno-unknown-warning-option"] ++ a_args a) ++
        [Out (tx "1"); Word (tmp_for dir pid w); Out (tx "2"); Word (tx "/dev/null")]).
Proof.
  intros T F C X M. unfold command, assemble_args. set (q := tmp_for dir pid w) in *. clearbody q. set (f := fst w) in *. clearbody f.
  set (cfg := tidy_config a) in *. clearbody cfg. set (prog := tidy_program a) in *. clearbody prog. set (args := a_args a) in *. clearbody args.
  set (tail := tx "> '" ++ q ++ tx "' 2>/dev/null").
  assert (Et : forall v, tokens (Some v) false false tail = Some [Word v; Out (tx "1"); Word q; Out (tx "2"); Word (tx "/dev/null")]).
  { intros v. unfold tail. change (tx "> '" ++ q ++ tx "' 2>/dev/null") with (">"%char :: " "%char :: apostrophe :: q ++ apostrophe :: tx " 2>/dev/null").
    change (tokens (Some v) false false (">"%char :: " "%char :: apostrophe :: q ++ apostrophe :: tx " 2>/dev/null"))
      with (option_map (app [Word v; Out (tx "1")]) (tokens None true false (" "%char :: apostrophe :: q ++ apostrophe :: tx " 2>/dev/null"))).
    rewrite tokens_arg by exact M.
    assert (E : tokens (Some q) false false (tx " 2>/dev/null") = Some [Word q; Out (tx "2"); Word (tx "/dev/null")]).
    { generalize q. intros q'. reflexivity. }
    rewrite E. reflexivity. }
  clearbody tail.
  set (more := List.concat (map (fun x => tx " '" ++ x ++ tx "'") args)).
  assert (Em : forall v, tokens (Some v) false false (more ++ tail) =
    Some (map Word (v :: args) ++ [Out (tx "1"); Word q; Out (tx "2"); Word (tx "/dev/null")])).
  { intros v. unfold more. rewrite tokens_args by exact X. rewrite Et. cbn [option_map]. f_equal.
    transitivity (map Word (removelast (v :: args) ++ [last args v]) ++ [Out (tx "1"); Word q; Out (tx "2"); Word (tx "/dev/null")]).
    - rewrite map_app, <- app_assoc. reflexivity.
    - rewrite removelast_last. reflexivity. }
  clearbody more.
  assert (Eq : prog ++ tx " '" ++ f ++ tx "'" ++ (tx " --quiet" ++ (tx " '--config-file=" ++ cfg ++ tx "'") ++
       List.concat (map (fun x => tx " --extra-arg='" ++ x ++ tx "'") extra_args) ++ more) ++ tail =
     prog ++ " "%char :: (apostrophe :: f ++ apostrophe :: (" "%char :: tx "--quiet" ++
       (" "%char :: apostrophe :: (tx "--config-file=" ++ cfg) ++ apostrophe ::
       (" "%char :: tx "--extra-arg=" ++ apostrophe :: tx "-Wno-unknown-pragmas" ++ apostrophe ::
       (" "%char :: tx "--extra-arg=" ++ apostrophe :: tx "-Wno-unknown-warning-option" ++ apostrophe :: (more ++ tail))))))).
  { f_equal. cbn [map extra_args List.concat tx list_ascii_of_string app]. rewrite <- ?app_assoc. cbn [app]. rewrite <- ?app_assoc.
    cbn [app]. rewrite <- ?app_assoc. reflexivity. }
  rewrite Eq. clear Eq.
  rewrite (tokens_before _ _ _ _ _ _ T). rewrite tokens_quote, tokens_quoted by exact F. rewrite app_nil_l.
  rewrite tokens_plain by (discriminate || reflexivity).
  rewrite tokens_arg.
  2: { intros J. apply in_app_or in J as [J|J]; [|now apply C]. revert J. vm_compute. intuition discriminate. }
  rewrite tokens_mixed by (discriminate || reflexivity || (vm_compute; intuition discriminate)).
  rewrite tokens_mixed by (discriminate || reflexivity || (vm_compute; intuition discriminate)).
  rewrite Em. reflexivity.
Qed.

(** ** Texts without apostrophes *)
Lemma unquoted_app x y : unquoted x -> unquoted y -> unquoted (x ++ y).
Proof. unfold unquoted. intros X Y J. apply in_app_or in J. tauto. Qed.
Lemma path_filename_in p c : In c (path_filename p) -> In c p.
Proof.
  unfold path_filename. destruct (rfind_char "/" p) as [n|]; [|auto]. intros J.
  rewrite <- (firstn_skipn (S n) p). apply in_or_app. now right.
Qed.
Lemma to_hex_unquoted n : forall v, unquoted (to_hex n v).
Proof.
  induction n as [|n IH]; intros v; cbn [to_hex]; [intros []|]. apply unquoted_app; [apply IH|].
  intros [J|[]]. assert (L : v mod 16 < 16) by (apply N.mod_lt; discriminate). revert J. generalize dependent (v mod 16). intros d L.
  unfold hex_char. intros H. apply (f_equal N_of_ascii) in H. change (N_of_ascii apostrophe) with 39 in H.
  destruct (N.ltb_spec d 10); rewrite N_ascii_embedding in H; lia.
Qed.
Lemma digits_unquoted p : forallb is_digit p = true -> unquoted p.
Proof.
  intros H J. rewrite forallb_forall in H. specialize (H _ J). vm_compute in H. discriminate.
Qed.
Lemma tmp_unquoted dir pid w : unquoted dir -> forallb is_digit pid = true -> unquoted (fst w) -> unquoted (tmp_for dir pid w).
Proof.
  intros D P F. assert (B : unquoted (path_filename (fst w))) by (intros J; apply F; now apply path_filename_in).
  assert (K : unquoted (tx "/") /\ unquoted (tx "-") /\ unquoted (tx ".") /\ unquoted (tx ".tmp")) by (vm_compute; intuition discriminate).
  destruct K as (K1 & K2 & K3 & K4). unfold tmp_for, path_for.
  pose proof (to_hex_unquoted 16 (snd w)) as H. revert H. generalize (to_hex 16 (snd w)). intros h H.
  auto 10 using unquoted_app, digits_unquoted.
Qed.

(** ** The version *)
Lemma is_digit_digit c : is_digit c = digit c.
Proof. reflexivity. Qed.
Lemma starts_version s : starts_with (tx "version ") s = true <-> s = tx "version " ++ skipn 8 s.
Proof.
  rewrite starts_with_spec. split.
  - intros (r & ->). now rewrite skipn_app, skipn_all2.
  - intros E. eauto.
Qed.
Lemma match_version_some s d : match_version s = Some d <->
  exists after, s = tx "version " ++ d ++ after /\ digits d /\ (forall c r, after = c :: r -> digit c = false).
Proof.
  unfold match_version. destruct (starts_with (tx "version ") s) eqn:S.
  - apply starts_version in S. pose proof (span_spec is_digit (skipn 8 s)) as P. set (r := skipn 8 s) in *. clearbody r.
    destruct (span is_digit r) as [x y] eqn:Sp. cbn [fst]. destruct P as (E & Fx & Y). split.
    + destruct (nonempty x) eqn:NE; [|discriminate]. intros H. injection H as <-. exists y. split; [now rewrite S, E|]. split.
      * split; [now apply nonempty_spec|exact Fx].
      * intros c r' ->. exact Y.
    + intros (after & E' & (NE & D) & A). assert (R : r = d ++ after) by (rewrite S in E'; now apply app_inv_head in E').
      rewrite R in Sp. rewrite span_app in Sp.
      * injection Sp as <- <-. apply nonempty_spec in NE. now rewrite NE.
      * exact D.
      * destruct after as [|c a]; [exact Logic.I|]. exact (A c a eq_refl).
  - split; [discriminate|]. intros (after & -> & _).
    assert (X : starts_with (tx "version ") (tx "version " ++ d ++ after) = true) by (apply starts_with_spec; eauto). congruence.
Qed.
Lemma match_version_none s : match_version s = None <-> forall a e, s = tx "version " ++ e :: a -> digit e = false.
Proof.
  unfold match_version. destruct (starts_with (tx "version ") s) eqn:S.
  - apply starts_version in S. set (r := skipn 8 s) in *. clearbody r. subst s. split.
    + intros H a e E. apply app_inv_head in E. subst r. cbn [span] in H. change (is_digit e) with (digit e) in H.
      destruct (digit e); [|reflexivity]. destruct (span is_digit a). discriminate.
    + intros H. destruct r as [|e a]; [reflexivity|]. cbn [span]. change (is_digit e) with (digit e). now rewrite (H a e eq_refl).
  - split; [|reflexivity]. intros _ a e ->.
    assert (X : starts_with (tx "version ") (tx "version " ++ e :: a) = true) by (apply starts_with_spec; eauto). congruence.
Qed.
Lemma search_version_none s : search_version s = None <-> no_version s.
Proof.
  induction s as [|c s IH].
  - cbn. split; [|reflexivity]. intros _ b a e E. destruct b; discriminate.
  - cbn [search_version]. destruct (match_version (c :: s)) as [d|] eqn:M.
    + split; [discriminate|]. intros H. apply match_version_some in M as (after & E & (NE & D) & _).
      destruct d as [|e d]; [contradiction|]. specialize (H [] (d ++ after) e E). apply Forall_inv in D. congruence.
    + rewrite IH. pose proof (proj1 (match_version_none _) M) as M'. split.
      * intros H b a e E. destruct b as [|x b]; [eapply M'; exact E|]. injection E as -> E. eapply H; exact E.
      * intros H b a e ->. eapply (H (c :: b)). reflexivity.
Qed.
Lemma search_version_some s d : search_version s = Some d <-> version_number s d.
Proof.
  revert d. induction s as [|c s IH]; intros d.
  - cbn. split; [discriminate|]. intros (b & a & E & _). destruct b; discriminate.
  - cbn [search_version]. destruct (match_version (c :: s)) as [d'|] eqn:M.
    + pose proof (proj1 (match_version_some _ _) M) as (after & E & Dd & A). split.
      * intros H. injection H as <-. exists [], after. split; [exact E|]. split; [exact Dd|]. split; [exact A|]. intros. apply Nat.le_0_l.
      * intros (b & a & E' & (NE & D) & A' & Fst). destruct Dd as [NE' D'].
        destruct d' as [|e d']; [contradiction|]. pose proof (Fst [] (d' ++ after) e E (Forall_inv D')) as L.
        destruct b; [|cbn in L; lia]. rewrite <- M. apply match_version_some. exists a. cbn [app] in E'. unfold digits. auto.
    + pose proof (proj1 (match_version_none _) M) as M'. rewrite IH. split.
      * intros (b & a & E & D & A & Fst). exists (c :: b), a. split; [cbn [app]; now rewrite E|]. split; [exact D|]. split; [exact A|].
        intros b' a' e E' De. destruct b' as [|x b']; [rewrite (M' _ _ E') in De; discriminate|]. injection E' as -> E'.
        specialize (Fst b' a' e E' De). cbn. lia.
      * intros (b & a & E & D & A & Fst). destruct b as [|x b].
        { exfalso. destruct D as [NE D]. destruct d as [|e d]; [contradiction|].
          pose proof (M' _ _ E) as X. apply Forall_inv in D. congruence. }
        injection E as -> E. exists b, a. split; [exact E|]. split; [exact D|]. split; [exact A|].
        intros b' a' e E' De. specialize (Fst (x :: b') a' e). cbn in Fst. rewrite E' in Fst. specialize (Fst eq_refl De). lia.
Qed.
Lemma version_unique s d d' : version_number s d -> version_number s d' -> d = d'.
Proof. intros A B. apply search_version_some in A, B. congruence. Qed.

(** ** The name of the cache directory *)
Lemma major_no_v v : ~ In "v"%char (major_version v).
Proof.
  unfold major_version. destruct (search_version v) as [d|] eqn:E.
  - apply search_version_some in E as (b & a & _ & (_ & D) & _). intros J. rewrite Forall_forall in D. specialize (D _ J). discriminate.
  - vm_compute. intuition discriminate.
Qed.
Lemma last_char_split c (a b p q : text) : ~ In c p -> ~ In c q -> a ++ c :: p = b ++ c :: q -> a = b /\ p = q.
Proof.
  revert q. induction p as [|x p IH] using rev_ind; intros q Hp Hq E.
  - destruct q as [|y q _] using rev_ind; [apply app_inj_tail in E as [-> _]; auto|].
    exfalso. rewrite app_comm_cons, app_assoc in E. apply app_inj_tail in E as [_ E]. apply Hq. rewrite E. apply in_or_app. right. now left.
  - destruct q as [|y q _] using rev_ind.
    + exfalso. rewrite app_comm_cons, app_assoc in E. apply app_inj_tail in E as [_ E]. apply Hp. rewrite E. apply in_or_app. right. now left.
    + rewrite !app_comm_cons, !app_assoc in E. apply app_inj_tail in E as [E ->].
      destruct (IH q) as [-> ->]; auto.
      * intros J. apply Hp. apply in_or_app. now left.
      * intros J. apply Hq. apply in_or_app. now left.
Qed.
Lemma dir_name_inj p p' v v' i i' : dir_name p v i = dir_name p' v' i' <->
  p = p' /\ major_version v = major_version v' /\ i mod 2 ^ 32 = i' mod 2 ^ 32.
Proof.
  unfold dir_name. change (2 ^ 32) with (16 ^ N.of_nat 8). rewrite <- to_hex_inj. split; [|intros (-> & -> & ->); reflexivity].
  intros E. rewrite !app_assoc in E. apply app_tail_inj in E as [E H]; [|now rewrite !to_hex_length].
  apply app_inv_tail in E. rewrite <- !app_assoc in E. apply last_char_split in E as [-> ->]; auto using major_no_v.
Qed.
Lemma path_join_inj x y y' : match y, y' with c :: _, c' :: _ => c <> "/"%char /\ c' <> "/"%char | _, _ => False end ->
  path_join x y = path_join x y' -> y = y'.
Proof.
  destruct y as [|c y], y' as [|c' y']; try contradiction. intros [N1 N2]. unfold path_join.
  assert (R : forall e z (A : Type) (u v : A), e <> "/"%char -> match e :: z with "/"%char :: _ => u | _ => v end = v).
  { intros e z T u v NE. destruct e as [[] [] [] [] [] [] [] []]; try reflexivity. contradiction. }
  rewrite !R by assumption. destruct (rev x) as [|k r]; [auto|]. destruct (Ascii.eqb k "/"); intros E; apply app_inv_head in E; [exact E|].
  now apply app_inv_head in E.
Qed.
Lemma lxor_mod x y z n : N.lxor x y mod 2 ^ n = N.lxor x z mod 2 ^ n <-> y mod 2 ^ n = z mod 2 ^ n.
Proof.
  rewrite <- !N.land_ones. split; intros E; apply N.bits_inj; intros k; apply (f_equal (fun v => N.testbit v k)) in E;
    rewrite !N.land_spec, ?N.lxor_spec in *; destruct (N.testbit (N.ones n) k), (N.testbit x k), (N.testbit y k), (N.testbit z k); cbn in *; congruence.
Qed.

(** ** The path clean-up *)
Lemma any_char_iff x : any_char x = true <-> x <> ascii_of_N 10 /\ x <> ascii_of_N 13.
Proof.
  unfold any_char, ch_newline, ch_return. rewrite negb_true_iff, orb_false_iff.
  destruct (Ascii.eqb_spec x (ascii_of_N 10)), (Ascii.eqb_spec x (ascii_of_N 13)); intuition congruence.
Qed.
Lemma match_root_spec root : forall s m, match_root root s = Some m <-> below root s m.
Proof.
  unfold below, reads_as. induction root as [|c root IH]; intros s m; cbn [match_root].
  - rewrite expect_spec. split.
    + intros ->. exists []. split; [constructor|reflexivity].
    + intros (p & F & ->). inversion F; subst. reflexivity.
  - destruct s as [|x r].
    + split; [discriminate|]. intros (p & F & E). inversion F; subst. discriminate.
    + set (T := if Ascii.eqb c "." then x <> ascii_of_N 10 /\ x <> ascii_of_N 13 else c = x).
      assert (Q : (if Ascii.eqb c "." then any_char x else Ascii.eqb c x) = true <-> T).
      { unfold T. destruct (Ascii.eqb c "."); [apply any_char_iff|apply Ascii.eqb_eq]. }
      destruct (if Ascii.eqb c "." then any_char x else Ascii.eqb c x).
      * rewrite IH. split.
        -- intros (p & F & ->). exists (x :: p). split; [|reflexivity]. constructor; [now apply Q|exact F].
        -- intros (p & F & E). inversion F as [|? y ? p' H1 H2]; subst. cbn [app] in E. injection E as <- ->. eauto.
      * split; [discriminate|]. intros (p & F & E). inversion F as [|? y ? p' H1 H2]; subst. cbn [app] in E. injection E as <- ->.
        unfold T in Q. apply Q in H1. discriminate.
Qed.
Lemma drop_root_spec roots : forall s, without_root roots s (drop_root roots s).
Proof.
  induction roots as [|r rs IH]; intros s; cbn [drop_root]; [constructor|].
  destruct (match_root r s) as [m|] eqn:M.
  - apply wr_here. now apply match_root_spec.
  - apply wr_next; [|apply IH]. intros x B. apply match_root_spec in B. congruence.
Qed.
Lemma without_root_unique roots s m : without_root roots s m -> m = drop_root roots s.
Proof.
  induction 1 as [l|r rs l m B|r rs l m NB W IH]; cbn [drop_root]; [reflexivity| |].
  - apply match_root_spec in B. now rewrite B.
  - destruct (match_root r l) as [x|] eqn:M; [|exact IH]. apply match_root_spec in M. exfalso. exact (NB x M).
Qed.
Lemma drop_dot_spec s : without_dot s (drop_dot s).
Proof.
  destruct s as [|a [|b r]]; [apply wd_not; intros x; discriminate| |].
  - assert (E : drop_dot [a] = [a]) by (destruct a as [[] [] [] [] [] [] [] []]; reflexivity). rewrite E. apply wd_not. intros x; discriminate.
  - destruct (Ascii.eqb_spec a ".") as [->|NE].
    + destruct (Ascii.eqb_spec b "/") as [->|NE]; [exact (wd_dot r)|].
      assert (E : drop_dot ("."%char :: b :: r) = "."%char :: b :: r) by (destruct b as [[] [] [] [] [] [] [] []]; try reflexivity; contradiction).
      rewrite E. apply wd_not. intros x H. injection H as -> _. contradiction.
    + assert (E : drop_dot (a :: b :: r) = a :: b :: r) by (destruct a as [[] [] [] [] [] [] [] []]; try reflexivity; contradiction).
      rewrite E. apply wd_not. intros x H. injection H as -> _. contradiction.
Qed.
Lemma without_dot_unique s m : without_dot s m -> m = drop_dot s.
Proof.
  intros H. pose proof (drop_dot_spec s) as K. destruct H as [m|l NB]; [reflexivity|].
  inversion K as [m E1 E2|l' NB' E1 E2]; subst; [|now rewrite <- E2]. exfalso. eapply NB. reflexivity.
Qed.

Definition nl : ascii := ascii_of_N 10.
Lemma match_root_line root : forall l r, ~ In nl root -> 
  match_root root (l ++ nl :: r) = option_map (fun m => m ++ nl :: r) (match_root root l).
Proof.
  induction root as [|c root IH]; intros l r H; cbn [match_root].
  - destruct l as [|x l]; [reflexivity|]. cbn [app expect]. destruct (Ascii.eqb "/" x); reflexivity.
  - destruct l as [|x l]; cbn [app].
    + change (any_char nl) with false. destruct (Ascii.eqb c "."); [reflexivity|].
      destruct (Ascii.eqb_spec c nl) as [->|]; [|reflexivity]. exfalso. apply H. now left.
    + destruct (if Ascii.eqb c "." then any_char x else Ascii.eqb c x); [|reflexivity]. apply IH. intros J. apply H. now right.
Qed.
Lemma drop_root_line roots l r : (forall x, In x roots -> ~ In nl x) -> drop_root roots (l ++ nl :: r) = drop_root roots l ++ nl :: r.
Proof.
  induction roots as [|x rs IH]; intros H; cbn [drop_root]; [reflexivity|]. rewrite match_root_line by (apply H; now left).
  destruct (match_root x l); cbn [option_map]; [reflexivity|]. apply IH. intros y Hy. apply H. now right.
Qed.
Lemma drop_dot_line l r : drop_dot (l ++ nl :: r) = drop_dot l ++ nl :: r.
Proof.
  destruct l as [|a [|b l]]; cbn [app].
  - reflexivity.
  - assert (E : drop_dot [a] = [a]) by (destruct a as [[] [] [] [] [] [] [] []]; reflexivity). rewrite E.
    destruct a as [[] [] [] [] [] [] [] []]; reflexivity.
  - destruct (Ascii.eqb_spec a ".") as [->|NE].
    + destruct b as [[] [] [] [] [] [] [] []]; reflexivity.
    + destruct a as [[] [] [] [] [] [] [] []]; try reflexivity. contradiction.
Qed.
Lemma without_root_suffix roots l m : without_root roots l m -> exists p, l = p ++ m.
Proof.
  induction 1 as [l|r rs l m (p & _ & ->)|]; [exists []; reflexivity| |assumption]. exists (p ++ tx "/"). now rewrite <- app_assoc.
Qed.
Lemma without_dot_suffix l m : without_dot l m -> exists p, l = p ++ m.
Proof. intros [m'|l' _]; [exists (tx "./")|exists []]; reflexivity. Qed.
Lemma short_no_nl roots l : ~ In nl l -> ~ In nl (drop_dot (drop_root roots l)).
Proof.
  intros H J. destruct (without_dot_suffix _ _ (drop_dot_spec (drop_root roots l))) as (p & E).
  destruct (without_root_suffix _ _ _ (drop_root_spec roots l)) as (q & E'). apply H. rewrite E', E. apply in_or_app. right.
  apply in_or_app. now right.
Qed.
Lemma span_line l rest : ~ In nl l -> (rest = [] \/ exists r, rest = nl :: r) ->
  span (fun c => negb (Ascii.eqb c ch_newline)) (l ++ rest) = (l, rest).
Proof.
  intros H R. apply span_app.
  - apply Forall_forall. intros c J. apply negb_true_iff. destruct (Ascii.eqb_spec c ch_newline) as [->|]; [contradiction|reflexivity].
  - destruct R as [->|(r & ->)]; [exact Logic.I|reflexivity].
Qed.
Lemma repair_fuel_lines roots : (forall x, In x roots -> ~ In nl x) -> forall ls f, ls <> [] -> (List.length ls <= f)%nat ->
  (forall l, In l ls -> ~ In nl l) -> repair_fuel f roots (joined ls) = joined (map (fun l => drop_dot (drop_root roots l)) ls).
Proof.
  intros R. induction ls as [|l ls IH]; intros f NE L H; [contradiction|]. destruct f as [|f]; [cbn in L; lia|].
  cbn [repair_fuel]. destruct ls as [|l2 ls].
  - cbn [joined map]. pose proof (span_line (drop_dot (drop_root roots l)) [] (short_no_nl roots l (H l (or_introl eq_refl))) (or_introl eq_refl)) as S.
    rewrite app_nil_r in S. rewrite S. apply app_nil_r.
  - change (joined (l :: l2 :: ls)) with (l ++ nl :: joined (l2 :: ls)).
    rewrite drop_root_line by exact R. rewrite drop_dot_line.
    rewrite span_line; [|now apply short_no_nl, H; left|right; eauto].
    rewrite IH; [reflexivity|discriminate|cbn in *; lia|]. intros y Hy. apply H. now right.
Qed.
Lemma joined_length ls : (List.length ls <= S (List.length (joined ls)))%nat.
Proof.
  induction ls as [|l [|l2 ls] IH]; [cbn; lia|cbn; lia|]. change (joined (l :: l2 :: ls)) with (l ++ [nl] ++ joined (l2 :: ls)).
  rewrite !app_length. change (List.length (l :: l2 :: ls)) with (S (List.length (l2 :: ls))). cbn [List.length] in *. lia.
Qed.
Lemma text_lines s : exists ls, ls <> [] /\ s = joined ls /\ forall l, In l ls -> ~ In nl l.
Proof.
  induction s as [|c s IH].
  - exists [[]]. split; [discriminate|]. split; [reflexivity|]. intros l [<-|[]] [].
  - destruct IH as (ls & NE & -> & H). destruct (Ascii.eqb_spec c nl) as [->|NC].
    + exists ([] :: ls). split; [discriminate|]. split.
      * destruct ls as [|l ls]; [contradiction|]. reflexivity.
      * intros l [<-|J]; [intros []|now apply H].
    + destruct ls as [|l ls]; [contradiction|]. exists ((c :: l) :: ls). split; [discriminate|]. split.
      * destruct ls; reflexivity.
      * intros l' [<-|J]; [|apply H; now right]. intros [E|J]; [congruence|]. apply (H l); [now left|exact J].
Qed.
Lemma plain_root_regex r : plain_root r -> existsb regex_char r = false /\ ~ In nl r.
Proof.
  intros [A B]. split; [|exact A]. rewrite <- not_true_iff_false. intros E. apply existsb_exists in E as (c & J & E).
  rewrite Forall_forall in B. apply (B c J). unfold regex_char in E. apply existsb_exists in E as (d & Jd & E).
  apply Ascii.eqb_eq in E. now subst d.
Qed.

(** ** The number of workers *)
Lemma digits_value_app d : forall a r, Forall (fun c => digit c = true) d -> (forall c t, r = c :: t -> digit c = false) ->
  digits_value a (d ++ r) = fold_left (fun v c => 10 * v + (Z.of_N (N_of_ascii c) - 48))%Z d a.
Proof.
  induction d as [|c d IH]; intros a r F R; cbn [app digits_value fold_left].
  - destruct r as [|c t]; [reflexivity|]. cbn [digits_value]. rewrite is_digit_digit, (R c t eq_refl). reflexivity.
  - inversion F as [|? ? H1 H2]; subst. rewrite is_digit_digit, H1. rewrite IH by assumption. f_equal. unfold ccode.
    unfold digit in H1. apply andb_true_iff in H1 as [H1 _]. apply N.leb_le in H1. lia.
Qed.
Lemma c_atoi_digits d r : digits d -> (forall c t, r = c :: t -> digit c = false) -> (0 <= decimal_value d < 2 ^ 31)%Z ->
  c_atoi (d ++ r) = decimal_value d.
Proof.
  intros [NE F] R B. destruct d as [|c d]; [contradiction|]. pose proof (digits_value_app (c :: d) 0%Z r F R) as V.
  fold (decimal_value (c :: d)) in V. assert (C : digit c = true) by (inversion F; assumption).
  assert (S : strip_leading ((c :: d) ++ r) = (c :: d) ++ r).
  { cbn [app strip_leading]. assert (X : is_space c = false) by (clear - C; destruct c as [[] [] [] [] [] [] [] []]; vm_compute in *; congruence).
    now rewrite X. }
  unfold c_atoi. rewrite S.
  assert (M : match (c :: d) ++ r with
           | "-"%char :: r' => (- digits_value 0 r')%Z
           | "+"%char :: r' => digits_value 0 r'
           | _ => digits_value 0 ((c :: d) ++ r)
           end = digits_value 0 ((c :: d) ++ r)).
  { cbn [app]. clear - C. destruct c as [[] [] [] [] [] [] [] []]; try reflexivity; vm_compute in C; discriminate. }
  rewrite M, V. clear M V S F NE C. set (v := decimal_value (c :: d)) in *. clearbody v.
  change (2 ^ 31)%Z with 2147483648%Z in *. change (2 ^ 32)%Z with 4294967296%Z. change (2 ^ 63)%Z with 9223372036854775808%Z.
  rewrite Z.min_r, Z.max_r by lia. rewrite Z.mod_small by lia. destruct (Z.ltb_spec v 2147483648); lia.
Qed.
