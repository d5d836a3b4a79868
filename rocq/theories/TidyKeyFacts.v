(** Facts about the cache keys of Tidy.v. *)
From Verif Require Import Base BaseFacts Absl Print Tidy TidyPool TidyFacts TidySpec MapFacts DbFacts.
From Coq Require Import ZifyBool ZifyN ZifyNat.

(** ** Paths *)
Lemma path_filename_base p : base_name p (path_filename p).
Proof.
  unfold path_filename, base_name. pose proof (rfind_char_spec "/" p) as R. destruct (rfind_char "/" p) as [n|].
  - destruct R as (f & d & -> & N & ->).
    assert (E : skipn (S (List.length f)) (f ++ "/"%char :: d) = d).
    { change ("/"%char :: d) with (["/"%char] ++ d). rewrite app_assoc, skipn_app.
      rewrite skipn_all2 by (rewrite app_length; cbn; lia). rewrite app_length. cbn [List.length].
      replace (S (List.length f) - (List.length f + 1))%nat with 0%nat by lia. reflexivity. }
    rewrite E. split; [exact N|]. right. exists f. reflexivity.
  - split; [exact R|now left].
Qed.
Lemma split_last {A} (c : A) a b a' b' : ~ In c b -> ~ In c b' -> a ++ c :: b = a' ++ c :: b' -> a = a' /\ b = b'.
Proof.
  revert a'. induction a as [|x a IH]; intros [|y a'] N N' E; cbn in E.
  - inversion E. auto.
  - inversion E; subst. exfalso. apply N. apply in_or_app. right. now left.
  - inversion E; subst. exfalso. apply N'. apply in_or_app. right. now left.
  - inversion E; subst. destruct (IH a' N N' H1) as [-> ->]. auto.
Qed.
Lemma base_name_unique p b b' : base_name p b -> base_name p b' -> b = b'.
Proof.
  intros [N1 H1] [N2 H2]. destruct H1 as [->|(d & ->)], H2 as [E|(d' & E)]; auto.
  - subst b. exfalso. apply N1. apply in_or_app. right. now left.
  - subst b'. exfalso. apply N2. apply in_or_app. right. now left.
  - eapply (split_last "/"%char); eauto.
Qed.
Lemma base_name_iff p b : base_name p b <-> path_filename p = b.
Proof.
  split; [|intros <-; apply path_filename_base]. intros H. eapply base_name_unique; [apply path_filename_base|exact H].
Qed.

Lemma is_one_of_spec e l : is_one_of e l = true <-> In e l.
Proof.
  unfold is_one_of. rewrite existsb_exists. split.
  - intros (x & H & E). apply text_eqb_eq in E. now subst x.
  - intros H. exists e. split; [exact H|apply text_eqb_refl].
Qed.

(** The extensions: a dot followed by at least one character, none a dot. *)
Definition plain (e : text) : Prop := exists r, e = "."%char :: r /\ ~ In "."%char r /\ r <> [].
Lemma path_extension_spec p e : plain e ->
  (path_extension p = e <-> exists stem, stem <> [] /\ path_filename p = stem ++ e).
Proof.
  intros (r & -> & NR & NE). unfold path_extension. cbv zeta. generalize (path_filename p). intros f.
  pose proof (rfind_char_spec "." f) as R. destruct (rfind_char "." f) as [n|].
  - destruct R as (a & d & -> & N & ->).
    assert (Sk : skipn (List.length a) (a ++ "."%char :: d) = "."%char :: d).
    { rewrite skipn_app, skipn_all, Nat.sub_diag. reflexivity. }
    split.
    + destruct a as [|x a]; [discriminate|]. intros E. cbn [List.length] in E. change (S (List.length a)) with (List.length (x :: a)) in E.
      destruct (text_eqb _ _); [discriminate|]. rewrite Sk in E. exists (x :: a). rewrite E. split; [discriminate|reflexivity].
    + intros (stem & NS & E). apply split_last in E; auto. destruct E as [-> ->]. destruct stem as [|x a]; [contradiction|].
      cbn [List.length]. change (S (List.length a)) with (List.length (x :: a)). destruct (text_eqb _ _) eqn:T.
      * exfalso. apply text_eqb_eq in T. destruct a as [|y a].
        -- injection T as _ T. now apply NE.
        -- injection T as _ _ T. destruct a; discriminate.
      * exact Sk.
  - split; [discriminate|]. intros (stem & NS & E). exfalso. apply R. rewrite E. apply in_or_app. right. now left.
Qed.
Lemma header_plain e : In e source_extensions -> plain e.
Proof.
  intros H. unfold plain. repeat (destruct H as [<-|H]; [eexists; split; [reflexivity|]; split; [cbn; intuition discriminate|discriminate]|]). destruct H.
Qed.
Lemma ext_iff p l : incl l source_extensions -> (In (path_extension p) l <-> has_extension p l).
Proof.
  intros I. split.
  - intros H. assert (P : plain (path_extension p)) by (apply header_plain; auto).
    destruct (proj1 (path_extension_spec p _ P) eq_refl) as (stem & NS & E).
    exists (path_filename p), stem, (path_extension p). split; [apply path_filename_base|]. auto.
  - intros (b & stem & e & B & NS & Ie & E). apply base_name_iff in B. subst b.
    assert (P : plain e) by (apply header_plain; auto). assert (X : path_extension p = e) by (apply path_extension_spec; eauto).
    now rewrite X.
Qed.
Lemma include_ext_iff p : is_include_extension (path_extension p) = true <-> has_extension p header_extensions.
Proof.
  unfold is_include_extension. rewrite is_one_of_spec. change [tx ".h"; tx ".hpp"; tx ".hxx"; tx ".inl"] with header_extensions.
  apply ext_iff. intros x H. unfold source_extensions, header_extensions in *. cbn in *. tauto.
Qed.
Lemma consider_ext_iff p : consider_extension (path_extension p) = true <-> has_extension p source_extensions.
Proof.
  unfold consider_extension, is_include_extension. rewrite orb_true_iff, !is_one_of_spec.
  rewrite <- ext_iff by (intros x; auto). unfold source_extensions. cbn. tauto.
Qed.
Lemma excluded_iff p : excluded p = true <-> outside p.
Proof.
  unfold excluded, outside. rewrite !orb_true_iff, !starts_with_spec. split.
  - intros [[(b & ->)|(b & ->)]|(b & ->)]; [exists (tx ".git"), b|exists (tx ".github"), b|exists (tx "build"), b]; cbn; auto 6.
  - intros (d & r & H & ->). cbn [In] in H. destruct H as [<-|[<-|[<-|[]]]]; [left; left|left; right|right]; exists r; reflexivity.
Qed.

(** ** The headers *)
Definition is_header (b : text) (f : text * text) : bool :=
  negb (excluded (fst f)) && is_include_extension (path_extension (fst f)) && text_eqb (path_filename (fst f)) b.
Definition named_headers (b : text) (t : tree) : list text := map snd (filter (is_header b) t).
Lemma is_header_iff b p c : is_header b (p, c) = true <-> ~ outside p /\ has_extension p header_extensions /\ base_name p b.
Proof.
  unfold is_header. cbn [fst]. rewrite !andb_true_iff, negb_true_iff, include_ext_iff, text_eqb_eq, base_name_iff, <- not_true_iff_false, excluded_iff. tauto.
Qed.
Lemma named_headers_spec b t : headers_named b t (named_headers b t).
Proof.
  induction t as [|[p c] t IH]; [constructor|]. unfold named_headers. cbn [filter]. destruct (is_header b (p, c)) eqn:E.
  - apply is_header_iff in E as (A & B & C). cbn [map snd]. now constructor.
  - apply hn_no; [|exact IH]. rewrite <- not_true_iff_false, is_header_iff in E.
    destruct (excluded p) eqn:X; [left; now apply excluded_iff|]. rewrite <- not_true_iff_false, excluded_iff in X.
    destruct (is_include_extension (path_extension p)) eqn:Y.
    + apply include_ext_iff in Y. right. right. tauto.
    + rewrite <- not_true_iff_false, include_ext_iff in Y. tauto.
Qed.
Lemma headers_named_unique b t l : headers_named b t l -> l = named_headers b t.
Proof.
  induction 1 as [|p c t l A B C H IH|p c t l A H IH]; [reflexivity| |]; unfold named_headers; cbn [filter].
  - rewrite (proj2 (is_header_iff b p c)) by auto. cbn [map snd]. now rewrite IH.
  - destruct (is_header b (p, c)) eqn:E; [|exact IH]. apply is_header_iff in E. exfalso. tauto.
Qed.

Lemma xor_app a b : xor_all (a ++ b) = N.lxor (xor_all a) (xor_all b).
Proof. induction a as [|x a IH]; cbn [xor_all app]; [now rewrite N.lxor_0_l|]. now rewrite IH, N.lxor_assoc. Qed.
Lemma xor_perm a b : Permutation.Permutation a b -> xor_all a = xor_all b.
Proof.
  induction 1; cbn; [reflexivity|congruence| |congruence]. rewrite <- !N.lxor_assoc. f_equal. apply N.lxor_comm.
Qed.

Lemma header_map_spec hash t : forall m b,
  hm_find text_eqb b (fold_left (add_header hash) t m) =
  match named_headers b t with
  | [] => hm_find text_eqb b m
  | l => Some (N.lxor (match hm_find text_eqb b m with Some h => h | None => 0 end) (xor_all (map hash l)))
  end.
Proof.
  induction t as [|[p c] t IH]; intros m b; [reflexivity|]. cbn [fold_left]. rewrite IH. clear IH.
  unfold named_headers. cbn [filter]. unfold add_header at 1 2. unfold is_header at 2. cbn [fst snd].
  destruct (negb (excluded p) && is_include_extension (path_extension p)) eqn:E; cbn [andb]; [|reflexivity].
  destruct (text_eqb (path_filename p) b) eqn:B.
  - apply text_eqb_eq in B. subst b. cbn [map snd]. rewrite (hm_find_set text_eqb text_eqb_eq), text_eqb_refl.
    fold (named_headers (path_filename p) t). destruct (named_headers (path_filename p) t) as [|x l]; cbn [map xor_all].
    + now rewrite N.lxor_0_r.
    + now rewrite N.lxor_assoc.
  - fold (named_headers b t). 
    assert (NB : b <> path_filename p) by (intros ->; rewrite text_eqb_refl in B; discriminate).
    rewrite (hm_find_set text_eqb text_eqb_eq), (text_eqb_neq _ _ NB). reflexivity.
Qed.

(** ** Include directives *)
Lemma span_spec f s : let '(a, b) := span f s in
  s = a ++ b /\ Forall (fun c => f c = true) a /\ match b with [] => True | c :: _ => f c = false end.
Proof.
  induction s as [|c s IH]; cbn [span]; [auto|]. destruct (f c) eqn:E.
  - destruct (span f s) as [a b]. destruct IH as (-> & H & K). split; [reflexivity|]. split; [now constructor|exact K].
  - split; [reflexivity|]. split; [constructor|exact E].
Qed.
Lemma span_app f a b : Forall (fun c => f c = true) a -> match b with [] => True | c :: _ => f c = false end -> span f (a ++ b) = (a, b).
Proof.
  intros H K. induction H as [|c a Hc H IH]; cbn [app span].
  - destruct b as [|c b]; [reflexivity|]. cbn [span]. now rewrite K.
  - now rewrite Hc, IH.
Qed.
Lemma expect_spec c s r : expect c s = Some r <-> s = c :: r.
Proof.
  unfold expect. destruct s as [|x s]; [split; discriminate|]. destruct (Ascii.eqb_spec c x) as [->|NE].
  - split; intros E; [injection E as ->; reflexivity|injection E as ->; reflexivity].
  - split; intros E; [discriminate|]. injection E as -> _. contradiction.
Qed.
Lemma nonempty_spec s : nonempty s = true <-> s <> [].
Proof. destruct s; split; try discriminate; try reflexivity. intros H; contradiction. Qed.
Lemma name_char_iff c : name_char c = true <-> name_part c.
Proof.
  unfold name_char, name_part. rewrite !orb_true_iff, !Ascii.eqb_eq. cbn. intuition congruence.
Qed.
Lemma name_chars_iff n : Forall (fun c => name_char c = true) n <-> Forall name_part n.
Proof. split; apply Forall_impl; intros c; apply name_char_iff. Qed.

Lemma match_include_sound s h r : match_include s = Some (h, r) -> exists d, s = d ++ r /\ directive d h.
Proof.
  unfold match_include. destruct (expect "#" s) as [r1|] eqn:E1; [|discriminate]. apply expect_spec in E1. subst s.
  pose proof (span_spec is_space r1) as S1. destruct (span is_space r1) as [s1 r2]. cbn [snd]. destruct S1 as (-> & F1 & _).
  destruct (starts_with (tx "include") r2) eqn:E2; [|discriminate]. apply starts_with_spec in E2 as (r3 & ->).
  change (skipn 7 (tx "include" ++ r3)) with r3.
  pose proof (span_spec is_space r3) as S2. destruct (span is_space r3) as [s2 r4]. destruct S2 as (-> & F2 & _).
  destruct (nonempty s2) eqn:N2; [|discriminate]. apply nonempty_spec in N2.
  destruct (expect ch_quote r4) as [r5|] eqn:E3; [|discriminate]. apply expect_spec in E3. subst r4.
  pose proof (span_spec name_char r5) as S3. destruct (span name_char r5) as [n r6]. destruct S3 as (-> & F3 & _).
  destruct (nonempty n) eqn:N3; [|discriminate]. apply nonempty_spec in N3.
  destruct (expect "." r6) as [r7|] eqn:E4; [|discriminate]. apply expect_spec in E4. subst r6.
  pose proof (span_spec is_letter r7) as S4. destruct (span is_letter r7) as [e r8]. destruct S4 as (-> & F4 & _).
  destruct (nonempty e) eqn:N4; [|discriminate]. apply nonempty_spec in N4.
  destruct (expect ch_quote r8) as [r9|] eqn:E5; [|discriminate]. apply expect_spec in E5. subst r8.
  intros H. injection H as <- <-.
  exists (tx "#" ++ s1 ++ tx "include" ++ s2 ++ [ch_quote] ++ n ++ tx "." ++ e ++ [ch_quote]). split.
  - rewrite <- !app_assoc. reflexivity.
  - exists s1, s2, n, e. apply name_chars_iff in F3. auto 12.
Qed.
Lemma match_include_complete d h r : directive d h -> match_include (d ++ r) = Some (h, r).
Proof.
  intros (s1 & s2 & n & e & -> & -> & F1 & F2 & N2 & F3 & N3 & F4 & N4). apply name_chars_iff in F3.
  set (r3 := s2 ++ ch_quote :: n ++ "."%char :: e ++ ch_quote :: r).
  assert (E : (tx "#" ++ s1 ++ tx "include" ++ s2 ++ [ch_quote] ++ n ++ tx "." ++ e ++ [ch_quote]) ++ r =
              "#"%char :: s1 ++ (tx "include" ++ r3)).
  { unfold r3. rewrite <- !app_assoc. reflexivity. }
  rewrite E. clear E. unfold match_include. rewrite (proj2 (expect_spec _ _ _) eq_refl).
  rewrite span_app; [cbn [snd]|exact F1|reflexivity].
  rewrite (proj2 (starts_with_spec _ _)) by eauto. change (skipn 7 (tx "include" ++ r3)) with r3. unfold r3.
  rewrite span_app; [|exact F2|reflexivity]. rewrite (proj2 (nonempty_spec _) N2), (proj2 (expect_spec _ _ _) eq_refl).
  rewrite span_app; [|exact F3|reflexivity]. rewrite (proj2 (nonempty_spec _) N3), (proj2 (expect_spec _ _ _) eq_refl).
  rewrite span_app; [|exact F4|reflexivity]. rewrite (proj2 (nonempty_spec _) N4), (proj2 (expect_spec _ _ _) eq_refl).
  reflexivity.
Qed.

(** A directive has only one hash sign, its first character. *)
Lemma directive_hash d h : directive d h -> exists d', d = "#"%char :: d' /\ ~ In "#"%char d'.
Proof.
  intros (s1 & s2 & n & e & -> & -> & F1 & F2 & N2 & F3 & N3 & F4 & N4). eexists. split; [reflexivity|].
  apply name_chars_iff in F3. rewrite Forall_forall in F1, F2, F3, F4.
  rewrite !in_app_iff. intros [H|[H|[H|[H|[H|[H|[H|H]]]]]]].
  - apply F1 in H. discriminate.
  - cbn in H. intuition discriminate.
  - apply F2 in H. discriminate.
  - destruct H as [H|[]]. discriminate.
  - apply F3 in H. discriminate.
  - destruct H as [H|[]]. discriminate.
  - apply F4 in H. discriminate.
  - destruct H as [H|[]]. discriminate.
Qed.

Lemma directives_skip a r l : ~ In "#"%char a -> directives r l -> directives (a ++ r) l.
Proof.
  intros N H. induction a as [|c a IH]; [exact H|]. cbn [app]. apply dr_not.
  - intros d h r' E D. apply directive_hash in D as (d' & -> & _). cbn in E. injection E as -> _. apply N. now left.
  - apply IH. intros I. apply N. now right.
Qed.
Lemma includes_spec s : directives s (includes s).
Proof.
  unfold includes. assert (G : forall fuel x, (List.length x <= fuel)%nat -> directives x (includes_fuel fuel x)); [|apply G; lia].
  induction fuel as [|f IH]; intros x L.
  - destruct x; [constructor|cbn in L; lia].
  - cbn [includes_fuel]. destruct (match_include x) as [[h r]|] eqn:M.
    + apply match_include_sound in M as (d & -> & D). destruct (directive_hash d h D) as (d' & -> & N).
      cbn [app]. eapply dr_here with (r := r) (d := "#"%char :: d'); [reflexivity|exact D|]. apply directives_skip; [exact N|].
      apply IH. cbn in L. rewrite app_length in L. lia.
    + destruct x as [|c x]; [constructor|]. apply dr_not.
      * intros d h r E D. rewrite E, (match_include_complete d h r D) in M. discriminate.
      * apply IH. cbn in L. lia.
Qed.
Lemma directives_unique s l : directives s l -> forall l', directives s l' -> l' = l.
Proof.
  induction 1 as [|c s d h r l E D H IH|c s l No H IH]; intros l' H'.
  - inversion H'; reflexivity.
  - inversion H' as [|? ? d2 h2 r2 l2 E2 D2 H2|? ? l2 No2 H2]; subst.
    + rewrite E in E2. assert (X : match_include (d ++ r) = match_include (d2 ++ r2)) by congruence.
      rewrite (match_include_complete _ _ _ D), (match_include_complete _ _ _ D2) in X. injection X as -> _. now rewrite (IH l2 H2).
    + exfalso. eapply No2; eauto.
  - inversion H' as [|? ? d2 h2 r2 l2 E2 D2 H2|? ? l2 No2 H2]; subst; [exfalso; eapply No; eauto|]. now apply IH.
Qed.

(** ** The key *)
Definition key_of (hash : text -> N) (t : tree) (c : text) : N :=
  xor_all (hash c :: flat_map (fun inc => map hash (named_headers (path_filename inc) t)) (includes c)).
Lemma work_hash_key hash t c : work_hash hash (header_hashes hash t) c = key_of hash t c.
Proof.
  unfold work_hash, key_of. cbn [xor_all]. generalize (hash c). induction (includes c) as [|i l IH]; intros h; cbn [fold_left flat_map].
  - cbn. now rewrite N.lxor_0_r.
  - rewrite IH, xor_app. unfold add_include, header_hashes. rewrite header_map_spec. cbn [hm_find].
    destruct (named_headers (path_filename i) t) as [|x m].
    + cbn [map xor_all]. now rewrite N.lxor_0_l.
    + now rewrite N.lxor_0_l, N.lxor_assoc.
Qed.
Lemma key_of_is hash t c : key_is hash t c (key_of hash t c).
Proof.
  exists (includes c), (map (fun inc => map hash (named_headers (path_filename inc) t)) (includes c)).
  split; [apply includes_spec|]. split.
  - induction (includes c) as [|i l IH]; cbn [map]; constructor; [|exact IH].
    exists (path_filename i), (named_headers (path_filename i) t). split; [apply path_filename_base|]. split; [apply named_headers_spec|reflexivity].
  - unfold key_of. now rewrite flat_map_concat_map.
Qed.
Lemma key_is_unique hash t c k : key_is hash t c k -> k = key_of hash t c.
Proof.
  intros (incs & parts & D & F & ->). unfold key_of. rewrite (directives_unique _ _ (includes_spec c) _ D) in F. clear D incs.
  f_equal. f_equal. induction F as [|i p is ps (b & hs & B & Hn & ->) F IH]; [reflexivity|]. cbn [flat_map concat]. rewrite IH.
  apply base_name_iff in B. subst b. now rewrite (headers_named_unique _ _ _ Hn).
Qed.

(** ** Names of entries *)
Lemma hex_char_inj a b : a < 16 -> b < 16 -> hex_char false a = hex_char false b -> a = b.
Proof.
  intros A B H. unfold hex_char in H. apply (f_equal N_of_ascii) in H.
  destruct (N.ltb_spec a 10), (N.ltb_spec b 10); rewrite !N_ascii_embedding in H by lia; lia.
Qed.
Lemma to_hex_inj n : forall a b, to_hex n a = to_hex n b <-> a mod 16 ^ N.of_nat n = b mod 16 ^ N.of_nat n.
Proof.
  induction n as [|n IH]; intros a b.
  - cbn [to_hex]. change (16 ^ N.of_nat 0) with 1. rewrite !N.mod_1_r. tauto.
  - rewrite Nat2N.inj_succ, N.pow_succ_r'. cbn [to_hex].
    assert (P : 16 ^ N.of_nat n <> 0) by (apply N.pow_nonzero; discriminate).
    rewrite !N.mod_mul_r by (discriminate || exact P). split.
    + intros E. apply app_inj_tail in E as [E1 E2]. apply IH in E1.
      apply hex_char_inj in E2; try (apply N.mod_lt; discriminate). now rewrite E1, E2.
    + intros E. assert (M : a mod 16 = b mod 16).
      { pose proof (N.mod_lt a 16). pose proof (N.mod_lt b 16).
        assert (X : (a mod 16 + 16 * ((a / 16) mod 16 ^ N.of_nat n)) mod 16 = (b mod 16 + 16 * ((b / 16) mod 16 ^ N.of_nat n)) mod 16) by now rewrite E.
        rewrite !(N.mul_comm 16), !N.mod_add, !N.mod_mod in X by discriminate. exact X. }
      rewrite M. f_equal. apply IH. lia.
Qed.
Lemma path_for_inj dir p h p' h' : path_for dir (p, h) = path_for dir (p', h') <->
  path_filename p = path_filename p' /\ h mod 2 ^ 64 = h' mod 2 ^ 64.
Proof.
  unfold path_for. cbn [fst snd]. change (2 ^ 64) with (16 ^ N.of_nat 16). rewrite <- to_hex_inj. split.
  - intros E. apply app_inv_head in E. apply app_inv_head in E. rewrite !app_assoc in E.
    apply app_tail_inj in E as [E1 E2]; [|now rewrite !to_hex_length]. apply app_inv_tail in E1. auto.
  - intros [-> ->]. reflexivity.
Qed.
