(** Facts about the FASM parser: what it does on the texts of [FasmSpec]. *)
From Verif Require Import Base BaseFacts Fasm FasmSpec.

Local Notation "x <- e ;; f" := (obind e (fun x => f))
  (at level 61, e at next level, right associativity).
Local Notation "' p <- e ;; f" := (obind e (fun p => f))
  (at level 61, p pattern, e at next level, right associativity).

(** * Characters *)
Ltac all_chars c := destruct c as [[] [] [] [] [] [] [] []].

Lemma digit_of_spec : forall c,
  digit_of c = match digit_value c with
               | Some d => Z.of_N d
               | None => if Ascii.eqb c "_" then (-1)%Z else 99%Z
               end.
Proof. intros c; all_chars c; reflexivity. Qed.

Definition name_charb (c : ascii) : bool :=
  let n := code c in
  ((65 <=? n) && (n <=? 90)) || ((97 <=? n) && (n <=? 122))
  || ((48 <=? n) && (n <=? 57)) || Ascii.eqb c "." || Ascii.eqb c "_".

Lemma ident_char_b : forall c, ident_char c = name_charb c.
Proof. intros c; all_chars c; reflexivity. Qed.

Lemma ident_char_spec : forall c, ident_char c = true <-> is_name_char c.
Proof.
  intros c. rewrite ident_char_b. unfold name_charb, is_name_char, between.
  rewrite !orb_true_iff, !andb_true_iff, !N.leb_le, !Ascii.eqb_eq. intuition lia.
Qed.

Definition blankb (c : ascii) : bool := ch_is c " " || ch_is c ch_tab.
Lemma blankb_spec : forall c, blankb c = true <-> is_blank c.
Proof.
  intros c. unfold blankb, ch_is, is_blank, ch_tab.
  rewrite orb_true_iff, !Ascii.eqb_eq. reflexivity.
Qed.

Lemma digit_value_lt16 : forall c d, digit_value c = Some d -> d < 16.
Proof. intros c d; all_chars c; cbn; intros E; inversion E; reflexivity. Qed.

(** [starts P t]: the first character of [t] exists and satisfies [P]. *)
Definition starts (P : ascii -> Prop) (t : text) : Prop :=
  match t with [] => False | c :: _ => P c end.

Lemma starts_weaken : forall (P Q : ascii -> Prop) t,
  (forall c, P c -> Q c) -> starts P t -> starts Q t.
Proof. intros P Q [|c t] H; cbn; auto. Qed.

Lemma starts_blanks : forall (P : ascii -> Prop) b t,
  blanks b -> (forall c, is_blank c -> P c) -> starts P t -> starts P (b ++ t).
Proof. intros P b t Hb HP Ht. destruct Hb; cbn; auto. Qed.

Lemma starts_app : forall (P : ascii -> Prop) s t, starts P s -> starts P (s ++ t).
Proof. intros P [|c s] t; cbn; auto; contradiction. Qed.

(** * Elementary loops *)
Lemma skip_blank_app : forall b t, blanks b -> skip_blank (b ++ t) = skip_blank t.
Proof.
  induction 1 as [|c b Hc Hb IH]; cbn [app skip_blank]; auto.
  apply blankb_spec in Hc. unfold blankb in Hc. rewrite Hc. exact IH.
Qed.

Lemma skip_blank_stop : forall t, starts (fun c => ~ is_blank c) t -> skip_blank t = Ok t.
Proof.
  intros [|c t]; cbn; [contradiction|]. intros H.
  destruct (ch_is c " " || ch_is c ch_tab) eqn:E; auto.
  exfalso. apply H. apply blankb_spec. exact E.
Qed.

Lemma skip_blank_to : forall b t, blanks b -> starts (fun c => ~ is_blank c) t ->
  skip_blank (b ++ t) = Ok t.
Proof. intros. rewrite skip_blank_app by auto. now apply skip_blank_stop. Qed.

Lemma skip_to_eol_app : forall s t, no_newline s -> skip_to_eol (s ++ t) = skip_to_eol t.
Proof.
  induction 1 as [|c s Hc Hs IH]; cbn [app skip_to_eol]; auto.
  unfold ch_is. destruct (Ascii.eqb_spec c ch_nl); [contradiction|auto].
Qed.

Lemma skip_to_eol_nl : forall t, skip_to_eol (newline ++ t) = Ok (newline ++ t).
Proof. reflexivity. Qed.

Lemma read_ident_app : forall n t, Forall is_name_char n ->
  starts (fun c => ~ is_name_char c) t -> read_ident (n ++ t) = Ok (n, t).
Proof.
  induction 1 as [|c n Hc Hn IH]; intros Ht.
  - destruct t as [|c t]; cbn in *; [contradiction|].
    destruct (ident_char c) eqn:E; auto. apply ident_char_spec in E. contradiction.
  - cbn [app read_ident]. apply ident_char_spec in Hc. rewrite Hc, IH by auto. reflexivity.
Qed.

(** Not a digit below [b] and not a separator. *)
Definition not_digit (b : N) (c : ascii) : Prop :=
  c <> "_"%char /\ forall d, digit_value c = Some d -> b <= d.

Lemma not_digit_of : forall b c, b <= 99 ->
  not_digit b c <-> (digit_of c <? Z.of_N b)%Z = false.
Proof.
  intros b c Hb. rewrite digit_of_spec. unfold not_digit.
  destruct (digit_value c) as [d|] eqn:E.
  - rewrite Z.ltb_ge. split.
    + intros [_ H]. specialize (H d eq_refl). lia.
    + intros H. split.
      * intros ->. cbn in E. discriminate.
      * intros d' [= <-]. lia.
  - destruct (Ascii.eqb_spec c "_").
    + split; [intros [H _]; contradiction|]. rewrite Z.ltb_ge. lia.
    + split; [|intros _; split; [auto|discriminate]]. intros _. apply Z.ltb_ge. lia.
Qed.

Lemma number_loop_app : forall b wrap, b <= 16 -> wrap <> 0 ->
  forall s, numeral b s -> forall v t, starts (not_digit b) t ->
  number_loop (Z.of_N b) wrap (v mod wrap) (s ++ t)
  = Ok (fold_left (fun a d => a * b + d) (numeral_digits s) v mod wrap, t).
Proof.
  intros b wrap Hb Hw. induction 1 as [|c s Hc Hs IH]; intros v t Ht.
  - destruct t as [|c t]; cbn [app number_loop starts] in *; [contradiction|].
    apply not_digit_of in Ht; [|lia]. rewrite Ht. reflexivity.
  - cbn [app number_loop numeral_digits].
    destruct Hc as [->|(d & Hd & Hdb)].
    + change (digit_of "_") with (-1)%Z.
      assert ((-1 <? Z.of_N b)%Z = true) as -> by (apply Z.ltb_lt; lia).
      cbn [Z.eqb]. change (digit_value "_") with (@None N).
      replace (-1 =? -1)%Z with true by reflexivity. apply IH; auto.
    + rewrite digit_of_spec, Hd.
      assert ((Z.of_N d <? Z.of_N b)%Z = true) as -> by (apply Z.ltb_lt; lia).
      assert ((Z.of_N d =? -1)%Z = false) as -> by (apply Z.eqb_neq; lia).
      rewrite !N2Z.id. cbn [fold_left].
      rewrite <- IH by auto. f_equal.
      rewrite N.add_mod by auto. rewrite N.mul_mod_idemp_l by auto.
      rewrite <- N.add_mod by auto. reflexivity.
Qed.

Lemma blank_not_digit : forall b c, is_blank c -> not_digit b c.
Proof. intros b c [->| ->]; split; try discriminate; cbn; discriminate. Qed.

Lemma numeral_not_blank : forall b s t, numeral b s ->
  s <> [] -> starts (fun c => ~ is_blank c) (s ++ t).
Proof.
  intros b s t Hs Hn. destruct Hs as [|c s Hc Hs]; [contradiction|]. cbn.
  intros Hb. destruct Hc as [->|(d & Hd & _)].
  - destruct Hb; discriminate.
  - destruct Hb; subst c; cbn in Hd; discriminate.
Qed.

(** A number between blanks, then [t]: the number is read and [t] is what
    remains after the next [skip_blank]. *)
Lemma parse_number_app : forall b wrap, b <= 16 -> wrap <> 0 ->
  forall bl s bl' t, blanks bl -> numeral b s -> blanks bl' ->
  starts (not_digit b) t -> starts (fun c => ~ is_blank c) t ->
  exists t', parse_number (Z.of_N b) wrap 0 (bl ++ s ++ bl' ++ t)
             = Ok (numeral_value b s mod wrap, t')
             /\ skip_blank t' = Ok t.
Proof.
  intros b wrap Hb Hw bl s bl' t Hbl Hs Hbl' Ht Htb. unfold parse_number.
  rewrite skip_blank_app by auto.
  destruct s as [|c s].
  - cbn [app]. rewrite skip_blank_to by auto. cbn [obind].
    exists t. split; [|apply skip_blank_stop; auto].
    rewrite <- (N.mod_0_l wrap) at 1 by auto.
    apply (number_loop_app b wrap Hb Hw [] (Forall_nil _) 0 t); auto.
  - rewrite skip_blank_stop by (eapply numeral_not_blank; eauto; discriminate).
    cbn [obind]. exists (bl' ++ t). split; [|apply skip_blank_to; auto].
    rewrite <- (N.mod_0_l wrap) at 1 by auto.
    apply (number_loop_app b wrap Hb Hw (c :: s) Hs 0 (bl' ++ t)).
    apply starts_blanks; auto using blank_not_digit.
Qed.

(** * Long numbers *)
Definition chunks_from (r : N) (k : nat) (val : N) : list N :=
  map (fun i => (val / 2 ^ (r + 64 * N.of_nat i)) mod 2 ^ 64) (seq 0 k).

(** The chunks the loop has after digits worth [bits] bits and value [val]. *)
Definition long_chunks (bits val : N) : list N :=
  let r := bits mod 64 in
  (if r =? 0 then [] else [val mod 2 ^ r])
  ++ chunks_from r (N.to_nat (bits / 64)) val.

Lemma pow2_nz : forall n, 2 ^ n <> 0.
Proof. intros. apply N.pow_nonzero. lia. Qed.

Lemma step_div : forall val l d r, d < 2 ^ l ->
  (val * 2 ^ l + d) / 2 ^ (l + r) = val / 2 ^ r.
Proof.
  intros. rewrite N.pow_add_r, <- N.div_div by apply pow2_nz.
  f_equal. rewrite N.add_comm, N.div_add by apply pow2_nz.
  rewrite N.div_small by auto. lia.
Qed.

Lemma step_mod : forall val l d r, d < 2 ^ l ->
  (val * 2 ^ l + d) mod 2 ^ (l + r) = (val mod 2 ^ r) * 2 ^ l + d.
Proof.
  intros val l d r Hd.
  pose proof (N.div_mod val (2 ^ r) (pow2_nz r)) as E.
  symmetry. apply (N.mod_unique _ _ (val / 2 ^ r)).
  - rewrite N.pow_add_r. pose proof (N.mod_lt val (2 ^ r) (pow2_nz r)).
    assert (val mod 2 ^ r + 1 <= 2 ^ r) by lia.
    assert (G : (val mod 2 ^ r + 1) * 2 ^ l <= 2 ^ r * 2 ^ l) by (apply N.mul_le_mono_r; auto).
    rewrite N.mul_add_distr_r, N.mul_1_l in G. rewrite (N.mul_comm (2 ^ l)). lia.
  - rewrite N.pow_add_r. rewrite E at 1. ring.
Qed.

Lemma chunks_step : forall val l d r k, d < 2 ^ l ->
  chunks_from (l + r) k (val * 2 ^ l + d) = chunks_from r k val.
Proof.
  intros. unfold chunks_from. apply map_ext. intros i.
  rewrite <- N.add_assoc. now rewrite step_div.
Qed.

Lemma chunks_from_S : forall r k val,
  chunks_from r (S k) val = (val / 2 ^ r) mod 2 ^ 64 :: chunks_from (r + 64) k val.
Proof.
  intros. unfold chunks_from. cbn [seq map]. f_equal.
  - rewrite N.mul_0_r, N.add_0_r. reflexivity.
  - rewrite <- seq_shift, map_map. apply map_ext. intros i.
    replace (r + 64 * N.of_nat (S i)) with (r + 64 + 64 * N.of_nat i) by lia. reflexivity.
Qed.

Definition long_step (l n : N) (v : list N) (d : N) : list N :=
  match (if n mod 64 =? 0 then 0 :: v else v) with
  | [] => []
  | b :: t => u64 (b * 2 ^ l + d) :: t
  end.

Lemma long_step_chunks : forall l k val d, (l = 1 \/ l = 4) -> d < 2 ^ l ->
  long_step l (l * k) (long_chunks (l * k) val) d
  = long_chunks (l * k + l) (val * 2 ^ l + d).
Proof.
  intros l k val d Hl Hd. unfold long_step.
  assert (Hr : (l * k) mod 64 + l <= 64).
  { pose proof (N.mod_lt (l * k) 64 ltac:(lia)).
    pose proof (N.div_mod (l * k) 64 ltac:(lia)). destruct Hl; subst l; lia. }
  set (q := (l * k) / 64) in *. set (r := (l * k) mod 64) in *.
  assert (E : l * k = 64 * q + r) by (apply N.div_mod; lia).
  assert (Hr64 : r < 64) by (apply N.mod_lt; lia).
  unfold long_chunks. fold q. fold r.
  assert (Hl2 : 0 < l < 64) by (clear - Hl; destruct Hl; lia).
  clearbody q r. set (m := l * k) in *. clearbody m.
  destruct (N.eqb_spec r 0) as [R0|R0].
  - assert (Q1 : (m + l) / 64 = q) by (clear - E R0 Hr64 Hl2; symmetry; apply (N.div_unique _ _ _ l); lia).
    assert (M1 : (m + l) mod 64 = l) by (clear - E R0 Hr64 Hl2; symmetry; apply (N.mod_unique _ _ q); lia).
    rewrite Q1, M1. assert (l <> 0) by lia.
    destruct (N.eqb_spec l 0); [contradiction|].
    cbn [app]. f_equal.
    + unfold u64. rewrite N.mul_0_l, N.add_0_l.
      pose proof (step_mod val l d 0 Hd) as S0. rewrite N.add_0_r in S0.
      rewrite S0, N.pow_0_r, N.mod_1_r, N.mul_0_l, N.add_0_l.
      apply N.mod_small. eapply N.lt_le_trans; [exact Hd|]. apply N.pow_le_mono_r; lia.
    + rewrite R0. pose proof (chunks_step val l d 0 (N.to_nat q) Hd) as C.
      rewrite N.add_0_r in C. rewrite C. reflexivity.
  - cbn [app]. pose proof (step_mod val l d r Hd) as SM.
    assert (HB : (val mod 2 ^ r) * 2 ^ l + d < 2 ^ 64).
    { rewrite <- SM. eapply N.lt_le_trans; [apply N.mod_lt, pow2_nz|].
      apply N.pow_le_mono_r; lia. }
    assert (HU : u64 (val mod 2 ^ r * 2 ^ l + d) = (val * 2 ^ l + d) mod 2 ^ (l + r)).
    { unfold u64. rewrite N.mod_small by exact HB. now rewrite SM. }
    rewrite HU. clear HU HB.
    destruct (N.eq_dec (r + l) 64) as [F|F].
    + assert (Q1 : (m + l) / 64 = N.succ q) by (clear - E F R0 Hr Hr64 Hl2; symmetry; apply (N.div_unique _ _ _ 0); lia).
      assert (M1 : (m + l) mod 64 = 0) by (clear - E F R0 Hr Hr64 Hl2; symmetry; apply (N.mod_unique _ _ (N.succ q)); lia).
      rewrite Q1, M1. cbn [N.eqb app].
      rewrite N2Nat.inj_succ, chunks_from_S. f_equal.
      * rewrite N.pow_0_r, N.div_1_r. f_equal. f_equal. lia.
      * replace (0 + 64) with (l + r) by lia. now rewrite chunks_step.
    + assert (Q1 : (m + l) / 64 = q) by (clear - E F R0 Hr Hr64 Hl2; symmetry; apply (N.div_unique _ _ _ (l + r)); lia).
      assert (M1 : (m + l) mod 64 = l + r) by (clear - E F R0 Hr Hr64 Hl2; symmetry; apply (N.mod_unique _ _ q); lia).
      rewrite Q1, M1. destruct (N.eqb_spec (l + r) 0); [lia|]. cbn [app].
      f_equal. now rewrite chunks_step.
Qed.

Lemma long_loop_app : forall l, (l = 1 \/ l = 4) ->
  forall s, numeral (2 ^ l) s -> forall k val t, starts (not_digit (2 ^ l)) t ->
  long_loop l (l * k) (long_chunks (l * k) val) (s ++ t)
  = Ok (long_chunks (l * (k + N.of_nat (List.length (numeral_digits s))))
          (fold_left (fun a d => a * 2 ^ l + d) (numeral_digits s) val), t).
Proof.
  intros l Hl.
  assert (H16 : 2 ^ l <= 16) by (destruct Hl; subst l; cbn; lia).
  induction 1 as [|c s Hc Hs IH]; intros k val t Ht.
  - destruct t as [|c t]; cbn [app long_loop starts numeral_digits fold_left List.length] in *;
      [contradiction|].
    apply not_digit_of in Ht; [|lia]. rewrite Ht.
    cbn [N.of_nat]. rewrite N.add_0_r. reflexivity.
  - cbn [app long_loop numeral_digits].
    destruct Hc as [->|(d & Hd & Hdb)].
    + change (digit_of "_") with (-1)%Z.
      assert ((-1 <? Z.of_N (2 ^ l))%Z = true) as -> by (apply Z.ltb_lt; lia).
      change (digit_value "_") with (@None N).
      replace (-1 =? -1)%Z with true by reflexivity. apply IH; auto.
    + rewrite digit_of_spec, Hd.
      assert ((Z.of_N d <? Z.of_N (2 ^ l))%Z = true) as -> by (apply Z.ltb_lt; lia).
      assert ((Z.of_N d =? -1)%Z = false) as -> by (apply Z.eqb_neq; lia).
      rewrite !N2Z.id. cbn [fold_left List.length].
      fold (long_step l (l * k) (long_chunks (l * k) val) d).
      rewrite long_step_chunks by auto.
      replace (l * k + l) with (l * (k + 1)) by lia.
      rewrite IH by auto. do 3 f_equal. lia.
Qed.

Lemma digits_value_bound : forall b ds, 0 < b -> Forall (fun d => d < b) ds ->
  digits_value b ds < b ^ N.of_nat (List.length ds).
Proof.
  intros b ds Hb. unfold digits_value.
  assert (G : forall v k, v < b ^ N.of_nat k -> Forall (fun d => d < b) ds ->
     fold_left (fun a d => a * b + d) ds v < b ^ N.of_nat (k + List.length ds)).
  { induction ds as [|d ds IH]; intros v k Hv Hf; cbn [fold_left List.length].
    - now rewrite Nat.add_0_r.
    - inversion Hf; subst. replace (k + S (List.length ds))%nat with (S k + List.length ds)%nat by lia.
      apply IH; auto. rewrite Nat2N.inj_succ, N.pow_succ_r'.
      assert (v + 1 <= b ^ N.of_nat k) by lia.
      assert (b * (v + 1) <= b * b ^ N.of_nat k) by (apply N.mul_le_mono_l; auto). lia. }
  intros Hf. apply (G 0 O); auto. cbn. lia.
Qed.

Lemma numeral_digits_bound : forall b s, numeral b s -> Forall (fun d => d < b) (numeral_digits s).
Proof.
  induction 1 as [|c s Hc Hs IH]; cbn; auto.
  destruct Hc as [->|(d & Hd & Hb)]; [exact IH|]. rewrite Hd. auto.
Qed.

Definition long_value_chunks (l : N) (s : text) : list N :=
  let v := long_chunks (l * N.of_nat (List.length (numeral_digits s)))
             (numeral_value (2 ^ l) s) in
  match v with
  | [] => [0]
  | _ => v
  end.

Lemma parse_long_app : forall l, (l = 1 \/ l = 4) ->
  forall bl s bl' t, blanks bl -> numeral (2 ^ l) s -> blanks bl' ->
  starts (not_digit (2 ^ l)) t -> starts (fun c => ~ is_blank c) t ->
  exists t', parse_long l (bl ++ s ++ bl' ++ t) = Ok (long_value_chunks l s, t')
             /\ skip_blank t' = Ok t.
Proof.
  intros l Hl bl s bl' t Hbl Hs Hbl' Ht Htb. unfold parse_long, long_value_chunks.
  rewrite skip_blank_app by auto.
  assert (I0 : long_chunks (l * 0) 0 = []) by (rewrite N.mul_0_r; reflexivity).
  destruct s as [|c s].
  - cbn [app]. rewrite skip_blank_to by auto. cbn [obind].
    exists t. split; [|apply skip_blank_stop; auto].
    pose proof (long_loop_app l Hl [] (Forall_nil _) 0 0 t Ht) as L.
    rewrite I0, N.mul_0_r in L. cbn [app] in L. rewrite L.
    cbn [obind]. rewrite N.add_0_l. reflexivity.
  - rewrite skip_blank_stop by (eapply numeral_not_blank; eauto; discriminate).
    cbn [obind]. exists (bl' ++ t). split; [|apply skip_blank_to; auto].
    pose proof (long_loop_app l Hl (c :: s) Hs 0 0 (bl' ++ t)) as L.
    rewrite I0, N.mul_0_r in L. rewrite L
      by (apply starts_blanks; auto using blank_not_digit).
    cbn [obind]. rewrite N.add_0_l. reflexivity.
Qed.

(** * Pieces of a line *)
Definition end_char (c : ascii) : Prop :=
  c = "#"%char \/ c = "013"%char \/ c = "{"%char \/ c = "010"%char.

Definition sep_char (c : ascii) : Prop :=
  end_char c \/ c = "="%char \/ c = "["%char \/ c = "]"%char \/ c = ":"%char
  \/ c = "'"%char \/ c = "034"%char \/ c = ","%char \/ c = "}"%char.

Lemma sep_not_blank : forall c, sep_char c -> ~ is_blank c.
Proof.
  unfold sep_char, end_char, is_blank. intros c H.
  intuition (subst; discriminate).
Qed.
Lemma sep_not_name : forall c, sep_char c -> ~ is_name_char c.
Proof.
  intros c H. rewrite <- ident_char_spec. unfold sep_char, end_char in H.
  intuition (subst; discriminate).
Qed.
Lemma sep_not_digit : forall b c, sep_char c -> not_digit b c.
Proof.
  intros b c H. unfold sep_char, end_char in H.
  split; intuition (subst; discriminate).
Qed.
Lemma blank_not_name : forall c, is_blank c -> ~ is_name_char c.
Proof. intros c H. rewrite <- ident_char_spec. destruct H; subst; discriminate. Qed.

Lemma starts_sep_blank : forall t, starts sep_char t -> starts (fun c => ~ is_blank c) t.
Proof. intros t. apply starts_weaken. exact sep_not_blank. Qed.
Lemma starts_sep_digit : forall b t, starts sep_char t -> starts (not_digit b) t.
Proof. intros b t. apply starts_weaken. exact (sep_not_digit b). Qed.

#[local] Hint Resolve starts_sep_blank starts_sep_digit : fasm.
#[local] Hint Extern 4 (starts sep_char _) => (cbn; unfold sep_char, end_char; auto 15; fail) : fasm.

Definition range_read (r : range) (t : text) : range_res :=
  let hi := numeral_value 10 (r_hi r) mod 2 ^ 16 in
  let lo := match r_lo r with
            | None => hi
            | Some (_, lo, _) => numeral_value 10 lo mod 2 ^ 16
            end in
  if hi <? lo then RangeInverted t else RangeOk hi lo t.

Lemma parse_range_app : forall r t, range_shape r ->
  parse_range (range_text r ++ t) = Ok (range_read r t).
Proof.
  intros r t (H0 & Hh & H1 & Hl). unfold parse_range, range_text, range_read.
  destruct r as [b0 hi b1 lo]. cbn [r_b0 r_hi r_b1 r_lo] in *.
  change (tx "[") with ["["%char]. rewrite <- !app_assoc.
  cbn [app peek obind tl]. change (ch_is "[" "[") with true. cbv iota.
  assert (NB : forall u, starts sep_char u ->
     exists t', parse_number 10 (2 ^ 16) 0 (b0 ++ hi ++ b1 ++ u)
                = Ok (numeral_value 10 hi mod 2 ^ 16, t') /\ skip_blank t' = Ok u).
  { intros u Hu. apply (parse_number_app 10 (2 ^ 16)); auto with fasm; discriminate. }
  destruct lo as [[[b lo] b']|].
  - destruct Hl as (Hb & Hlo & Hb').
    change (tx ":") with [":"%char]. rewrite <- !app_assoc. cbn [app].
    destruct (NB (":"%char :: b ++ lo ++ b' ++ tx "]" ++ t)) as (t1 & -> & E1);
      [auto with fasm|].
    cbn [obind]. rewrite E1. cbn [obind peek tl]. change (ch_is ":" ":") with true. cbv iota.
    destruct (parse_number_app 10 (2 ^ 16) ltac:(discriminate) ltac:(discriminate)
                b lo b' (tx "]" ++ t)) as (t2 & E2 & E3); auto with fasm.
    change (Z.of_N 10) with 10%Z in E2. rewrite E2. cbn [obind]. rewrite E3.
    cbn -[N.modulo N.pow N.ltb]. destruct (_ <? _); reflexivity.
  - destruct (NB (tx "]" ++ t)) as (t1 & E0 & E1); [auto with fasm|].
    cbn [app]. rewrite E0. cbn [obind]. rewrite E1. cbn -[N.modulo N.pow N.ltb].
    rewrite N.ltb_irrefl. reflexivity.
Qed.

Lemma ch_is_false : forall c d, c <> d -> ch_is c d = false.
Proof. intros. unfold ch_is. now apply Ascii.eqb_neq. Qed.

Lemma parse_range_none : forall t, starts (fun c => c <> "["%char) t ->
  parse_range t = Ok (RangeOk 0 0 t).
Proof.
  intros [|c t]; [contradiction|]. cbn. intros H. now rewrite ch_is_false by auto.
Qed.

(** The vector, the clamped width and the severity of an assignment of good
    shape. *)
Definition assign_bits (a : option (text * rhs)) : list N :=
  match a with
  | None => [1]
  | Some (_, Plain d _) => [numeral_value 10 d mod 2 ^ 64]
  | Some (_, Based _ _ _ Hex _ d _) => long_value_chunks 4 d
  | Some (_, Based _ _ _ Bin _ d _) => long_value_chunks 1 d
  | Some (_, Based _ _ _ Oct _ d _) => [numeral_value 8 d mod 2 ^ 64]
  | Some (_, Based _ _ _ Dec _ d _) => [numeral_value 10 d mod 2 ^ 64]
  end.
Definition narrow_only (a : option (text * rhs)) : bool :=
  match a with
  | Some (_, Plain _ _) | Some (_, Based _ _ _ Oct _ _ _)
  | Some (_, Based _ _ _ Dec _ _ _) => true
  | _ => false
  end.
Definition assign_width (width : N) (a : option (text * rhs)) : N :=
  if (64 <? width) && narrow_only a then 64 else width.
Definition assign_raise (max_bit min_bit width : N) (a : option (text * rhs)) : N :=
  match a with
  | None => if min_bit =? max_bit then kSuccess else kInfo
  | Some (_, v) =>
      N.max (match v with
             | Based w _ _ _ _ _ _ =>
                 if width <? numeral_value 10 w mod 2 ^ 64 then kNonCritical else kSuccess
             | _ => kSuccess
             end)
            (if (64 <? width) && narrow_only a then kError else kSuccess)
  end.

Definition assign_text (a : option (text * rhs)) : text :=
  match a with None => [] | Some (b, v) => tx "=" ++ b ++ rhs_text v end.
Definition assign_shape (a : option (text * rhs)) : Prop :=
  match a with None => True | Some (b, v) => blanks b /\ rhs_shape v end.

Lemma p_raise_0 : forall st, p_raise 0 st = st.
Proof. intros [e r]. unfold p_raise; cbn. now rewrite N.max_0_r. Qed.
Lemma p_raise_raise : forall a b st, p_raise a (p_raise b st) = p_raise (N.max b a) st.
Proof. intros a b [e r]. unfold p_raise; cbn. f_equal. lia. Qed.
Lemma p_raise_if : forall (c : bool) r st,
  (if c then p_raise r st else st) = p_raise (if c then r else 0) st.
Proof. intros [] r st; auto. now rewrite p_raise_0. Qed.

Lemma starts_end_sep : forall t, starts end_char t -> starts sep_char t.
Proof. intros t. apply starts_weaken. unfold sep_char. auto. Qed.
#[local] Hint Resolve starts_end_sep : fasm.

(** Optional decimal number at the start of the right-hand side, then [t]. *)
Lemma opt_number_app : forall d b t, numeral 10 d -> blanks b -> starts sep_char t ->
  exists t',
    (it <- skip_blank (d ++ b ++ t) ;;
     c <- peek it ;;
     (if (digit_of c <=? 9)%Z then parse_number 10 (2 ^ 64) 0 it else Ok (0, it)))
    = Ok (numeral_value 10 d mod 2 ^ 64, t') /\ skip_blank t' = Ok t.
Proof.
  intros d b t Hd Hb Ht.
  destruct d as [|c d].
  - cbn [app]. rewrite skip_blank_to by auto with fasm. cbn [obind].
    exists t. split; [|apply skip_blank_stop; auto with fasm].
    assert (S0 : starts (not_digit 10) t) by auto with fasm.
    destruct t as [|c t]; [contradiction|]. cbn [peek obind starts] in *.
    apply not_digit_of in S0; [|lia].
    assert ((digit_of c <=? 9)%Z = false) as ->; [|reflexivity].
    apply Z.leb_gt. apply Z.ltb_ge in S0. lia.
  - rewrite skip_blank_stop by (eapply numeral_not_blank; eauto; discriminate).
    cbn [app obind peek].
    assert ((digit_of c <=? 9)%Z = true) as ->.
    { inversion Hd as [|? ? [->|(x & Hx & Hlt)] Hr]; subst; [reflexivity|].
      rewrite digit_of_spec, Hx. apply Z.leb_le. lia. }
    exact (parse_number_app 10 (2 ^ 64) ltac:(discriminate) ltac:(discriminate)
             [] (c :: d) b t ltac:(constructor) Hd Hb ltac:(auto with fasm) ltac:(auto with fasm)).
Qed.

Lemma obind_assoc : forall A B C (o : outcome A) (f : A -> outcome B) (g : B -> outcome C),
  obind (obind o f) g = obind o (fun a => obind (f a) g).
Proof. intros A B C [] f g; reflexivity. Qed.

Lemma parse_based_app : forall r b3 d b4 t,
  blanks b3 -> numeral (radix_value r) d -> blanks b4 -> starts end_char t ->
  exists t', parse_based (radix_char r) (b3 ++ d ++ b4 ++ t)
             = Ok (assign_bits (Some ([], Based [] [] [] r b3 d b4)), false, t')
             /\ skip_blank t' = Ok t.
Proof.
  intros r b3 d b4 t H3 Hd H4 Ht. unfold parse_based.
  destruct r; cbn [radix_char radix_value assign_bits] in *.
  - destruct (parse_long_app 4 ltac:(auto) b3 d b4 t) as (t' & E & S0); auto with fasm.
    exists t'. change (ch_is "h" "h") with true. cbv iota. now rewrite E.
  - destruct (parse_long_app 1 ltac:(auto) b3 d b4 t) as (t' & E & S0); auto with fasm.
    exists t'. change (ch_is "b" "h") with false. change (ch_is "b" "b") with true.
    cbv iota. now rewrite E.
  - destruct (parse_number_app 8 (2 ^ 64) ltac:(discriminate) ltac:(discriminate)
                b3 d b4 t) as (t' & E & S0); auto with fasm.
    exists t'. change (ch_is "o" "h") with false. change (ch_is "o" "b") with false.
    change (ch_is "o" "o") with true. cbv iota.
    change (Z.of_N 8) with 8%Z in E. now rewrite E.
  - destruct (parse_number_app 10 (2 ^ 64) ltac:(discriminate) ltac:(discriminate)
                b3 d b4 t) as (t' & E & S0); auto with fasm.
    exists t'. change (ch_is "d" "h") with false. change (ch_is "d" "b") with false.
    change (ch_is "d" "o") with false. change (ch_is "d" "d") with true. cbv iota.
    change (Z.of_N 10) with 10%Z in E. now rewrite E.
Qed.

Lemma parse_assign_app : forall a mx mn width st t,
  assign_shape a -> starts end_char t ->
  parse_assign mx mn width st (assign_text a ++ t)
  = Ok (assign_bits a, assign_width width a,
        p_raise (assign_raise mx mn width a) st, t).
Proof.
  intros a mx mn width st t Ha Ht.
  destruct a as [[b v]|]; cbn [assign_text assign_shape] in *.
  - destruct Ha as (Hb & Hv). unfold parse_assign.
    change (tx "=") with ["="%char]. rewrite <- !app_assoc. cbn [app peek obind tl].
    change (ch_is "=" "=") with true. cbv iota.
    rewrite skip_blank_app by auto.
    destruct v as [d b'|w b1 b2 r b3 d b4]; cbn [rhs_text rhs_shape] in *.
    + destruct Hv as (Hd & Hb').
      destruct (opt_number_app d b' t Hd Hb') as (t' & E & S0); [auto with fasm|].
      rewrite <- !app_assoc.
      destruct (skip_blank (d ++ b' ++ t)) as [it| | | |] eqn:SB; try discriminate E.
      cbn [obind] in *. destruct (peek it) as [c| | | |]; try discriminate E.
      cbn [obind] in *. rewrite E. cbn [obind]. rewrite S0. cbn [obind].
      destruct t as [|c0 t]; [contradiction|]. cbn [peek obind].
      assert (ch_is c0 ch_tick = false) as ->.
      { apply ch_is_false. cbn in Ht. unfold end_char, ch_tick in *.
        intuition (subst; discriminate). }
      cbn [assign_bits assign_width assign_raise narrow_only].
      unfold assign_width. cbn [narrow_only]. rewrite andb_true_r, N.max_0_l, p_raise_if.
      reflexivity.
    + destruct Hv as (Hw & H1 & H2 & H3 & Hd & H4).
      change (tx "'") with ["'"%char]. rewrite <- !app_assoc. cbn [app].
      set (rest := "'"%char :: b2 ++ radix_char r :: b3 ++ d ++ b4 ++ t).
      destruct (opt_number_app w b1 rest Hw H1) as (t' & E & S0); [subst rest; auto with fasm|].
      destruct (skip_blank (w ++ b1 ++ rest)) as [it| | | |] eqn:SB; try discriminate E.
      cbn [obind] in *. destruct (peek it) as [c| | | |]; try discriminate E.
      cbn [obind] in *. rewrite E. cbn [obind]. rewrite S0. cbn [obind].
      subst rest. cbn [peek obind tl].
      change (ch_is "'" ch_tick) with true. cbv iota.
      rewrite skip_blank_to; [|assumption|].
      2:{ cbn. destruct r; intros [X|X]; discriminate X. }
      cbn [obind peek tl].
      destruct (parse_based_app r b3 d b4 t H3 Hd H4 Ht) as (t'' & E' & S').
      rewrite E'. cbn [obind]. rewrite S'. cbn [obind].
      rewrite !p_raise_if, p_raise_raise.
      unfold assign_width, assign_raise.
      assert (NO : (ch_is (radix_char r) "d" || ch_is (radix_char r) "o")
                   = narrow_only (Some (b, Based w b1 b2 r b3 d b4))) by (destruct r; reflexivity).
      rewrite NO. destruct r; reflexivity.
  - unfold parse_assign. cbn [app]. destruct t as [|c t]; [contradiction|].
    cbn [peek obind].
    assert (ch_is c "=" = false) as ->.
    { apply ch_is_false. cbn in Ht. unfold end_char in *. intuition (subst; discriminate). }
    cbn [assign_bits assign_raise]. unfold assign_width. cbn [narrow_only].
    rewrite andb_false_r.
    destruct (mn =? mx); [now rewrite p_raise_0|reflexivity].
Qed.

(** * Reporting *)
Lemma clamp_mask_ok : forall sm w, 1 <= w <= 64 -> clamp_mask sm w = Ok (N.ones w).
Proof.
  intros sm w Hw. unfold clamp_mask.
  assert (E : (64 + 2 ^ 32 - w) mod 2 ^ 32 = 64 - w).
  { replace (64 + 2 ^ 32 - w) with ((64 - w) + 1 * 2 ^ 32) by lia.
    rewrite N.mod_add by apply pow2_nz. apply N.mod_small. lia. }
  rewrite E.
  assert (M : N.shiftr (N.ones 64) (64 - w) = N.ones w).
  { rewrite N.shiftr_div_pow2, N.ones_div_pow2 by lia. f_equal. lia. }
  destruct sm.
  - assert (64 - w <? 64 = true) as -> by (apply N.ltb_lt; lia). now rewrite M.
  - rewrite (N.mod_small (64 - w)) by lia. now rewrite M.
Qed.

Definition p_emits (l : list event) (st : pstate) : pstate :=
  {| p_events := p_events st ++ l; p_result := p_result st |}.

Lemma p_emits_nil : forall st, p_emits [] st = st.
Proof. intros [e r]. unfold p_emits; cbn. now rewrite app_nil_r. Qed.
Lemma p_emits_emits : forall a b st, p_emits b (p_emits a st) = p_emits (a ++ b) st.
Proof. intros. unfold p_emits; cbn. now rewrite app_assoc. Qed.
Lemma p_emit_emits : forall e st, p_emit e st = p_emits [e] st.
Proof. reflexivity. Qed.
Lemma p_emits_raise : forall r l st, p_emits l (p_raise r st) = p_raise r (p_emits l st).
Proof. reflexivity. Qed.

Lemma mod_mod_pow2 : forall v a b, a <= b -> (v mod 2 ^ b) mod 2 ^ a = v mod 2 ^ a.
Proof.
  intros v a b H.
  rewrite (N.div_mod v (2 ^ b) (pow2_nz b)) at 2.
  replace (2 ^ b) with (2 ^ (b - a) * 2 ^ a) at 2
    by (rewrite <- N.pow_add_r; f_equal; lia).
  replace (2 ^ (b - a) * 2 ^ a * (v / 2 ^ b) + v mod 2 ^ b)
    with (v mod 2 ^ b + (2 ^ (b - a) * (v / 2 ^ b)) * 2 ^ a) by ring.
  now rewrite N.mod_add by apply pow2_nz.
Qed.

Lemma report_chunks : forall sm cb line name mn width value k,
  agrees cb -> mn < 2 ^ 16 -> width <= 2 ^ 16 ->
  64 * (N.of_nat k) < width -> width <= 64 * N.of_nat (S k) ->
  forall j st, (j <= S k)%nat ->
  report sm cb line name mn width (N.of_nat (S k)) (N.of_nat (S k - j))
    (map (fun i => (value / 2 ^ (64 * N.of_nat i)) mod 2 ^ 64) (seq (S k - j) j)) st
  = Ok (p_emits (map (fun i => chunk_event line name mn width value (N.of_nat i))
                   (seq (S k - j) j)) st).
Proof.
  intros sm cb line name mn width value k Hcb Hmn Hw16 Hlo Hhi.
  induction j as [|j IH]; intros st Hj; cbn [seq map report].
  - now rewrite p_emits_nil.
  - set (c := (S k - S j)%nat).
    assert (HC : (c <= k)%nat) by (unfold c; lia).
    assert (HN : N.of_nat c + 1 = N.of_nat (S k - j)) by (unfold c; lia).
    assert (HS : S c = (S k - j)%nat) by (unfold c; lia).
    assert (W : (if N.of_nat c =? N.of_nat (S k) - 1
             then u32 (u64 (width + 2 ^ 64 - u64 (64 * (N.of_nat (S k) - 1))))
             else 64) = N.min 64 (width - 64 * N.of_nat c)).
    { destruct (N.eqb_spec (N.of_nat c) (N.of_nat (S k) - 1)) as [EQ|NE].
      - rewrite <- EQ. unfold u64 at 2.
        rewrite (N.mod_small (64 * N.of_nat c)) by (change (2 ^ 64) with 18446744073709551616; change (2 ^ 16) with 65536 in *; lia).
        unfold u64. replace (width + 2 ^ 64 - 64 * N.of_nat c)
          with ((width - 64 * N.of_nat c) + 1 * 2 ^ 64) by lia.
        rewrite N.mod_add by apply pow2_nz.
        change (2 ^ 64) with 18446744073709551616; change (2 ^ 16) with 65536 in *.
        rewrite N.mod_small by lia.
        unfold u32. change (2 ^ 32) with 4294967296. rewrite N.mod_small by lia. lia.
      - lia. }
    rewrite W. set (w := N.min 64 (width - 64 * N.of_nat c)) in *.
    assert (Hw : 1 <= w <= 64) by (unfold w; lia).
    rewrite clamp_mask_ok by exact Hw. cbn [obind].
    rewrite Hcb.
    assert (V : N.land ((value / 2 ^ (64 * N.of_nat c)) mod 2 ^ 64) (N.ones w)
                = (value / 2 ^ (64 * N.of_nat c)) mod 2 ^ w).
    { rewrite N.land_ones. apply mod_mod_pow2. lia. }
    rewrite V.
    assert (SB : u32 (mn + u32 (N.of_nat c * 64)) = mn + 64 * N.of_nat c).
    { unfold u32. change (2 ^ 32) with 4294967296; change (2 ^ 16) with 65536 in *.
      rewrite (N.mod_small (N.of_nat c * 64)) by lia. rewrite N.mod_small by lia. lia. }
    rewrite SB, HN, HS, p_emit_emits.
    rewrite IH by lia. rewrite p_emits_emits. reflexivity.
Qed.

Lemma chunk_count_pos : forall width, 1 <= width ->
  exists k, chunk_count width = N.of_nat (S k)
            /\ 64 * N.of_nat k < width /\ width <= 64 * N.of_nat (S k).
Proof.
  intros width Hw. unfold chunk_count.
  pose proof (N.div_mod (width + 63) 64 ltac:(lia)) as E.
  pose proof (N.mod_lt (width + 63) 64 ltac:(lia)) as L.
  set (q := (width + 63) / 64) in *. set (m := (width + 63) mod 64) in *.
  clearbody q m. exists (N.to_nat (q - 1)). lia.
Qed.

Lemma report_value : forall sm cb line name mn width value st,
  agrees cb -> mn < 2 ^ 16 -> 1 <= width <= 2 ^ 16 ->
  let bits := chunks_from 0 (N.to_nat (chunk_count width)) value in
  report sm cb line name mn width (N.of_nat (List.length bits)) 0 bits st
  = Ok (p_emits (value_events line name mn width value) st).
Proof.
  intros sm cb line name mn width value st Hcb Hmn Hw bits.
  destruct (chunk_count_pos width) as (k & Ek & Hlo & Hhi); [lia|].
  assert (EB : bits = map (fun i => (value / 2 ^ (64 * N.of_nat i)) mod 2 ^ 64)
                        (seq (S k - S k) (S k))).
  { unfold bits, chunks_from. rewrite Ek, Nat2N.id, Nat.sub_diag. reflexivity. }
  assert (LB : List.length bits = S k) by (rewrite EB, map_length, seq_length; reflexivity).
  rewrite LB, EB. unfold value_events. rewrite Ek, Nat2N.id.
  pose proof (report_chunks sm cb line name mn width value k Hcb Hmn (proj2 Hw) Hlo Hhi
                (S k) st (le_n _)) as R.
  rewrite Nat.sub_diag in R |- *. exact R.
Qed.

(** In-range values give exactly the chunks of the value. *)
Lemma chunks_from_0 : forall k v, chunks_from 0 k v
  = map (fun i => (v / 2 ^ (64 * N.of_nat i)) mod 2 ^ 64) (seq 0 k).
Proof. reflexivity. Qed.

Lemma chunks_one : forall v, v < 2 ^ 64 -> chunks_from 0 1 v = [v].
Proof.
  intros v Hv. rewrite chunks_from_S. cbn [chunks_from seq map].
  rewrite N.pow_0_r, N.div_1_r, N.mod_small by auto. reflexivity.
Qed.

Lemma chunk_count_narrow : forall w, 1 <= w <= 64 -> chunk_count w = 1.
Proof.
  intros w Hw. unfold chunk_count. symmetry.
  apply (N.div_unique (w + 63) 64 1 (w - 1)); lia.
Qed.

Lemma long_value_in_range : forall l width d, (l = 1 \/ l = 4) -> 1 <= width ->
  numeral (2 ^ l) d ->
  (let bits := l * N.of_nat (List.length (numeral_digits d)) in
   if width <=? 64 then bits <= 64 else bits = 64 * chunk_count width) ->
  long_value_chunks l d
  = chunks_from 0 (N.to_nat (chunk_count width)) (numeral_value (2 ^ l) d).
Proof.
  intros l width d Hl Hw Hd HR.
  assert (B : numeral_value (2 ^ l) d < 2 ^ (l * N.of_nat (List.length (numeral_digits d)))).
  { rewrite N.pow_mul_r. apply digits_value_bound;
      [destruct Hl; subst l; reflexivity | now apply numeral_digits_bound]. }
  unfold long_value_chunks. set (v := numeral_value (2 ^ l) d) in *. clearbody v.
  set (bits := l * N.of_nat (List.length (numeral_digits d))) in *. clearbody bits.
  cbv zeta in HR. unfold long_chunks. cbv zeta.
  destruct (N.leb_spec width 64) as [Hn|Hn].
  - rewrite chunk_count_narrow by lia. change (N.to_nat 1) with 1%nat.
    rewrite chunks_one.
    2:{ eapply N.lt_le_trans; [exact B|]. apply N.pow_le_mono_r; lia. }
    destruct (N.eq_dec bits 64) as [->|N64].
    + change (64 mod 64) with 0. change (64 / 64) with 1. cbn [N.eqb app].
      change (N.to_nat 1) with 1%nat. now rewrite chunks_one.
    + rewrite N.mod_small by lia. rewrite N.div_small by lia.
      cbn [N.to_nat chunks_from seq map]. rewrite app_nil_r.
      destruct (N.eqb_spec bits 0) as [->|NZ].
      * rewrite N.pow_0_r in B. replace v with 0 by lia. reflexivity.
      * rewrite N.mod_small by auto. reflexivity.
  - rewrite HR. rewrite N.mul_comm, N.mod_mul, N.div_mul by lia. cbn [N.eqb app].
    destruct (chunk_count_pos width) as (k & Ek & _); [lia|].
    rewrite Ek, Nat2N.id. rewrite chunks_from_S. reflexivity.
Qed.

Lemma assign_bits_in_range : forall f, feature_shape f -> feature_in_range f ->
  assign_bits (f_assign f)
  = chunks_from 0 (N.to_nat (chunk_count (feature_width f))) (feature_value f).
Proof.
  intros f (_ & _ & _ & _ & _ & Ha) (Hhi & Hle & Hr).
  unfold feature_value.
  assert (W1 : 1 <= feature_width f) by (unfold feature_width; lia).
  destruct (f_assign f) as [[b v]|].
  - destruct v as [d b'|w b1 b2 r b3 d b4]; cbn [rhs_in_range assign_bits rhs_shape] in *.
    + destruct Hr as (Hv & Hw). rewrite chunk_count_narrow by lia.
      change (N.to_nat 1) with 1%nat. rewrite chunks_one by auto.
      now rewrite N.mod_small by auto.
    + destruct Ha as (_ & _ & _ & _ & _ & Hd & _). destruct Hr as (_ & Hr).
      destruct r; cbn [radix_value radix_bits assign_bits] in *.
      * apply (long_value_in_range 4); auto.
      * apply (long_value_in_range 1); auto.
      * destruct Hr as (Hv & Hw). rewrite chunk_count_narrow by lia.
        change (N.to_nat 1) with 1%nat. rewrite chunks_one by auto.
        now rewrite N.mod_small by auto.
      * destruct Hr as (Hv & Hw). rewrite chunk_count_narrow by lia.
        change (N.to_nat 1) with 1%nat. rewrite chunks_one by auto.
        now rewrite N.mod_small by auto.
  - rewrite chunk_count_narrow by lia. change (N.to_nat 1) with 1%nat.
    rewrite chunks_one by reflexivity. reflexivity.
Qed.

Lemma assign_width_in_range : forall f, feature_in_range f ->
  assign_width (feature_width f) (f_assign f) = feature_width f.
Proof.
  intros f (_ & _ & Hr). unfold assign_width.
  destruct (N.ltb_spec 64 (feature_width f)); [|reflexivity].
  destruct (f_assign f) as [[b v]|]; [|reflexivity].
  destruct v as [d b'|w b1 b2 r b3 d b4]; cbn [rhs_in_range narrow_only] in *; [lia|].
  destruct r; cbn; auto; lia.
Qed.

(** * Annotations *)
Lemma scan_value_app : forall v prev t, quotable prev v ->
  scan_value prev (v ++ dquote ++ t) = Ok (v, dquote ++ t).
Proof.
  induction v as [|c v IH]; intros prev t H; cbn [app quotable] in *.
  - cbn [scan_value dquote app]. change (ch_is "034" ch_nl) with false. cbv iota.
    change (ch_is "034" ch_quote) with true. cbn [andb].
    rewrite ch_is_false by exact H. reflexivity.
  - destruct H as (Hn & Hq & Hv). cbn [scan_value].
    rewrite ch_is_false by exact Hn. cbv iota.
    assert (ch_is c ch_quote && negb (ch_is prev ch_backslash) = false) as ->.
    { unfold ch_is. destruct (Ascii.eqb_spec c ch_quote); [|reflexivity].
      rewrite (Hq e). reflexivity. }
    rewrite IH by auto. reflexivity.
Qed.

Definition annots_text (l : list annotation) : text :=
  concat (map (fun x => tx "," ++ annotation_text x) l).

Lemma name_app : forall b0 n b1 t,
  blanks b0 -> Forall is_name_char n -> blanks b1 -> starts sep_char t ->
  exists it1 it2, skip_blank (b0 ++ n ++ b1 ++ t) = Ok it1
    /\ read_ident it1 = Ok (n, it2) /\ skip_blank it2 = Ok t.
Proof.
  intros b0 n b1 t H0 Hn H1 Ht.
  destruct n as [|c n].
  - exists t, t. cbn [app]. rewrite skip_blank_app by auto.
    rewrite skip_blank_to by auto with fasm.
    split; [reflexivity|]. split.
    + apply (read_ident_app [] t); auto. eapply starts_weaken; [|exact Ht]. exact sep_not_name.
    + apply skip_blank_stop; auto with fasm.
  - exists (c :: n ++ b1 ++ t), (b1 ++ t). repeat split.
    + rewrite skip_blank_to; auto. cbn. intros B. apply blank_not_name in B.
      apply B. now inversion Hn.
    + apply (read_ident_app (c :: n)); auto.
      apply starts_blanks; auto using blank_not_name.
      eapply starts_weaken; [|exact Ht]. exact sep_not_name.
    + apply skip_blank_to; auto with fasm.
Qed.

Lemma annotation_step : forall fuel line name st c0 a c t,
  annotation_shape a -> sep_char c ->
  annotations (S fuel) line name st (c0 :: annotation_text a ++ c :: t)
  = let st' := p_emits [annotation_event line name a] st in
    if ch_is c "," then annotations fuel line name st' (c :: t) else Ok (st', c :: t).
Proof.
  intros fuel line name st c0 a c t (H0 & Hn & H1 & H2 & Hq & H3) Hc.
  cbn [annotations tl]. unfold annotation_text. rewrite <- !app_assoc.
  change (tx "=") with ["="%char]. cbn [app].
  destruct (name_app (a_b0 a) (a_name a) (a_b1 a)
             ("="%char :: a_b2 a ++ dquote ++ a_value a ++ dquote ++ a_b3 a ++ c :: t))
    as (i1 & i2 & E1 & E2 & E3); auto with fasm.
  rewrite E1. cbn [obind]. rewrite E2. cbn [obind]. rewrite E3. cbn [obind peek tl].
  change (ch_is "=" "=") with true. cbn [negb].
  rewrite skip_blank_to; [|assumption|].
  2:{ cbn. intros [X|X]; discriminate X. }
  cbn [obind peek dquote app tl]. change (ch_is "034" ch_quote) with true. cbn [negb].
  pose proof (scan_value_app (a_value a) "034"%char (a_b3 a ++ c :: t) Hq) as SV.
  cbn [dquote app] in SV. change ch_quote with "034"%char. rewrite SV.
  cbn [obind peek tl]. change (ch_is "034" ch_nl) with false. cbv iota.
  rewrite skip_blank_to; [|assumption|].
  2:{ cbn. now apply sep_not_blank. }
  cbn [obind peek]. reflexivity.
Qed.

Lemma annotations_app : forall line name l a fuel st c0 t,
  Forall annotation_shape (a :: l) -> (List.length l < fuel)%nat ->
  annotations fuel line name st (c0 :: annotation_text a ++ annots_text l ++ tx "}" ++ t)
  = Ok (p_emits (map (annotation_event line name) (a :: l)) st, tx "}" ++ t).
Proof.
  intros line name. induction l as [|a' l IH]; intros a fuel st c0 t HF Hfuel;
    (destruct fuel as [|fuel]; [cbn in Hfuel; lia|]);
    inversion HF as [|? ? Ha HF']; subst.
  - cbn [annots_text map concat app]. change (tx "}") with ["}"%char]. cbn [app].
    rewrite annotation_step; [reflexivity|assumption|unfold sep_char; auto 15].
  - change (annots_text (a' :: l)) with (tx "," ++ annotation_text a' ++ annots_text l).
    change (tx ",") with [","%char]. cbn [app].
    rewrite annotation_step; [|assumption|unfold sep_char; auto 15].
    cbv zeta. change (ch_is "," ",") with true. cbv iota.
    rewrite <- app_assoc. rewrite IH; [|assumption|cbn in Hfuel; lia].
    now rewrite p_emits_emits.
Qed.

Lemma annots_length : forall l, (List.length l <= List.length (annots_text l))%nat.
Proof.
  induction l as [|a l IH]; [cbn; lia|].
  change (annots_text (a :: l)) with (tx "," ++ annotation_text a ++ annots_text l).
  rewrite !app_length. cbn [List.length tx list_ascii_of_string]. lia.
Qed.

Definition ending_events (line : N) (name : text) (e : ending) : list event :=
  match e with
  | EndAnnot a l _ => map (annotation_event line name) (a :: l)
  | _ => []
  end.

Lemma ending_starts : forall e t, starts end_char (ending_text e ++ newline ++ t).
Proof. intros [|s|s|a l j] t; cbn; unfold end_char; auto. Qed.

Lemma no_newline_eol : forall s t, no_newline s ->
  skip_to_eol (s ++ newline ++ t) = Ok (newline ++ t).
Proof. intros. now rewrite skip_to_eol_app by auto. Qed.

Lemma blanks_no_newline : forall b, blanks b -> no_newline b.
Proof. intros b. apply Forall_impl. intros c [->| ->]; discriminate. Qed.

Lemma parse_ending : forall line name st e t, ending_shape e ->
  ('(st, it) <- parse_annotations true line name st (ending_text e ++ newline ++ t) ;;
   parse_eol st it)
  = Ok (p_emits (ending_events line name e) st, t).
Proof.
  intros line name st e t He.
  destruct e as [|s|s|a l j]; cbn [ending_text ending_shape ending_events] in *.
  - cbn. now rewrite p_emits_nil.
  - rewrite p_emits_nil. cbn [tx list_ascii_of_string app].
    unfold parse_annotations. cbn [peek obind]. change (ch_is "#" "{") with false. cbv iota.
    cbn [obind]. unfold parse_eol. cbn [peek obind].
    change (ch_is "#" "#" || ch_is "#" ch_cr) with true. cbv iota.
    change ("#"%char :: s ++ newline ++ t) with (("#"%char :: s) ++ newline ++ t).
    rewrite no_newline_eol by (constructor; [discriminate|assumption]). reflexivity.
  - rewrite p_emits_nil. cbn [app].
    unfold parse_annotations. cbn [peek obind]. change (ch_is "013" "{") with false. cbv iota.
    cbn [obind]. unfold parse_eol. cbn [peek obind].
    change (ch_is "013" "#" || ch_is "013" ch_cr) with true. cbv iota.
    change ("013"%char :: s ++ newline ++ t) with (("013"%char :: s) ++ newline ++ t).
    rewrite no_newline_eol by (constructor; [discriminate|assumption]). reflexivity.
  - destruct He as (HF & Hj). unfold parse_annotations.
    fold (annots_text l). change (tx "{") with ["{"%char]. rewrite <- !app_assoc. cbn [app].
    cbn [peek obind]. change (ch_is "{" "{") with true. cbv iota.
    rewrite annotations_app; [|assumption|].
    2:{ cbn [List.length]. rewrite !app_length. pose proof (annots_length l). lia. }
    cbn [obind]. change (tx "}") with ["}"%char]. cbn [app peek obind].
    change (ch_is "}" "}") with true. cbv iota. cbn [obind].
    change ("}"%char :: j ++ newline ++ t) with (("}"%char :: j) ++ newline ++ t).
    rewrite no_newline_eol by (constructor; [discriminate|assumption]). reflexivity.
Qed.

(** * A line *)
Lemma assign_starts : forall a t, starts end_char t ->
  starts sep_char (assign_text a ++ t).
Proof.
  intros [[b v]|] t Ht; cbn [assign_text]; [|cbn; auto with fasm].
  cbn. unfold sep_char. auto.
Qed.

Definition range_opt_text (r : option range) : text :=
  match r with None => [] | Some r => range_text r end.

Lemma range_opt_starts : forall r t, starts sep_char t ->
  starts sep_char (range_opt_text r ++ t).
Proof. intros [r|] t Ht; cbn; auto. unfold sep_char. auto. Qed.

Lemma feature_width_bound : forall f, feature_in_range f ->
  1 <= feature_width f <= 2 ^ 16 /\ range_lo f < 2 ^ 16.
Proof.
  intros f (Hhi & Hle & _). unfold feature_width. lia.
Qed.

Lemma assign_raise_in_range : forall f, feature_in_range f ->
  assign_raise (range_hi f) (range_lo f) (feature_width f) (f_assign f)
  = item_severity {| i_b0 := []; i_feature := Some f; i_end := EndNone |}.
Proof.
  intros f (_ & _ & Hr). unfold item_severity, assign_raise. cbn [i_feature].
  destruct (f_assign f) as [[b v]|]; [|reflexivity].
  destruct v as [d b'|w b1 b2 r b3 d b4]; cbn [rhs_in_range narrow_only] in *.
  - rewrite andb_true_r. destruct (N.ltb_spec 64 (feature_width f)); [lia|reflexivity].
  - destruct Hr as (Hw & Hr). rewrite (N.mod_small (numeral_value 10 w)) by auto.
    assert (((64 <? feature_width f) && match r with Oct | Dec => true | _ => false end) = false) as NE.
    { destruct r; rewrite ?andb_false_r; auto; rewrite andb_true_r; apply N.ltb_ge; tauto. }
    replace (narrow_only (Some (b, Based w b1 b2 r b3 d b4)))
      with (match r with Oct | Dec => true | _ => false end) by (destruct r; reflexivity).
    cbn [narrow_only]. rewrite NE. now rewrite N.max_0_r.
Qed.

Lemma item_severity_feature : forall i f, i_feature i = Some f ->
  item_severity i = item_severity {| i_b0 := []; i_feature := Some f; i_end := EndNone |}.
Proof. intros i f E. unfold item_severity. now rewrite E. Qed.

Theorem parse_item : forall sm cb line st i t, agrees cb ->
  item_shape i -> item_in_range i ->
  parse_line sm cb true line st (item_text i ++ t)
  = Ok (p_raise (item_severity i) (p_emits (item_events line i) st), t).
Proof.
  intros sm cb line st i t Hcb (H0 & Hf & He) Hr.
  unfold parse_line, item_text, item_events, item_in_range in *.
  rewrite <- !app_assoc.
  pose proof (ending_starts (i_end i) t) as Hend.
  destruct (i_feature i) as [f|] eqn:EF.
  - destruct Hf as (Hne & Hn & H1 & Hrg & H2 & Ha).
    assert (HS : feature_shape f) by (repeat split; auto).
    pose proof (feature_width_bound f Hr) as [Hwb Hlo].
    unfold feature_text. rewrite <- !app_assoc.
    fold (range_opt_text (f_range f)). fold (assign_text (f_assign f)).
    set (tail := ending_text (i_end i) ++ newline ++ t) in *.
    assert (HT : starts sep_char (assign_text (f_assign f) ++ tail)) by now apply assign_starts.
    (* the name, then the range, with the blanks between *)
    assert (HRG : exists it1 it2 it3, skip_blank (i_b0 i ++ f_name f ++ f_b1 f
                     ++ range_opt_text (f_range f) ++ f_b2 f ++ assign_text (f_assign f) ++ tail) = Ok it1
              /\ read_ident it1 = Ok (f_name f, it2) /\ skip_blank it2 = Ok it3
              /\ exists it4, parse_range it3 = Ok (RangeOk (range_hi f) (range_lo f) it4)
                 /\ skip_blank it4 = Ok (assign_text (f_assign f) ++ tail)).
    { destruct Hr as (Hhi & Hle & _). unfold range_hi, range_lo in *.
      destruct (f_range f) as [r|].
      - destruct (name_app (i_b0 i) (f_name f) (f_b1 f)
             (range_text r ++ f_b2 f ++ assign_text (f_assign f) ++ tail))
          as (i1 & i2 & E1 & E2 & E3); auto with fasm.
        exists i1, i2. eexists. split; [exact E1|]. split; [exact E2|]. split; [exact E3|].
        rewrite parse_range_app by exact Hrg. unfold range_read.
        exists (f_b2 f ++ assign_text (f_assign f) ++ tail).
        split; [|apply skip_blank_to; auto with fasm].
        rewrite (N.mod_small (numeral_value 10 (r_hi r))) by auto.
        destruct (r_lo r) as [[[b lo] b']|].
        + rewrite (N.mod_small (numeral_value 10 lo)) by lia.
          assert (numeral_value 10 (r_hi r) <? numeral_value 10 lo = false) as -> by (apply N.ltb_ge; auto).
          reflexivity.
        + rewrite N.ltb_irrefl. reflexivity.
      - cbn [range_opt_text app].
        assert (HB : blanks (f_b1 f ++ f_b2 f)) by (apply Forall_app; auto).
        destruct (name_app (i_b0 i) (f_name f) (f_b1 f ++ f_b2 f)
             (assign_text (f_assign f) ++ tail))
          as (i1 & i2 & E1 & E2 & E3); auto with fasm.
        rewrite <- app_assoc in E1.
        exists i1, i2. eexists. split; [exact E1|]. split; [exact E2|]. split; [exact E3|].
        exists (assign_text (f_assign f) ++ tail).
        split; [|apply skip_blank_stop; auto with fasm].
        apply parse_range_none.
        destruct (f_assign f) as [[b v]|]; cbn [assign_text app].
        + cbn. discriminate.
        + eapply starts_weaken; [|exact Hend].
          unfold end_char. intros c Hc ->. intuition discriminate. }
    destruct HRG as (it1 & it2 & it3 & E1 & E2 & E3 & it4 & E4 & E5).
    match goal with |- obind (skip_blank ?x) _ = _ =>
      assert (E1' : skip_blank x = Ok it1) by exact E1; rewrite E1' end. cbn [obind]. rewrite E2. cbn [obind]. rewrite E3. cbn [obind].
    destruct (f_name f) as [|n0 ns] eqn:EN; [contradiction|]. rewrite <- EN in *.
    rewrite E4. cbn [obind]. rewrite E5. cbn [obind]. cbv zeta.
    assert (UW : u32 (range_hi f - range_lo f + 1) = feature_width f).
    { unfold u32, feature_width in *. apply N.mod_small.
      change (2 ^ 32) with 4294967296; change (2 ^ 16) with 65536 in *. lia. }
    rewrite UW. rewrite parse_assign_app by auto. cbn [obind].
    rewrite assign_width_in_range by auto.
    rewrite assign_bits_in_range by auto.
    rewrite report_value by (try assumption).
    cbn [obind]. subst tail. rewrite parse_ending by exact He.
    rewrite assign_raise_in_range by exact Hr.
    rewrite (item_severity_feature i f EF).
    rewrite p_emits_raise, p_emits_raise, p_emits_emits.
    unfold feature_events, ending_events, item_name. rewrite EF. reflexivity.
  - cbn [app].
    destruct (name_app (i_b0 i) [] [] (ending_text (i_end i) ++ newline ++ t))
      as (i1 & i2 & E1 & E2 & E3); auto with fasm; try constructor.
    cbn [app] in E1. rewrite E1. cbn [obind]. rewrite E2. cbn [obind]. rewrite E3. cbn [obind].
    rewrite parse_ending by exact He. unfold item_severity, item_name. rewrite EF.
    rewrite p_raise_0. reflexivity.
Qed.
