(** The FASM parser on arbitrary texts: extension (what follows a completely
    parsed text does not matter), termination, locality of lines, undefined
    behaviour, and the shape of accepted lines. *)
From Verif Require Import Base BaseFacts Fasm FasmSpec FasmFacts.

Local Notation "x <- e ;; f" := (obind e (fun x => f))
  (at level 61, e at next level, right associativity).
Local Notation "' p <- e ;; f" := (obind e (fun p => f))
  (at level 61, p pattern, e at next level, right associativity).

Lemma obind_inv : forall A B (o : outcome A) (f : A -> outcome B) b,
  obind o f = Ok b -> exists a, o = Ok a /\ f a = Ok b.
Proof. intros A B [] f b H; try discriminate. eauto. Qed.

Ltac binv H :=
  let a := fresh "v" in let E := fresh "E" in
  apply obind_inv in H; destruct H as (a & E & H).

Tactic Notation "bind" hyp(H) "as" simple_intropattern(p) ident(E) :=
  apply obind_inv in H; destruct H as (p & E & H).

Ltac cg := try solve [congruence]; match goal with H : Ok _ = Ok _ |- _ => inversion H; subst; clear H; cg end || reflexivity.

Lemma peek_inv : forall it c, peek it = Ok c -> it = c :: tl it.
Proof. intros [|d it] c H; [discriminate|]. cbn in *. congruence. Qed.

(** * Extension: a successful scan is not influenced by what follows. *)
Lemma peek_ext : forall it c t, peek it = Ok c -> peek (it ++ t) = Ok c.
Proof. intros [|d it] c t H; [discriminate|]. exact H. Qed.

Lemma skip_blank_ext : forall it r t, skip_blank it = Ok r -> skip_blank (it ++ t) = Ok (r ++ t).
Proof.
  induction it as [|c it IH]; cbn [skip_blank app]; intros r t H; [discriminate|].
  destruct (ch_is c " " || ch_is c ch_tab); auto. inversion H; subst. reflexivity.
Qed.
Lemma skip_to_eol_ext : forall it r t, skip_to_eol it = Ok r -> skip_to_eol (it ++ t) = Ok (r ++ t).
Proof.
  induction it as [|c it IH]; cbn [skip_to_eol app]; intros r t H; [discriminate|].
  destruct (ch_is c ch_nl); auto. inversion H; subst. reflexivity.
Qed.
Lemma read_ident_ext : forall it n r t, read_ident it = Ok (n, r) -> read_ident (it ++ t) = Ok (n, r ++ t).
Proof.
  induction it as [|c it IH]; cbn [read_ident app]; intros n r t H; [discriminate|].
  destruct (ident_char c).
  - binv H. destruct v as [n' r']. rewrite (IH _ _ t E). cbn [obind] in *. cg.
  - inversion H; subst. reflexivity.
Qed.
Lemma number_loop_ext : forall b w it v x r t, number_loop b w v it = Ok (x, r) ->
  number_loop b w v (it ++ t) = Ok (x, r ++ t).
Proof.
  intros b w. induction it as [|c it IH]; cbn [number_loop app]; intros v x r t H; [discriminate|].
  destruct (digit_of c <? b)%Z; [destruct (digit_of c =? -1)%Z; auto|].
  inversion H; subst. reflexivity.
Qed.
Lemma parse_number_ext : forall b w v it x r t, parse_number b w v it = Ok (x, r) ->
  parse_number b w v (it ++ t) = Ok (x, r ++ t).
Proof.
  unfold parse_number. intros. binv H. rewrite (skip_blank_ext _ _ t E). cbn [obind].
  now apply number_loop_ext.
Qed.
Lemma long_loop_ext : forall l it n v x r t, long_loop l n v it = Ok (x, r) ->
  long_loop l n v (it ++ t) = Ok (x, r ++ t).
Proof.
  intros l. induction it as [|c it IH]; cbn [long_loop app]; intros n v x r t H; [discriminate|].
  destruct (digit_of c <? Z.of_N (2 ^ l))%Z; [destruct (digit_of c =? -1)%Z; auto|].
  inversion H; subst. reflexivity.
Qed.
Lemma parse_long_ext : forall l it x r t, parse_long l it = Ok (x, r) ->
  parse_long l (it ++ t) = Ok (x, r ++ t).
Proof.
  unfold parse_long. intros. binv H. rewrite (skip_blank_ext _ _ t E). cbn [obind].
  binv H. destruct v0 as [v0 r0]. rewrite (long_loop_ext _ _ _ _ _ _ t E0). cbn [obind] in *.
  inversion H; subst. reflexivity.
Qed.
Lemma scan_value_ext : forall it p v r t, scan_value p it = Ok (v, r) ->
  scan_value p (it ++ t) = Ok (v, r ++ t).
Proof.
  induction it as [|c it IH]; cbn [scan_value app]; intros p v r t H; [discriminate|].
  destruct (ch_is c ch_nl); [inversion H; subst; reflexivity|].
  destruct (ch_is c ch_quote && _); [inversion H; subst; reflexivity|].
  binv H. destruct v0 as [v0 r0]. rewrite (IH _ _ _ t E). cbn [obind] in *. cg.
Qed.

Definition range_app (r : range_res) (t : text) : range_res :=
  match r with
  | RangeOk a b it => RangeOk a b (it ++ t)
  | RangeErr it => RangeErr (it ++ t)
  | RangeInverted it => RangeInverted (it ++ t)
  end.

(** Steps through a goal [chain (it ++ t) = Ok (.. ++ t)] from the run on [it]. *)
Ltac ext_step H t :=
  match type of H with
  | obind (peek ?it) _ = Ok _ =>
      let c := fresh "c" in let E := fresh "E" in
      apply obind_inv in H; destruct H as (c & E & H);
      pose proof (peek_inv _ _ E);
      rewrite (peek_ext _ _ t E); cbn [obind]
  | obind (skip_blank ?it) _ = Ok _ =>
      let c := fresh "it" in let E := fresh "E" in
      apply obind_inv in H; destruct H as (c & E & H);
      rewrite (skip_blank_ext _ _ t E); cbn [obind]
  | obind (skip_to_eol ?it) _ = Ok _ =>
      let c := fresh "it" in let E := fresh "E" in
      apply obind_inv in H; destruct H as (c & E & H);
      rewrite (skip_to_eol_ext _ _ t E); cbn [obind]
  end.

Lemma tl_app : forall c it (r : text) t, it = c :: r -> tl (it ++ t) = tl it ++ t.
Proof. intros. subst. reflexivity. Qed.

Lemma parse_range_ext : forall it r t, parse_range it = Ok r ->
  parse_range (it ++ t) = Ok (range_app r t).
Proof.
  unfold parse_range. intros it r t H. ext_step H t.
  destruct (ch_is c "[").
  - rewrite (tl_app _ _ _ t H0).
    binv H. destruct v as [mx i1]. rewrite (parse_number_ext _ _ _ _ _ _ t E0). cbn [obind].
    ext_step H t. ext_step H t. binv H. destruct v as [mn i2].
    match goal with |- obind ?a _ = _ => assert (X : a = Ok (mn, i2 ++ t)) end.
    { destruct (ch_is c0 ":").
      - binv E3. destruct v as [a b]. rewrite (tl_app _ _ _ t H1).
        rewrite (parse_number_ext _ _ _ _ _ _ t E4). cbn [obind].
        ext_step E3 t. inversion E3; subst. reflexivity.
      - inversion E3; subst. reflexivity. }
    rewrite X. cbn [obind].
    ext_step H t.
    rewrite (tl_app _ _ _ t H2).
    destruct (negb (ch_is c1 "]")); [inversion H; subst; reflexivity|].
    destruct (mx <? mn); inversion H; subst; reflexivity.
  - inversion H; subst. reflexivity.
Qed.

Lemma parse_based_ext : forall f it v b r t, parse_based f it = Ok (v, b, r) ->
  parse_based f (it ++ t) = Ok (v, b, r ++ t).
Proof.
  unfold parse_based. intros f it v b r t H.
  destruct (ch_is f "h"); [|destruct (ch_is f "b"); [|destruct (ch_is f "o"); [|destruct (ch_is f "d")]]].
  1,2: binv H; destruct v0 as [x y]; rewrite (parse_long_ext _ _ _ _ t E); cbn [obind];
       inversion H; subst; reflexivity.
  1,2: binv H; destruct v0 as [x y]; rewrite (parse_number_ext _ _ _ _ _ _ t E); cbn [obind];
       inversion H; subst; reflexivity.
  ext_step H t. inversion H; subst; reflexivity.
Qed.

Lemma parse_assign_ext : forall mx mn w st it b w' st' r t,
  parse_assign mx mn w st it = Ok (b, w', st', r) ->
  parse_assign mx mn w st (it ++ t) = Ok (b, w', st', r ++ t).
Proof.
  unfold parse_assign. intros mx mn w st it b w' st' r t H. ext_step H t.
  destruct (ch_is c "=").
  - rewrite (tl_app _ _ _ t H0). ext_step H t. ext_step H t.
    binv H. destruct v as [vw i2].
    match goal with |- obind ?a _ = _ => assert (X : a = Ok (vw, i2 ++ t)) end.
    { destruct (digit_of c0 <=? 9)%Z; [now apply parse_number_ext|].
      inversion E2; subst; reflexivity. }
    rewrite X. cbn [obind]. ext_step H t. ext_step H t.
    destruct (ch_is c1 ch_tick).
    + rewrite (tl_app _ _ _ t H2). ext_step H t. cbv zeta in *. ext_step H t.
      rewrite (tl_app _ _ _ t H3).
      binv H. destruct v as [[bs bad] i3]. rewrite (parse_based_ext _ _ _ _ _ t E7). cbn [obind].
      ext_step H t. cg.
    + cg.
  - cg.
Qed.

Lemma annotations_ext : forall fuel line name it st st' r t k, it <> [] ->
  annotations fuel line name st it = Ok (st', r) ->
  annotations (fuel + k) line name st (it ++ t) = Ok (st', r ++ t).
Proof.
  induction fuel as [|fuel IH]; intros line name it st st' r t k Hne H; [discriminate|].
  cbn [annotations Nat.add] in *.
  destruct it as [|c0 it]; [contradiction|]. cbn [app tl] in *.
  ext_step H t. binv H. destruct v as [an i1]. rewrite (read_ident_ext _ _ _ t E0). cbn [obind].
  ext_step H t. ext_step H t. destruct (negb (ch_is c "=")); [cg|].
  rewrite (tl_app _ _ _ t H0). ext_step H t. ext_step H t.
  destruct (negb (ch_is c1 ch_quote)); [cg|].
  rewrite (tl_app _ _ _ t H1).
  binv H. destruct v as [av i2]. rewrite (scan_value_ext _ _ _ _ t E5). cbn [obind].
  ext_step H t. destruct (ch_is c2 ch_nl); [cg|].
  rewrite (tl_app _ _ _ t H2). cbv zeta in *. ext_step H t. ext_step H t.
  destruct (ch_is c3 ","); [|cg].
  apply IH; auto. intros ->. discriminate.
Qed.

Lemma parse_annotations_ext : forall annot line name st it st' r t,
  parse_annotations annot line name st it = Ok (st', r) ->
  parse_annotations annot line name st (it ++ t) = Ok (st', r ++ t).
Proof.
  unfold parse_annotations. intros annot line name st it st' r t H. ext_step H t.
  destruct (ch_is c "{"); [|cg].
  binv H. destruct v as [st1 i1].
  match goal with |- obind ?a _ = _ => assert (X : a = Ok (st1, i1 ++ t)) end.
  { destruct annot; [|cg].
    binv E0. destruct v as [st2 i2].
    assert (NE : it <> []) by (intros ->; discriminate).
    pose proof (annotations_ext _ _ _ _ _ _ _ t (List.length t) NE E1) as A.
    replace (S (List.length it) + List.length t)%nat with (S (List.length (it ++ t))) in A
      by (rewrite app_length; lia).
    rewrite A. cbn [obind]. ext_step E0 t. cg. }
  rewrite X. cbn [obind]. ext_step H t. cg.
Qed.

Lemma parse_eol_ext : forall st it st' r t, parse_eol st it = Ok (st', r) ->
  parse_eol st (it ++ t) = Ok (st', r ++ t).
Proof.
  unfold parse_eol. intros st it st' r t H. ext_step H t.
  binv H.
  match goal with |- obind ?a _ = _ => assert (X : a = Ok (v ++ t)) end.
  { destruct (ch_is c "#" || ch_is c ch_cr); [now apply skip_to_eol_ext|cg]. }
  rewrite X. cbn [obind]. ext_step H t. rewrite (tl_app _ _ _ t H1).
  destruct (ch_is c0 ch_nl); [cg|].
  ext_step H t.
  assert (N : it0 <> []).
  { clear - E2. induction v as [|d v IH]; cbn in E2; [discriminate|].
    destruct (ch_is d ch_nl); [inversion E2; discriminate|auto]. }
  destruct it0 as [|d it0]; [contradiction|]. cbn [app tl] in *. cg.
Qed.

Lemma skip_to_eol_ne : forall it r, skip_to_eol it = Ok r -> exists r', r = ch_nl :: r'.
Proof.
  induction it as [|d v IH]; cbn [skip_to_eol]; intros r E; [discriminate|].
  unfold ch_is in E. destruct (Ascii.eqb_spec d ch_nl); [|auto].
  subst. inversion E. eauto.
Qed.

Lemma parse_line_ext : forall sm cb annot line st it st' r t,
  parse_line sm cb annot line st it = Ok (st', r) ->
  parse_line sm cb annot line st (it ++ t) = Ok (st', r ++ t).
Proof.
  unfold parse_line. intros sm cb annot line st it st' r t H. ext_step H t.
  binv H. destruct v as [name i1]. rewrite (read_ident_ext _ _ _ t E0). cbn [obind].
  ext_step H t. destruct name as [|n0 ns].
  - binv H. destruct v as [st1 i2]. rewrite (parse_annotations_ext _ _ _ _ _ _ _ t E2).
    cbn [obind]. now apply parse_eol_ext.
  - binv H. rewrite (parse_range_ext _ _ t E2). cbn [obind].
    destruct v as [mx mn i2|i2|i2]; cbn [range_app].
    + ext_step H t. cbv zeta in *. binv H. destruct v as [[[bs w] st1] i3].
      rewrite (parse_assign_ext _ _ _ _ _ _ _ _ _ t E4). cbn [obind].
      binv H. rewrite E5. cbn [obind]. binv H. destruct v0 as [st2 i4].
      rewrite (parse_annotations_ext _ _ _ _ _ _ _ t E6). cbn [obind].
      now apply parse_eol_ext.
    + ext_step H t. destruct (skip_to_eol_ne _ _ E3) as (r' & ->). cbn [app tl] in *. cg.
    + ext_step H t. destruct (skip_to_eol_ne _ _ E3) as (r' & ->). cbn [app tl] in *. cg.
Qed.

(** * Lines: nothing outside the line is read *)

(** The rest of a line: no newline but the last, not ended by a tick. *)
Definition line_rest (it : text) : Prop :=
  exists p, it = p ++ newline /\ no_newline p /\ ~ tick_ended p.

Definition shorter (r it : text) : Prop :=
  line_rest r /\ (List.length r <= List.length it)%nat.

Lemma line_rest_ne : forall it, line_rest it -> it <> [].
Proof. intros it (p & -> & _). destruct p; discriminate. Qed.

Lemma line_rest_tl : forall c r, line_rest (c :: r) -> c <> ch_nl -> line_rest r.
Proof.
  intros c r (p & E & N & T) Hc. destruct p as [|d p].
  - cbn in E. inversion E. subst. contradiction Hc. reflexivity.
  - cbn in E. inversion E; subst. exists p. inversion N; subst. repeat split; auto.
    intros (u & b & -> & Hb). apply T. exists (d :: u), b. split; auto.
Qed.

Lemma line_rest_nl : forall r, line_rest (ch_nl :: r) -> r = [].
Proof.
  intros r (p & E & N & T). destruct p as [|d p]; cbn in E; inversion E; subst; auto.
  inversion N as [|? ? X _]; subst. contradiction X. reflexivity.
Qed.

Lemma shorter_refl : forall it, line_rest it -> shorter it it.
Proof. intros. split; auto. Qed.
Lemma shorter_trans : forall a b c, shorter a b -> shorter b c -> shorter a c.
Proof. intros a b c [H1 H2] [H3 H4]. split; auto. lia. Qed.

(** A scanner that goes on over characters other than the newline. *)
Ltac scan_ind it IH :=
  induction it as [|c it IH]; intros;
  [match goal with H : line_rest [] |- _ => destruct (line_rest_ne _ H eq_refl) end|].

Lemma ch_is_true : forall a b, ch_is a b = true -> a = b.
Proof. intros a b. unfold ch_is. apply Ascii.eqb_eq. Qed.

Lemma shorter_cons : forall r c it, shorter r it -> shorter r (c :: it).
Proof. intros r c it [H1 H2]. split; auto. cbn. lia. Qed.

Lemma skip_blank_lin : forall it, line_rest it ->
  exists r, skip_blank it = Ok r /\ shorter r it.
Proof.
  intros it; scan_ind it IH. cbn [skip_blank].
  destruct (ch_is c " " || ch_is c ch_tab) eqn:E.
  - apply orb_true_iff in E.
    destruct IH as (r & E1 & S1); [|eauto using shorter_cons].
    apply (line_rest_tl c); auto.
    intros ->. destruct E as [E|E]; apply ch_is_true in E; discriminate.
  - eexists. split; [reflexivity|]. now apply shorter_refl.
Qed.

Lemma skip_to_eol_lin : forall it, line_rest it ->
  exists r, skip_to_eol it = Ok r /\ shorter r it /\ r = newline.
Proof.
  intros it; scan_ind it IH. cbn [skip_to_eol].
  unfold ch_is. destruct (Ascii.eqb_spec c ch_nl) as [->|N].
  - exists (ch_nl :: it). repeat split; auto. now rewrite (line_rest_nl _ H).
  - destruct IH as (r & E1 & S1 & Er); [now apply (line_rest_tl c)|].
    exists r. repeat split; auto; [apply S1|cbn; destruct S1; lia].
Qed.

Lemma name_char_not_nl : ident_char ch_nl = false.
Proof. reflexivity. Qed.

Lemma read_ident_lin : forall it, line_rest it ->
  exists n r, read_ident it = Ok (n, r) /\ shorter r it.
Proof.
  intros it; scan_ind it IH. cbn [read_ident].
  destruct (ident_char c) eqn:E.
  - destruct IH as (n & r & E1 & S1).
    { apply (line_rest_tl c); auto. intros ->. discriminate. }
    rewrite E1. cbn [obind]. eauto using shorter_cons.
  - do 2 eexists. split; [reflexivity|]. now apply shorter_refl.
Qed.

Lemma digit_not_nl : forall b, (b <= 99)%Z -> (digit_of ch_nl <? b)%Z = false.
Proof. intros. change (digit_of ch_nl) with 99%Z. apply Z.ltb_ge. auto. Qed.

Lemma number_loop_lin : forall b w, (b <= 99)%Z -> forall it v, line_rest it ->
  exists x r, number_loop b w v it = Ok (x, r) /\ shorter r it.
Proof.
  intros b w Hb it; scan_ind it IH. cbn [number_loop].
  destruct (digit_of c <? b)%Z eqn:E.
  - assert (L : line_rest it).
    { apply (line_rest_tl c); auto. intros ->. rewrite digit_not_nl in E by auto. discriminate. }
    destruct (digit_of c =? -1)%Z.
    + destruct (IH v L) as (x & r & E1 & S1). eauto using shorter_cons.
    + destruct (IH ((v * Z.to_N b + Z.to_N (digit_of c)) mod w) L) as (x & r & E1 & S1).
      eauto using shorter_cons.
  - do 2 eexists. split; [reflexivity|]. now apply shorter_refl.
Qed.

Lemma parse_number_lin : forall b w v it, (b <= 99)%Z -> line_rest it ->
  exists x r, parse_number b w v it = Ok (x, r) /\ shorter r it.
Proof.
  intros b w v it Hb H. unfold parse_number.
  destruct (skip_blank_lin it H) as (r & -> & S1). cbn [obind].
  destruct (number_loop_lin b w Hb r v (proj1 S1)) as (x & r' & -> & S2).
  eauto using shorter_trans.
Qed.

Lemma long_loop_lin : forall l, (Z.of_N (2 ^ l) <= 99)%Z -> forall it n v, line_rest it ->
  exists x r, long_loop l n v it = Ok (x, r) /\ shorter r it.
Proof.
  intros l Hl it; scan_ind it IH. cbn [long_loop].
  destruct (digit_of c <? Z.of_N (2 ^ l))%Z eqn:E.
  - assert (L : line_rest it).
    { apply (line_rest_tl c); auto. intros ->. rewrite digit_not_nl in E by auto. discriminate. }
    destruct (digit_of c =? -1)%Z.
    + destruct (IH n v L) as (x & r & E1 & S1). eauto using shorter_cons.
    + cbv zeta.
      match goal with |- context [long_loop l ?a ?b it] =>
        destruct (IH a b L) as (x & r & E1 & S1) end.
      rewrite E1. eauto using shorter_cons.
  - do 2 eexists. split; [reflexivity|]. now apply shorter_refl.
Qed.

Lemma parse_long_lin : forall l it, (Z.of_N (2 ^ l) <= 99)%Z -> line_rest it ->
  exists x r, parse_long l it = Ok (x, r) /\ shorter r it.
Proof.
  intros l it Hl H. unfold parse_long.
  destruct (skip_blank_lin it H) as (r & -> & S1). cbn [obind].
  destruct (long_loop_lin l Hl r 0 [] (proj1 S1)) as (x & r' & -> & S2). cbn [obind].
  eauto using shorter_trans.
Qed.

Lemma scan_value_lin : forall it p, line_rest it ->
  exists v r, scan_value p it = Ok (v, r) /\ shorter r it.
Proof.
  intros it; scan_ind it IH. cbn [scan_value].
  destruct (ch_is c ch_nl) eqn:E1.
  - do 2 eexists. split; [reflexivity|]. now apply shorter_refl.
  - destruct (ch_is c ch_quote && _).
    + do 2 eexists. split; [reflexivity|]. now apply shorter_refl.
    + destruct (IH c) as (v & r & E2 & S2).
      { apply (line_rest_tl c); auto. intros ->. discriminate. }
      rewrite E2. cbn [obind]. eauto using shorter_cons.
Qed.

Lemma peek_lin : forall it, line_rest it -> exists c, peek it = Ok c /\ it = c :: tl it.
Proof.
  intros [|c it] H; [destruct (line_rest_ne _ H eq_refl)|]. exists c. auto.
Qed.

Lemma tl_lin : forall c it, line_rest it -> it = c :: tl it -> c <> ch_nl -> shorter (tl it) it.
Proof.
  intros c it H E N. split.
  - rewrite E in H. now apply (line_rest_tl c).
  - destruct it; cbn; lia.
Qed.

Ltac lpeek it :=
  let c := fresh "c" in let P := fresh "P" in let E := fresh "E" in
  destruct (peek_lin it) as (c & P & E); [solve [eauto]|]; rewrite P; cbn [obind].

Lemma shorter_rest : forall a b, shorter a b -> line_rest a.
Proof. intros a b H; apply H. Qed.
#[local] Hint Resolve shorter_rest : lin.

Definition range_rest (r : range_res) : text :=
  match r with RangeOk _ _ it | RangeErr it | RangeInverted it => it end.

Lemma eqb_ne_nl : forall c d, ch_is c d = true -> d <> ch_nl -> c <> ch_nl.
Proof. intros c d H N ->. apply ch_is_true in H. congruence. Qed.

Lemma parse_range_lin : forall it, line_rest it ->
  exists r, parse_range it = Ok r /\ shorter (range_rest r) it.
Proof.
  intros it H. unfold parse_range.
  destruct (peek_lin it H) as (c & P & E); rewrite P; cbn [obind].
  destruct (ch_is c "[") eqn:C1.
  2:{ eexists. split; [reflexivity|]. now apply shorter_refl. }
  assert (S0 : shorter (tl it) it)
    by (apply (tl_lin c); auto; apply (eqb_ne_nl _ _ C1); discriminate).
  destruct (parse_number_lin 10 (2 ^ 16) 0 (tl it) ltac:(lia) (proj1 S0)) as (mx & i1 & -> & S1).
  cbn [obind].
  destruct (skip_blank_lin i1 (proj1 S1)) as (i2 & -> & S2). cbn [obind].
  destruct (peek_lin i2 (proj1 S2)) as (c2 & -> & E2). cbn [obind].
  assert (X : exists mn i3,
    (if ch_is c2 ":"
     then '(min_bit, it0) <- parse_number 10 (2 ^ 16) 0 (tl i2);;
          it1 <- skip_blank it0;; Ok (min_bit, it1)
     else Ok (mx, i2)) = Ok (mn, i3) /\ shorter i3 i2).
  { destruct (ch_is c2 ":") eqn:C2.
    - assert (S3 : shorter (tl i2) i2)
        by (apply (tl_lin c2); auto; [apply S2|apply (eqb_ne_nl _ _ C2); discriminate]).
      destruct (parse_number_lin 10 (2 ^ 16) 0 (tl i2) ltac:(lia) (proj1 S3)) as (mn & i4 & -> & S4).
      cbn [obind].
      destruct (skip_blank_lin i4 (proj1 S4)) as (i5 & -> & S5). cbn [obind].
      do 2 eexists. split; [reflexivity|]. eauto using shorter_trans.
    - do 2 eexists. split; [reflexivity|]. apply shorter_refl. apply S2. }
  destruct X as (mn & i3 & X & S3).
  match goal with |- context [obind ?a _] => change a with
    (if ch_is c2 ":"
     then '(min_bit, it0) <- parse_number 10 (2 ^ 16) 0 (tl i2);;
          it1 <- skip_blank it0;; Ok (min_bit, it1)
     else Ok (mx, i2)) end.
  rewrite X. cbn [obind].
  destruct (peek_lin i3 (proj1 S3)) as (c3 & -> & E3). cbn [obind].
  assert (S4 : shorter i3 it) by eauto 6 using shorter_trans.
  destruct (ch_is c3 "]") eqn:C3; cbn [negb].
  - assert (S5 : shorter (tl i3) it).
    { eapply shorter_trans; [|exact S4]. apply (tl_lin c3); auto;
      [apply S3|apply (eqb_ne_nl _ _ C3); discriminate]. }
    destruct (mx <? mn); eexists; (split; [reflexivity|]); exact S5.
  - eexists; split; [reflexivity|]. exact S4.
Qed.

Lemma parse_based_lin : forall f it, line_rest it ->
  exists v b r, parse_based f it = Ok (v, b, r) /\ shorter r it.
Proof.
  intros f it H. unfold parse_based.
  destruct (ch_is f "h"); [|destruct (ch_is f "b"); [|destruct (ch_is f "o"); [|destruct (ch_is f "d")]]].
  - destruct (parse_long_lin 4 it ltac:(cbn; lia) H) as (x & r & -> & S1); cbn [obind]; eauto.
  - destruct (parse_long_lin 1 it ltac:(cbn; lia) H) as (x & r & -> & S1); cbn [obind]; eauto.
  - destruct (parse_number_lin 8 (2 ^ 64) 0 it ltac:(lia) H) as (x & r & -> & S1); cbn [obind]; eauto.
  - destruct (parse_number_lin 10 (2 ^ 64) 0 it ltac:(lia) H) as (x & r & -> & S1); cbn [obind]; eauto.
  - destruct (skip_to_eol_lin it H) as (r & -> & S1 & _); cbn [obind]; eauto.
Qed.

Lemma skip_blank_split : forall it r, skip_blank it = Ok r ->
  exists b, it = b ++ r /\ blanks b.
Proof.
  induction it as [|c it IH]; cbn [skip_blank]; intros r H; [discriminate|].
  destruct (ch_is c " " || ch_is c ch_tab) eqn:E.
  - destruct (IH r H) as (b & -> & Hb). exists (c :: b). split; auto.
    constructor; auto. now apply blankb_spec.
  - inversion H; subst. exists []. split; auto. constructor.
Qed.

Lemma tick_not_nl : forall it r, line_rest (ch_tick :: it) -> skip_blank it = Ok r ->
  forall c, peek r = Ok c -> c <> ch_nl.
Proof.
  intros it r (p & E & N & T) SB c P ->.
  apply skip_blank_split in SB. destruct SB as (b & -> & Hb).
  destruct p as [|d p]; [discriminate|]. cbn in E. inversion E; subst.
  apply T. exists [], b. split; auto. cbn. f_equal.
  destruct r as [|c r]; [discriminate|]. cbn in P. inversion P; subst.
  assert (r = []).
  { apply line_rest_nl. exists []. cbn.
    assert (L : forall b' p', b' ++ ch_nl :: r = p' ++ newline -> no_newline p' -> no_newline b' -> r = []).
    { clear. induction b' as [|x b' IH]; intros p' E N1 N2.
      - destruct p' as [|y p']; cbn in E; inversion E; subst; auto.
        inversion N1 as [|? ? X _]; subst. contradiction X. reflexivity.
      - destruct p' as [|y p']; cbn in E; inversion E; subst.
        + inversion N2 as [|? ? X _]; subst. contradiction X. reflexivity.
        + inversion N1; inversion N2; subst. eauto. }
    inversion N; subst.
    rewrite (L b p); auto using blanks_no_newline. 
    repeat split; [constructor|]. intros (u & b0 & X & _). destruct u; discriminate X. }
  subst r. symmetry. apply (app_inv_tail newline). exact H1.
Qed.

Lemma parse_assign_lin : forall mx mn w st it, line_rest it ->
  exists b w' st' r, parse_assign mx mn w st it = Ok (b, w', st', r) /\ shorter r it.
Proof.
  intros mx mn w st it H. unfold parse_assign.
  destruct (peek_lin it H) as (c & -> & E); cbn [obind].
  destruct (ch_is c "=") eqn:C1.
  2:{ do 4 eexists. split; [reflexivity|]. now apply shorter_refl. }
  assert (S0 : shorter (tl it) it)
    by (apply (tl_lin c); auto; apply (eqb_ne_nl _ _ C1); discriminate).
  destruct (skip_blank_lin (tl it) (proj1 S0)) as (i1 & -> & S1). cbn [obind].
  destruct (peek_lin i1 (proj1 S1)) as (c1 & -> & E1). cbn [obind].
  assert (X : exists v i2, (if (digit_of c1 <=? 9)%Z then parse_number 10 (2 ^ 64) 0 i1 else Ok (0, i1))
                           = Ok (v, i2) /\ shorter i2 i1).
  { destruct (digit_of c1 <=? 9)%Z.
    - apply parse_number_lin; [lia|apply S1].
    - do 2 eexists. split; [reflexivity|]. apply shorter_refl, S1. }
  destruct X as (v & i2 & -> & S2). cbn [obind].
  destruct (skip_blank_lin i2 (proj1 S2)) as (i3 & -> & S3). cbn [obind].
  destruct (peek_lin i3 (proj1 S3)) as (c3 & -> & E3). cbn [obind].
  assert (S4 : shorter i3 it) by eauto 6 using shorter_trans.
  destruct (ch_is c3 ch_tick) eqn:C3.
  2:{ do 4 eexists. split; [reflexivity|]. exact S4. }
  assert (S5 : shorter (tl i3) i3)
    by (apply (tl_lin c3); auto; [apply S3|apply (eqb_ne_nl _ _ C3); discriminate]).
  destruct (skip_blank_lin (tl i3) (proj1 S5)) as (i4 & SB & S6). rewrite SB. cbn [obind]. cbv zeta.
  destruct (peek_lin i4 (proj1 S6)) as (c4 & P4 & E4). rewrite P4. cbn [obind].
  assert (N4 : c4 <> ch_nl).
  { apply ch_is_true in C3. subst c3. eapply tick_not_nl; [|exact SB|exact P4].
    rewrite <- E3. apply S3. }
  assert (S7 : shorter (tl i4) i4) by (apply (tl_lin c4); auto; apply S6).
  destruct (parse_based_lin c4 (tl i4) (proj1 S7)) as (bs & bad & i5 & -> & S8). cbn [obind].
  destruct (skip_blank_lin i5 (proj1 S8)) as (i6 & -> & S9). cbn [obind].
  do 4 eexists. split; [reflexivity|]. eauto 10 using shorter_trans.
Qed.

Lemma annotations_lin : forall fuel line name st it,
  line_rest it -> hd ch_nl it <> ch_nl -> (List.length it <= fuel)%nat ->
  exists st' r, annotations fuel line name st it = Ok (st', r) /\ shorter r it.
Proof.
  induction fuel as [|fuel IH]; intros line name st it H Hh Hf.
  - destruct it; [contradiction Hh; reflexivity|cbn in Hf; lia].
  - cbn [annotations].
    destruct it as [|c it]; [contradiction Hh; reflexivity|]. cbn [hd tl] in *.
    assert (S0 : shorter it (c :: it)) by (apply (tl_lin c (c :: it)); auto).
    destruct (skip_blank_lin it (proj1 S0)) as (i1 & -> & S1). cbn [obind].
    destruct (read_ident_lin i1 (proj1 S1)) as (an & i2 & -> & S2). cbn [obind].
    destruct (skip_blank_lin i2 (proj1 S2)) as (i3 & -> & S3). cbn [obind].
    destruct (peek_lin i3 (proj1 S3)) as (c3 & -> & E3). cbn [obind].
    assert (S3' : shorter i3 (c :: it)) by eauto 6 using shorter_trans.
    destruct (ch_is c3 "=") eqn:C3; cbn [negb]; [|eauto].
    assert (S4 : shorter (tl i3) i3)
      by (apply (tl_lin c3); auto; [apply S3|apply (eqb_ne_nl _ _ C3); discriminate]).
    destruct (skip_blank_lin (tl i3) (proj1 S4)) as (i4 & -> & S5). cbn [obind].
    destruct (peek_lin i4 (proj1 S5)) as (c4 & -> & E4). cbn [obind].
    assert (S5' : shorter i4 (c :: it)) by eauto 6 using shorter_trans.
    destruct (ch_is c4 ch_quote) eqn:C4; cbn [negb]; [|eauto].
    assert (S6 : shorter (tl i4) i4)
      by (apply (tl_lin c4); auto; [apply S5|apply (eqb_ne_nl _ _ C4); discriminate]).
    destruct (scan_value_lin (tl i4) ch_quote (proj1 S6)) as (av & i5 & -> & S7). cbn [obind].
    destruct (peek_lin i5 (proj1 S7)) as (c5 & -> & E5). cbn [obind].
    assert (S7' : shorter i5 (c :: it)) by eauto 6 using shorter_trans.
    destruct (ch_is c5 ch_nl) eqn:C5; [eauto|].
    assert (S8 : shorter (tl i5) i5).
    { apply (tl_lin c5); auto; [apply S7|]. intros ->. discriminate. }
    destruct (skip_blank_lin (tl i5) (proj1 S8)) as (i6 & -> & S9). cbn [obind].
    destruct (peek_lin i6 (proj1 S9)) as (c6 & -> & E6). cbn [obind]. cbv zeta.
    assert (S9' : shorter i6 (c :: it)) by eauto 6 using shorter_trans.
    destruct (ch_is c6 ",") eqn:C6; [|eauto].
    assert (L6 : (List.length i6 <= fuel)%nat).
    { destruct S9 as [_ L9]. destruct S7' as [_ L7].
      assert (List.length i5 = S (List.length (tl i5))) by (rewrite E5; reflexivity).
      cbn [List.length] in *. lia. }
    match goal with |- context [annotations fuel line name ?s i6] =>
      destruct (IH line name s i6 (proj1 S9)) as (st' & r & -> & S10) end; auto.
    { rewrite E6. cbn. intros ->. discriminate. }
    eauto using shorter_trans.
Qed.

Lemma parse_annotations_lin : forall annot line name st it, line_rest it ->
  exists st' r, parse_annotations annot line name st it = Ok (st', r) /\ shorter r it.
Proof.
  intros annot line name st it H. unfold parse_annotations.
  destruct (peek_lin it H) as (c & -> & E); cbn [obind].
  destruct (ch_is c "{") eqn:C.
  2:{ do 2 eexists. split; [reflexivity|]. now apply shorter_refl. }
  assert (X : exists st1 i1,
    (if annot
     then '(st1, it1) <- annotations (S (List.length it)) line name st it;;
          c <- peek it1;; Ok (if ch_is c "}" then st1 else p_raise kError st1, it1)
     else Ok (st, it)) = Ok (st1, i1) /\ shorter i1 it).
  { destruct annot.
    - destruct (annotations_lin (S (List.length it)) line name st it H) as (st1 & i1 & -> & S1); auto.
      { rewrite E. cbn. intros ->. discriminate. }
      cbn [obind]. destruct (peek_lin i1 (proj1 S1)) as (c1 & -> & E1). cbn [obind]. eauto.
    - do 2 eexists. split; [reflexivity|]. now apply shorter_refl. }
  destruct X as (st1 & i1 & X & S1).
  match goal with |- context [obind ?a _] => change a with
    (if annot
     then '(st1, it1) <- annotations (S (List.length it)) line name st it;;
          c <- peek it1;; Ok (if ch_is c "}" then st1 else p_raise kError st1, it1)
     else Ok (st, it)) end.
  rewrite X. cbn [obind].
  destruct (skip_to_eol_lin i1 (proj1 S1)) as (r & -> & S2 & _). cbn [obind].
  eauto using shorter_trans.
Qed.

Lemma parse_eol_lin : forall st it, line_rest it -> exists st', parse_eol st it = Ok (st', []).
Proof.
  intros st it H. unfold parse_eol.
  destruct (peek_lin it H) as (c & -> & E); cbn [obind].
  assert (X : exists i1, (if ch_is c "#" || ch_is c ch_cr then skip_to_eol it else Ok it) = Ok i1
                         /\ line_rest i1).
  { destruct (ch_is c "#" || ch_is c ch_cr); [|eauto].
    destruct (skip_to_eol_lin it H) as (r & -> & S2 & _). exists r. split; auto. apply S2. }
  destruct X as (i1 & -> & H1). cbn [obind].
  destruct (peek_lin i1 H1) as (c1 & -> & E1); cbn [obind].
  destruct (ch_is c1 ch_nl) eqn:C1.
  - apply ch_is_true in C1. subst c1. rewrite E1 in H1. apply line_rest_nl in H1.
    rewrite H1. eauto.
  - destruct (skip_to_eol_lin i1 H1) as (r & -> & S2 & ->). cbn. eauto.
Qed.

Lemma report_total : forall sm cb line name mn w tot bs chunk st,
  report sm cb line name mn w tot chunk bs st = UB
  \/ exists st', report sm cb line name mn w tot chunk bs st = Ok st'.
Proof.
  intros sm cb line name mn w tot. induction bs as [|v bs IH]; intros chunk st; cbn [report]; eauto.
  set (vw := if chunk =? tot - 1 then _ else 64). clearbody vw.
  assert (X : clamp_mask sm vw = UB \/ exists m, clamp_mask sm vw = Ok m).
  { unfold clamp_mask. destruct sm; eauto. destruct (_ <? 64); eauto. }
  destruct X as [->|(m & ->)]; cbn [obind]; auto.
  destruct (cb _); eauto.
Qed.

Lemma report_hw : forall cb line name mn w tot bs chunk st,
  exists st', report Hw cb line name mn w tot chunk bs st = Ok st'.
Proof.
  intros cb line name mn w tot. induction bs as [|v bs IH]; intros chunk st; cbn [report]; eauto.
  unfold clamp_mask. cbn [obind]. destruct (cb _); eauto.
Qed.

(** What a line does is independent of what follows it. *)
Theorem parse_line_local : forall sm cb annot line st it, line_rest it ->
  exists L, (forall q, parse_line sm cb annot line st (it ++ q) = omap (fun s => (s, q)) L)
            /\ (L = UB \/ exists st', L = Ok st')
            /\ (sm = Hw -> L <> UB).
Proof.
  intros sm cb annot line st it H. unfold parse_line.
  destruct (skip_blank_lin it H) as (i1 & E1 & S1).
  destruct (read_ident_lin i1 (proj1 S1)) as (name & i2 & E2 & S2).
  destruct (skip_blank_lin i2 (proj1 S2)) as (i3 & E3 & S3).
  assert (HEAD : forall (A : Type) (k : text -> text -> outcome A) q,
    (it <- skip_blank (it ++ q);; '(f, it0) <- read_ident it;; it1 <- skip_blank it0;; k f it1)
    = k name (i3 ++ q)).
  { intros A k q. rewrite (skip_blank_ext _ _ q E1). cbn [obind].
    rewrite (read_ident_ext _ _ _ q E2). cbn [obind].
    rewrite (skip_blank_ext _ _ q E3). reflexivity. }
  destruct name as [|n0 ns].
  - destruct (parse_annotations_lin annot line [] st i3 (proj1 S3)) as (st1 & i4 & E4 & S4).
    destruct (parse_eol_lin st1 i4 (proj1 S4)) as (st2 & E5).
    exists (Ok st2). split; [|split; [eauto|discriminate]].
    intros q. rewrite (skip_blank_ext _ _ q E1). cbn [obind].
    rewrite (read_ident_ext _ _ _ q E2). cbn [obind].
    rewrite (skip_blank_ext _ _ q E3). cbn [obind].
    rewrite (parse_annotations_ext _ _ _ _ _ _ _ q E4). cbn [obind].
    rewrite (parse_eol_ext _ _ _ _ q E5). reflexivity.
  - destruct (parse_range_lin i3 (proj1 S3)) as (rg & E4 & S4).
    destruct rg as [mx mn i4|i4|i4]; cbn [range_rest] in S4.
    + destruct (skip_blank_lin i4 (proj1 S4)) as (i5 & E5 & S5).
      destruct (parse_assign_lin mx mn (u32 (mx - mn + 1)) st i5 (proj1 S5))
        as (bs & w & st1 & i6 & E6 & S6).
      exists (st2 <- report sm cb line (n0 :: ns) mn w (N.of_nat (List.length bs)) 0 bs st1 ;;
              '(st3, it3) <- parse_annotations annot line (n0 :: ns) st2 i6 ;;
              '(st4, _) <- parse_eol st3 it3 ;; Ok st4).
      assert (COMMON : forall st2, exists st4,
        ('(st3, it3) <- parse_annotations annot line (n0 :: ns) st2 i6 ;;
         '(st4, _) <- parse_eol st3 it3 ;; Ok st4) = Ok st4
        /\ forall q, ('(st3, it3) <- parse_annotations annot line (n0 :: ns) st2 (i6 ++ q) ;;
                      parse_eol st3 it3) = Ok (st4, q)).
      { intros st2.
        destruct (parse_annotations_lin annot line (n0 :: ns) st2 i6 (proj1 S6)) as (st3 & i7 & E7 & S7).
        destruct (parse_eol_lin st3 i7 (proj1 S7)) as (st4 & E8).
        exists st4. rewrite E7. cbn [obind]. rewrite E8. split; [reflexivity|]. intros q.
        rewrite (parse_annotations_ext _ _ _ _ _ _ _ q E7). cbn [obind].
        now rewrite (parse_eol_ext _ _ _ _ q E8). }
      split; [|split].
      * intros q. rewrite (skip_blank_ext _ _ q E1). cbn [obind].
        rewrite (read_ident_ext _ _ _ q E2). cbn [obind].
        rewrite (skip_blank_ext _ _ q E3). cbn [obind].
        rewrite (parse_range_ext _ _ q E4). cbn [obind range_app].
        rewrite (skip_blank_ext _ _ q E5). cbn [obind]. cbv zeta.
        rewrite (parse_assign_ext _ _ _ _ _ _ _ _ _ q E6). cbn [obind].
        destruct (report sm cb line (n0 :: ns) mn w (N.of_nat (Datatypes.length bs)) 0 bs st1)
          as [st2| | | |]; cbn [obind]; try reflexivity.
        destruct (COMMON st2) as (st4 & X & Y). rewrite X, Y. reflexivity.
      * destruct (report_total sm cb line (n0 :: ns) mn w (N.of_nat (List.length bs)) bs 0 st1)
          as [->|(st2 & ->)]; cbn [obind]; auto.
        destruct (COMMON st2) as (st4 & X & Y). right. exists st4. exact X.
      * intros ->.
        destruct (report_hw cb line (n0 :: ns) mn w (N.of_nat (List.length bs)) bs 0 st1) as (st2 & ->).
        cbn [obind]. destruct (COMMON st2) as (st4 & X & Y). rewrite X. discriminate.
    + destruct (skip_to_eol_lin i4 (proj1 S4)) as (r & E5 & S5 & ->).
      exists (Ok (p_raise kError st)). split; [|split; [eauto|discriminate]].
      intros q. rewrite (skip_blank_ext _ _ q E1). cbn [obind].
      rewrite (read_ident_ext _ _ _ q E2). cbn [obind].
      rewrite (skip_blank_ext _ _ q E3). cbn [obind].
      rewrite (parse_range_ext _ _ q E4). cbn [obind range_app].
      rewrite (skip_to_eol_ext _ _ q E5). reflexivity.
    + destruct (skip_to_eol_lin i4 (proj1 S4)) as (r & E5 & S5 & ->).
      exists (Ok (p_raise kSkipped st)). split; [|split; [eauto|discriminate]].
      intros q. rewrite (skip_blank_ext _ _ q E1). cbn [obind].
      rewrite (read_ident_ext _ _ _ q E2). cbn [obind].
      rewrite (skip_blank_ext _ _ q E3). cbn [obind].
      rewrite (parse_range_ext _ _ q E4). cbn [obind range_app].
      rewrite (skip_to_eol_ext _ _ q E5). reflexivity.
Qed.
