(** Properties C74 and C75: the textual output. *)
From Verif Require Import Base BaseFacts BitOps Frame FrameFacts Part PartSpec PartFromFacts PartListSpec P_PartList Packet Config Writer Reader ReaderFacts
  PacketFacts WriterFacts ContainerSpec ConfigSpec Encode EncodeSpec EncodeFacts BitOpsFacts Absl Print PrintSpec P_Packet.
From Coq Require Import ZifyBool ZifyN ZifyNat.

(** ** Hexadecimal digits *)
Lemma below_cases (P : N -> Prop) n : (forall k, In k (map N.of_nat (seq 0 n)) -> P k) -> forall k, k < N.of_nat n -> P k.
Proof. intros H k L. apply H. rewrite <- (N2Nat.id k). apply in_map, in_seq. lia. Qed.
Lemma hex_char_digit d : d < 16 -> hex_char true d = digit16 d.
Proof. apply (below_cases (fun d => hex_char true d = digit16 d) 16). cbn [seq map In]. intros k H. repeat (destruct H as [<-|H]; [reflexivity|]). destruct H. Qed.
Definition digit_value (c : ascii) : N :=
  let n := N_of_ascii c in if n <? 65 then n - 48 else if n <? 97 then n - 55 else n - 87.
Lemma digit_value_char up d : d < 16 -> digit_value (hex_char up d) = d.
Proof.
  revert d. apply (below_cases (fun d => digit_value (hex_char up d) = d) 16). cbn [seq map In]. intros k H.
  repeat (destruct H as [<-|H]; [destruct up; reflexivity|]). destruct H.
Qed.
Lemma digit16_inj a b : a < 16 -> b < 16 -> digit16 a = digit16 b -> a = b.
Proof. intros La Lb E. rewrite <- (digit_value_char true a La), <- (digit_value_char true b Lb), !hex_char_digit by assumption. now rewrite E. Qed.

Lemma hex_fuel_acc up : forall fuel n acc, hex_fuel up fuel n acc = hex_fuel up fuel n [] ++ acc.
Proof.
  induction fuel as [|f IH]; intros n acc; cbn [hex_fuel]; [reflexivity|].
  destruct (n <? 16); [reflexivity|]. rewrite IH, (IH _ [_]), <- app_assoc. reflexivity.
Qed.
Lemma pow16_S f : 16 ^ N.of_nat (S f) = 16 * 16 ^ N.of_nat f.
Proof. now rewrite Nat2N.inj_succ, N.pow_succ_r'. Qed.
Lemma hex_fuel_enough up : forall f f' n, n < 16 ^ N.of_nat (S f) -> n < 16 ^ N.of_nat (S f') -> hex_fuel up f n [] = hex_fuel up f' n [].
Proof.
  induction f as [|f IH]; intros [|f'] n L L'; cbn [hex_fuel]; try reflexivity.
  - change (16 ^ N.of_nat 1) with 16 in L. destruct (N.ltb_spec n 16); [reflexivity|lia].
  - change (16 ^ N.of_nat 1) with 16 in L'. destruct (N.ltb_spec n 16); [reflexivity|lia].
  - destruct (N.ltb_spec n 16) as [H|H]; [reflexivity|]. rewrite hex_fuel_acc, (hex_fuel_acc up f'). f_equal.
    rewrite (pow16_S (S f)) in L. rewrite (pow16_S (S f')) in L'.
    apply IH; apply N.div_lt_upper_bound; lia.
Qed.
Lemma hex_text_fuel_ok n : n < 16 ^ N.of_nat (S (N.to_nat (N.log2 n))).
Proof.
  rewrite Nat2N.inj_succ, N2Nat.id. destruct (N.eq_dec n 0) as [->|NZ]; [reflexivity|].
  destruct (N.log2_spec n) as [_ L]; [lia|]. eapply N.lt_le_trans; [exact L|]. apply N.pow_le_mono_l. lia.
Qed.
Lemma hex_text_step up n : hex_text up n = if n <? 16 then [hex_char up n] else hex_text up (n / 16) ++ [hex_char up (n mod 16)].
Proof.
  unfold hex_text. destruct (N.ltb_spec n 16) as [H|H].
  - rewrite (hex_fuel_enough up _ 0); [|apply hex_text_fuel_ok|exact H]. cbn [hex_fuel]. now rewrite N.mod_small.
  - destruct (N.to_nat (N.log2 n)) as [|f] eqn:E.
    + exfalso. pose proof (N.log2_le_mono 16 n H) as X. change (N.log2 16) with 4 in X. lia.
    + cbn [hex_fuel]. destruct (N.ltb_spec n 16) as [H'|_]; [lia|]. rewrite hex_fuel_acc. f_equal.
      apply hex_fuel_enough; [|apply hex_text_fuel_ok].
      pose proof (hex_text_fuel_ok n) as L. rewrite E, (pow16_S (S f)) in L. apply N.div_lt_upper_bound; lia.
Qed.
Fixpoint read_hex (acc : N) (t : text) : N := match t with [] => acc | c :: r => read_hex (16 * acc + digit_value c) r end.
Lemma read_hex_app a : forall acc b, read_hex acc (a ++ b) = read_hex (read_hex acc a) b.
Proof. induction a as [|c a IH]; intros acc b; cbn [read_hex app]; [reflexivity|]. apply IH. Qed.
Lemma read_hex_text up : forall n, read_hex 0 (hex_text up n) = n.
Proof.
  apply (well_founded_induction N.lt_wf_0). intros n IH. rewrite hex_text_step. destruct (N.ltb_spec n 16) as [H|H].
  - cbn [read_hex]. rewrite digit_value_char by exact H. lia.
  - rewrite read_hex_app, IH by (apply N.div_lt; lia). cbn [read_hex].
    rewrite digit_value_char by (apply N.mod_lt; discriminate). pose proof (N.div_mod n 16 ltac:(discriminate)). lia.
Qed.

Fixpoint hexk (k : nat) (n : N) : text := match k with O => [] | S k => hexk k (n / 16) ++ [digit16 (n mod 16)] end.
Lemma hexk_zero k : hexk k 0 = repeat "0"%char k.
Proof.
  induction k as [|k IH]; [reflexivity|]. cbn [hexk]. change (0 / 16) with 0. rewrite IH. change (digit16 (0 mod 16)) with "0"%char.
  clear. induction k as [|k IH]; [reflexivity|]. cbn [repeat app]. now rewrite IH.
Qed.
Lemma pad_snoc k c t d : pad (S k) c (t ++ [d]) = pad k c t ++ [d].
Proof. unfold pad. rewrite app_length. cbn [List.length]. replace (S k - (List.length t + 1))%nat with (k - List.length t)%nat by lia. now rewrite app_assoc. Qed.
Lemma zero_hex_digits : forall k n, n < 16 ^ N.of_nat (S k) -> zero_hex (S k) n = hexk (S k) n.
Proof.
  unfold zero_hex. induction k as [|k IH]; intros n L; rewrite hex_text_step.
  - change (16 ^ N.of_nat 1) with 16 in L. destruct (N.ltb_spec n 16) as [_|X]; [|lia].
    cbn [hexk app]. rewrite N.mod_small, hex_char_digit by exact L. reflexivity.
  - destruct (N.ltb_spec n 16) as [H|H].
    + change [hex_char true n] with ([] ++ [hex_char true n]). rewrite pad_snoc. change (hexk (S (S k)) n) with (hexk (S k) (n / 16) ++ [digit16 (n mod 16)]).
      rewrite N.div_small, hexk_zero, N.mod_small, hex_char_digit by exact H. unfold pad. cbn [List.length]. now rewrite Nat.sub_0_r, app_nil_r.
    + rewrite pad_snoc. change (hexk (S (S k)) n) with (hexk (S k) (n / 16) ++ [digit16 (n mod 16)]).
      rewrite hex_char_digit by (apply N.mod_lt; discriminate). f_equal. apply IH. rewrite pow16_S in L. apply N.div_lt_upper_bound; lia.
Qed.
Lemma zero_hex_2 b : b < 256 -> zero_hex 2 b = two_digits b.
Proof.
  intros L. rewrite (zero_hex_digits 1) by exact L. cbn [hexk app]. unfold two_digits.
  rewrite (N.mod_small (b / 16)) by (apply N.div_lt_upper_bound; lia). reflexivity.
Qed.
Lemma low_byte x : x mod 256 / 16 = x / 16 mod 16 /\ x mod 256 mod 16 = x mod 16.
Proof. change 256 with (16 * 16). rewrite N.mod_mul_r by discriminate. split.
  - rewrite N.mul_comm, N.div_add, N.div_small by (try apply N.mod_lt; discriminate). reflexivity.
  - rewrite N.mul_comm, N.mod_add, N.mod_mod by discriminate. reflexivity.
Qed.
Lemma zero_hex_8 w : w < 2 ^ 32 -> zero_hex 8 w = eight_digits w.
Proof.
  intros L. rewrite (zero_hex_digits 7) by exact L. cbn [hexk app]. unfold eight_digits, two_digits. cbn [app].
  rewrite !(proj1 (low_byte _)), !(proj2 (low_byte _)), !N.div_div by discriminate.
  rewrite (N.mod_small (w / (16 * 16 * 16 * 16 * 16 * 16 * 16))); [reflexivity|].
  apply N.div_lt_upper_bound; [discriminate|exact L].
Qed.
Lemma two_digits_inj a b : a < 256 -> b < 256 -> two_digits a = two_digits b -> a = b.
Proof.
  intros La Lb E. unfold two_digits in E. injection E as E1 E2.
  apply digit16_inj in E1; [|apply N.div_lt_upper_bound; lia..]. apply digit16_inj in E2; [|apply N.mod_lt; discriminate..].
  rewrite (N.div_mod a 16), (N.div_mod b 16) by discriminate. now rewrite E1, E2.
Qed.
Lemma eight_digits_length w : List.length (eight_digits w) = 8%nat.
Proof. reflexivity. Qed.
Lemma eight_digits_inj a b : a < 2 ^ 32 -> b < 2 ^ 32 -> eight_digits a = eight_digits b -> a = b.
Proof.
  intros La Lb E. rewrite <- !zero_hex_8 in E by assumption. unfold zero_hex, pad in E.
  assert (Z : forall k t, read_hex 0 (repeat "0"%char k ++ t) = read_hex 0 t).
  { clear. induction k as [|k IH]; intros t; [reflexivity|]. cbn [repeat app read_hex]. change (16 * 0 + digit_value "0") with 0. apply IH. }
  apply (f_equal (read_hex 0)) in E. now rewrite !Z, !read_hex_text in E.
Qed.

(** ** Searching for a pair of words *)
Section Pair.
  Context (a b : N).
  Lemma occurs_tail {A} p (x : A) l i : occurs p l i -> occurs p (x :: l) (S i).
  Proof. intros (u & v & -> & <-). exists (x :: u), v. auto. Qed.
  Lemma occurs_cons x l i : occurs [a; b] (x :: l) i -> (i = O /\ exists r, x = a /\ l = b :: r) \/ exists j, i = S j /\ occurs [a; b] l j.
  Proof.
    intros ([|y u] & v & E & <-); cbn [app] in E; [left; split; [reflexivity|]; injection E as -> ->; eauto|].
    right. injection E as -> ->. exists (List.length u). split; [reflexivity|]. exists u, v. auto.
  Qed.
  Lemma before_pair_spec : forall l, up_to_first [a; b] l (before_pair a b l).
  Proof.
    induction l as [|x l IH]; [right; split; [reflexivity|intros i ([|] & v & E & _); discriminate E]|].
    destruct l as [|y l].
    - right. split; [reflexivity|]. intros i ([|? [|]] & v & E & _); discriminate E.
    - cbn [before_pair]. destruct (N.eqb_spec x a) as [->|NX]; [destruct (N.eqb_spec y b) as [->|NY]|]; cbn [andb].
      + left. exists l. split; [reflexivity|]. intros; cbn; lia.
      + destruct IH as [(r & E & M)|[E M]].
        * left. exists r. split; [cbn [app]; now rewrite E at 1|]. intros i O. apply occurs_cons in O as [(_ & r' & _ & X)|(j & -> & O)]; [congruence|].
          specialize (M j O). cbn [List.length]. cbn [before_pair] in M. lia.
        * right. split; [f_equal; exact E|]. intros i O. apply occurs_cons in O as [(_ & r' & _ & X)|(j & -> & O)]; [congruence|]. now apply (M j).
      + destruct IH as [(r & E & M)|[E M]].
        * left. exists r. split; [cbn [app]; now rewrite E at 1|]. intros i O. apply occurs_cons in O as [(_ & r' & X & _)|(j & -> & O)]; [congruence|].
          specialize (M j O). cbn [List.length]. cbn [before_pair] in M. lia.
        * right. split; [f_equal; exact E|]. intros i O. apply occurs_cons in O as [(_ & r' & X & _)|(j & -> & O)]; [congruence|]. now apply (M j).
  Qed.
  Lemma from_last_pair_cons x y l : from_last_pair a b (x :: y :: l) =
    match from_last_pair a b (y :: l) with [] => if (x =? a) && (y =? b) then x :: y :: l else [] | s => s end.
  Proof. reflexivity. Qed.
  Lemma from_last_pair_spec : forall l, from_last [a; b] l (from_last_pair a b l).
  Proof.
    induction l as [|x l IH]; [right; split; [reflexivity|intros i ([|] & v & E & _); discriminate E]|].
    destruct l as [|y l].
    - right. split; [reflexivity|]. intros i ([|? [|]] & v & E & _); discriminate E.
    - rewrite from_last_pair_cons. destruct IH as [(h & r & E & E' & M)|[E M]].
      + rewrite E'. cbn [app]. left. exists (x :: h), r. rewrite E' in E. split; [cbn [app]; now rewrite E|]. split; [reflexivity|].
        intros i O. apply occurs_cons in O as [(-> & _)|(j & -> & O)]; cbn [List.length]; [lia|]. specialize (M j O). lia.
      + rewrite E. destruct (N.eqb_spec x a) as [->|NX]; [destruct (N.eqb_spec y b) as [->|NY]|]; cbn [andb].
        * left. exists [], l. split; [reflexivity|]. split; [reflexivity|]. intros i O.
          apply occurs_cons in O as [(-> & _)|(j & -> & O)]; cbn [List.length]; [lia|]. exfalso. now apply (M j).
        * right. split; [reflexivity|]. intros i O. apply occurs_cons in O as [(_ & r' & _ & X)|(j & -> & O)]; [congruence|]. now apply (M j).
        * right. split; [reflexivity|]. intros i O. apply occurs_cons in O as [(_ & r' & X & _)|(j & -> & O)]; [congruence|]. now apply (M j).
  Qed.
  Lemma before_step x y l : x <> a \/ y <> b -> before_pair a b (x :: y :: l) = x :: before_pair a b (y :: l).
  Proof. intros H. change (before_pair a b (x :: y :: l)) with (if (x =? a) && (y =? b) then [] else x :: before_pair a b (y :: l)).
    destruct (N.eqb_spec x a) as [->|_]; [|reflexivity]. destruct (N.eqb_spec y b) as [->|_]; [intuition|reflexivity]. Qed.
  Lemma before_here l : before_pair a b (a :: b :: l) = [].
  Proof. cbn [before_pair]. now rewrite !N.eqb_refl. Qed.
  Lemma none_step x y l : x <> a \/ y <> b -> from_last_pair a b (y :: l) = [] -> from_last_pair a b (x :: y :: l) = [].
  Proof. intros H E. rewrite from_last_pair_cons, E.
    destruct (N.eqb_spec x a) as [->|_]; [|reflexivity]. destruct (N.eqb_spec y b) as [->|_]; [intuition|reflexivity]. Qed.
  Lemma none_app l1 l2 : ~ In a l1 -> from_last_pair a b l2 = [] -> from_last_pair a b (l1 ++ l2) = [].
  Proof.
    induction l1 as [|x l1 IH]; intros N E; [exact E|]. cbn [app]. specialize (IH (fun H => N (or_intror H)) E).
    destruct (l1 ++ l2) as [|y r]; [reflexivity|]. apply none_step; [left; intros ->; apply N; now left|exact IH].
  Qed.
  Lemma last_here l : from_last_pair a b (b :: l) = [] -> from_last_pair a b (a :: b :: l) = a :: b :: l.
  Proof. intros E. rewrite from_last_pair_cons, E, !N.eqb_refl. reflexivity. Qed.
  Lemma last_step x l s : from_last_pair a b l = s -> s <> [] -> from_last_pair a b (x :: l) = s.
  Proof. intros E N. destruct l as [|y l]; [cbn in E; congruence|]. rewrite from_last_pair_cons, E. destruct s; [contradiction|reflexivity]. Qed.
End Pair.

(** ** C74 *)

(** The header that is printed: the bytes up to and with the first sync word, two digits each; nothing
    when there is no sync word. *)
Definition header_line (h : list N) : text :=
  tx "Header bytes:" ++ flat_map (fun b => tx " " ++ two_digits b) h ++ [ascii_of_N 10].
Definition sync : list N := [0xAA; 0x99; 0x55; 0x66].

Theorem C74_header :
  forall bs, Forall (fun b => b < 256) bs ->
  (exists h r, bs = h ++ sync ++ r /\ (forall i, occurs sync bs i -> (List.length h <= i)%nat) /\
     print_header bs = header_line (h ++ sync)) \/
  ((forall i, ~ occurs sync bs i) /\ print_header bs = []).
Proof.
  intros bs F. unfold print_header. destruct (after_sync bs) as [rest|] eqn:E.
  - left. destruct (after_sync_some _ _ E) as (pre & Eb & M). exists pre, rest. split; [exact Eb|]. split.
    + intros i (u & v & Eu & <-). exact (M u v Eu).
    + unfold header_line. f_equal. f_equal.
      replace (List.length bs - List.length rest)%nat with (List.length (pre ++ sync)) by (rewrite Eb, !app_length; cbn; lia).
      replace (firstn (List.length (pre ++ sync)) bs) with (pre ++ sync).
      2:{ rewrite Eb, app_assoc. change sync_bytes with sync. now rewrite firstn_app, Nat.sub_diag, firstn_all, app_nil_r. }
      assert (F' : Forall (fun b => b < 256) (pre ++ sync)) by (rewrite Eb, app_assoc in F; apply Forall_app in F as [F _]; exact F).
      induction F' as [|x l Lx F' IH]; [reflexivity|]. cbn [flat_map]. now rewrite zero_hex_2, IH.
  - right. split; [|reflexivity]. intros i (u & v & Eu & _). exact (after_sync_none _ E u v Eu).
Qed.
Print Assumptions C74_header.

(** Two bitstreams with the same printed header have the same header. *)
Lemma header_line_inj h h' : Forall (fun b => b < 256) h -> Forall (fun b => b < 256) h' -> header_line h = header_line h' -> h = h'.
Proof.
  intros F F' E. apply app_inv_head in E. revert h' F' E. induction F as [|x h L F IH]; intros [|y h'] F' E; try reflexivity.
  - exfalso. discriminate E.
  - exfalso. discriminate E.
  - cbn [flat_map] in E. inversion F'; subst. unfold two_digits in E. cbn [app tx] in E.
    injection E as E1 E2 E3. f_equal; [apply two_digits_inj; auto; unfold two_digits; congruence|]. apply IH; assumption.
Qed.
Corollary C74_header_recoverable :
  forall bs bs', Forall (fun b => b < 256) bs -> Forall (fun b => b < 256) bs' -> print_header bs = print_header bs' ->
  forall h r, bs = h ++ sync ++ r -> (forall i, occurs sync bs i -> (List.length h <= i)%nat) ->
  exists r', bs' = h ++ sync ++ r'.
Proof.
  intros bs bs' F F' E h r Eb M.
  destruct (C74_header bs F) as [(h0 & r0 & Eb0 & M0 & P)|[N _]]; [|exfalso; apply (N (List.length h)); exists h, r; auto].
  destruct (C74_header bs' F') as [(h1 & r1 & Eb1 & M1 & P1)|[N1 P1]].
  - rewrite P, P1 in E. apply header_line_inj in E.
    + assert (L : List.length h = List.length h0).
      { specialize (M (List.length h0)). specialize (M0 (List.length h)).
        assert (occurs sync bs (List.length h0)) by (exists h0, r0; auto). assert (occurs sync bs (List.length h)) by (exists h, r; auto).
        intuition lia. }
      exists r1. rewrite Eb1. rewrite Eb0 in Eb. assert (h0 = h) as ->.
      { apply (f_equal (firstn (List.length h))) in Eb. rewrite L in Eb at 1.
        rewrite !firstn_app, !Nat.sub_diag, !firstn_all, !firstn_O, !app_nil_r in Eb. exact Eb. }
      rewrite !app_assoc. now rewrite <- E.
    + rewrite Eb0, app_assoc in F. now apply Forall_app in F as [F _].
    + rewrite Eb1, app_assoc in F'. now apply Forall_app in F' as [F' _].
  - rewrite P, P1 in E. discriminate E.
Qed.
Print Assumptions C74_header_recoverable.

(** The configuration logic data: the words in front of the first WCFG command and those from the last
    NULL command on. *)
Definition word_list (l : list N) : text := flat_map (fun w => tx " " ++ eight_digits w) l.
Theorem C74_logic_data :
  forall ws, Forall (fun w => w < 2 ^ 32) ws ->
  exists p s, up_to_first [0x30008001; 1] ws p /\ from_last [0x30008001; 0] ws s /\
    print_logic_data ws = tx "FPGA configuration logic prefix:" ++ word_list p ++ [ascii_of_N 10] ++
                          tx "FPGA configuration logic suffix:" ++ word_list s ++ [ascii_of_N 10].
Proof.
  intros ws F. exists (before_pair 0x30008001 1 ws), (from_last_pair 0x30008001 0 ws).
  split; [apply before_pair_spec|]. split; [apply from_last_pair_spec|]. unfold print_logic_data.
  assert (G : forall l, Forall (fun w => w < 2 ^ 32) l -> flat_map (fun w => tx " " ++ zero_hex 8 w) l = word_list l).
  { induction 1 as [|x l L F' IH]; [reflexivity|]. cbn [flat_map word_list]. now rewrite zero_hex_8, IH. }
  rewrite !G; [reflexivity| |].
  - destruct (from_last_pair_spec 0x30008001 0 ws) as [(h & r & E & _)|[-> _]]; [|constructor].
    rewrite E in F. now apply Forall_app in F as [_ F].
  - destruct (before_pair_spec 0x30008001 1 ws) as [(r & E & _)|[-> _]]; [|exact F].
    rewrite E in F. now apply Forall_app in F as [F _].
Qed.
Print Assumptions C74_logic_data.

(** In a bitstream of this program the prefix is the fixed prelude, whatever the design. *)
Lemma package_words data p : packets_words (configuration_package data p) =
  prelude (p_idcode p) ++ [0x30008001; 1; 0x20000000; 0x30004000; packet_header (fdri2 data)] ++ data ++ packets_words pkg_after.
Proof.
  rewrite package_split, !packets_words_app.
  assert (B : packets_words (pkg_before p) = prelude (p_idcode p) ++ [0x30008001; 1; 0x20000000]) by reflexivity.
  assert (D : packets_words [fdri1; fdri2 data] = 0x30004000 :: packet_header (fdri2 data) :: data) by (cbn [packets_words flat_map app pk_data fdri1 fdri2]; rewrite app_nil_r; reflexivity).
  rewrite B, D, <- !app_assoc. reflexivity.
Qed.
Lemma before_package data p : before_pair 0x30008001 1 (packets_words (configuration_package data p)) = prelude (p_idcode p).
Proof.
  rewrite package_words. generalize (packet_header (fdri2 data)) (data ++ packets_words pkg_after) (p_idcode p). intros h r id.
  unfold prelude. cbn [app repeat].
  repeat (rewrite before_step by ((left; discriminate) || (right; discriminate)); f_equal).
Qed.
Lemma suffix_package data p : ~ In 0x30008001 data ->
  from_last_pair 0x30008001 0 (packets_words (configuration_package data p)) = skipn 5 (packets_words (configuration_package data p)).
Proof.
  intros NI. rewrite package_words.
  assert (H : packet_header (fdri2 data) <> 0x30008001).
  { intros E. apply (f_equal (fun n => N.testbit n 30)) in E. unfold fdri2, packet_header in E. cbn [pk_type pk_op pk_data] in E.
    change (2 =? 0) with false in E. change (2 =? 1) with false in E. change (2 =? 2) with true in E. cbv iota zeta in E.
    rewrite bit_field_set_testbit in E by (try lia; discriminate). vm_compute in E. discriminate E. }
  assert (R : from_last_pair 0x30008001 0 (data ++ packets_words pkg_after) = []) by (apply none_app; [exact NI|vm_compute; reflexivity]).
  revert H R. generalize (packet_header (fdri2 data)) (data ++ packets_words pkg_after) (p_idcode p). intros h r id H R.
  unfold prelude. cbn [app repeat skipn].
  assert (R1 : from_last_pair 0x30008001 0 (h :: r) = []) by (apply (none_app _ _ [h] r); [intros [X|[]]; congruence|exact R]).
  do 5 (apply last_step; [|discriminate]). apply last_here.
  repeat (apply none_step; [(left; discriminate) || (right; discriminate)|]). exact R1.
Qed.

Theorem C74_own_bitstreams :
  forall dp fd part source date time,
  usable_device dp -> design dp fd ->
  header_text part -> header_text source -> header_text date -> header_text time ->
  exists fuel0, forall fuel, (fuel0 <= fuel)%nat ->
  exists s ws fs, encode fuel dp part source date time fd (file_at_end []) = Ok s /\
    init_with_bytes (st_bytes s) = Ok (Some ws) /\ decode dp (st_bytes s) = Ok (Some fs) /\
    (exists rest, print_logic_data ws =
       tx "FPGA configuration logic prefix:" ++ word_list (prelude (dp_idcode dp)) ++ [ascii_of_N 10] ++ rest) /\
    (~ In 0x30008001 (payload fs) ->
       print_logic_data ws =
       tx "FPGA configuration logic prefix:" ++ word_list (prelude (dp_idcode dp)) ++ [ascii_of_N 10] ++
       tx "FPGA configuration logic suffix:" ++ word_list (skipn 5 ws) ++ [ascii_of_N 10]).
Proof.
  intros dp fd part source date time U D Hp Hs Hd Ht.
  destruct (encode_decode dp fd part source date time U D Hp Hs Hd Ht) as (fuel0 & fs & _ & Hc & _ & _ & _ & Henc).
  exists fuel0. intros fuel Hf. destruct (Henc fuel Hf) as (s & E & _ & B & (ws & Ew & I & _) & Dc). exists s, ws, fs.
  split; [exact E|]. split; [exact I|]. split; [exact Dc|].
  assert (W : Forall (fun w => w < 2 ^ 32) ws).
  { rewrite Ew. apply packets_words_ok, package_words_ok; [apply U|]. apply payload_words. eapply Forall_impl; [|exact Hc]. intros kv [_ H]. exact H. }
  assert (G : forall l, Forall (fun w => w < 2 ^ 32) l -> flat_map (fun w => tx " " ++ zero_hex 8 w) l = word_list l).
  { induction 1 as [|x l L F' IH]; [reflexivity|]. cbn [flat_map word_list]. now rewrite zero_hex_8, IH. }
  unfold print_logic_data.
  assert (P : before_pair 0x30008001 1 ws = prelude (dp_idcode dp)) by (rewrite Ew; apply before_package).
  assert (WP : Forall (fun w => w < 2 ^ 32) (prelude (dp_idcode dp))).
  { destruct (before_pair_spec 0x30008001 1 ws) as [(r & X & _)|[X _]]; rewrite P in X; [|rewrite X; exact W].
    rewrite X in W. now apply Forall_app in W as [W _]. }
  rewrite P, (G _ WP). split; [eexists; reflexivity|]. intros NI.
  rewrite Ew at 1. rewrite suffix_package by exact NI. rewrite <- Ew. rewrite G; [reflexivity|].
  rewrite <- (firstn_skipn 5 ws) in W. now apply Forall_app in W as [_ W].
Qed.
Print Assumptions C74_own_bitstreams.

(** A concrete header, and words with two NULL commands. *)
Example C74_case :
  print_header [0; 9; 0xFF; 0xAA; 0x99; 0x55; 0x66; 0x20] = tx "Header bytes: 00 09 FF AA 99 55 66" ++ [ascii_of_N 10] /\
  print_header [0; 9; 0xFF] = [] /\
  print_logic_data [0x30008001; 0; 5; 0x30008001; 1; 6; 0x30008001; 0; 0xFFFFFFFF] =
    tx "FPGA configuration logic prefix: 30008001 00000000 00000005" ++ [ascii_of_N 10] ++
    tx "FPGA configuration logic suffix: 30008001 00000000 FFFFFFFF" ++ [ascii_of_N 10].
Proof. repeat split. Qed.

(** ** C75 *)

(** The list of frame addresses: eight digits each, in the order of the map, separated by blanks, a
    newline at the end unless there are no frames. *)
Theorem C75_frame_list :
  forall (frames : btmap (list N)), Forall (fun kv => fst kv < 2 ^ 32) frames ->
  print_frame_addresses frames =
    tx "Frame addresses in bitstream: " ++ blank_separated (map (fun kv => eight_digits (fst kv)) frames)
      ++ match frames with [] => [] | _ => [ascii_of_N 10] end.
Proof.
  intros frames F. unfold print_frame_addresses, bt_keys. f_equal.
  induction F as [|kv l L F IH]; [reflexivity|]. cbn [map print_addresses blank_separated]. rewrite zero_hex_8 by exact L.
  rewrite <- app_assoc. f_equal. destruct l as [|kv' l]; [reflexivity|].
  cbn [map] in *. rewrite IH. cbn [blank_separated flat_map]. now rewrite <- !app_assoc.
Qed.
Print Assumptions C75_frame_list.

(** Equal listings list equal addresses. *)
Theorem C75_frame_list_determines_addresses :
  forall (frames frames' : btmap (list N)),
  Forall (fun kv => fst kv < 2 ^ 32) frames -> Forall (fun kv => fst kv < 2 ^ 32) frames' ->
  print_frame_addresses frames = print_frame_addresses frames' -> map fst frames = map fst frames'.
Proof.
  intros fr fr' F F' E. unfold print_frame_addresses in E. apply app_inv_head in E. unfold bt_keys in E.
  revert fr' F' E. induction F as [|kv l L F IH]; intros [|kv' l'] F' E; try reflexivity; inversion F'; subst; cbn [map print_addresses] in *.
  - rewrite zero_hex_8 in E by assumption. discriminate E.
  - rewrite zero_hex_8 in E by assumption. discriminate E.
  - rewrite !zero_hex_8 in E by assumption.
    assert (X : eight_digits (fst kv) = eight_digits (fst kv') /\
       match map fst l with [] => newline | _ => tx " " end ++ print_addresses (map fst l) =
       match map fst l' with [] => newline | _ => tx " " end ++ print_addresses (map fst l')).
    { split; [apply (f_equal (firstn 8)) in E|apply (f_equal (skipn 8)) in E]; exact E. }
    destruct X as [X1 X2]. apply eight_digits_inj in X1; try assumption. f_equal; [exact X1|].
    apply IH; [assumption|]. destruct l as [|u l], l' as [|u' l']; try reflexivity; try discriminate X2.
    cbn [map] in X2. now apply app_inv_head in X2.
Qed.
Print Assumptions C75_frame_list_determines_addresses.

(** For a decoded bitstream of this program: all frames of the device, in increasing order. *)
Theorem C75_own_bitstreams :
  forall dp fd part source date time,
  usable_device dp -> design dp fd ->
  header_text part -> header_text source -> header_text date -> header_text time ->
  exists fuel0 l, StronglySorted N.lt l /\ (forall a, In a l <-> is_frame_address dp a) /\
  forall fuel, (fuel0 <= fuel)%nat ->
  exists s fs, encode fuel dp part source date time fd (file_at_end []) = Ok s /\
    decode dp (st_bytes s) = Ok (Some fs) /\
    print_frame_addresses fs =
      tx "Frame addresses in bitstream: " ++ blank_separated (map eight_digits l) ++ [ascii_of_N 10].
Proof.
  intros dp fd part source date time U D Hp Hs Hd Ht.
  destruct (encode_decode dp fd part source date time U D Hp Hs Hd Ht) as (fuel0 & fs & _ & _ & Hsf & Hk & _ & Henc).
  exists fuel0, (map fst fs). split; [exact Hsf|]. split; [exact Hk|]. intros fuel Hf.
  destruct (Henc fuel Hf) as (s & E & _ & _ & _ & Dc). exists s, fs. split; [exact E|]. split; [exact Dc|].
  destruct U as (PF & _ & F0 & _).
  rewrite C75_frame_list.
  - rewrite map_map. f_equal. f_equal. apply Hk in F0. destruct fs; [destruct F0|reflexivity].
  - apply Forall_forall. intros kv I. apply (in_map fst), Hk, (is_frame_address_lt dp _ PF) in I.
    eapply N.lt_trans; [exact I|]. reflexivity.
Qed.
Print Assumptions C75_own_bitstreams.

(** A printed frame address shows its fields, and no two addresses print alike. *)
Definition block_name (b : N) : text := nth (N.to_nat b) [tx "CLB/IO/CLK"; tx "Block RAM"; tx "Config CLB"; tx "Reserved"] [].
Theorem C75_printed_fields :
  forall a, exists h,
  frame_address_text a =
    tx "[" ++ h ++ tx "] " ++ (if half_field a =? 1 then tx "BOTTOM" else tx "TOP")
    ++ tx " Row=" ++ pad 2 " "%char (dec_text (row_field a)) ++ tx " Column=" ++ pad 2 " "%char (dec_text (column_field a))
    ++ tx " Minor=" ++ pad 2 " "%char (dec_text (minor_field a)) ++ tx " Type=" ++ block_name (block_field a).
Proof.
  intros a. exists (pad 10 " "%char (showbase_hex a)). unfold frame_address_text.
  destruct (fields_spec a) as (Eb & -> & -> & -> & T & F). do 3 f_equal.
  assert (H : fa_is_bottom a = (half_field a =? 1)).
  { destruct (fa_is_bottom a); symmetry; [apply N.eqb_eq; now apply T|apply N.eqb_neq; rewrite (proj1 F eq_refl); discriminate]. }
  rewrite H. do 7 f_equal. rewrite Eb. apply f_equal.
  assert (L : block_field a < 8) by (unfold block_field; apply N.mod_lt; discriminate). revert L. generalize (block_field a).
  apply (below_cases (fun b => block_type_text b = block_name b) 8). cbn [seq map In]. intros k X.
  repeat (destruct X as [<-|X]; [reflexivity|]). destruct X.
Qed.
Print Assumptions C75_printed_fields.

Lemma hexk_length k : forall n, List.length (hexk k n) = k.
Proof. induction k as [|k IH]; intros n; cbn [hexk]; [reflexivity|]. rewrite app_length, IH. cbn. lia. Qed.
Lemma hex_text_length up n : n < 2 ^ 32 -> (List.length (hex_text up n) <= 8)%nat.
Proof.
  intros L. assert (E : List.length (hex_text up n) = List.length (hex_text true n)).
  { clear. revert n. apply (well_founded_induction N.lt_wf_0). intros n IH. rewrite (hex_text_step up n), (hex_text_step true n). destruct (N.ltb_spec n 16); [reflexivity|].
    rewrite !app_length, IH by (apply N.div_lt; lia). reflexivity. }
  rewrite E. pose proof (f_equal (@List.length ascii) (zero_hex_digits 7 n L)) as X. rewrite hexk_length in X.
  unfold zero_hex, pad in X. rewrite app_length, repeat_length in X. lia.
Qed.
Fixpoint drop_blanks (t : text) : text := match t with c :: r => if Ascii.eqb c " " then drop_blanks r else t | [] => [] end.
Theorem C75_printed_address_is_unique :
  forall a b, a < 2 ^ 32 -> b < 2 ^ 32 -> frame_address_text a = frame_address_text b -> a = b.
Proof.
  intros a b La Lb E. unfold frame_address_text in E.
  assert (H : forall n, n < 2 ^ 32 -> List.length (pad 10 " "%char (showbase_hex n)) = 10%nat).
  { intros n L. unfold pad, showbase_hex. rewrite app_length, repeat_length. destruct (n =? 0); [reflexivity|].
    rewrite app_length. pose proof (hex_text_length false n L). cbn [List.length tx list_ascii_of_string]. lia. }
  apply app_inv_head in E. apply (f_equal (firstn 10)) in E. rewrite !firstn_app, !H, !Nat.sub_diag, !firstn_O, !app_nil_r in E by assumption.
  rewrite !firstn_all2 in E by (rewrite H by assumption; lia).
  apply (f_equal drop_blanks) in E.
  assert (Z : forall k n, drop_blanks (repeat " "%char k ++ showbase_hex n) = showbase_hex n).
  { induction k as [|k IH]; intros n; [unfold showbase_hex; cbn [repeat app]; destruct (n =? 0); reflexivity|]. cbn [repeat app drop_blanks]. apply IH. }
  unfold pad in E. rewrite !Z in E. unfold showbase_hex in E.
  destruct (N.eqb_spec a 0) as [->|NA], (N.eqb_spec b 0) as [->|NB]; try reflexivity; try discriminate E.
  apply app_inv_head in E. apply (f_equal (read_hex 0)) in E. now rewrite !read_hex_text in E.
Qed.
Print Assumptions C75_printed_address_is_unique.

(** Registers: the twenty registers of the switch have different names, all other numbers are unknown. *)
Definition named_registers : list N := [0; 1; 2; 3; 4; 5; 6; 7; 8; 9; 10; 11; 12; 13; 14; 16; 17; 22; 24; 31].
Theorem C75_register_names :
  forall r, (In r named_registers -> register_text r <> tx "Unknown" /\ forall q, register_text q = register_text r -> q = r) /\
            (~ In r named_registers -> register_text r = tx "Unknown").
Proof.
  assert (U : forall r, ~ In r named_registers -> register_text r = tx "Unknown").
  { intros r N. unfold register_text. repeat match goal with |- context [r =? ?k] => destruct (N.eqb_spec r k) as [->|_]; [exfalso; apply N; cbn; tauto|] end. reflexivity. }
  intros r. split; [|apply U]. intros I. split.
  - cbn [named_registers In] in I. repeat (destruct I as [<-|I]; [discriminate|]). destruct I.
  - intros q E. destruct (in_dec N.eq_dec q named_registers) as [J|J].
    + assert (D : forallb (fun r => forallb (fun q => negb (text_eqb (register_text q) (register_text r)) || (q =? r)) named_registers) named_registers = true) by (vm_compute; reflexivity).
      rewrite forallb_forall in D. specialize (D r I). rewrite forallb_forall in D. specialize (D q J).
      apply orb_true_iff in D as [D|D]; [|now apply N.eqb_eq]. apply negb_true_iff in D. rewrite E in D.
      assert (X : text_eqb (register_text r) (register_text r) = true) by now apply text_eqb_eq. congruence.
    + exfalso. rewrite (U q J) in E. cbn [named_registers In] in I. repeat (destruct I as [<-|I]; [discriminate E|]). destruct I.
Qed.
Print Assumptions C75_register_names.

(** Each register of the documentation is printed by its name. *)
Theorem C75_register_table :
  forall r name, In (r, name) documented_registers -> register_text r = name.
Proof. intros r name I. cbn [documented_registers In] in I. repeat (destruct I as [E|I]; [injection E as <- <-; reflexivity|]). destruct I. Qed.
Print Assumptions C75_register_table.

Example C75_case :
  frame_address_text 0x42231F = tx "[  0x42231f] BOTTOM Row= 1 Column=70 Minor=31 Type=CLB/IO/CLK" /\
  frame_address_text 0x1000000 = tx "[ 0x1000000] TOP Row= 0 Column= 0 Minor= 0 Type=Config CLB" /\
  print_frame_addresses [(1, [7]); (0x42231F, [8])] = tx "Frame addresses in bitstream: 00000001 0042231F" ++ [ascii_of_N 10].
Proof. repeat split. Qed.
