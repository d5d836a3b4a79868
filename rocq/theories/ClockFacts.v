(** Facts about the clock. *)
From Verif Require Import Base BaseFacts Absl Clock ClockSpec ContainerSpec Assembler Writer WriterFacts.
From Coq Require Import Lia.

(** ** Days *)
Definition era_day (doe : N) : N * N * N :=
  let yoe := (doe - doe / 1460 + doe / 36524 - doe / 146096) / 365 in
  let doy := doe - (365 * yoe + yoe / 4 - yoe / 100) in
  let mp := (5 * doy + 2) / 153 in
  let d := doy - (153 * mp + 2) / 5 + 1 in
  let m := if mp <? 10 then mp + 3 else mp - 9 in
  (yoe + (if m <=? 2 then 1 else 0), m, d).
Definition shift_years (e : N) (x : N * N * N) : N * N * N := let '(y, m, d) := x in (y + e * 400, m, d).
Lemma civil_shift days : civil_day days = shift_years ((days + 719468) / 146097) (era_day ((days + 719468) mod 146097)).
Proof.
  unfold civil_day, era_day, shift_years. generalize ((days + 719468) / 146097) as e, ((days + 719468) mod 146097) as doe. intros e doe.
  f_equal. f_equal. rewrite <- !N.add_assoc. f_equal. apply N.add_comm.
Qed.
Lemma leap_shift y e : leap_year (y + e * 400) = leap_year y.
Proof.
  unfold leap_year.
  assert (A : (y + e * 400) mod 4 = y mod 4) by lia. assert (B : (y + e * 400) mod 100 = y mod 100) by lia. assert (C : (y + e * 400) mod 400 = y mod 400) by lia.
  now rewrite A, B, C.
Qed.
Definition next3 (x : N * N * N) : N * N * N := let '(y, m, d) := x in next_day y m d.
Lemma next_shift e x : next3 (shift_years e x) = shift_years e (next3 x).
Proof.
  destruct x as [[y m] d]. cbn [next3 shift_years]. unfold next_day, days_in_month. rewrite leap_shift.
  destruct (d <? _); [reflexivity|]. destruct (m <? 12); [reflexivity|]. cbn [shift_years]. f_equal. f_equal. lia.
Qed.
Definition eq3 (a b : N * N * N) : bool :=
  let '(y, m, d) := a in let '(y', m', d') := b in (y =? y') && (m =? m') && (d =? d').
Lemma eq3_eq a b : eq3 a b = true -> a = b.
Proof. destruct a as [[? ?] ?], b as [[? ?] ?]. cbn. rewrite !andb_true_iff, !N.eqb_eq. intros [[-> ->] ->]. reflexivity. Qed.
Definition in_year (x : N * N * N) : bool := let '(_, m, d) := x in (1 <=? m) && (m <=? 12) && (1 <=? d) && (d <=? 31).
Definition check_below (test : N -> bool) (k : N) : N * bool := N.iter k (fun s => (fst s + 1, snd s && test (fst s))) (0, true).
Lemma check_below_spec test k : fst (check_below test k) = k /\ (snd (check_below test k) = true -> forall i, i < k -> test i = true).
Proof.
  unfold check_below. induction k as [|k [F S]] using N.peano_ind; [split; [reflexivity|lia]|].
  rewrite N.iter_succ. cbn [fst snd]. rewrite F. split; [lia|]. intros H i I. apply andb_true_iff in H as [H1 H2].
  destruct (N.eq_dec i k) as [->|Q]; [exact H2|]. apply S; [exact H1|lia].
Qed.

(** The years of an era begin in March; [start y] is the first day of year [y]. *)
Definition start (y : N) : N := 365 * y + y / 4 - y / 100.
Definition year_days (y : N) : N := if leap_year (y + 1) then 366 else 365.
Definition year_of (doe : N) : N := (doe - doe / 1460 + doe / 36524 - doe / 146096) / 365.
Definition month_day (doy : N) : N * N * N :=
  let mp := (5 * doy + 2) / 153 in
  let d := doy - (153 * mp + 2) / 5 + 1 in
  let m := if mp <? 10 then mp + 3 else mp - 9 in
  (if m <=? 2 then 1 else 0, m, d).
Definition plus_year (y : N) (x : N * N * N) : N * N * N := let '(b, m, d) := x in (y + b, m, d).
Lemma era_day_split doe : era_day doe = plus_year (year_of doe) (month_day (doe - start (year_of doe))).
Proof. reflexivity. Qed.

Definition year_ok (y : N) : bool :=
  (year_of (start y) =? y) && (year_of (start y + year_days y - 1) =? y) &&
  (if y <? 399 then (start (y + 1) =? start y + year_days y) && (start y + year_days y <=? 145731) else start y + year_days y =? 146097).
Lemma years_checked : snd (check_below year_ok 400) = true.
Proof. vm_compute. reflexivity. Qed.
Lemma year_of_mono a b : a <= b -> b < 146096 -> year_of a <= year_of b.
Proof.
  intros H L. unfold year_of. rewrite (N.div_small a 146096), (N.div_small b 146096) by lia. rewrite !N.sub_0_r. apply N.div_le_mono; [discriminate|].
  assert (A : a - a / 1460 <= b - b / 1460).
  { assert (b / 1460 < a / 1460 + (b - a) + 1).
    { apply N.div_lt_upper_bound; [discriminate|]. pose proof (N.div_mod a 1460 ltac:(discriminate)). pose proof (N.mod_lt a 1460 ltac:(discriminate)). lia. }
    assert (a / 1460 <= a) by (apply N.div_le_upper_bound; lia). lia. }
  assert (B : a / 36524 <= b / 36524) by (apply N.div_le_mono; [discriminate|exact H]). lia.
Qed.
(** A day [doy] of year [y]. *)
Definition placed (doe y doy : N) : Prop := y < 400 /\ doy < year_days y /\ doe = start y + doy.
Lemma placed_facts y : y < 400 -> year_of (start y) = y /\ year_of (start y + year_days y - 1) = y /\
  (y < 399 -> start (y + 1) = start y + year_days y /\ start y + year_days y <= 145731) /\ (y = 399 -> start y + year_days y = 146097).
Proof.
  intros Y. pose proof (proj2 (check_below_spec year_ok 400) years_checked y Y) as X. unfold year_ok in X.
  rewrite !andb_true_iff, !N.eqb_eq in X. destruct X as [[X1 X2] X3]. split; [exact X1|]. split; [exact X2|]. split; intros L.
  - destruct (N.ltb_spec y 399) as [_|Q]; [|lia]. apply andb_true_iff in X3 as [X3 X4]. apply N.eqb_eq in X3. apply N.leb_le in X4. auto.
  - destruct (N.ltb_spec y 399) as [Q|_]; [lia|]. now apply N.eqb_eq in X3.
Qed.
Lemma placed_year doe y doy : placed doe y doy -> year_of doe = y /\ doe - start y = doy.
Proof.
  intros (Y & D & ->). split; [|lia]. destruct (placed_facts y Y) as (X1 & X2 & X3 & X4).
  destruct (N.lt_ge_cases y 399) as [L|L].
  - destruct (X3 L) as [_ B]. pose proof (year_of_mono (start y) (start y + doy) ltac:(lia) ltac:(lia)) as A1. pose proof (year_of_mono (start y + doy) (start y + year_days y - 1) ltac:(lia) ltac:(lia)) as A2.
    rewrite X1 in A1. rewrite X2 in A2. apply N.le_antisymm; assumption.
  - assert (y = 399) as -> by lia. clear X1 X2 X3 X4. change (start 399) with 145731 in *. change (year_days 399) with 366 in *.
    destruct (N.eq_dec doy 365) as [->|Q]; [reflexivity|].
    pose proof (year_of_mono 145731 (145731 + doy) ltac:(lia) ltac:(lia)) as A. pose proof (year_of_mono (145731 + doy) 146095 ltac:(lia) ltac:(lia)) as B.
    change (year_of 145731) with 399 in A. change (year_of 146095) with 399 in B. apply N.le_antisymm; assumption.
Qed.
Lemma days_some y : year_days y = 365 \/ year_days y = 366.
Proof. unfold year_days. destruct (leap_year (y + 1)); auto. Qed.
Lemma placed_next doe y doy : placed doe y doy -> doe < 146096 ->
  (doy + 1 < year_days y /\ placed (doe + 1) y (doy + 1)) \/ (doy + 1 = year_days y /\ y < 399 /\ placed (doe + 1) (y + 1) 0).
Proof.
  intros (Y & D & E) L. destruct (placed_facts y Y) as (_ & _ & X3 & X4).
  destruct (N.eq_dec (doy + 1) (year_days y)) as [Q|Q].
  - right. split; [exact Q|]. destruct (N.lt_ge_cases y 399) as [K|K]; [|assert (y = 399) by lia; specialize (X4 H); lia]. split; [exact K|].
    destruct (X3 K) as [X _]. split; [lia|]. split; [destruct (days_some (y + 1)); lia|lia].
  - left. split; [lia|]. split; [exact Y|]. split; lia.
Qed.
Lemma placed_some doe : doe < 146097 -> exists y doy, placed doe y doy.
Proof.
  induction doe as [|doe IH] using N.peano_ind; intros L; [exists 0, 0; repeat split|].
  destruct IH as (y & doy & P); [lia|]. rewrite <- N.add_1_r. destruct (placed_next _ _ _ P) as [[_ Q]|(_ & _ & Q)]; [lia|eauto|eauto].
Qed.

(** The days of a year, whether February has 28 or 29 days. *)
Definition next_in (leap : bool) (x : N * N * N) : N * N * N :=
  let '(y, m, d) := x in
  if d <? (if m =? 2 then if leap then 29 else 28 else days_in_month 1 m) then (y, m, d + 1) else if m <? 12 then (y, m + 1, 1) else (y + 1, 1, 1).
Definition doy_ok (leap : bool) (doy : N) : bool :=
  eq3 (month_day (doy + 1)) (next_in leap (month_day doy)) && in_year (month_day doy) &&
  (let '(b, m, _) := month_day doy in if m =? 2 then b =? 1 else true).
Lemma common_checked : snd (check_below (doy_ok false) 364) = true.
Proof. vm_compute. reflexivity. Qed.
Lemma leap_checked : snd (check_below (doy_ok true) 365) = true.
Proof. vm_compute. reflexivity. Qed.
Lemma next_in_year y x : (let '(b, m, _) := x in m = 2 -> b = 1) -> next3 (plus_year y x) = plus_year y (next_in (leap_year (y + 1)) x).
Proof.
  destruct x as [[b m] d]. intros H. cbn [plus_year next3]. unfold next_day, next_in.
  assert (E : days_in_month (y + b) m = if m =? 2 then if leap_year (y + 1) then 29 else 28 else days_in_month 1 m).
  { destruct (N.eqb_spec m 2) as [->|Q]; [rewrite (H eq_refl); reflexivity|].
    unfold days_in_month. destruct m as [|[[|[]|]|[|[]|]|]]; try reflexivity; try now elim Q. }
  rewrite E. destruct (d <? _); [reflexivity|]. destruct (m <? 12); [reflexivity|]. cbn [plus_year]. f_equal. f_equal. lia.
Qed.
Lemma february_next doy : doy < 366 -> let '(b, m, _) := month_day doy in m = 2 -> b = 1.
Proof.
  intros L. destruct (month_day doy) as [[b m] d] eqn:E. intros ->. unfold month_day in E. injection E as E1 E2 _. rewrite E2 in E1. now symmetry.
Qed.
Lemma doy_step y doy : doy + 1 < year_days y -> month_day (doy + 1) = next_in (leap_year (y + 1)) (month_day doy).
Proof.
  unfold year_days. intros L. destruct (leap_year (y + 1)).
  - assert (K : doy < 365) by lia. pose proof (proj2 (check_below_spec (doy_ok true) 365) leap_checked doy K) as X. unfold doy_ok in X.
    apply andb_true_iff in X as [X _]. apply andb_true_iff in X as [X _]. now apply eq3_eq.
  - assert (K : doy < 364) by lia. pose proof (proj2 (check_below_spec (doy_ok false) 364) common_checked doy K) as X. unfold doy_ok in X.
    apply andb_true_iff in X as [X _]. apply andb_true_iff in X as [X _]. now apply eq3_eq.
Qed.
Lemma doy_end y doy : doy + 1 = year_days y -> next_in (leap_year (y + 1)) (month_day doy) = (1, 3, 1).
Proof.
  unfold year_days. intros L. destruct (leap_year (y + 1)).
  - assert (doy = 365) as -> by lia. reflexivity.
  - assert (doy = 364) as -> by lia. reflexivity.
Qed.
Lemma era_step doe : doe < 146096 -> era_day (doe + 1) = next3 (era_day doe).
Proof.
  intros H. destruct (placed_some doe) as (y & doy & P); [lia|]. rewrite !era_day_split. destruct (placed_year _ _ _ P) as [-> ->].
  assert (D : doy < 366) by (destruct P as (_ & D & _); destruct (days_some y); lia).
  rewrite next_in_year by now apply february_next.
  destruct (placed_next _ _ _ P H) as [[L Q]|(L & Y & Q)]; destruct (placed_year _ _ _ Q) as [-> ->].
  - now rewrite (doy_step y).
  - rewrite (doy_end y) by exact L. cbn [plus_year]. change (month_day 0) with (0, 3, 1). cbn [plus_year]. f_equal. f_equal. lia.
Qed.
Lemma era_last : shift_years 1 (era_day 0) = next3 (era_day 146096).
Proof. vm_compute. reflexivity. Qed.
Lemma era_in_year doe : doe < 146097 -> in_year (era_day doe) = true.
Proof.
  intros H. destruct (placed_some doe H) as (y & doy & P). rewrite era_day_split. destruct (placed_year _ _ _ P) as [-> ->].
  assert (D : doy < 366) by (destruct P as (_ & D & _); destruct (days_some y); lia).
  assert (X : in_year (month_day doy) = true).
  { destruct (N.eq_dec doy 365) as [->|Q]; [reflexivity|]. assert (K : doy < 365) by lia.
    pose proof (proj2 (check_below_spec (doy_ok true) 365) leap_checked doy K) as X. unfold doy_ok in X. apply andb_true_iff in X as [X _]. now apply andb_true_iff in X. }
  destruct (month_day doy) as [[b m] d]. exact X.
Qed.
Lemma civil_step days : civil_day (days + 1) = next3 (civil_day days).
Proof.
  rewrite !civil_shift. set (z := days + 719468). replace (days + 1 + 719468) with (z + 1) by lia. clearbody z.
  rewrite next_shift. destruct (N.eq_dec (z mod 146097) 146096) as [E|E].
  - assert (A : (z + 1) mod 146097 = 0) by lia. assert (B : (z + 1) / 146097 = z / 146097 + 1) by lia.
    rewrite A, B, E, <- era_last. destruct (era_day 0) as [[y m] d]. cbn [shift_years]. f_equal. f_equal. lia.
  - assert (A : (z + 1) mod 146097 = z mod 146097 + 1) by lia. assert (B : (z + 1) / 146097 = z / 146097) by lia.
    rewrite A, B. f_equal. apply era_step. pose proof (N.mod_lt z 146097). lia.
Qed.
Lemma civil_range days y m d : civil_day days = (y, m, d) -> 1 <= m <= 12 /\ 1 <= d <= 31.
Proof.
  rewrite civil_shift. assert (L : (days + 719468) mod 146097 < 146097) by (apply N.mod_lt; discriminate).
  pose proof (era_in_year _ L) as I. destruct (era_day _) as [[y0 m0] d0]. cbn [shift_years]. intros H. assert (m0 = m /\ d0 = d) as [-> ->] by (split; congruence).
  cbn [in_year] in I. rewrite !andb_true_iff, !N.leb_le in I. lia.
Qed.

(** ** Seconds *)
Definition clock_of (t : N) : instant :=
  let '(y, m, d) := civil_day (t / 86400) in let '(h, mi, s) := day_time t in
  {| i_year := y; i_month := m; i_day := d; i_hour := h; i_minute := mi; i_second := s |}.
Lemma clock_step t : clock_of (t + 1) = tick (clock_of t).
Proof.
  unfold clock_of, day_time. destruct (civil_day (t / 86400)) as [[y m] d] eqn:C.
  assert (SH : forall t', t' / 86400 = t / 86400 -> civil_day (t' / 86400) = (y, m, d)) by (intros t' E; now rewrite E).
  unfold tick. cbn [i_year i_month i_day i_hour i_minute i_second].
  destruct (N.ltb_spec (t mod 60) 59) as [H|H].
  { rewrite SH by lia. replace (((t + 1) mod 86400) / 3600) with ((t mod 86400) / 3600) by lia. replace (((t + 1) mod 3600) / 60) with ((t mod 3600) / 60) by lia.
    replace ((t + 1) mod 60) with (t mod 60 + 1) by lia. reflexivity. }
  destruct (N.ltb_spec ((t mod 3600) / 60) 59) as [H2|H2].
  { rewrite SH by lia. replace (((t + 1) mod 86400) / 3600) with ((t mod 86400) / 3600) by lia. replace (((t + 1) mod 3600) / 60) with ((t mod 3600) / 60 + 1) by lia.
    replace ((t + 1) mod 60) with 0 by lia. reflexivity. }
  destruct (N.ltb_spec ((t mod 86400) / 3600) 23) as [H3|H3].
  { rewrite SH by lia. replace (((t + 1) mod 86400) / 3600) with ((t mod 86400) / 3600 + 1) by lia. replace (((t + 1) mod 3600) / 60) with 0 by lia.
    replace ((t + 1) mod 60) with 0 by lia. reflexivity. }
  replace ((t + 1) / 86400) with (t / 86400 + 1) by lia. rewrite civil_step, C. cbn [next3].
  replace (((t + 1) mod 86400) / 3600) with 0 by lia. replace (((t + 1) mod 3600) / 60) with 0 by lia. replace ((t + 1) mod 60) with 0 by lia.
  destruct (next_day y m d) as [[y' m'] d']. reflexivity.
Qed.
Lemma clock_is t : clock_of t = instant_of t.
Proof.
  unfold instant_of. induction t as [|t IH] using N.peano_ind; [vm_compute; reflexivity|].
  rewrite N.iter_succ, <- IH, <- N.add_1_r. apply clock_step.
Qed.

(** ** Ranges, order *)
Definition clock_ok (i : instant) : Prop :=
  1 <= i_month i <= 12 /\ 1 <= i_day i <= 31 /\ i_hour i < 24 /\ i_minute i < 60 /\ i_second i < 60.
Lemma clock_range t : clock_ok (instant_of t).
Proof.
  rewrite <- clock_is. unfold clock_of, day_time. destruct (civil_day (t / 86400)) as [[y m] d] eqn:C. destruct (civil_range _ _ _ _ C) as [A B].
  unfold clock_ok. cbn [i_month i_day i_hour i_minute i_second]. split; [exact A|]. split; [exact B|]. lia.
Qed.
Definition clock_key (i : instant) : N := ((((i_year i * 13 + i_month i) * 32 + i_day i) * 24 + i_hour i) * 60 + i_minute i) * 60 + i_second i.
Lemma tick_later i : clock_ok i -> clock_key i < clock_key (tick i) /\ i_year i <= i_year (tick i).
Proof.
  intros (M & D & H & Mi & S). unfold tick, clock_key.
  destruct (N.ltb_spec (i_second i) 59); [cbn; lia|]. destruct (N.ltb_spec (i_minute i) 59); [cbn; lia|]. destruct (N.ltb_spec (i_hour i) 23); [cbn; lia|].
  unfold next_day. destruct (N.ltb_spec (i_day i) (days_in_month (i_year i) (i_month i))); [cbn; lia|].
  destruct (N.ltb_spec (i_month i) 12); cbn; lia.
Qed.
Lemma instant_succ t : instant_of (t + 1) = tick (instant_of t).
Proof. unfold instant_of. rewrite N.add_1_r. apply N.iter_succ. Qed.
Lemma key_mono t k : clock_key (instant_of t) < clock_key (instant_of (t + k + 1)) /\ i_year (instant_of t) <= i_year (instant_of (t + k + 1)).
Proof.
  induction k as [|k IH] using N.peano_ind.
  - rewrite N.add_0_r, instant_succ. apply tick_later, clock_range.
  - replace (t + N.succ k + 1) with (t + k + 1 + 1) by lia. rewrite instant_succ. pose proof (tick_later _ (clock_range (t + k + 1))). lia.
Qed.
Lemma instant_inj t t' : instant_of t = instant_of t' -> t = t'.
Proof.
  intros E. destruct (N.lt_trichotomy t t') as [H|[H|H]]; [|exact H|].
  - pose proof (proj1 (key_mono t (t' - t - 1))) as K. replace (t + (t' - t - 1) + 1) with t' in K by lia. rewrite E in K. lia.
  - pose proof (proj1 (key_mono t' (t - t' - 1))) as K. replace (t' + (t - t' - 1) + 1) with t in K by lia. rewrite E in K. lia.
Qed.
Lemma last_second : i_year (instant_of (year_10000 - 1)) = 9999.
Proof. rewrite <- clock_is. vm_compute. reflexivity. Qed.
Lemma year_small t : t < year_10000 -> i_year (instant_of t) < 10000.
Proof.
  intros H. pose proof last_second as L. set (e := year_10000) in *. clearbody e. destruct (N.eq_dec t (e - 1)) as [->|Q]; [lia|].
  pose proof (proj2 (key_mono t (e - 1 - t - 1))) as K. replace (t + (e - 1 - t - 1) + 1) with (e - 1) in K by lia. lia.
Qed.

(** ** Texts *)
Lemma digit_code n : n < 10 -> N_of_ascii (ascii_of_N (48 + n)) = 48 + n.
Proof. intros H. apply N_ascii_embedding. lia. Qed.
Lemma two_bytes n : n < 100 -> bytes_of_text (two_digits n) = decimal 2 n.
Proof.
  intros H. unfold two_digits, bytes_of_text. cbn [map decimal]. rewrite !digit_code by lia.
  change (10 ^ N.of_nat 1) with 10. change (10 ^ N.of_nat 0) with 1. f_equal; [|f_equal]; f_equal; lia.
Qed.
Lemma four_bytes n : n < 10000 -> bytes_of_text (four_digits n) = decimal 4 n.
Proof.
  intros H. unfold four_digits. unfold bytes_of_text. rewrite map_app. fold (bytes_of_text (two_digits (n / 100))). fold (bytes_of_text (two_digits (n mod 100))).
  rewrite !two_bytes by lia. cbn [decimal app].
  change (10 ^ N.of_nat 3) with 1000. change (10 ^ N.of_nat 2) with 100. change (10 ^ N.of_nat 1) with 10. change (10 ^ N.of_nat 0) with 1.
  f_equal; [|f_equal; [|f_equal; [|f_equal]]]; f_equal; lia.
Qed.
Lemma bytes_app a b : bytes_of_text (a ++ b) = bytes_of_text a ++ bytes_of_text b.
Proof. apply map_app. Qed.
Lemma date_is t : t < year_10000 -> bytes_of_text (date_text t) = date_bytes (instant_of t).
Proof.
  intros H. pose proof (year_small t H) as Y. pose proof (clock_range t) as (M & D & _). rewrite <- clock_is in *. unfold clock_of, date_text, date_bytes in *.
  destruct (civil_day (t / 86400)) as [[y m] d]. destruct (day_time t) as [[h mi] s]. cbn [i_year i_month i_day] in *.
  rewrite !bytes_app, four_bytes, !two_bytes by lia. reflexivity.
Qed.
Lemma time_is t : bytes_of_text (time_text t) = time_bytes (instant_of t).
Proof.
  pose proof (clock_range t) as (_ & _ & H & M & S). rewrite <- clock_is in *. unfold clock_of, time_text, time_bytes in *.
  destruct (civil_day (t / 86400)) as [[y m] d]. destruct (day_time t) as [[h mi] s]. cbn [i_hour i_minute i_second] in *.
  rewrite !bytes_app, !two_bytes by lia. reflexivity.
Qed.
Lemma decimal_length n v : List.length (decimal n v) = n.
Proof. revert v. induction n as [|n IH]; intros v; [reflexivity|]. cbn. now rewrite IH. Qed.
Lemma date_length t : List.length (date_text t) = 10%nat.
Proof. unfold date_text. destruct (civil_day (t / 86400)) as [[y m] d]. reflexivity. Qed.
Lemma time_length t : List.length (time_text t) = 8%nat.
Proof. unfold time_text. destruct (day_time t) as [[h mi] s]. reflexivity. Qed.
Lemma decimal2_inj a b : a < 100 -> b < 100 -> decimal 2 a = decimal 2 b -> a = b.
Proof.
  intros A B E. cbn [decimal] in E. change (10 ^ N.of_nat 1) with 10 in E. change (10 ^ N.of_nat 0) with 1 in E.
  assert (X : 48 + a / 10 mod 10 = 48 + b / 10 mod 10 /\ 48 + a / 1 mod 10 = 48 + b / 1 mod 10) by (split; congruence). lia.
Qed.
Lemma decimal4_inj a b : a < 10000 -> b < 10000 -> decimal 4 a = decimal 4 b -> a = b.
Proof.
  intros A B E. cbn [decimal] in E.
  change (10 ^ N.of_nat 3) with 1000 in E. change (10 ^ N.of_nat 2) with 100 in E. change (10 ^ N.of_nat 1) with 10 in E. change (10 ^ N.of_nat 0) with 1 in E.
  assert (X : 48 + a / 1000 mod 10 = 48 + b / 1000 mod 10 /\ 48 + a / 100 mod 10 = 48 + b / 100 mod 10 /\ 48 + a / 10 mod 10 = 48 + b / 10 mod 10 /\
    48 + a / 1 mod 10 = 48 + b / 1 mod 10) by (repeat split; congruence). clear E.
  change 1000 with (10 * (10 * 10)) in X. change 100 with (10 * 10) in X. rewrite <- !N.div_div, !N.div_1_r in X by discriminate.
  assert (ST : forall x y, x / 10 = y / 10 -> 48 + x mod 10 = 48 + y mod 10 -> x = y) by (clear; intros x y; lia).
  assert (QZ : forall x, x < 10000 -> x / 10 / 10 / 10 / 10 = 0).
  { clear. intros x H. rewrite !N.div_div by discriminate. apply N.div_small. exact H. }
  destruct X as (X3 & X2 & X1 & X0). apply ST; [|exact X0]. apply ST; [|exact X1]. apply ST; [|exact X2]. apply ST; [|exact X3]. now rewrite !QZ.
Qed.
Lemma app_eq_len {A} (a b c d : list A) : List.length a = List.length c -> a ++ b = c ++ d -> a = c /\ b = d.
Proof.
  revert c. induction a as [|x a IH]; intros [|y c] L E; try discriminate L; [now split|]. cbn in E. injection E as -> E. injection L as L.
  destruct (IH c L E) as [-> ->]. now split.
Qed.
Lemma bytes_inj t t' : t < year_10000 -> t' < year_10000 -> date_bytes (instant_of t) = date_bytes (instant_of t') ->
  time_bytes (instant_of t) = time_bytes (instant_of t') -> t = t'.
Proof.
  intros H H' D T. apply instant_inj. pose proof (year_small _ H) as Y. pose proof (year_small _ H') as Y'. pose proof (clock_range t) as (R1 & R2 & R3 & R4 & R5).
  pose proof (clock_range t') as (Q1 & Q2 & Q3 & Q4 & Q5). destruct (instant_of t) as [y m d h mi s], (instant_of t') as [y' m' d' h' mi' s'].
  unfold date_bytes, time_bytes in *. cbn [i_year i_month i_day i_hour i_minute i_second] in *.
  apply app_eq_len in D as [D1 D]; [|now rewrite !decimal_length]. apply app_eq_len in D as [_ D]; [|reflexivity]. apply app_eq_len in D as [D2 D]; [|now rewrite !decimal_length].
  apply app_eq_len in D as [_ D3]; [|reflexivity]. apply app_eq_len in T as [T1 T]; [|now rewrite !decimal_length]. apply app_eq_len in T as [_ T]; [|reflexivity].
  apply app_eq_len in T as [T2 T]; [|now rewrite !decimal_length]. apply app_eq_len in T as [_ T3]; [|reflexivity].
  apply decimal4_inj in D1; try lia. apply decimal2_inj in D2; try lia. apply decimal2_inj in D3; try lia. apply decimal2_inj in T1; try lia. apply decimal2_inj in T2; try lia.
  apply decimal2_inj in T3; try lia. congruence.
Qed.
