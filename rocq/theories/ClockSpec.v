(** The calendar and the clock, as a sequence of seconds. *)
From Verif Require Import Base.

Record instant := { i_year : N; i_month : N; i_day : N; i_hour : N; i_minute : N; i_second : N }.
(** Every fourth year is a leap year, except the centuries that 400 does not divide. *)
Definition leap_year (y : N) : bool := (y mod 4 =? 0) && (negb (y mod 100 =? 0) || (y mod 400 =? 0)).
Definition days_in_month (y m : N) : N :=
  match m with
  | 2 => if leap_year y then 29 else 28
  | 4 | 6 | 9 | 11 => 30
  | _ => 31
  end.
Definition next_day (y m d : N) : N * N * N :=
  if d <? days_in_month y m then (y, m, d + 1) else if m <? 12 then (y, m + 1, 1) else (y + 1, 1, 1).
(** One second later. *)
Definition tick (i : instant) : instant :=
  if i_second i <? 59 then {| i_year := i_year i; i_month := i_month i; i_day := i_day i; i_hour := i_hour i; i_minute := i_minute i; i_second := i_second i + 1 |}
  else if i_minute i <? 59 then {| i_year := i_year i; i_month := i_month i; i_day := i_day i; i_hour := i_hour i; i_minute := i_minute i + 1; i_second := 0 |}
  else if i_hour i <? 23 then {| i_year := i_year i; i_month := i_month i; i_day := i_day i; i_hour := i_hour i + 1; i_minute := 0; i_second := 0 |}
  else let '(y, m, d) := next_day (i_year i) (i_month i) (i_day i) in
       {| i_year := y; i_month := m; i_day := d; i_hour := 0; i_minute := 0; i_second := 0 |}.
Definition epoch : instant := {| i_year := 1970; i_month := 1; i_day := 1; i_hour := 0; i_minute := 0; i_second := 0 |}.
(** The instant [t] seconds after 1970/01/01 00:00:00 UTC. *)
Definition instant_of (t : N) : instant := N.iter t tick epoch.
(** The first second of the year 10000. *)
Definition year_10000 : N := 253402300800.

(** A number as decimal digits, [n] of them. *)
Fixpoint decimal (n : nat) (v : N) : list N :=
  match n with
  | O => []
  | S n' => 48 + (v / 10 ^ N.of_nat n') mod 10 :: decimal n' v
  end.
(** The bytes of "YYYY/MM/DD" and "HH:MM:SS". *)
Definition date_bytes (i : instant) : list N := decimal 4 (i_year i) ++ [47] ++ decimal 2 (i_month i) ++ [47] ++ decimal 2 (i_day i).
Definition time_bytes (i : instant) : list N := decimal 2 (i_hour i) ++ [58] ++ decimal 2 (i_minute i) ++ [58] ++ decimal 2 (i_second i).
