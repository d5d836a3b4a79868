(** Model of the clock of the header: bitstream-writer.h:212-217.  absl::Now() is read once; absl::FormatTime with absl::UTCTimeZone() is a library
    function, modelled as documented: the proleptic Gregorian calendar, POSIX seconds (no leap seconds), for a clock in the years
    1970-9999.  The day is computed with the usual 400-year arithmetic. *)
From Verif Require Import Base Assembler.

(** bitstream-writer.h:212-215: year, month, day of the day with number [days] (0: 1970/01/01). *)
Definition civil_day (days : N) : N * N * N :=
  let z := days + 719468 in
  let era := z / 146097 in
  let doe := z mod 146097 in
  let yoe := (doe - doe / 1460 + doe / 36524 - doe / 146096) / 365 in
  let doy := doe - (365 * yoe + yoe / 4 - yoe / 100) in
  let mp := (5 * doy + 2) / 153 in
  let d := doy - (153 * mp + 2) / 5 + 1 in
  let m := if mp <? 10 then mp + 3 else mp - 9 in
  (yoe + era * 400 + (if m <=? 2 then 1 else 0), m, d).
(** bitstream-writer.h:216-217: hour, minute, second. *)
Definition day_time (t : N) : N * N * N := ((t mod 86400) / 3600, (t mod 3600) / 60, t mod 60).

(** bitstream-writer.h:215,217: %m %d %H %M %S, two digits *)
Definition two_digits (n : N) : text := [ascii_of_N (48 + n / 10); ascii_of_N (48 + n mod 10)].
(** bitstream-writer.h:215: %E4Y, four digits *)
Definition four_digits (n : N) : text := two_digits (n / 100) ++ two_digits (n mod 100).
(** bitstream-writer.h:214-215 build_date_string *)
Definition date_text (t : N) : text :=
  let '(y, m, d) := civil_day (t / 86400) in four_digits y ++ tx "/" ++ two_digits m ++ tx "/" ++ two_digits d.
(** bitstream-writer.h:216-217 build_time_string *)
Definition time_text (t : N) : text :=
  let '(h, m, s) := day_time t in two_digits h ++ tx ":" ++ two_digits m ++ tx ":" ++ two_digits s.

(** bitstream-writer.h:213: a run of fpga-as in which absl::Now() gives the second [t]. *)
Definition command_at (t : N) (c : command) : command :=
  {| c_args := c_args c; c_db_flag := c_db_flag c; c_db_env := c_db_env c; c_part := c_part c; c_stdin := c_stdin c; c_open := c_open c;
     c_env := c_env c; c_date := date_text t; c_time := time_text t; c_stdout := c_stdout c |}.
