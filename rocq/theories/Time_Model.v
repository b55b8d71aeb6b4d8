(** Model of gmtime_r and timegm (options/ansi/generic/time.cpp:685-711, 906-933, 1000-1015) and of the conversions between
    absolute and relative timeouts (options/internal/include/mlibc/time-helpers.hpp:16-99).
    time_t and long are 64 bit, int and unsigned 32 bit.  Unsigned arithmetic wraps ([u32]); signed overflow is
    undefined ([i32], [i64]); "/" and "%" truncate towards zero (Z.quot, Z.rem). *)
From Verif Require Import Base.
Open Scope Z_scope.

Definition u32 (x : Z) : Z := x mod 4294967296.
(** conversion to int, two's complement *)
Definition to_i32 (x : Z) : Z := (x + 2147483648) mod 4294967296 - 2147483648.
(** the result of a signed operation *)
Definition i32 (x : Z) : res Z := if (-2147483648 <=? x) && (x <=? 2147483647) then Ok x else UB.
Definition i64 (x : Z) : res Z := if (-9223372036854775808 <=? x) && (x <=? 9223372036854775807) then Ok x else UB.

(** civil_from_days, time.cpp:685-699: (year, month, day) *)
Definition civil_from_days (days : Z) : res (Z * Z * Z) :=
  time <- i64 (days + 719468) ;;
  let era := to_i32 (Z.quot (if time >=? 0 then time else time - 146096) 146097) in
  e <- i32 (era * 146097) ;;
  let doe := u32 (time - e) in
  let yoe := u32 (doe - doe / 1460 + doe / 36524 - doe / 146096) / 365 in
  e4 <- i32 (era * 400) ;;
  y <- i32 (to_i32 yoe + e4) ;;
  let doy := u32 (doe - (365 * yoe + yoe / 4 - yoe / 100)) in
  let mp := u32 (5 * doy + 2) / 153 in
  let d := u32 (doy - u32 (153 * mp + 2) / 5 + 1) in
  let m := u32 (mp + (if mp <? 10 then 3 else -9)) in
  year <- i32 (y + (if m <=? 2 then 1 else 0)) ;;
  Ok (year, m, d).

(** weekday_from_days, time.cpp:701-704 *)
Definition weekday_from_days (days : Z) : Z :=
  u32 (if days >=? -4 then Z.rem (days + 4) 7 else Z.rem (days + 5) 7 + 6).

(** yearday_from_date, time.cpp:706-711; all unsigned *)
Definition yearday_from_date (year month day : Z) : Z :=
  let n1 := u32 (275 * month) / 9 in
  let n2 := u32 (month + 9) / 12 in
  let n3 := u32 (1 + u32 (year - u32 (4 * year) / 4 + 2) / 3) in
  u32 (n1 - u32 (n2 * n3) + day - 30).

(** the members of struct tm set or used here *)
Record tm := { tm_sec : Z; tm_min : Z; tm_hour : Z; tm_mday : Z; tm_mon : Z; tm_year : Z; tm_wday : Z; tm_yday : Z }.

(** gmtime_r, time.cpp:906-933 *)
Definition gmtime_r (t : Z) : res tm :=
  let days := to_i32 (Z.quot t 86400) in
  '(year, month, day) <- civil_from_days days ;;
  let weekday := weekday_from_days days in
  let yday := yearday_from_date (u32 year) month day in
  yr <- i32 (year - 1900) ;;
  Ok {| tm_sec := Z.rem t 60; tm_min := Z.rem (Z.quot t 60) 60; tm_hour := Z.rem (Z.quot t 3600) 24;
        tm_mday := to_i32 day; tm_mon := to_i32 (u32 (month - 1)); tm_year := yr;
        tm_wday := to_i32 weekday; tm_yday := to_i32 (u32 (yday - 1)) |}.

(** days_from_civil, time.cpp:1000-1007 *)
Definition days_from_civil (y0 m d : Z) : res Z :=
  y <- i32 (y0 - (if m <=? 2 then 1 else 0)) ;;
  let era := Z.quot (if y >=? 0 then y else y - 399) 400 in
  let yoe := u32 (y - era * 400) in
  let doy := u32 (u32 (153 * (if m >? 2 then u32 (m - 3) else u32 (m + 9)) + 2) / 5 + d - 1) in
  let doe := u32 (yoe * 365 + yoe / 4 - yoe / 100 + doy) in
  a <- i32 (era * 146097) ;;
  b <- i32 (a + to_i32 doe) ;;
  i32 (b - 719468).

(** timegm, time.cpp:1009-1015 *)
Definition timegm (x : tm) : res Z :=
  year <- i32 (tm_year x + 1900) ;;
  month <- i32 (tm_mon x + 1) ;;
  days <- days_from_civil year (u32 month) (u32 (tm_mday x)) ;;
  h1 <- i32 (tm_hour x * 60) ;;
  h <- i32 (h1 * 60) ;;
  mn <- i32 (tm_min x * 60) ;;
  i64 (days * 86400 + h + mn + tm_sec x).

(** ** Timeouts.  A timespec is (seconds, nanoseconds); checked_add and checked_sub (frg/safe_int.hpp, not in the repo)
    are taken to fail exactly when the 64 bit result overflows.  [now] is what sysdep ClockGet returns.  The result is
    None where the code returns false. *)
Definition in64 (x : Z) : bool := (-9223372036854775808 <=? x) && (x <=? 9223372036854775807).
Definition checked (x : Z) (k : Z -> option (Z * Z)) : option (Z * Z) := if in64 x then k x else None.

(** time_absolute_to_relative, time-helpers.hpp:16-54, for the two supported clocks *)
Definition absolute_to_relative (now abst : Z * Z) : option (Z * Z) :=
  checked (fst abst - fst now) (fun s =>
  checked (snd abst - snd now) (fun n =>
  if (s <? 0) || ((s =? 0) && (n <? 0)) then Some (0, 0)
  else if n >=? 1000000000 then
    let n := n - 1000000000 in
    checked (s + 1) (fun s => if n >=? 1000000000 then None else Some (s, n))
  else if n <? 0 then
    let n := n + 1000000000 in
    checked (s - 1) (fun s => if n <? 0 then None else Some (s, n))
  else Some (s, n))).

(** time_relative_to_absolute, time-helpers.hpp:58-99 *)
Definition relative_to_absolute (now rel : Z * Z) : option (Z * Z) :=
  checked (fst now + fst rel) (fun s =>
  checked (snd now + snd rel) (fun n =>
  let fin := fun s n => if (fst now >? 0) && (fst rel >? 0) && (s <? 0) then None else Some (s, n) in
  if n >=? 1000000000 then
    let n := n - 1000000000 in
    checked (s + 1) (fun s => if n >=? 1000000000 then None else fin s n)
  else if n <? 0 then
    let n := n + 1000000000 in
    checked (s - 1) (fun s => if n <? 0 then None else fin s n)
  else fin s n)).
