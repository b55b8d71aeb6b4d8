(** The proleptic Gregorian calendar, day by day, and normalised time intervals. *)
From Coq Require Export ZArith List Bool.
Open Scope Z_scope.

Definition leap (y : Z) : bool := ((y mod 4 =? 0) && negb (y mod 100 =? 0)) || (y mod 400 =? 0).
Definition month_days (y m : Z) : Z :=
  if m =? 2 then (if leap y then 29 else 28)
  else if (m =? 4) || (m =? 6) || (m =? 9) || (m =? 11) then 30 else 31.
Definition valid_date (y m d : Z) : Prop := 1 <= m <= 12 /\ 1 <= d <= month_days y m.

(** the day after *)
Definition next (x : Z * Z * Z) : Z * Z * Z :=
  let '(y, m, d) := x in
  if d <? month_days y m then (y, m, d + 1)
  else if m <? 12 then (y, m + 1, 1) else (y + 1, 1, 1).
(** the date n days after 1 January 1970 *)
Fixpoint date (n : nat) : Z * Z * Z := match n with O => (1970, 1, 1) | S n' => next (date n') end.

(** days from 1 January of the year to the first of the month *)
Fixpoint days_before (y : Z) (months : nat) : Z :=
  match months with O => 0 | S k => days_before y k + month_days y (Z.of_nat k + 1) end.
Definition year_day (x : Z * Z * Z) : Z := let '(y, m, d) := x in days_before y (Z.to_nat (m - 1)) + d - 1.

(** timespecs *)
Definition normal (t : Z * Z) : Prop := 0 <= snd t < 1000000000.
Definition nanos (t : Z * Z) : Z := fst t * 1000000000 + snd t.
Definition time_t_ok (x : Z) : Prop := -9223372036854775808 <= x <= 9223372036854775807.
