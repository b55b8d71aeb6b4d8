(** Properties C26, C27 and C28: calendar and timeout conversions. *)
From Verif Require Import Base Time_Model Time_Spec TimeCal_Proof Time_Proof.
Open Scope Z_scope.

(** For every t at or after the epoch whose day number is at most 2^31-1-719468 (the year 5.8 million): gmtime_r yields
    the calendar date of day number t/86400, counted day by day from 1 January 1970, the time of day, and the weekday
    (day 0 was a Thursday).  Missing: negative t, and tm_yday outside leap years. *)
Theorem C26_gmtime_partial : forall t, 0 <= t -> t / 86400 <= 2147483647 - 719468 ->
  exists x, gmtime_r t = Ok x /\
    date (Z.to_nat (t / 86400)) = (tm_year x + 1900, tm_mon x + 1, tm_mday x) /\
    tm_hour x * 3600 + tm_min x * 60 + tm_sec x = t mod 86400 /\
    0 <= tm_sec x < 60 /\ 0 <= tm_min x < 60 /\ 0 <= tm_hour x < 24 /\
    tm_wday x = (4 + t / 86400) mod 7 /\
    (leap (tm_year x + 1900) = true \/ tm_mon x <= 1 -> tm_yday x = year_day (date (Z.to_nat (t / 86400)))).
Proof.
  intros t H0 Hn. pose proof (gmtime_ok t H0 Hn) as G. cbv zeta in G. destruct (date (Z.to_nat (t / 86400))) as [[y m] d].
  eexists. split; [exact G|]. cbn [tm_sec tm_min tm_hour tm_mday tm_mon tm_year tm_wday tm_yday].
  split; [do 2 f_equal; [f_equal|]; lia|]. split; [clear; lia|].
  split; [apply Z.mod_pos_bound; lia|]. split; [apply Z.mod_pos_bound; lia|]. split; [apply Z.mod_pos_bound; lia|].
  split; [f_equal; lia|]. replace (y - 1900 + 1900) with y by lia. intros [L|L].
  - rewrite L. cbn [orb]. lia.
  - replace (m <=? 2) with true by lia. rewrite orb_true_r. lia.
Qed.
Print Assumptions C26_gmtime_partial.

(** in every non-leap year the day of the year is one too large from 1 March on *)
Theorem C26_yday_refuted : forall t, 0 <= t -> t / 86400 <= 2147483647 - 719468 ->
  (let '(y, m, d) := date (Z.to_nat (t / 86400)) in leap y = false /\ 3 <= m) ->
  exists x, gmtime_r t = Ok x /\ tm_yday x = year_day (date (Z.to_nat (t / 86400))) + 1.
Proof.
  intros t H0 Hn H. pose proof (gmtime_ok t H0 Hn) as G. cbv zeta in G. destruct (date (Z.to_nat (t / 86400))) as [[y m] d].
  eexists. split; [exact G|]. cbn [tm_yday]. destruct H as [-> Hm]. replace (m <=? 2) with false by lia. reflexivity.
Qed.
(** one second before the epoch is not 31 December 1969 23:59:59 *)
Theorem C26_negative_refuted : exists x, gmtime_r (-1) = Ok x /\ tm_year x = 70 /\ tm_mday x = 1 /\ tm_sec x = -1.
Proof. eexists. split; [vm_compute; reflexivity|]. repeat split. Qed.
Print Assumptions C26_yday_refuted.
Print Assumptions C26_negative_refuted.

(** 29 February 2000, 12:34:56, was a Tuesday; day 11016 *)
Example C26_ex : exists x, gmtime_r 951827696 = Ok x /\ (tm_year x, tm_mon x, tm_mday x) = (100, 1, 29) /\ tm_wday x = 2 /\ tm_yday x = 59
  /\ (tm_hour x, tm_min x, tm_sec x) = (12, 34, 56).
Proof. eexists. split; [vm_compute; reflexivity|]. repeat split. Qed.
Example C26_ex_date : date (Z.to_nat 11016) = (2000, 2, 29).
Proof. vm_compute. reflexivity. Qed.

(** timegm inverts gmtime_r, before the epoch too *)
Theorem C27_timegm_gmtime : forall t, -2147483648 <= Z.quot t 86400 <= 2147483647 - 719468 ->
  exists x, gmtime_r t = Ok x /\ timegm x = Ok t.
Proof. exact round_trip. Qed.

(** and for every valid date and time at or after the epoch, gmtime_r inverts timegm *)
Theorem C27_gmtime_timegm : forall n hh mm ss wd yd, Z.of_nat n <= 2147483647 - 719468 ->
  0 <= hh < 24 -> 0 <= mm < 60 -> 0 <= ss < 60 ->
  let '(y, m, d) := date n in
  let x := {| tm_sec := ss; tm_min := mm; tm_hour := hh; tm_mday := d; tm_mon := m - 1; tm_year := y - 1900; tm_wday := wd; tm_yday := yd |} in
  exists t x', timegm x = Ok t /\ t = Z.of_nat n * 86400 + hh * 3600 + mm * 60 + ss /\ gmtime_r t = Ok x' /\
    tm_sec x' = ss /\ tm_min x' = mm /\ tm_hour x' = hh /\ tm_mday x' = d /\ tm_mon x' = m - 1 /\ tm_year x' = y - 1900.
Proof.
  intros n hh mm ss wd yd Hn Hh Hm Hs. pose proof (date_ok n) as DO. destruct (date n) as [[y m] d] eqn:ED. destruct DO as [V E]. cbv zeta.
  rewrite timegm_ok; [|exact V|lia..]. rewrite E. set (t := Z.of_nat n * 86400 + hh * 3600 + mm * 60 + ss).
  assert (Et : t / 86400 = Z.of_nat n) by (unfold t; lia).
  assert (T1 : t mod 60 = ss) by (unfold t; lia). assert (T2 : (t / 60) mod 60 = mm) by (unfold t; lia). assert (T3 : (t / 3600) mod 24 = hh) by (unfold t; lia).
  pose proof (gmtime_ok t ltac:(unfold t; lia) ltac:(lia)) as G. cbv zeta in G. rewrite Et, Nat2Z.id, ED, T1, T2, T3 in G.
  eexists _, _. split; [reflexivity|]. split; [reflexivity|]. split; [exact G|]. repeat split.
Qed.
(** every valid date from 1970 on is the date of some day number *)
Theorem C27_dates : forall y m d, valid_date y m d -> 1970 <= y -> exists n, date n = (y, m, d).
Proof.
  intros y m d V Hy. exists (Z.to_nat (D y m d)). rewrite <- C_date. rewrite Z2Nat.id, C_D; [reflexivity|exact V|].
  pose proof (D_month y m d V). assert (E0 : D 1970 1 1 = 0) by reflexivity.
  destruct (Z.eq_dec y 1970) as [->|]; [lia|]. pose proof (D_year_mono 1970 y ltac:(lia)). 
  assert (D (1970 + 1) 1 1 = 365) by reflexivity. lia.
Qed.
Print Assumptions C27_timegm_gmtime.
Print Assumptions C27_gmtime_timegm.
Print Assumptions C27_dates.
Example C27_ex : exists x, gmtime_r (-86401) = Ok x /\ timegm x = Ok (-86401).
Proof. eexists. split; [vm_compute; reflexivity|]. vm_compute. reflexivity. Qed.

(** C28: a normalised deadline and clock reading give exactly max(0, deadline - now), normalised, unless the difference
    in seconds overflows, which is reported *)
Theorem C28_absolute_to_relative : forall now abst, normal now -> normal abst -> time_t_ok (fst abst - fst now) ->
  exists r, absolute_to_relative now abst = Some r /\ normal r /\ nanos r = Z.max 0 (nanos abst - nanos now).
Proof. exact abs_rel_ok. Qed.
Theorem C28_absolute_overflow : forall now abst, ~ time_t_ok (fst abst - fst now) -> absolute_to_relative now abst = None.
Proof. exact abs_rel_fail. Qed.
(** the deadline is exactly now + timeout, normalised, unless its seconds overflow, which is reported *)
Theorem C28_relative_to_absolute : forall now rel, normal now -> normal rel -> 0 <= fst now -> 0 <= fst rel ->
  time_t_ok ((nanos now + nanos rel) / 1000000000) ->
  exists a, relative_to_absolute now rel = Some a /\ normal a /\ nanos a = nanos now + nanos rel.
Proof. exact rel_abs_ok. Qed.
Theorem C28_relative_overflow : forall now rel, normal now -> normal rel -> 0 <= fst now -> 0 <= fst rel ->
  ~ time_t_ok ((nanos now + nanos rel) / 1000000000) -> relative_to_absolute now rel = None.
Proof. exact rel_abs_fail. Qed.
Print Assumptions C28_absolute_to_relative.
Print Assumptions C28_absolute_overflow.
Print Assumptions C28_relative_to_absolute.
Print Assumptions C28_relative_overflow.
Example C28_ex : absolute_to_relative (10, 900000000) (12, 100000000) = Some (1, 200000000) /\
  relative_to_absolute (10, 900000000) (1, 200000000) = Some (12, 100000000) /\
  absolute_to_relative (10, 900000000) (10, 100000000) = Some (0, 0) /\
  relative_to_absolute (9223372036854775807, 900000000) (0, 200000000) = None.
Proof. vm_compute. repeat split. Qed.
