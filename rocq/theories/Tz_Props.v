(** Property C80: local time follows TZ. *)
From Coq Require Import Sorted.
From Verif Require Import Base Time_Model Time_Spec TimeCal_Proof Time_Proof Tz_Model Tz_Spec Tz_Proof Tz_Sound Tz_Local.
Open Scope Z_scope.

(** With TZ = "std offset", localtime_r gives date, time and weekday of t - offset, no summer time, the zone name and
    tm_gmtoff = - offset; [max] is TZNAME_MAX (6 or what sysconf says).  (tm_yday is wrong outside leap years, C26, and times
    before the epoch are wrong, too.) *)
Theorem C80_standard : forall e max old s name off t, e_tz e = Some s -> std_text max name off s ->
  0 <= t - off -> (t - off) / 86400 <= 2000000000 ->
  exists x, localtime_r e max old t = Ok (x, false, - off, name) /\ shows (t - off) x.
Proof. intros e max old s name off t He Hs H0 Hn. pose proof (std_range _ _ _ _ Hs). apply (local_std e max old s); auto; [left; auto|lia]. Qed.
(** an empty TZ means UTC *)
Theorem C80_empty : forall e max old t, e_tz e = Some [] -> (3 <= max)%nat -> 0 <= t -> t / 86400 <= 2000000000 ->
  exists x, localtime_r e max old t = Ok (x, false, 0, [85; 84; 67]) /\ shows t x.
Proof.
  intros e max old t He Hm H0 Hn. assert (S : std_text max [85; 84; 67] 0 utc0).
  { change utc0 with ([85; 84; 67] ++ [48]). apply std_only.
    - apply name_plain; [repeat constructor; unfold letter; lia|cbn; lia].
    - apply off_plain. apply (clock_h 0). split; [discriminate|]. split; [repeat constructor; unfold is_dec; lia|]. split; [reflexivity|lia]. }
  destruct (local_std e max old utc0 [85; 84; 67] 0 t (or_intror (conj He eq_refl)) S) as (x & E & Sx); rewrite ?Z.sub_0_r in *; try lia.
  exists x. auto.
Qed.
(** With TZ = "std offset dst [offset] [,rule,rule]", the result is that of standard or of summer time, with name, offset
    and flag of the same one.  The rules are read as written (see C80_accepted for the converse); which of the two is
    chosen is the next theorem. *)
Theorem C80_summer_consistent : forall e max old s s1 name off name1 off1 r0 r1 t, e_tz e = Some (s ++ s1) ->
  std_text max name off s -> dst_text max name1 off off1 r0 r1 s1 -> 1000000 <= t -> t / 86400 <= 1000000000 ->
  exists (summer : bool) x, localtime_r e max old t = Ok (x, summer, - (if summer then off1 else off), if summer then name1 else name) /\
    shows (t - (if summer then off1 else off)) x.
Proof.
  intros e max old s s1 name off name1 off1 r0 r1 t He Hs Hd H0 Hn.
  destruct (local_dst e max old s s1 name off name1 off1 r0 r1 t He Hs Hd H0 Hn) as (d & x & _ & Sx & E). eauto.
Qed.
Print Assumptions C80_standard.
Print Assumptions C80_empty.
Print Assumptions C80_summer_consistent.

Lemma D_day : forall y m k, D y m (1 + k) = D y m 1 + k.
Proof. intros. rewrite !D_Y. lia. Qed.
(** What holds of the choice: up to 2037, for rules Mm.w.d with w < 5 whose months begin with a Sunday in that year, summer
    time lasts from 00:00 UTC of the w-th weekday d of the first month up to 00:00 UTC of that of the second.  Missing:
    months that do not begin with a Sunday, week 5, Julian days, days of the year, the time of day in local time, and times from 2038
    on; the theorems below refute the claim for these. *)
Theorem C80_summer_partial : forall e max old s s1 name off name1 off1 r0 r1 t m0 w0 d0 m1 w1 d1 y n0 n1,
  e_tz e = Some (s ++ s1) -> std_text max name off s -> dst_text max name1 off off1 r0 r1 s1 ->
  r_date r0 = MonthWeek m0 w0 d0 -> r_date r1 = MonthWeek m1 w1 d1 -> m0 < m1 -> w0 < 5 -> w1 < 5 ->
  1000000 <= t -> fst (fst (date (Z.to_nat (t / 86400)))) = y -> y <= 2037 ->
  date n0 = (y, m0, 1) -> weekday_of n0 = 0 -> date n1 = (y, m1, 1) -> weekday_of n1 = 0 ->
  let first := Z.of_nat n0 + d0 + 7 * (w0 - 1) in
  let last := Z.of_nat n1 + d1 + 7 * (w1 - 1) in
  weekday_of (Z.to_nat first) = d0 /\ weekday_of (Z.to_nat last) = d1 /\
  exists (summer : bool) x, localtime_r e max old t = Ok (x, summer, - (if summer then off1 else off), if summer then name1 else name) /\
    shows (t - (if summer then off1 else off)) x /\ (summer = true <-> first <= t / 86400 < last).
Proof.
  intros e max old s s1 name off name1 off1 r0 r1 t m0 w0 d0 m1 w1 d1 y n0 n1 He Hs Hd E0 E1 Hm Hw0 Hw1 Ht Hy Hy2 D0 W0 D1 W1. cbv zeta.
  destruct (dst_rules _ _ _ _ _ _ _ Hd) as [R0 R1]. pose proof R0 as R0'. pose proof R1 as R1'. unfold rule_ok in R0', R1'. rewrite E0 in R0'. rewrite E1 in R1'.
  pose proof (date_ok n0) as V0. rewrite D0 in V0. destruct V0 as [V0 N0]. pose proof (date_ok n1) as V1. rewrite D1 in V1. destruct V1 as [V1 N1].
  assert (Bn : Z.of_nat n0 < Z.of_nat n1 /\ Z.of_nat n1 + 27 < 24837 /\ Z.of_nat n0 + 31 <= Z.of_nat n1 + 3 /\ t / 86400 <= 24837).
  { pose proof (D_month_step y m0 (month_days y m0)) as M1. pose proof (D_month_mono y m0 m1 1 ltac:(lia) V1) as M2.
    assert (28 <= month_days y m1) by (unfold month_days; destruct (m1 =? 2); [destruct (leap y); lia|destruct (_ || _); lia]).
    pose proof (D_month y m1 (1 + 27) ltac:(split; [lia|lia])) as M3. rewrite D_day in M3. assert (D2038 : D (2037 + 1) 1 1 = 24837) by reflexivity.
    assert (Y : D (y + 1) 1 1 <= 24837).
    { destruct (Z.eq_dec y 2037) as [->|]; [lia|]. pose proof (D_year_mono y 2038 ltac:(lia)) as YM. change 2038 with (2037 + 1) in YM. lia. }
    assert (28 <= month_days y m0) by (unfold month_days; destruct (m0 =? 2); [destruct (leap y); lia|destruct (_ || _); lia]).
    assert (Vm : valid_date y m0 (month_days y m0)) by (split; [lia|lia]). specialize (M1 Vm ltac:(lia)).
    replace (month_days y m0) with (1 + (month_days y m0 - 1)) in M1 by lia. rewrite D_day in M1.
    assert (Tn : t / 86400 <= 24837).
    { pose proof (date_ok (Z.to_nat (t / 86400))) as Vt. destruct (date (Z.to_nat (t / 86400))) as [[yt mt] dt]. cbn [fst] in Hy. subst yt. destruct Vt as [Vt Nt].
      pose proof (D_month y mt dt Vt). assert (0 <= t / 86400) by (apply Z.div_pos; lia). lia. }
    lia. }
  unfold weekday_of in *.
  split; [clear - W0 R0'; lia|]. split; [clear - W1 R1'; lia|].
  destruct (local_dst e max old s s1 name off name1 off1 r0 r1 t He Hs Hd Ht ltac:(lia)) as (d & x & Ed & Sx & E).
  exists d, x. split; auto. split; auto.
  destruct (in_dst_ok r0 r1 t R0 R1 ltac:(lia) ltac:(lia)) as (y' & Ey & By & a & b & Ea & Eb & Ei). rewrite Ei in Ed. injection Ed as Ed.
  rewrite Hy in Ey. subst y'.
  rewrite rule_time_ok in Ea by auto. rewrite rule_time_ok in Eb by auto. rewrite E0 in Ea. rewrite E1 in Eb.
  replace (1 + d0 + 7 * (w0 - 1)) with (1 + (d0 + 7 * (w0 - 1))) in Ea by lia. replace (1 + d1 + 7 * (w1 - 1)) with (1 + (d1 + 7 * (w1 - 1))) in Eb by lia.
  rewrite D_day, N0 in Ea. rewrite D_day, N1 in Eb. assert (inj : forall u v : Z, Ok u = Ok v -> u = v) by (intros u v Q; injection Q; auto). apply inj in Ea. apply inj in Eb.
  assert (Ia : to_i32 a = a) by (apply to_i32_ok; lia). assert (Ib : to_i32 b = b) by (apply to_i32_ok; lia). rewrite Ia, Ib in Ed.
  replace (a <=? b) with true in Ed by lia. rewrite <- Ed. rewrite andb_true_iff, Z.leb_le, Z.ltb_lt.
  clear - Ea Eb Ht. assert (A : t / 86400 * 86400 <= t < (t / 86400 + 1) * 86400) by lia. lia.
Qed.
Print Assumptions C80_summer_partial.

(** EST5EDT,M3.2.0,M11.1.0 *)
Definition eastern : list Z := [69;83;84;53;69;68;84;44;77;51;46;50;46;48;44;77;49;49;46;49;46;48].
Definition at_tz (s : list Z) : tzenv := {| e_tz := Some s; e_tzdir := None; e_file := fun _ => None |}.
Definition tz0 : tzstate := {| z_daylight := false; z_timezone := 0; z_std := []; z_dst := []; z_dstoff := 0; z_rules := None |}.
Definition isdst (r : res (tm * bool * Z * list Z)) : option bool := match r with Ok (_, d, _, _) => Some d | _ => None end.

(** the code takes every month to begin with a Sunday (mktime does not compute tm_wday): in 2024 the second Sunday of March is the
    10th; summer time is in force already on Saturday, the 9th, at noon UTC *)
Theorem C80_weekday_refuted : isdst (localtime_r (at_tz eastern) 6 tz0 1709985600) = Some true /\
  date (Z.to_nat (1709985600 / 86400)) = (2024, 3, 9) /\ weekday_of (Z.to_nat (1709985600 / 86400)) = 6.
Proof. split; [vm_compute; reflexivity|]. split; vm_compute; reflexivity. Qed.
(** the change takes place at midnight UTC: on Sunday, 8 March 2026, 00:00 UTC (19:00 of 7 March in New York) instead of 02:00 local
    time, which is 07:00 UTC *)
Theorem C80_hour_refuted : isdst (localtime_r (at_tz eastern) 6 tz0 1772928000) = Some true /\
  date (Z.to_nat (1772928000 / 86400)) = (2026, 3, 8) /\ weekday_of (Z.to_nat (1772928000 / 86400)) = 0 /\ 1772928000 mod 86400 = 0.
Proof. split; [vm_compute; reflexivity|]. split; [vm_compute; reflexivity|]. split; vm_compute; reflexivity. Qed.
(** transitions are kept in an int: in July 2040 there is no summer time *)
Theorem C80_2038_refuted : isdst (localtime_r (at_tz eastern) 6 tz0 2225000000) = Some false /\
  date (Z.to_nat (2225000000 / 86400)) = (2040, 7, 4).
Proof. split; vm_compute; reflexivity. Qed.
(** if the last transition day is given as week 5, summer time may begin or end in the next month: with the end at M10.5.6 (the last
    Saturday of October; the 26th in 2024) it is still in force on 3 November *)
Theorem C80_week5_refuted :
  isdst (localtime_r (at_tz [69;83;84;53;69;68;84;44;77;51;46;50;46;48;44;77;49;48;46;53;46;54]) 6 tz0 1730635200) = Some true /\
  date (Z.to_nat (1730635200 / 86400)) = (2024, 11, 3).
Proof. split; vm_compute; reflexivity. Qed.
(** with Julian days or days of the year, there is never summer time: the day is ignored *)
Theorem C80_julian_refuted : forall e max old s s1 name off name1 off1 r0 r1 t, e_tz e = Some (s ++ s1) ->
  std_text max name off s -> dst_text max name1 off off1 r0 r1 s1 ->
  (forall m w d, r_date r0 <> MonthWeek m w d) -> (forall m w d, r_date r1 <> MonthWeek m w d) ->
  1000000 <= t -> t / 86400 <= 1000000000 ->
  exists x, localtime_r e max old t = Ok (x, false, - off, name).
Proof.
  intros e max old s s1 name off name1 off1 r0 r1 t He Hs Hd N0 N1 Ht Hn. destruct (dst_rules _ _ _ _ _ _ _ Hd) as [R0 R1].
  destruct (local_dst e max old s s1 name off name1 off1 r0 r1 t He Hs Hd Ht Hn) as (d & x & Ed & _ & E).
  destruct (in_dst_ok r0 r1 t R0 R1 ltac:(lia) ltac:(lia)) as (y & _ & By & a & b & Ea & Eb & Ei). rewrite Ei in Ed. injection Ed as Ed.
  rewrite rule_time_ok in Ea by auto. rewrite rule_time_ok in Eb by auto.
  assert (a = b) by (destruct (r_date r0) as [?|?|? ? ?]; [| |exfalso; eapply N0; reflexivity]; destruct (r_date r1) as [?|?|? ? ?]; try (exfalso; eapply N1; reflexivity); congruence).
  subst b. rewrite Z.leb_refl in Ed. assert (d = false) by (rewrite <- Ed; apply andb_false_iff; lia). rewrite H in E. exists x. exact E.
Qed.
Print Assumptions C80_weekday_refuted.
Print Assumptions C80_hour_refuted.
Print Assumptions C80_2038_refuted.
Print Assumptions C80_week5_refuted.
Print Assumptions C80_julian_refuted.

(** Whatever TZ is, the parser does not read behind it; it overruns a buffer only if TZ ends with max + 1 letters, digits and
    signs. *)
Theorem C80_safe_partial : forall max s, Forall (fun c => c <> 0) s ->
  ~ (exists a n, s = a ++ n /\ length n = S max /\ Forall qchar n) -> parse_tz (s ++ [0]) max <> UB.
Proof. intros max s Hs N. destruct (proj1 (parse_sound max s Hs)) as [H|H]; auto. Qed.
(** EST5ABCDEFG overruns the buffer for the second name *)
Theorem C80_safe_refuted : parse_tz ([69;83;84;53;65;66;67;68;69;70;71] ++ [0]) 6 = UB.
Proof. vm_compute. reflexivity. Qed.
(** The parser accepts a string only if it starts with a standard zone in the POSIX format, and sets summer time only if a
    zone in that format follows up to the end of the string (or a name that may be too short or not closed, with
    the default offset and rules). *)
Theorem C80_accepted : forall max s z, Forall (fun c => c <> 0) s -> parse_tz (s ++ [0]) max = Ok (Some z) -> accepted max s z.
Proof. intros max s z Hs H. exact (proj2 (parse_sound max s Hs) z H). Qed.
(** if TZ is not in the POSIX format and there is no such file, local time is UTC *)
Theorem C80_fallback : forall e max old s t, e_tz e = Some s -> s <> [] -> (3 <= max)%nat -> parse_tz (s ++ [0]) max = Ok None ->
  (forall p, e_file e p = None) -> 0 <= t -> t / 86400 <= 2000000000 ->
  exists x, localtime_r e max old t = Ok (x, false, 0, [85; 84; 67]) /\ shows t x.
Proof.
  intros e max old s t He Ne Hm P Hf H0 Hn.
  destruct (C80_empty (at_tz []) max old t eq_refl Hm H0 Hn) as (x & E & Sx). exists x. split; [|exact Sx].
  rewrite <- E. unfold localtime_r, unix_local_from_gmt. f_equal.
  assert (Q : exists z, parse_tz (utc0 ++ [0]) max = Ok (Some z) /\ z_daylight z = false).
  { assert (S : std_text max [85; 84; 67] 0 utc0).
    { change utc0 with ([85; 84; 67] ++ [48]). apply std_only.
      - apply name_plain; [repeat constructor; unfold letter; lia|cbn; lia].
      - apply off_plain. apply (clock_h 0). split; [discriminate|]. split; [repeat constructor; unfold is_dec; lia|]. split; [reflexivity|lia]. }
    rewrite (parse_std _ _ _ _ S). eexists. split; reflexivity. }
  destruct Q as (z & Q & Dz).
  assert (A : do_tzset e max old = Ok z).
  { unfold do_tzset. rewrite He. destruct s as [|c s]; [congruence|]. rewrite P. cbn [bind]. rewrite Hf. cbn [bind]. rewrite Q. reflexivity. }
  assert (B : do_tzset (at_tz []) max old = Ok z) by (unfold do_tzset; cbn [e_tz at_tz]; rewrite Q; reflexivity).
  rewrite A, B. cbn [bind]. rewrite Dz. reflexivity.
Qed.
Print Assumptions C80_safe_partial.
Print Assumptions C80_safe_refuted.
Print Assumptions C80_accepted.
Print Assumptions C80_fallback.

(** ** Zone files *)
(** With TZ naming a zone file in which tzset has found a summer time type, localtime_r uses the type of the last transition at or before
    t, if t lies between two transitions. *)
Theorem C80_tzfile_partial : forall e max old tz st f z t i a b k o d ab s,
  e_tz e = Some tz -> hd 0 tz <> 0 -> hd 0 tz <> 58 -> hd 0 tz <> 47 -> hd 0 tz <> 46 -> e_tzdir e = None -> e_file e (zoneinfo ++ 47 :: tz) = Some f ->
  do_tzset e max old = Ok st -> z_daylight st = true -> z_rules st = None ->
  wf_zone z -> zone_file z f -> StronglySorted Z.lt (transitions z) ->
  nth_error (transitions z) i = Some a -> nth_error (transitions z) (S i) = Some b -> a <= t < b ->
  nth_error (kinds z) i = Some k -> nth_error (types z) (Z.to_nat k) = Some (o, d, ab) -> abbrev z ab s ->
  0 <= t + o ->
  exists x, localtime_r e max old t = Ok (x, d, o, s) /\ shows (t + o) x.
Proof.
  intros e max old tz st f z t i a b k o d ab s He N0 N1 N2 N3 Hd Hf HS Hl Hr W F SS Ha Hb Ht Hk HT HA H0.
  unfold localtime_r, unix_local_from_gmt. rewrite HS. cbn [bind]. rewrite Hl, Hr, He.
  destruct tz as [|c tz]; [cbn in N0; congruence|].
  assert (EP : tzfile_path (e_tzdir e) (c :: tz) = zoneinfo ++ 47 :: c :: tz).
  { unfold tzfile_path. cbn [hd] in *. replace (c =? 58) with false by lia. cbn [hd]. replace (c =? 47) with false by lia. replace (c =? 46) with false by lia. rewrite Hd. reflexivity. }
  rewrite EP, Hf. rewrite (lookup_between z f t i a b k o d ab s) by auto. cbn [bind].
  assert (Bo : in_i32 o) by (destruct W as (_ & _ & _ & _ & FT & _); rewrite Forall_forall in FT; exact (proj1 (FT _ (nth_error_In _ _ HT)))).
  assert (Bt : in_i32 b) by (destruct W as (_ & _ & FB & _); rewrite Forall_forall in FB; exact (FB _ (nth_error_In _ _ Hb))).
  assert (Ba : in_i32 a) by (destruct W as (_ & _ & FB & _); rewrite Forall_forall in FB; exact (FB _ (nth_error_In _ _ Ha))).
  unfold in_i32 in *. rewrite i64_ok by lia. cbn [bind]. destruct (gmtime_shows (t + o) H0 ltac:(lia)) as (x & -> & Sx). cbn [bind]. eauto.
Qed.
(** After the last transition, the code does not use its type but the first type of the file (often local mean time). *)
Theorem C80_tzfile_last_refuted : forall z f t o d ab s, wf_zone z -> zone_file z f ->
  (forall x, In x (transitions z) -> x <= t) -> nth_error (types z) 0 = Some (o, d, ab) -> abbrev z ab s ->
  tzfile_lookup f t = Ok (Some (o, d, s)).
Proof. exact lookup_last. Qed.
(** Before the first of several transitions, the code does not use the first type of the file but that of the first transition. *)
Theorem C80_tzfile_first_refuted : forall z f t x y k o d ab s, wf_zone z -> zone_file z f -> StronglySorted Z.lt (transitions z) ->
  nth_error (transitions z) 0 = Some x -> nth_error (transitions z) 1 = Some y -> t < x ->
  nth_error (kinds z) 0 = Some k -> nth_error (types z) (Z.to_nat k) = Some (o, d, ab) -> abbrev z ab s ->
  tzfile_lookup f t = Ok (Some (o, d, s)).
Proof. exact lookup_first. Qed.
(** a file with the single type UTC, one standard/wall and one UT/local indicator *)
Definition utc_zone : zone := {| transitions := []; kinds := []; types := [(0, false, 0)]; abbrevs := [85; 84; 67; 0] |}.
Definition utc_file : list Z := [84;90;105;102;0] ++ repeat 0 15 ++ big4 1 ++ big4 1 ++ big4 0 ++ big4 0 ++ big4 1 ++ big4 4 ++ type_bytes (0, false, 0) ++ [85;84;67;0] ++ [0; 0].
(** tzset reads the type table from the entry behind the last one: with a file for UTC, the "offset" is made of the letters UTC; the epoch
    becomes 14 May 2015 *)
Theorem C80_tzfile_types_refuted : wf_zone utc_zone /\ zone_file utc_zone utc_file /\
  exists x, localtime_r {| e_tz := Some [85; 84; 67]; e_tzdir := None; e_file := fun _ => Some utc_file |} 6 tz0 0 = Ok (x, false, 1431585536, [85; 84; 67]) /\
    tm_year x = 115.
Proof.
  split; [|split].
  - unfold wf_zone. cbn. repeat split; try constructor; try discriminate; unfold in_i32; try lia. constructor.
  - exists 0, (repeat 0 15), 1, 1, 0, [0; 0]. split; [left; reflexivity|]. split; reflexivity.
  - eexists. split; [vm_compute; reflexivity|]. reflexivity.
Qed.
Print Assumptions C80_tzfile_partial.
Print Assumptions C80_tzfile_last_refuted.
Print Assumptions C80_tzfile_first_refuted.
Print Assumptions C80_tzfile_types_refuted.

(** "<+0530>-5:30" : 2024-02-29 20:00 UTC is 2024-03-01 01:30 *)
Lemma num_ex : forall lo hi s, forallb digit s = true -> s <> [] -> lo <= dec s <= hi -> num_text lo hi (dec s) s.
Proof. intros lo hi s F N B. split; auto. split; [|auto]. apply Forall_forall. intros c Hc. apply digit_iff. rewrite forallb_forall in F. auto. Qed.
Example C80_ex_std : std_text 6 [43;48;53;51;48] (-19800) [60;43;48;53;51;48;62;45;53;58;51;48].
Proof.
  change [60;43;48;53;51;48;62;45;53;58;51;48] with ((60 :: [43;48;53;51;48] ++ [62]) ++ (45 :: [53] ++ 58 :: [51;48])). apply std_only.
  - apply name_quoted; [|cbn; lia]. repeat constructor; unfold letter, is_dec; lia.
  - apply (off_minus 19800). change 19800 with (dec [53] * 3600 + dec [51;48] * 60). apply clock_hm; apply num_ex; try reflexivity; try discriminate; vm_compute; split; discriminate.
Qed.
Example C80_ex_local : exists x, localtime_r (at_tz [60;43;48;53;51;48;62;45;53;58;51;48]) 6 tz0 1709236800 = Ok (x, false, 19800, [43;48;53;51;48]) /\
  (tm_year x, tm_mon x, tm_mday x, tm_hour x, tm_min x) = (124, 2, 1, 1, 30).
Proof. eexists. split; [vm_compute; reflexivity|]. reflexivity. Qed.
(** EST5EDT,M3.2.0,M11.1.0 in 2026, when March and November begin with a Sunday *)
Example C80_ex_dst : std_text 6 [69;83;84] 18000 [69;83;84;53] /\
  dst_text 6 [69;68;84] 18000 14400 (fst american) (snd american) [69;68;84;44;77;51;46;50;46;48;44;77;49;49;46;49;46;48] /\
  date (Z.to_nat 20513) = (2026, 3, 1) /\ weekday_of (Z.to_nat 20513) = 0 /\ date (Z.to_nat 20758) = (2026, 11, 1) /\ weekday_of (Z.to_nat 20758) = 0.
Proof.
  split; [|split; [|split; [|split; [|split]]]]; try (vm_compute; reflexivity).
  - change [69;83;84;53] with ([69;83;84] ++ [53]). apply std_only; [apply name_plain; [repeat constructor; unfold letter; lia|cbn; lia]|].
    apply off_plain. change 18000 with (dec [53] * 3600). apply clock_h. apply num_ex; try reflexivity; try discriminate; vm_compute; split; discriminate.
  - change [69;68;84;44;77;51;46;50;46;48;44;77;49;49;46;49;46;48] with ([69;68;84] ++ [] ++ (44 :: (77 :: [51] ++ 46 :: [50] ++ 46 :: [48]) ++ 44 :: (77 :: [49;49] ++ 46 :: [49] ++ 46 :: [48]))).
    constructor; [apply name_plain; [repeat constructor; unfold letter; lia|cbn; lia]|left; split; [reflexivity|lia]|].
    right. eexists _, _. split; [|split; [|reflexivity]]; unfold american; cbn [fst snd]; apply rule_default.
    + apply (date_month (dec [51]) _ (dec [50]) _ (dec [48])); apply num_ex; try reflexivity; try discriminate; vm_compute; split; discriminate.
    + apply (date_month (dec [49;49]) _ (dec [49]) _ (dec [48])); apply num_ex; try reflexivity; try discriminate; vm_compute; split; discriminate.
Qed.
(** a file with two types and two transitions: summer time from 100000 to 200000 *)
Definition ex_zone : zone := {| transitions := [100000; 200000]; kinds := [1; 0]; types := [(0, false, 0); (3600, true, 4)]; abbrevs := [85;84;67;0;83;85;77;0] |}.
Definition ex_file : list Z := [84;90;105;102;0] ++ repeat 0 15 ++ big4 0 ++ big4 0 ++ big4 0 ++ big4 2 ++ big4 2 ++ big4 8 ++
  flat_map big4 [100000; 200000] ++ [1; 0] ++ flat_map type_bytes [(0, false, 0); (3600, true, 4)] ++ [85;84;67;0;83;85;77;0] ++ repeat 0 100.
Definition ex_env : tzenv := {| e_tz := Some [65; 47; 66]; e_tzdir := None; e_file := fun _ => Some ex_file |}.
Example C80_ex_file : wf_zone ex_zone /\ zone_file ex_zone ex_file /\ StronglySorted Z.lt (transitions ex_zone) /\ abbrev ex_zone 4 [83;85;77] /\
  (exists st, do_tzset ex_env 6 tz0 = Ok st /\ z_daylight st = true /\ z_rules st = None) /\
  exists x, localtime_r ex_env 6 tz0 150000 = Ok (x, true, 3600, [83;85;77]).
Proof.
  split; [|split; [|split; [|split; [|split]]]].
  - unfold wf_zone. cbn [ex_zone types transitions kinds length]. split; [discriminate|]. split; [reflexivity|].
    split; [repeat constructor; unfold in_i32; lia|]. split; [repeat constructor; cbn; lia|]. split; [repeat constructor; unfold in_i32; lia|]. lia.
  - exists 0, (repeat 0 15), 0, 0, 0, (repeat 0 100). split; [left; reflexivity|]. split; reflexivity.
  - repeat constructor.
  - exists []. split; [reflexivity|]. repeat constructor; discriminate.
  - eexists. split; [vm_compute; reflexivity|]. split; reflexivity.
  - eexists. vm_compute. reflexivity.
Qed.
