From Verif Require Import Base Time_Model Time_Spec TimeCal_Proof.
Open Scope Z_scope.

(** ** The code *)
Lemma i32_ok x : -2147483648 <= x <= 2147483647 -> i32 x = Ok x.
Proof. intros H. unfold i32. replace (_ && _) with true by lia. reflexivity. Qed.
Lemma i64_ok x : -9223372036854775808 <= x <= 9223372036854775807 -> i64 x = Ok x.
Proof. intros H. unfold i64. replace (_ && _) with true by lia. reflexivity. Qed.
Lemma to_i32_ok x : -2147483648 <= x <= 2147483647 -> to_i32 x = x.
Proof. intros H. unfold to_i32. rewrite Z.mod_small; lia. Qed.
Lemma u32_ok x : 0 <= x < 4294967296 -> u32 x = x.
Proof. intros H. unfold u32. apply Z.mod_small. exact H. Qed.
Lemma quot_floor x k : 0 < k -> Z.quot (if x >=? 0 then x else x - (k - 1)) k = x / k.
Proof.
  intros Hk. destruct (x >=? 0) eqn:E; [apply Z.quot_div_nonneg; lia|].
  rewrite <- (Z.opp_involutive (x - (k - 1))), Z.quot_opp_l, Z.quot_div_nonneg by lia.
  apply (Z.div_unique x k _ (x + k * ((- (x - (k - 1))) / k))); [|ring]. left.
  pose proof (Z.div_mod (- (x - (k - 1))) k). pose proof (Z.mod_pos_bound (- (x - (k - 1))) k). lia.
Qed.

Lemma civil_ok n : -2147483648 <= n <= 2147483647 - 719468 -> civil_from_days n = Ok (C n).
Proof.
  intros Hn. unfold civil_from_days, C. rewrite i64_ok by lia. cbn [bind].
  replace (if n + 719468 >=? 0 then n + 719468 else n + 719468 - 146096) with (if n + 719468 >=? 0 then n + 719468 else n + 719468 - (146097 - 1)) by (destruct (_ >=? _); lia).
  rewrite quot_floor by lia. set (t := n + 719468) in *.
  pose proof (Z.div_mod t 146097 ltac:(lia)) as Dm. pose proof (Z.mod_pos_bound t 146097 ltac:(lia)) as Hx.
  set (era := t / 146097) in *. set (x := t mod 146097) in *.
  assert (He : -14700 <= era <= 14700) by lia.
  rewrite (to_i32_ok era), i32_ok by lia. cbn [bind]. replace (t - era * 146097) with x by lia. rewrite (u32_ok x) by lia. cbv zeta.
  pose proof (doe_all x Hx) as T. unfold doe_ok, civil_doe in T. cbv zeta in T. unfold civil_doe. cbv zeta.
  set (s := x - x / 1460 + x / 36524 - x / 146096) in *. set (yoe := s / 365) in *.
  set (doy := x - (365 * yoe + yoe / 4 - yoe / 100)) in *. set (mp := (5 * doy + 2) / 153) in *.
  set (d := doy - (153 * mp + 2) / 5 + 1) in *. set (m := mp + (if mp <? 10 then 3 else -9)) in *.
  repeat (apply andb_prop in T as [T ?]).
  assert (B : 0 <= s < 4294967296) by lia. rewrite (u32_ok s B). fold yoe.
  assert (B1 : 0 <= yoe <= 399 /\ 0 <= doy <= 365 /\ 0 <= mp <= 11 /\ 1 <= m <= 12 /\ 1 <= d <= 31) by (repeat split; lia).
  clear T H H0 H1 H2 H3 H4 H5 H6 H7 H8 H9 H10.
  rewrite i32_ok by lia. cbn [bind]. rewrite (to_i32_ok yoe), i32_ok by lia. cbn [bind]. fold doy. rewrite (u32_ok doy) by lia.
  rewrite (u32_ok (5 * doy + 2)) by lia. fold mp. rewrite (u32_ok (153 * mp + 2)) by lia. fold d m. rewrite (u32_ok d), (u32_ok m) by lia.
  rewrite i32_ok by (destruct (m <=? 2); lia). cbn [bind]. do 3 f_equal. lia.
Qed.

Lemma date_ok n : let '(y, m, d) := date n in valid_date y m d /\ D y m d = Z.of_nat n.
Proof.
  induction n as [|n IH]; [cbn; split; [|reflexivity]; unfold valid_date; cbn; lia|]. cbn [date].
  destruct (date n) as [[y m] d]. destruct IH as [V E]. pose proof (D_next y m d V) as H.
  destruct (next (y, m, d)) as [[y' m'] d']. destruct H as [V' E']. split; [exact V'|]. lia.
Qed.
Lemma C_date n : C (Z.of_nat n) = date n.
Proof. pose proof (date_ok n) as H. destruct (date n) as [[y m] d]. destruct H as [V <-]. apply C_D, V. Qed.

(** ranges of the parts of a day number *)
Lemma D_parts y0 m d : valid_date y0 m d ->
  let y := y0 - (if m <=? 2 then 1 else 0) in let mp := (if m >? 2 then m - 3 else m + 9) in
  0 <= (153 * mp + 2) / 5 + d - 1 <= 365 /\ 0 <= mp <= 11 /\ 1 <= d <= 31 /\
  0 <= (y mod 400) * 365 + (y mod 400) / 4 - (y mod 400) / 100 + ((153 * mp + 2) / 5 + d - 1) <= 146096.
Proof.
  intros [Hm Hd]. cbv zeta. assert (A : 0 <= (153 * (if m >? 2 then m - 3 else m + 9) + 2) / 5 + d - 1 <= 365 /\ 0 <= (if m >? 2 then m - 3 else m + 9) <= 11 /\ 1 <= d <= 31).
  { unfold month_days in Hd.
    destruct (months m Hm) as [->|[->|[->|[->|[->|[->|[->|[->|[->|[->|[->| ->]]]]]]]]]]]; revert Hd; cif; try (destruct (leap y0)); lia. }
  destruct A as (A1 & A2 & A3). split; [exact A1|]. split; [exact A2|]. split; [exact A3|].
  set (q := (153 * _ + 2) / 5 + d - 1) in *. clearbody q. generalize (Z.mod_pos_bound (y0 - (if m <=? 2 then 1 else 0)) 400 ltac:(lia)).
  generalize ((y0 - (if m <=? 2 then 1 else 0)) mod 400). intros r Hr. lia.
Qed.

Lemma days_ok y m d : valid_date y m d -> -2147483648 <= D y m d <= 2147483647 - 719468 -> days_from_civil y m d = Ok (D y m d).
Proof.
  intros V Hn. pose proof (D_parts y m d V) as P. cbv zeta in P. destruct V as [Hm Hd]. unfold days_from_civil, D in *.
  set (yy := y - (if m <=? 2 then 1 else 0)) in *.
  pose proof (Z.div_mod yy 400 ltac:(lia)) as Dm. pose proof (Z.mod_pos_bound yy 400 ltac:(lia)) as Hr.
  replace (if m >? 2 then u32 (m - 3) else u32 (m + 9)) with (if m >? 2 then m - 3 else m + 9)
    by (destruct (m >? 2) eqn:E; symmetry; apply u32_ok; lia).
  set (mp := if m >? 2 then m - 3 else m + 9) in *. set (era := yy / 400) in *. set (yoe := yy mod 400) in *.
  destruct P as (P1 & P2 & P3 & P4).
  rewrite i32_ok by lia. cbn [bind].
  replace (if yy >=? 0 then yy else yy - 399) with (if yy >=? 0 then yy else yy - (400 - 1)) by (destruct (_ >=? _); lia).
  rewrite quot_floor by lia. fold era. replace (yy - era * 400) with yoe by lia. rewrite (u32_ok yoe) by lia.
  rewrite (u32_ok (153 * mp + 2)) by lia. rewrite (u32_ok ((153 * mp + 2) / 5 + d - 1)) by lia. rewrite u32_ok by lia.
  rewrite i32_ok by lia. cbn [bind]. rewrite to_i32_ok by lia. rewrite i32_ok by lia. cbn [bind]. rewrite i32_ok by lia. reflexivity.
Qed.

(** years of representable day numbers *)
Lemma C_year n : -2147483648 <= n <= 2147483647 - 719468 -> let '(y, m, d) := C n in -6000000 <= y <= 6000000 /\ 1 <= m <= 12 /\ 1 <= d <= 31.
Proof.
  intros Hn. pose proof (C_ok n) as H. destruct (C n) as [[y m] d]. destruct H as [V E]. pose proof (D_parts y m d V) as P. cbv zeta in P.
  destruct P as (_ & _ & P3 & P4). destruct V as [Hm _]. split; [|lia]. unfold D in E.
  set (yy := y - (if m <=? 2 then 1 else 0)) in *.
  pose proof (Z.div_mod yy 400 ltac:(lia)) as Dm. pose proof (Z.mod_pos_bound yy 400 ltac:(lia)) as Hr.
  assert (y - 1 <= yy <= y) by (unfold yy; destruct (m <=? 2); lia). lia.
Qed.

Lemma weekday_ok n : -2147483648 <= n <= 2147483647 -> to_i32 (weekday_from_days n) = (n + 4) mod 7.
Proof.
  intros Hn. assert (E : (if n >=? -4 then Z.rem (n + 4) 7 else Z.rem (n + 5) 7 + 6) = (n + 4) mod 7).
  { destruct (n >=? -4) eqn:E; lia. }
  unfold weekday_from_days. rewrite E. pose proof (Z.mod_pos_bound (n + 4) 7). rewrite u32_ok, to_i32_ok by lia. reflexivity.
Qed.

Lemma yday_ok y m d : 0 <= y <= 6000000 -> valid_date y m d ->
  to_i32 (u32 (yearday_from_date (u32 y) m d - 1)) = year_day (y, m, d) + (if leap y || (m <=? 2) then 0 else 1).
Proof.
  intros Hy [Hm Hd]. unfold yearday_from_date. rewrite (u32_ok y), (u32_ok (4 * y)) by lia.
  replace (y - 4 * y / 4 + 2) with 2 by lia. change (u32 2 / 3) with 0. change (u32 (1 + 0)) with 1. unfold month_days in Hd.
  cbn [year_day].
  destruct (months m Hm) as [->|[->|[->|[->|[->|[->|[->|[->|[->|[->|[->| ->]]]]]]]]]]]; revert Hd; cif; intros Hd;
  repeat match goal with
  | |- context [u32 (275 * ?c) / 9] => let v := eval vm_compute in (u32 (275 * c) / 9) in change (u32 (275 * c) / 9) with v
  | |- context [u32 (u32 (?c + 9) / 12 * 1)] => let v := eval vm_compute in (u32 (u32 (c + 9) / 12 * 1)) in change (u32 (u32 (c + 9) / 12 * 1)) with v
  | |- context [Z.to_nat ?c] => let v := eval vm_compute in (Z.to_nat c) in change (Z.to_nat c) with v
  end; cbn [days_before orb]; unfold month_days; cif; destruct (leap y); cbn [orb]; cif;
  match goal with |- to_i32 (u32 (u32 ?e - 1)) = _ => rewrite (u32_ok e), u32_ok, to_i32_ok by lia end; lia.
Qed.

Lemma gmtime_ok t : 0 <= t -> t / 86400 <= 2147483647 - 719468 ->
  let n := t / 86400 in let '(y, m, d) := date (Z.to_nat n) in
  gmtime_r t = Ok {| tm_sec := t mod 60; tm_min := (t / 60) mod 60; tm_hour := (t / 3600) mod 24; tm_mday := d; tm_mon := m - 1;
    tm_year := y - 1900; tm_wday := (n + 4) mod 7; tm_yday := year_day (y, m, d) + (if leap y || (m <=? 2) then 0 else 1) |}.
Proof.
  intros H0 Hn. cbv zeta. assert (N0 : 0 <= t / 86400) by (apply Z.div_pos; lia). pose proof (C_date (Z.to_nat (t / 86400))) as CD.
  rewrite Z2Nat.id in CD by exact N0. pose proof (date_ok (Z.to_nat (t / 86400))) as DO. rewrite <- CD in *. clear CD.
  unfold gmtime_r. rewrite Z.quot_div_nonneg by lia. set (n := t / 86400) in *. rewrite (to_i32_ok n) by lia. rewrite civil_ok by lia.
  pose proof (C_year n ltac:(lia)) as CY. destruct (C n) as [[y m] d] eqn:EC. cbn [bind]. destruct DO as [V ED]. destruct CY as (Y1 & M1 & D1).
  assert (Hy : 0 <= y). { destruct (Z.lt_ge_cases y 0) as [L|]; [|assumption]. exfalso. pose proof (D_month y m d V). pose proof (D_year_mono y 0 L).
    assert (E0 : D 0 1 1 = -719528) by reflexivity. lia. }
  rewrite i32_ok by lia. cbn [bind]. rewrite (yday_ok y m d) by (auto; lia). rewrite weekday_ok by lia. rewrite (u32_ok (m - 1)) by lia.
  rewrite (to_i32_ok d), (to_i32_ok (m - 1)) by lia. rewrite !Z.quot_div_nonneg by lia.
  rewrite !Z.rem_mod_nonneg by (try apply Z.div_pos; lia). reflexivity.
Qed.

Lemma timegm_ok y m d hh mm ss : valid_date y m d -> -2147483648 <= D y m d <= 2147483647 - 719468 ->
  -86400 <= hh <= 86400 -> -86400 <= mm <= 86400 -> -86400 <= ss <= 86400 -> forall wd yd,
  timegm {| tm_sec := ss; tm_min := mm; tm_hour := hh; tm_mday := d; tm_mon := m - 1; tm_year := y - 1900; tm_wday := wd; tm_yday := yd |}
  = Ok (D y m d * 86400 + hh * 3600 + mm * 60 + ss).
Proof.
  intros V Hn Hh Hm Hs wd yd. pose proof (C_year (D y m d) Hn) as CY. rewrite C_D in CY by exact V. destruct CY as (Y1 & M1 & D1).
  unfold timegm. cbn [tm_sec tm_min tm_hour tm_mday tm_mon tm_year].
  replace (y - 1900 + 1900) with y by lia. replace (m - 1 + 1) with m by lia.
  rewrite (i32_ok y), (i32_ok m) by lia. cbn [bind]. rewrite (u32_ok m), (u32_ok d) by lia. rewrite days_ok by assumption. cbn [bind].
  rewrite (i32_ok (hh * 60)) by lia. cbn [bind]. rewrite (i32_ok (hh * 60 * 60)) by lia. cbn [bind]. rewrite (i32_ok (mm * 60)) by lia. cbn [bind].
  rewrite i64_ok by lia. f_equal. lia.
Qed.

Lemma round_trip t : -2147483648 <= Z.quot t 86400 <= 2147483647 - 719468 -> exists x, gmtime_r t = Ok x /\ timegm x = Ok t.
Proof.
  intros Hn. unfold gmtime_r. set (n := Z.quot t 86400) in *. rewrite (to_i32_ok n) by lia. rewrite civil_ok by lia.
  pose proof (C_year n ltac:(lia)) as CY. pose proof (C_ok n) as CO. destruct (C n) as [[y m] d] eqn:EC. cbn [bind].
  destruct CO as [V ED]. destruct CY as (Y1 & M1 & D1). rewrite i32_ok by lia. cbn [bind]. rewrite (u32_ok (m - 1)) by lia.
  rewrite (to_i32_ok d), (to_i32_ok (m - 1)) by lia. eexists. split; [reflexivity|]. rewrite timegm_ok; [|exact V|lia..].
  f_equal. rewrite ED. unfold n. clear. lia.
Qed.

Lemma in64_t x : time_t_ok x -> in64 x = true.
Proof. unfold time_t_ok, in64. lia. Qed.
Lemma in64_f x : ~ time_t_ok x -> in64 x = false.
Proof. unfold time_t_ok, in64. lia. Qed.
Lemma in64_small x : -2000000000 <= x <= 2000000000 -> in64 x = true.
Proof. unfold in64. lia. Qed.

Lemma abs_rel_ok now abst : normal now -> normal abst -> time_t_ok (fst abst - fst now) ->
  exists r, absolute_to_relative now abst = Some r /\ normal r /\ nanos r = Z.max 0 (nanos abst - nanos now).
Proof.
  destruct now as [s0 n0], abst as [s1 n1]. unfold normal, nanos, absolute_to_relative, checked. cbn [fst snd].
  intros H0 H1 H. rewrite (in64_t _ H), (in64_small (n1 - n0)) by lia. unfold time_t_ok in H.
  destruct ((s1 - s0 <? 0) || ((s1 - s0 =? 0) && (n1 - n0 <? 0))) eqn:E; [exists (0, 0); split; [reflexivity|]; cbn [fst snd]; lia|].
  replace (n1 - n0 >=? 1000000000) with false by lia. destruct (n1 - n0 <? 0) eqn:E2.
  - rewrite (in64_t (s1 - s0 - 1)) by (unfold time_t_ok; lia). replace (n1 - n0 + 1000000000 <? 0) with false by lia. eexists. split; [reflexivity|]. cbn [fst snd]. lia.
  - eexists. split; [reflexivity|]. cbn [fst snd]. lia.
Qed.
Lemma abs_rel_fail now abst : ~ time_t_ok (fst abst - fst now) -> absolute_to_relative now abst = None.
Proof. unfold absolute_to_relative, checked. intros H. rewrite (in64_f _ H). reflexivity. Qed.

Lemma rel_abs_ok now rel : normal now -> normal rel -> 0 <= fst now -> 0 <= fst rel ->
  time_t_ok ((nanos now + nanos rel) / 1000000000) ->
  exists a, relative_to_absolute now rel = Some a /\ normal a /\ nanos a = nanos now + nanos rel.
Proof.
  destruct now as [s0 n0], rel as [s1 n1]. unfold normal, nanos, relative_to_absolute, checked. cbn [fst snd].
  intros H0 H1 P0 P1 H2. rewrite (in64_small (n0 + n1)) by lia.
  assert (H : time_t_ok (s0 + s1)) by (unfold time_t_ok in *; lia). rewrite (in64_t _ H). cbv zeta.
  destruct (n0 + n1 >=? 1000000000) eqn:E.
  - replace ((s0 * 1000000000 + n0 + (s1 * 1000000000 + n1)) / 1000000000) with (s0 + s1 + 1) in H2 by lia.
    rewrite (in64_t _ H2). replace (n0 + n1 - 1000000000 >=? 1000000000) with false by lia.
    replace (s0 + s1 + 1 <? 0) with false by lia. rewrite andb_false_r. eexists. split; [reflexivity|]. cbn [fst snd]. lia.
  - replace (n0 + n1 <? 0) with false by lia. replace (s0 + s1 <? 0) with false by lia. rewrite andb_false_r. eexists. split; [reflexivity|]. cbn [fst snd]. lia.
Qed.
Lemma rel_abs_fail now rel : normal now -> normal rel -> (0 <= fst now) -> (0 <= fst rel) ->
  ~ time_t_ok ((nanos now + nanos rel) / 1000000000) -> relative_to_absolute now rel = None.
Proof.
  destruct now as [s0 n0], rel as [s1 n1]. unfold normal, nanos, relative_to_absolute, checked. cbn [fst snd].
  intros H0 H1 Hs0 Hs1 H2. destruct (in64 (s0 + s1)) eqn:E1; [|reflexivity].
  rewrite (in64_small (n0 + n1)) by lia. cbv zeta. destruct (n0 + n1 >=? 1000000000) eqn:E.
  - replace ((s0 * 1000000000 + n0 + (s1 * 1000000000 + n1)) / 1000000000) with (s0 + s1 + 1) in H2 by lia.
    rewrite (in64_f _ H2). reflexivity.
  - exfalso. replace ((s0 * 1000000000 + n0 + (s1 * 1000000000 + n1)) / 1000000000) with (s0 + s1) in H2 by lia.
    apply in64_f in H2. congruence.
Qed.
