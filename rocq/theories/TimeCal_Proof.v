From Verif Require Import Base Time_Model Time_Spec.
Open Scope Z_scope.

(** ** The closed form of the day number *)
Definition D (y0 m d : Z) : Z :=
  let y := y0 - (if m <=? 2 then 1 else 0) in
  let era := y / 400 in
  let yoe := y mod 400 in
  let doy := (153 * (if m >? 2 then m - 3 else m + 9) + 2) / 5 + d - 1 in
  era * 146097 + (yoe * 365 + yoe / 4 - yoe / 100 + doy) - 719468.

Lemma leap_spec y : leap y = true <-> (y mod 4 = 0 /\ y mod 100 <> 0) \/ y mod 400 = 0.
Proof.
  unfold leap. rewrite orb_true_iff, andb_true_iff, negb_true_iff, Z.eqb_eq, Z.eqb_neq, Z.eqb_eq. tauto.
Qed.
Lemma leap_false y : leap y = false -> ~ ((y mod 4 = 0 /\ y mod 100 <> 0) \/ y mod 400 = 0).
Proof. intros H. rewrite <- leap_spec. congruence. Qed.

(** decide the conditions that contain no variables *)
Ltac cif := repeat match goal with |- context [if ?b then _ else _] =>
  let v := eval vm_compute in b in match v with true => change b with true | false => change b with false end; cbv iota end.

Lemma months m : 1 <= m <= 12 -> m = 1 \/ m = 2 \/ m = 3 \/ m = 4 \/ m = 5 \/ m = 6 \/ m = 7 \/ m = 8 \/ m = 9 \/ m = 10 \/ m = 11 \/ m = 12.
Proof. lia. Qed.

(** days of a year, in the form used by D *)
Definition Y (y : Z) : Z := (y / 400) * 146097 + ((y mod 400) * 365 + (y mod 400) / 4 - (y mod 400) / 100).
Lemma Y_step y : Y (y + 1) = Y y + 365 + (if leap (y + 1) then 1 else 0).
Proof.
  unfold Y. destruct (leap (y + 1)) eqn:L.
  - apply leap_spec in L. assert (y mod 4 = 3 /\ y mod 100 <> 99 \/ y mod 400 = 399) as H by lia. clear L. lia.
  - apply leap_false in L. assert (~ (y mod 4 = 3 /\ y mod 100 <> 99 \/ y mod 400 = 399)) as H by lia. clear L. lia.
Qed.
Lemma D_Y y m d : D y m d = Y (y - (if m <=? 2 then 1 else 0)) + ((153 * (if m >? 2 then m - 3 else m + 9) + 2) / 5 + d - 1) - 719468.
Proof. unfold D, Y. lia. Qed.

Lemma D_next y m d : valid_date y m d -> let '(y', m', d') := next (y, m, d) in valid_date y' m' d' /\ D y' m' d' = D y m d + 1.
Proof.
  intros [Hm Hd]. cbn [next]. pose proof (Y_step (y - 1)) as S. replace (y - 1 + 1) with y in S by lia.
  destruct (d <? month_days y m) eqn:Ed.
  - split; [split; [lia|lia]|]. rewrite !D_Y. lia.
  - assert (d = month_days y m) by lia. subst d. clear Ed Hd. destruct (m <? 12) eqn:Em.
    + split.
      * split; [lia|]. unfold month_days. destruct (leap y), (m + 1 =? 2); try lia;
        destruct ((m + 1 =? 4) || (m + 1 =? 6) || (m + 1 =? 9) || (m + 1 =? 11)); lia.
      * rewrite !D_Y. destruct (months m Hm) as [->|[->|[->|[->|[->|[->|[->|[->|[->|[->|[->| ->]]]]]]]]]]]; try discriminate Em;
        unfold month_days; cif; repeat rewrite Z.sub_0_r; try lia.
        rewrite S. destruct (leap y); lia.
    + assert (m = 12) by lia. subst m. split; [split; [lia|cbn; lia]|].
      rewrite !D_Y. unfold month_days. cif. replace (y + 1 - 1) with y by lia. rewrite Z.sub_0_r. lia.
Qed.

(** ** civil_from_days inverts D *)
Definition civil_doe (doe : Z) : Z * Z * Z :=
  let yoe := (doe - doe / 1460 + doe / 36524 - doe / 146096) / 365 in
  let doy := doe - (365 * yoe + yoe / 4 - yoe / 100) in
  let mp := (5 * doy + 2) / 153 in
  let d := doy - (153 * mp + 2) / 5 + 1 in
  let m := mp + (if mp <? 10 then 3 else -9) in
  (yoe + (if m <=? 2 then 1 else 0), m, d).
Definition doe_ok (doe : Z) : bool :=
  let yoe := (doe - doe / 1460 + doe / 36524 - doe / 146096) / 365 in
  let doy := doe - (365 * yoe + yoe / 4 - yoe / 100) in
  let mp := (5 * doy + 2) / 153 in
  let '(y, m, d) := civil_doe doe in
  (D y m d =? doe - 719468) && (1 <=? m) && (m <=? 12) && (1 <=? d) && (d <=? month_days y m) && (0 <=? yoe) && (yoe <=? 399) &&
  (0 <=? doy) && (doy <=? 365) && (0 <=? mp) && (mp <=? 11) && (0 <=? doe - doe / 1460 + doe / 36524 - doe / 146096) && (d <=? 31).
(** year of the era: the quotient is monotone, so that its values at the ends of each year decide it everywhere *)
Definition G (x : Z) : Z := x - x / 1460 + x / 36524 - x / 146096.
Lemma G_step x : 0 <= x -> G x <= G (x + 1).
Proof. intros H. unfold G. assert (x / 36524 <= (x + 1) / 36524) by (apply Z.div_le_mono; lia).
  assert (A : (x + 1) / 1460 <= x / 1460 + 1) by lia. assert (B : (x + 1) / 146096 <= x / 146096 + 1) by lia.
  assert (E : (x + 1) / 146096 = x / 146096 + 1 -> (x + 1) / 36524 = x / 36524 + 1) by lia.
  destruct (Z.eq_dec ((x + 1) / 146096) (x / 146096 + 1)) as [e|e]; [specialize (E e); lia|]. assert ((x + 1) / 146096 <= x / 146096) by lia. lia. Qed.
Lemma G_mono x y : 0 <= x <= y -> G x <= G y.
Proof.
  intros H. replace y with (x + Z.of_nat (Z.to_nat (y - x))) by lia. generalize (Z.to_nat (y - x)). intros n. induction n as [|n IH]; [rewrite Z.add_0_r; lia|].
  replace (x + Z.of_nat (S n)) with (x + Z.of_nat n + 1) by lia. pose proof (G_step (x + Z.of_nat n) ltac:(lia)). lia.
Qed.
Definition S0 (y : Z) : Z := 365 * y + y / 4 - y / 100.
Definition E0 (y : Z) : Z := if y =? 399 then 146096 else S0 (y + 1) - 1.
Definition year_ok (y : Z) : bool :=
  (G (S0 y) / 365 =? y) && (G (E0 y) / 365 =? y) && (0 <=? S0 y) && (E0 y - S0 y =? 364 + (if leap (y + 1) then 1 else 0)).
Definition doy_ok (doy : Z) : bool :=
  let mp := (5 * doy + 2) / 153 in
  let d := doy - (153 * mp + 2) / 5 + 1 in
  let m := mp + (if mp <? 10 then 3 else -9) in
  ((153 * (if m >? 2 then m - 3 else m + 9) + 2) / 5 + d - 1 =? doy) && (1 <=? m) && (m <=? 12) && (1 <=? d) && (d <=? 31) && (0 <=? mp) && (mp <=? 11) &&
  (d <=? month_days (if doy =? 365 then 4 else 1) m).
Fixpoint all_from (P : Z -> bool) (n : nat) (z : Z) : bool := match n with O => true | S n' => if P z then all_from P n' (z + 1) else false end.
Lemma all_from_ok P n : forall z, all_from P n z = true -> forall x, z <= x < z + Z.of_nat n -> P x = true.
Proof.
  induction n as [|n IH]; intros z H x Hx; [lia|]. cbn [all_from] in H. destruct (P z) eqn:E; [|discriminate].
  destruct (Z.eq_dec x z) as [->|]; [exact E|]. apply (IH (z + 1) H). lia.
Qed.
Lemma year_table : all_from year_ok 400 0 = true.
Proof. vm_cast_no_check (eq_refl true). Qed.
Lemma doy_table : all_from doy_ok 366 0 = true.
Proof. vm_cast_no_check (eq_refl true). Qed.
Lemma find_year x : 0 <= x < 146097 -> exists y, 0 <= y <= 399 /\ S0 y <= x <= E0 y.
Proof.
  intros H. assert (T : forall n : nat, (n <= 399)%nat -> (exists y, 0 <= y <= 399 /\ S0 y <= x <= E0 y) \/ S0 (Z.of_nat n) <= x).
  { induction n as [|n IH]; intros Hn; [right; unfold S0; cbn; lia|]. destruct (IH ltac:(lia)) as [E|L]; [left; exact E|].
    replace (Z.of_nat (S n)) with (Z.of_nat n + 1) by lia. destruct (Z_le_gt_dec (S0 (Z.of_nat n + 1)) x) as [G1|G1]; [right; exact G1|].
    left. exists (Z.of_nat n). split; [lia|]. split; [exact L|]. unfold E0. replace (Z.of_nat n =? 399) with false by lia. lia. }
  destruct (T 399%nat ltac:(lia)) as [E|L]; [exact E|]. exists 399. split; [lia|]. split; [exact L|]. unfold E0. change (399 =? 399) with true. cbv iota. lia.
Qed.
Lemma md_leap y y' m : (leap y = true -> leap y' = true) -> month_days y m <= month_days y' m.
Proof.
  intros H. unfold month_days. destruct (m =? 2); [|lia]. destruct (leap y); [rewrite H by reflexivity; lia|]. destruct (leap y'); lia.
Qed.
Lemma doe_all x : 0 <= x < 146097 -> doe_ok x = true.
Proof.
  intros H. destruct (find_year x H) as (y & Hy & Hx). pose proof (all_from_ok year_ok 400 0 year_table y ltac:(lia)) as T. unfold year_ok in T.
  apply andb_prop in T as [T T4]. apply andb_prop in T as [T T3]. apply andb_prop in T as [T1 T2]. apply Z.eqb_eq in T1, T2, T4. apply Z.leb_le in T3.
  assert (Gx : G x / 365 = y).
  { pose proof (G_mono (S0 y) x ltac:(lia)). pose proof (G_mono x (E0 y) ltac:(lia)).
    assert (G (S0 y) / 365 <= G x / 365) by (apply Z.div_le_mono; lia). assert (G x / 365 <= G (E0 y) / 365) by (apply Z.div_le_mono; lia). lia. }
  assert (G0 : 0 <= G x) by (change 0 with (G 0); apply G_mono; lia).
  set (doy := x - S0 y). assert (Hd : 0 <= doy <= 365) by (unfold doy; destruct (leap (y + 1)); lia).
  assert (Hl : doy = 365 -> leap (y + 1) = true) by (unfold doy; destruct (leap (y + 1)); [reflexivity|lia]).
  pose proof (all_from_ok doy_ok 366 0 doy_table doy ltac:(lia)) as U. unfold doy_ok in U. cbv zeta in U.
  unfold doe_ok, civil_doe. change (x - x / 1460 + x / 36524 - x / 146096) with (G x). rewrite Gx. cbv zeta.
  change (365 * y + y / 4 - y / 100) with (S0 y). fold doy. set (mp := (5 * doy + 2) / 153) in *. set (d := doy - (153 * mp + 2) / 5 + 1) in *.
  set (m := mp + (if mp <? 10 then 3 else -9)) in *.
  apply andb_prop in U as [U U8]. apply andb_prop in U as [U U7]. apply andb_prop in U as [U U6]. apply andb_prop in U as [U U5]. apply andb_prop in U as [U U4]. apply andb_prop in U as [U U3].
  apply andb_prop in U as [U1 U2]. apply Z.eqb_eq in U1.
  assert (ED : D (y + (if m <=? 2 then 1 else 0)) m d = x - 719468).
  { rewrite D_Y, U1. replace (y + (if m <=? 2 then 1 else 0) - (if m <=? 2 then 1 else 0)) with y by lia. unfold Y. rewrite (Z.div_small y), (Z.mod_small y) by lia.
    unfold doy, S0. lia. }
  assert (EM : d <= month_days (y + (if m <=? 2 then 1 else 0)) m).
  { apply Z.leb_le in U8. eapply Z.le_trans; [exact U8|]. destruct (doy =? 365) eqn:E365.
    - apply Z.eqb_eq in E365. destruct (m <=? 2) eqn:Em; [apply md_leap; intros _; apply Hl, E365|]. unfold month_days. replace (m =? 2) with false by lia. lia.
    - apply md_leap. intros L1. discriminate L1. }
  rewrite ED, Z.eqb_refl, U2, U3, U4, U5, U6, U7. cbn [andb]. apply Z.leb_le in EM. rewrite EM.
  replace (0 <=? y) with true by lia. replace (y <=? 399) with true by lia. replace (0 <=? doy) with true by lia. replace (doy <=? 365) with true by lia.
  replace (0 <=? G x) with true by lia. reflexivity.
Qed.

Lemma D_era y m d k : D (y + 400 * k) m d = D y m d + 146097 * k.
Proof. rewrite !D_Y. replace (y + 400 * k - (if m <=? 2 then 1 else 0)) with (y - (if m <=? 2 then 1 else 0) + k * 400) by lia.
  unfold Y. rewrite Z.div_add, Z.mod_add by lia. lia. Qed.
Lemma month_days_era y m k : month_days (y + 400 * k) m = month_days y m.
Proof.
  unfold month_days. replace (leap (y + 400 * k)) with (leap y); [reflexivity|]. unfold leap.
  replace ((y + 400 * k) mod 4) with (y mod 4) by lia. replace ((y + 400 * k) mod 100) with (y mod 100) by lia.
  replace ((y + 400 * k) mod 400) with (y mod 400) by lia. reflexivity.
Qed.

(** the year, month and day of a day number *)
Definition C (n : Z) : Z * Z * Z :=
  let '(y, m, d) := civil_doe ((n + 719468) mod 146097) in (y + 400 * ((n + 719468) / 146097), m, d).

Lemma C_ok n : let '(y, m, d) := C n in valid_date y m d /\ D y m d = n.
Proof.
  unfold C. set (x := (n + 719468) mod 146097). pose proof (Z.mod_pos_bound (n + 719468) 146097 ltac:(lia)) as Hx. fold x in Hx.
  pose proof (doe_all x Hx) as T. unfold doe_ok in T. destruct (civil_doe x) as [[y m] d]. cbv zeta in T.
  repeat (apply andb_prop in T as [T ?]). split; [split; [lia|]|].
  - rewrite month_days_era. lia.
  - rewrite D_era. apply Z.eqb_eq in T. rewrite T. pose proof (Z.div_mod (n + 719468) 146097). unfold x. lia.
Qed.

(** D is injective on valid dates: it is strictly increasing *)
Lemma D_month y m d : valid_date y m d -> D y 1 1 <= D y m d < D (y + 1) 1 1.
Proof.
  intros [Hm Hd]. rewrite !D_Y. pose proof (Y_step (y - 1)) as S. replace (y - 1 + 1) with y in S by lia.
  unfold month_days in Hd.
  destruct (months m Hm) as [->|[->|[->|[->|[->|[->|[->|[->|[->|[->|[->| ->]]]]]]]]]]]; revert Hd; cif;
  repeat rewrite Z.sub_0_r; replace (y + 1 - 1) with y by lia; destruct (leap y); lia.
Qed.
Lemma D_year_mono a b : a < b -> D (a + 1) 1 1 <= D b 1 1.
Proof.
  intros H. assert (G : forall n : nat, D (a + 1) 1 1 <= D (a + 1 + Z.of_nat n) 1 1).
  { induction n as [|n IH]; [replace (a + 1 + Z.of_nat 0) with (a + 1) by lia; lia|].
    replace (a + 1 + Z.of_nat (S n)) with (a + 1 + Z.of_nat n + 1) by lia. rewrite !D_Y in *. revert IH. cif. intros IH.
    pose proof (Y_step (a + 1 + Z.of_nat n - 1)) as S. replace (a + 1 + Z.of_nat n + 1 - 1) with (a + 1 + Z.of_nat n - 1 + 1) by lia.
    destruct (leap _); lia. }
  specialize (G (Z.to_nat (b - a - 1))). replace (a + 1 + Z.of_nat (Z.to_nat (b - a - 1))) with b in G by lia. exact G.
Qed.
Lemma D_month_step y m d : valid_date y m d -> m < 12 -> D y m d < D y (m + 1) 1.
Proof.
  intros [Hm Hd] L. rewrite !D_Y. pose proof (Y_step (y - 1)) as S. replace (y - 1 + 1) with y in S by lia. unfold month_days in Hd.
  destruct (months m Hm) as [->|[->|[->|[->|[->|[->|[->|[->|[->|[->|[->| ->]]]]]]]]]]]; revert Hd; cif; try lia;
  repeat rewrite Z.sub_0_r; destruct (leap y); lia.
Qed.
Lemma month_days_pos y m : 1 <= month_days y m.
Proof. unfold month_days. destruct (m =? 2); [destruct (leap y); lia|]. destruct (_ || _); lia. Qed.
Lemma D_month_mono y m m' d' : 1 <= m < m' -> valid_date y m' d' -> D y (m + 1) 1 <= D y m' d'.
Proof.
  intros H [Hm' Hd']. assert (G : forall n : nat, m + 1 + Z.of_nat n <= 12 -> D y (m + 1) 1 <= D y (m + 1 + Z.of_nat n) 1).
  { induction n as [|n IH]; intros L; [replace (m + 1 + Z.of_nat 0) with (m + 1) by lia; lia|].
    assert (V : valid_date y (m + 1 + Z.of_nat n) 1) by (split; [lia|split; [lia|apply month_days_pos]]).
    pose proof (D_month_step _ _ _ V). replace (m + 1 + Z.of_nat (S n)) with (m + 1 + Z.of_nat n + 1) by lia. lia. }
  specialize (G (Z.to_nat (m' - m - 1))). replace (m + 1 + Z.of_nat (Z.to_nat (m' - m - 1))) with m' in G by lia.
  assert (D y m' 1 <= D y m' d') by (rewrite !D_Y; lia). lia.
Qed.
Lemma D_inj y m d y' m' d' : valid_date y m d -> valid_date y' m' d' -> D y m d = D y' m' d' -> (y, m, d) = (y', m', d').
Proof.
  intros V V' E. pose proof (D_month y m d V). pose proof (D_month y' m' d' V').
  assert (y = y').
  { destruct (Z.lt_trichotomy y y') as [L|[L|L]]; [|exact L|]; [pose proof (D_year_mono y y' L)|pose proof (D_year_mono y' y L)]; lia. }
  subst y'. assert (m = m').
  { destruct (Z.lt_trichotomy m m') as [L|[L|L]]; [|exact L|];
    [pose proof (D_month_step y m d V); pose proof (D_month_mono y m m' d')|pose proof (D_month_step y m' d' V'); pose proof (D_month_mono y m' m d)];
    destruct V as [Vm Vd], V' as [Vm' Vd']; unfold valid_date in *; intuition lia. }
  subst m'. rewrite !D_Y in E. f_equal. lia.
Qed.
Lemma C_D y m d : valid_date y m d -> C (D y m d) = (y, m, d).
Proof.
  intros V. pose proof (C_ok (D y m d)) as H. destruct (C (D y m d)) as [[y' m'] d']. destruct H as [V' E].
  apply D_inj; auto.
Qed.

