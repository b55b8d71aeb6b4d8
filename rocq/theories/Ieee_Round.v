(** More about the arithmetic of Ieee.v: rounding gives the nearest number, and sums of representable value are exact. *)
From Verif Require Export Ieee_Proof.
Open Scope Z_scope.

(** the integer nearest to [m / k], the even one of two *)
Definition rne (m k : Z) : Z :=
  let q := m / k in let r := m mod k in if (k <? 2 * r) || ((2 * r =? k) && Z.odd q) then q + 1 else q.
Lemma rne_spec : forall m k, 0 < k -> 2 * Z.abs (m - rne m k * k) <= k /\ (2 * Z.abs (m - rne m k * k) = k -> Z.even (rne m k) = true).
Proof.
  intros m k K. unfold rne. pose proof (Z.div_mod m k ltac:(lia)) as D. pose proof (Z.mod_pos_bound m k ltac:(lia)) as B.
  set (q := m / k) in *. set (r := m mod k) in *. clearbody q r. subst m.
  destruct (Z.ltb_spec k (2 * r)); cbn [orb].
  - replace (k * q + r - (q + 1) * k) with (r - k) by ring. split; lia.
  - destruct (Z.eqb_spec (2 * r) k) as [E | E]; cbn [andb].
    + destruct (Z.odd q) eqn:O.
      * replace (k * q + r - (q + 1) * k) with (r - k) by ring. split; [lia|]. intros _. rewrite Z.add_1_r, Z.even_succ. exact O.
      * replace (k * q + r - q * k) with r by ring. split; [lia|]. intros _. rewrite <- Z.negb_odd, O. reflexivity.
    + replace (k * q + r - q * k) with r by ring. split; lia.
Qed.
Lemma rne_bounds : forall m k, 0 < k -> m / k <= rne m k <= m / k + 1.
Proof. intros. unfold rne. destruct (_ || _); lia. Qed.
Lemma rne_exact : forall n k, 0 < k -> rne (n * k) k = n.
Proof.
  intros n k K. unfold rne. rewrite Z.div_mul, Z.mod_mul by lia.
  replace (k <? 2 * 0) with false by (symmetry; apply Z.ltb_ge; lia). replace (2 * 0 =? k) with false by (symmetry; apply Z.eqb_neq; lia). reflexivity.
Qed.

Section Fmt.
Variable f : fmt.
Hypothesis F1 : 1 <= mb f.
Hypothesis F2 : 2 <= eb f.

(** encode also at the next power of two *)
Lemma encode_le : forall d s, 2 ^ mb f <= d <= 2 ^ (mb f + 1) -> 0 <= s -> d * 2 ^ s < top f ->
  0 <= s * 2 ^ mb f + d < infinity f /\ mag f (s * 2 ^ mb f + d) = d * 2 ^ s.
Proof.
  intros d s Hd Hs Ht. pose proof (pow_pos (mb f) ltac:(lia)) as PM. destruct (Z.eq_dec d (2 ^ (mb f + 1))) as [-> | N].
  - assert (E : s * 2 ^ mb f + 2 ^ (mb f + 1) = (s + 1) * 2 ^ mb f + 2 ^ mb f) by (rewrite pow_S by lia; ring). rewrite E.
    assert (E2 : 2 ^ (mb f + 1) * 2 ^ s = 2 ^ mb f * 2 ^ (s + 1)) by (rewrite !pow_S by lia; ring). rewrite E2 in *.
    assert (R : 2 ^ mb f <= 2 ^ mb f < 2 ^ (mb f + 1)) by (rewrite pow_S by lia; lia).
    pose proof (encode_bound f F1 F2 (2 ^ mb f) (s + 1) R ltac:(lia) Ht) as B.
    destruct (encode f F1 F2 (2 ^ mb f) (s + 1) R ltac:(lia) B) as [Z2 Z3]. split; [lia|exact Z3].
  - assert (R : 2 ^ mb f <= d < 2 ^ (mb f + 1)) by lia. pose proof (encode_bound f F1 F2 d s R ltac:(lia) Ht) as B.
    destruct (encode f F1 F2 d s R ltac:(lia) B) as [Z2 Z3]. split; [lia|exact Z3].
Qed.

Definition ulp_exp (m : Z) : Z := Z.max 0 (Z.log2 m - mb f).
Lemma round_mag_value : forall m, 0 <= m -> rne m (2 ^ ulp_exp m) * 2 ^ ulp_exp m < top f ->
  0 <= round_mag f m < infinity f /\ mag f (round_mag f m) = rne m (2 ^ ulp_exp m) * 2 ^ ulp_exp m.
Proof.
  intros m Hm. pose proof (pow_pos (mb f) ltac:(lia)) as PM.
  change (round_mag f m) with (Z.min (infinity f) (ulp_exp m * 2 ^ mb f + rne m (2 ^ ulp_exp m))).
  destruct (Z_lt_ge_dec m (2 ^ mb f)) as [L | G]; intros Ht.
  - assert (Z.log2 m <= mb f).
    { destruct (Z.eq_dec m 0) as [-> | N]; [cbn; lia|]. pose proof (log2_range m ltac:(lia)). destruct (Z_le_gt_dec (Z.log2 m) (mb f)) as [|Q]; [auto|].
      pose proof (pow_le (mb f) (Z.log2 m) ltac:(lia)). lia. }
    assert (E : ulp_exp m = 0) by (unfold ulp_exp; lia). rewrite E in *. change (2 ^ 0) with 1 in *.
    assert (R : rne m 1 = m) by (pose proof (rne_exact m 1 ltac:(lia)) as Q; rewrite Z.mul_1_r in Q; exact Q). rewrite R in *.
    destruct (small_mag f F1 F2 m ltac:(lia)) as (S1 & S2 & S3). rewrite Z.mul_0_l, Z.add_0_l, Z.min_r, Z.mul_1_r by lia. split; [lia|exact S2].
  - pose proof (log2_range m ltac:(lia)) as [L1 L2].
    assert (K : mb f <= Z.log2 m). { destruct (Z_le_gt_dec (mb f) (Z.log2 m)) as [|Q]; [auto|]. pose proof (pow_le (Z.log2 m + 1) (mb f) ltac:(pose proof (Z.log2_nonneg m); lia)). lia. }
    assert (E : ulp_exp m = Z.log2 m - mb f) by (unfold ulp_exp; lia). set (e := ulp_exp m) in *. clearbody e.
    pose proof (pow_pos e ltac:(lia)) as PE. pose proof (rne_bounds m (2 ^ e) PE) as B.
    assert (Q : 2 ^ mb f <= m / 2 ^ e < 2 ^ (mb f + 1)).
    { assert (2 ^ Z.log2 m = 2 ^ mb f * 2 ^ e) by (rewrite <- Z.pow_add_r by lia; f_equal; lia).
      assert (2 ^ (Z.log2 m + 1) = 2 ^ (mb f + 1) * 2 ^ e) by (rewrite <- Z.pow_add_r by lia; f_equal; lia).
      split; [apply Z.div_le_lower_bound; lia | apply Z.div_lt_upper_bound; lia]. }
    destruct (encode_le (rne m (2 ^ e)) e ltac:(lia) ltac:(lia) Ht) as [Z1 Z2]. rewrite Z.min_r by lia. split; [lia|exact Z2].
Qed.

(** rounding to nearest: no magnitude is nearer *)
Lemma grid : forall b e, 0 <= b < infinity f -> 0 <= e -> 2 ^ (mb f + e) <= mag f b -> exists k, mag f b = k * 2 ^ e.
Proof.
  intros b e Hb He Hm. pose proof (infinity_lt f F1 F2). pose proof (pow_pos (mb f) ltac:(lia)) as PM.
  assert (B : bits f b) by (unfold bits; rewrite width_split by auto; lia).
  destruct (compose f F1 F2 b B) as (H1 & H2 & _). unfold mag in *. destruct (Z.eqb_spec (expo f b) 0) as [E | E].
  - pose proof (pow_le (mb f) (mb f + e) ltac:(lia)). lia.
  - assert (e <= expo f b - 1).
    { destruct (Z_le_gt_dec e (expo f b - 1)); [auto|exfalso].
      assert (T : 2 ^ (mb f + e) = 2 * 2 ^ mb f * 2 ^ (e - 1)) by (rewrite <- (pow_S (mb f)) by lia; rewrite <- Z.pow_add_r by lia; f_equal; lia).
      pose proof (pow_le (expo f b - 1) (e - 1) ltac:(lia)). pose proof (pow_pos (e - 1) ltac:(lia)). pose proof (pow_pos (expo f b - 1) ltac:(lia)). nia. }
    exists ((2 ^ mb f + frac f b) * 2 ^ (expo f b - 1 - e)). rewrite (pow_split e (expo f b - 1)) by lia. ring.
Qed.
Lemma round_mag_nearest : forall m b, 0 <= m -> rne m (2 ^ ulp_exp m) * 2 ^ ulp_exp m < top f -> 0 <= b < infinity f ->
  Z.abs (m - mag f (round_mag f m)) <= Z.abs (m - mag f b).
Proof.
  intros m b Hm Ht Hb. destruct (round_mag_value m Hm Ht) as [R1 R2]. rewrite R2.
  assert (U : 0 <= ulp_exp m) by (unfold ulp_exp; lia). pose proof (pow_pos (ulp_exp m) U) as PU.
  destruct (rne_spec m (2 ^ ulp_exp m) PU) as [N _]. pose proof (rne_bounds m (2 ^ ulp_exp m) PU) as NB.
  destruct (Z.eq_dec (ulp_exp m) 0) as [E0 | E0].
  { rewrite E0 in *. change (2 ^ 0) with 1 in *. lia. }
  set (e := ulp_exp m) in *. assert (E : e = Z.log2 m - mb f) by (unfold e, ulp_exp in *; lia). clearbody e.
  assert (0 < m). { destruct (Z.eq_dec m 0) as [-> |]; [cbn in E; lia|lia]. }
  pose proof (log2_range m ltac:(lia)) as [L1 L2]. replace (Z.log2 m) with (mb f + e) in L1 by lia.
  set (Q := rne m (2 ^ e)) in *. destruct (Z_lt_ge_dec (mag f b) (2 ^ (mb f + e))) as [L | G].
  - assert (2 ^ (mb f + e) = 2 ^ mb f * 2 ^ e) by (rewrite Z.pow_add_r by lia; reflexivity).
    assert (2 ^ mb f <= m / 2 ^ e) by (apply Z.div_le_lower_bound; lia).
    destruct (Z_le_gt_dec m (Q * 2 ^ e)) as [G2 | G2].
    + (* rounded up: the lower neighbour is not below 2^(mb+e) *)
      assert (Q * 2 ^ e - m <= m - (m / 2 ^ e) * 2 ^ e).
      { unfold Q, rne in *. pose proof (Z.div_mod m (2 ^ e) ltac:(lia)) as D. pose proof (Z.mod_pos_bound m (2 ^ e) ltac:(lia)).
        set (q := m / 2 ^ e) in *. set (r := m mod 2 ^ e) in *. clearbody q r.
        destruct (Z.ltb_spec (2 ^ e) (2 * r)); cbn [orb] in *; [nia|]. destruct (Z.eqb_spec (2 * r) (2 ^ e)); cbn [andb] in *; [|nia]. destruct (Z.odd q); nia. }
      nia.
    + nia.
  - destruct (grid b e Hb ltac:(lia) ltac:(lia)) as (k & Hk). rewrite Hk. clear - N PU. destruct (Z.eq_dec k Q) as [-> | D]; [lia|].
    assert (2 ^ e <= Z.abs (k * 2 ^ e - Q * 2 ^ e)) by (rewrite <- Z.mul_sub_distr_r, Z.abs_mul; nia). lia.
Qed.

(** numbers by value *)
Definition num (u v : Z) (s : bool) : Prop := bits f u /\ finite f u /\ value f u = v /\ sign f u = s.
Definition rep (v : Z) : Prop := exists d s, 0 <= d < 2 ^ (mb f + 1) /\ 0 <= s /\ Z.abs v = d * 2 ^ s /\ Z.abs v < top f.
Lemma top_pos : 0 < top f.
Proof. unfold top. apply pow_pos. pose proof (pow_le 1 (eb f) ltac:(lia)) as P. change (2 ^ 1) with 2 in P. lia. Qed.
Lemma num_rep : forall u v s, num u v s -> rep v.
Proof.
  intros u v s (B & Fu & V & _). destruct (mag_form f F1 F2 u B) as (d & k & H1 & H2 & H3). exists d, k. rewrite <- V, value_abs by auto.
  split; [|split; [|split]]; auto. apply finite_mag; auto.
Qed.
Lemma rep_opp : forall v, rep v -> rep (- v).
Proof. intros v (d & s & H). exists d, s. rewrite Z.abs_opp. exact H. Qed.
Lemma rep_intro : forall n s v, Z.abs n < 2 ^ (mb f + 1) -> 0 <= s -> v = n * 2 ^ s -> Z.abs v < top f -> rep v.
Proof.
  intros n s v Hn Hs -> Ht. exists (Z.abs n), s. split; [lia|]. split; [lia|]. split; [|exact Ht]. rewrite Z.abs_mul. f_equal. pose proof (pow_pos s Hs). lia.
Qed.
Lemma num_neg : forall u v s, num u v s -> num (fneg f u) (- v) (negb s).
Proof. intros u v s (B & Fu & V & S). destruct (fneg_finite f F1 F2 u B Fu) as (H1 & H2 & H3 & H4). split; [exact H1|]. split; [exact H2|]. subst. auto. Qed.
Lemma num_add : forall x y v w s t, num x v s -> num y w t -> rep (v + w) -> num (fadd f x y) (v + w) (if v + w =? 0 then s && t else v + w <? 0).
Proof.
  intros x y v w s t (B & Fu & V & S) (B' & Fu' & V' & S') (d & k & H1 & H2 & H3 & H4). subst v w s t. rewrite H3 in H4. apply (fadd_exact f F1 F2 x y d k); auto.
Qed.
Lemma num_sub : forall x y v w s t, num x v s -> num y w t -> rep (v - w) -> num (fsub f x y) (v - w) (if v - w =? 0 then s && negb t else v - w <? 0).
Proof.
  intros x y v w s t X Y R. rewrite (fsub_fadd f) by (auto; unfold num in *; tauto). pose proof (num_neg y w t Y) as Y'. unfold Z.sub in *. apply num_add; auto.
Qed.
(** sums in general *)
Definition round_to (v : Z) : Z := Z.sgn v * (rne (Z.abs v) (2 ^ ulp_exp (Z.abs v)) * 2 ^ ulp_exp (Z.abs v)).
Lemma num_add_round : forall x y v w s t, num x v s -> num y w t -> Z.abs (round_to (v + w)) < top f -> v + w <> 0 ->
  num (fadd f x y) (round_to (v + w)) (v + w <? 0).
Proof.
  intros x y v w s t (B & Fu & V & S) (B' & Fu' & V' & S') T NZ. subst v w s t. unfold fadd. destruct (finite_nan f x Fu) as [-> ->]. destruct (finite_nan f y Fu') as [-> ->].
  cbn [orb]. set (z := value f x + value f y) in *. clearbody z. destruct (Z.eqb_spec z 0); [congruence|]. unfold round_value.
  unfold round_to in *. rewrite Z.abs_mul in T. replace (Z.abs (Z.sgn z)) with 1 in T by lia. rewrite Z.mul_1_l in T.
  destruct (round_mag_value (Z.abs z) ltac:(lia) ltac:(lia)) as [R1 R2]. destruct (finite_sign f F1 F2 (z <? 0) _ R1) as (H1 & H2 & H3 & H4 & _).
  split; [exact H1|]. split; [exact H2|]. split; [|exact H3]. rewrite H4, R2. destruct (Z.ltb_spec z 0).
  - rewrite (Z.sgn_neg z) by lia. lia.
  - rewrite (Z.sgn_pos z) by lia. lia.
Qed.
Lemma flt_num : forall x y v w s t, num x v s -> num y w t -> flt f x y = (v <? w).
Proof. intros x y v w s t (B & Fu & V & S) (B' & Fu' & V' & S'). unfold flt. destruct (finite_nan f x Fu) as [-> _]. destruct (finite_nan f y Fu') as [-> _]. subst. reflexivity. Qed.
Lemma feq_num : forall x y v w s t, num x v s -> num y w t -> feq f x y = (v =? w).
Proof. intros x y v w s t (B & Fu & V & S) (B' & Fu' & V' & S'). unfold feq. destruct (finite_nan f x Fu) as [-> _]. destruct (finite_nan f y Fu') as [-> _]. subst. reflexivity. Qed.
Lemma num_zero : forall s, num (with_sign f s 0) 0 s.
Proof.
  intros s. pose proof (infinity_lt f F1 F2). destruct (finite_sign f F1 F2 s 0 ltac:(lia)) as (H1 & H2 & H3 & H4 & _).
  split; [exact H1|]. split; [exact H2|]. split; [|exact H3]. rewrite H4, mag_0 by auto. destruct s; reflexivity.
Qed.
Lemma num_mag : forall u v s, num u v s -> mag f u = Z.abs v /\ v = if s then - mag f u else mag f u.
Proof. intros u v s (B & Fu & V & S). rewrite <- V at 1. rewrite value_abs by auto. split; [reflexivity|]. rewrite <- V, <- S. unfold value. destruct (sign f u); reflexivity. Qed.

(** the addition of Ieee.v rounds to nearest: no finite number is nearer to the sum *)
Lemma encode_top : forall d s, 2 ^ mb f <= d <= 2 ^ (mb f + 1) -> 0 <= s -> s * 2 ^ mb f + d < infinity f -> d * 2 ^ s < top f.
Proof.
  intros d s Hd Hs H. pose proof (pow_pos (mb f) ltac:(lia)) as PM. pose proof (infinity_lt f F1 F2) as IL. rewrite <- mag_infinity by auto.
  assert (K : forall d s, 2 ^ mb f <= d < 2 ^ (mb f + 1) -> 0 <= s -> s * 2 ^ mb f + d < infinity f -> d * 2 ^ s < mag f (infinity f)).
  { clear d s Hd Hs H. intros d s Hd Hs H. destruct (encode f F1 F2 d s Hd Hs H) as [Z1 <-]. apply mag_mono; auto; lia. }
  destruct (Z.eq_dec d (2 ^ (mb f + 1))) as [-> | N]; [|apply K; lia].
  replace (2 ^ (mb f + 1) * 2 ^ s) with (2 ^ mb f * 2 ^ (s + 1)) by (rewrite !pow_S by lia; ring). apply K; rewrite ?pow_S in * by lia; lia.
Qed.
Lemma round_mag_finite : forall m, 0 <= m -> round_mag f m < infinity f -> rne m (2 ^ ulp_exp m) * 2 ^ ulp_exp m < top f.
Proof.
  intros m Hm. pose proof (pow_pos (mb f) ltac:(lia)) as PM.
  change (round_mag f m) with (Z.min (infinity f) (ulp_exp m * 2 ^ mb f + rne m (2 ^ ulp_exp m))).
  destruct (Z_lt_ge_dec m (2 ^ mb f)) as [L | G]; intros Ht.
  - assert (Z.log2 m <= mb f).
    { destruct (Z.eq_dec m 0) as [-> | N]; [cbn; lia|]. pose proof (log2_range m ltac:(lia)). destruct (Z_le_gt_dec (Z.log2 m) (mb f)) as [|Q]; [auto|].
      pose proof (pow_le (mb f) (Z.log2 m) ltac:(lia)). lia. }
    assert (E : ulp_exp m = 0) by (unfold ulp_exp; lia). rewrite E in *. change (2 ^ 0) with 1 in *.
    assert (R : rne m 1 = m) by (pose proof (rne_exact m 1 ltac:(lia)) as Q; rewrite Z.mul_1_r in Q; exact Q). rewrite R in *.
    destruct (small_mag f F1 F2 m ltac:(lia)) as (S1 & S2 & S3). rewrite <- S2, Z.mul_1_r, <- mag_infinity by auto. pose proof (infinity_lt f F1 F2). apply mag_mono; auto; lia.
  - pose proof (log2_range m ltac:(lia)) as [L1 L2].
    assert (K : mb f <= Z.log2 m). { destruct (Z_le_gt_dec (mb f) (Z.log2 m)) as [|Q]; [auto|]. pose proof (pow_le (Z.log2 m + 1) (mb f) ltac:(pose proof (Z.log2_nonneg m); lia)). lia. }
    assert (E : ulp_exp m = Z.log2 m - mb f) by (unfold ulp_exp; lia). set (e := ulp_exp m) in *. clearbody e.
    pose proof (pow_pos e ltac:(lia)) as PE. pose proof (rne_bounds m (2 ^ e) PE) as B.
    assert (Q : 2 ^ mb f <= m / 2 ^ e < 2 ^ (mb f + 1)).
    { assert (2 ^ Z.log2 m = 2 ^ mb f * 2 ^ e) by (rewrite <- Z.pow_add_r by lia; f_equal; lia).
      assert (2 ^ (Z.log2 m + 1) = 2 ^ (mb f + 1) * 2 ^ e) by (rewrite <- Z.pow_add_r by lia; f_equal; lia).
      split; [apply Z.div_le_lower_bound; lia | apply Z.div_lt_upper_bound; lia]. }
    apply encode_top; lia.
Qed.
Theorem fadd_nearest : forall x y, bits f x -> bits f y -> finite f x -> finite f y -> finite f (fadd f x y) ->
  forall z, bits f z -> finite f z -> Z.abs (value f x + value f y - value f (fadd f x y)) <= Z.abs (value f x + value f y - value f z).
Proof.
  intros x y Bx By Fx Fy Fr z Bz Fz. unfold fadd in *. destruct (finite_nan f x Fx) as [Nx Ix]. destruct (finite_nan f y Fy) as [Ny Iy]. rewrite Nx, Ix, Ny, Iy in *. cbn [orb] in *.
  set (v := value f x + value f y) in *. clearbody v. destruct (Z.eqb_spec v 0) as [V0 | NZ].
  - destruct (num_zero (sign f x && sign f y)) as (_ & _ & -> & _). lia.
  - unfold round_value in *. pose proof (infinity_lt f F1 F2) as IL.
    assert (RI : 0 <= round_mag f (Z.abs v) <= infinity f).
    { unfold round_mag. set (e := Z.max 0 (Z.log2 (Z.abs v) - mb f)). assert (0 <= e) by lia. pose proof (pow_pos e ltac:(lia)). pose proof (pow_pos (mb f) ltac:(lia)).
      assert (0 <= Z.abs v / 2 ^ e) by (apply Z.div_pos; lia). split; [|lia]. apply Z.min_glb; [lia|]. destruct (_ || _); nia. }
    destruct (with_sign_mag f F1 F2 (v <? 0) (round_mag f (Z.abs v)) ltac:(lia)) as [_ S]. unfold finite in Fr. rewrite S in Fr.
    assert (RL : round_mag f (Z.abs v) < infinity f) by (apply (finite_lt f F1 F2); [lia|exact Fr]).
    pose proof (round_mag_finite (Z.abs v) ltac:(lia) RL) as T. destruct (finite_form f F1 F2 z Bz Fz) as (b & Hb & Hz & Mz).
    pose proof (round_mag_nearest (Z.abs v) b ltac:(lia) T Hb) as N.
    destruct (finite_sign f F1 F2 (v <? 0) (round_mag f (Z.abs v)) ltac:(lia)) as (_ & _ & _ & -> & _). rewrite <- Mz in N. pose proof (mag_nonneg f F1 F2 z Bz).
    assert (R0 : 0 <= mag f (round_mag f (Z.abs v))) by (apply mag_nonneg; auto; unfold bits; rewrite width_split by auto; lia).
    assert (ZV : value f z = mag f z \/ value f z = - mag f z) by (unfold value; destruct (sign f z); auto). clear - N ZV H R0.
    destruct (Z.ltb_spec v 0); destruct ZV as [-> | ->]; lia.
Qed.
End Fmt.
