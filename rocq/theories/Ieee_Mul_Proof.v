From Verif Require Import Ieee_Mul.
From Verif Require Export Ieee_Proof Ieee_Round.
Open Scope Z_scope.

Section Fmt.
Variable f : fmt.
Hypothesis F1 : 1 <= mb f.
Hypothesis F2 : 2 <= eb f.

Definition rexp (m k : Z) : Z := Z.max 0 (Z.log2 m - k - mb f).
Lemma ratio_eq : forall m k, round_ratio f m k = Z.min (infinity f) (rexp m k * 2 ^ mb f + rne m (2 ^ (rexp m k + k))).
Proof. reflexivity. Qed.
Lemma ratio_0 : forall m, round_ratio f m 0 = round_mag f m.
Proof. intros m. unfold round_ratio, round_mag. rewrite Z.sub_0_r, Z.add_0_r. reflexivity. Qed.

(** the quotient is a significand *)
Lemma ratio_range : forall m k, 0 <= m -> 0 <= k ->
  (rexp m k = 0 /\ m < 2 ^ (mb f + 1 + k) /\ 0 <= rne m (2 ^ (rexp m k + k)) <= 2 ^ (mb f + 1)) \/
  (0 < rexp m k /\ 2 ^ (mb f + (rexp m k + k)) <= m /\ 2 ^ mb f <= m / 2 ^ (rexp m k + k) /\ 2 ^ mb f <= rne m (2 ^ (rexp m k + k)) <= 2 ^ (mb f + 1)).
Proof.
  intros m k Hm Hk. assert (E0 : 0 <= rexp m k) by (unfold rexp; lia). pose proof (pow_pos (mb f) ltac:(lia)) as PM.
  destruct (Z.eq_dec (rexp m k) 0) as [E | E].
  - left. assert (B : m < 2 ^ (mb f + 1 + k)).
    { destruct (Z.eq_dec m 0) as [-> | N]; [apply pow_pos; lia|]. pose proof (log2_range m ltac:(lia)) as [_ L2]. unfold rexp in E. pose proof (Z.log2_nonneg m). pose proof (pow_le (Z.log2 m + 1) (mb f + 1 + k) ltac:(lia)). lia. }
    split; [auto|]. split; [auto|]. rewrite E, Z.add_0_l. pose proof (pow_pos k Hk) as PK. pose proof (rne_bounds m (2 ^ k) PK). pose proof (Z.div_pos m (2 ^ k) Hm PK).
    rewrite Z.pow_add_r in B by lia. pose proof (Z.div_lt_upper_bound m (2 ^ k) (2 ^ (mb f + 1)) PK ltac:(lia)). lia.
  - right. assert (0 < rexp m k) by lia. assert (R : rexp m k = Z.log2 m - k - mb f) by (unfold rexp in *; lia). assert (M0 : 0 < m). { destruct (Z.eq_dec m 0) as [-> |]; [|lia]. cbn in R. lia. }
    pose proof (log2_range m M0) as [L1 L2]. set (e := rexp m k) in *. clearbody e. pose proof (pow_pos (e + k) ltac:(lia)) as PK.
    assert (Q1 : 2 ^ Z.log2 m = 2 ^ mb f * 2 ^ (e + k)) by (rewrite <- Z.pow_add_r by lia; f_equal; lia). assert (Q2 : 2 ^ (Z.log2 m + 1) = 2 ^ (mb f + 1) * 2 ^ (e + k)) by (rewrite <- Z.pow_add_r by lia; f_equal; lia).
    split; [auto|]. split; [rewrite Z.pow_add_r by lia; lia|]. pose proof (rne_bounds m (2 ^ (e + k)) PK).
    assert (2 ^ mb f <= m / 2 ^ (e + k)) by (apply Z.div_le_lower_bound; lia). pose proof (Z.div_lt_upper_bound m (2 ^ (e + k)) (2 ^ (mb f + 1)) PK ltac:(lia)). lia.
Qed.
Lemma ratio_upper : forall m k, 0 <= m -> 0 <= k -> m < 2 ^ (mb f + 1) * 2 ^ (rexp m k + k).
Proof.
  intros m k Hm Hk. assert (0 <= rexp m k) by (unfold rexp; lia). rewrite <- Z.pow_add_r by lia. destruct (Z.eq_dec m 0) as [-> | N]; [apply pow_pos; lia|].
  pose proof (log2_range m ltac:(lia)) as [_ L2]. pose proof (Z.log2_nonneg m). pose proof (pow_le (Z.log2 m + 1) (mb f + 1 + (rexp m k + k)) ltac:(unfold rexp; lia)). lia.
Qed.
Lemma small_encode : forall q, 0 <= q <= 2 ^ (mb f + 1) -> q < infinity f -> 0 <= q < sign_bit f /\ mag f q = q.
Proof.
  intros q Hq Hi. pose proof (pow_pos (mb f) ltac:(lia)) as PM. pose proof (infinity_lt f F1 F2). split; [lia|]. destruct (Z_lt_ge_dec q (2 ^ mb f)) as [L | G]; [apply small_mag; auto; lia|].
  destruct (Z.eq_dec q (2 ^ (mb f + 1))) as [E | N].
  - assert (E2 : q = 1 * 2 ^ mb f + 2 ^ mb f) by (rewrite E, pow_S by lia; lia). destruct (encode f F1 F2 (2 ^ mb f) 1) as [_ M]; [rewrite pow_S by lia; lia|lia|lia|]. rewrite E2, M. lia.
  - destruct (encode f F1 F2 q 0 ltac:(lia) ltac:(lia) ltac:(lia)) as [_ M]. rewrite Z.mul_0_l, Z.add_0_l in M. rewrite M. change (2 ^ 0) with 1. lia.
Qed.
Lemma ratio_value : forall m k, 0 <= m -> 0 <= k -> let e := rexp m k in let Q := rne m (2 ^ (e + k)) in
  0 <= round_ratio f m k <= infinity f /\ (round_ratio f m k < infinity f <-> Q * 2 ^ e < top f) /\
  (Q * 2 ^ e < top f -> round_ratio f m k = e * 2 ^ mb f + Q /\ mag f (round_ratio f m k) = Q * 2 ^ e).
Proof.
  intros m k Hm Hk e Q. pose proof (infinity_lt f F1 F2) as IL. pose proof (pow_pos (mb f) ltac:(lia)) as PM. rewrite ratio_eq. fold e Q.
  assert (E0 : 0 <= e) by (unfold e, rexp; lia). pose proof (pow_pos e E0) as PE.
  assert (H : (e * 2 ^ mb f + Q < infinity f <-> Q * 2 ^ e < top f) /\ 0 <= Q /\ (Q * 2 ^ e < top f -> mag f (e * 2 ^ mb f + Q) = Q * 2 ^ e)).
  { destruct (ratio_range m k Hm Hk) as [(R1 & _ & R2) | (R1 & _ & _ & R2)]; fold e in R1, R2; fold Q in R2.
    - rewrite R1. change (2 ^ 0) with 1. rewrite Z.mul_0_l, Z.add_0_l, Z.mul_1_r.
      assert (T : Q < infinity f <-> Q < top f).
      { split; intros H.
        - destruct (small_encode Q R2 H) as [Z1 <-]. rewrite <- mag_infinity by auto. apply mag_mono; auto; lia.
        - destruct (Z_lt_ge_dec Q (2 ^ mb f)) as [L | G]; [apply small_mag; auto; lia|]. destruct (encode_le f F1 F2 Q 0 ltac:(lia) ltac:(lia)) as [Z1 _]; [change (2 ^ 0) with 1; lia|]. lia. }
      split; [exact T|]. split; [lia|]. intros H. apply small_encode; auto. apply T. exact H.
    - split; [|split; [lia|]].
      + split; intros H; [apply encode_top; auto; lia | apply encode_le; auto; lia].
      + intros H. apply encode_le; auto; lia. }
  destruct H as (H1 & H2 & H3). assert (0 <= e * 2 ^ mb f + Q) by nia. split; [lia|]. split; [lia|]. intros T. rewrite Z.min_r by lia. split; [reflexivity|apply H3; exact T].
Qed.

Lemma abs_grid : forall g Q T, 0 < T -> g <> Q -> T <= Z.abs (g * T - Q * T).
Proof. intros g Q T HT D. rewrite <- Z.mul_sub_distr_r, Z.abs_mul. nia. Qed.
(** the rounding is correct *)
Lemma emax : exists t, top f = 2 ^ (mb f + 1) * 2 ^ t /\ 0 <= t.
Proof.
  exists (2 ^ eb f - 3). pose proof (pow_le 2 (eb f) ltac:(lia)) as P. change (2 ^ 2) with 4 in P. split; [|lia]. unfold top. rewrite <- Z.pow_add_r by lia. f_equal. lia.
Qed.
Lemma ratio_rounded : forall m k, 0 <= m -> 0 <= k -> rounded f m k (round_ratio f m k).
Proof.
  intros m k Hm Hk. destruct (ratio_value m k Hm Hk) as (V1 & V2 & V3). pose proof (pow_pos (mb f) ltac:(lia)) as PM.
  assert (E0 : 0 <= rexp m k) by (unfold rexp; lia). pose proof (pow_pos (rexp m k + k) ltac:(lia)) as PT. pose proof (pow_pos (rexp m k) E0) as PE. pose proof (pow_pos k Hk) as PK.
  pose proof (rne_spec m _ PT) as [NS NE]. pose proof (rne_bounds m _ PT) as NB. pose proof (ratio_range m k Hm Hk) as RR.
  set (e := rexp m k) in *. set (Q := rne m (2 ^ (e + k))) in *. set (a := round_ratio f m k) in *.
  assert (TE : 2 ^ (e + k) = 2 ^ e * 2 ^ k) by (apply Z.pow_add_r; lia).
  split; [exact V1|]. split.
  - change (max_mag f) with (top f). destruct emax as (t & Ht & T0). pose proof (pow_pos t T0) as Pt.
    assert (I : a = infinity f <-> top f <= Q * 2 ^ e) by lia. rewrite I. clear I V1 V2 V3.
    assert (PM1 : 2 ^ (mb f + 1) = 2 * 2 ^ mb f) by (apply pow_S; lia). assert (PM2 : 2 ^ (mb f + 2) = 2 * 2 ^ (mb f + 1)) by (rewrite <- pow_S by lia; f_equal; lia).
    (* in units of half the last place of the largest numbers *)
    assert (K : (2 ^ (mb f + 2) - 1) * top f * 2 ^ k <= m * 2 ^ (mb f + 2) <-> (2 ^ (mb f + 2) - 1) * 2 ^ t * 2 ^ k <= 2 * m).
    { rewrite Ht, PM2. set (M := 2 ^ (mb f + 1)) in *. assert (0 < M) by lia. replace ((2 * M - 1) * (M * 2 ^ t) * 2 ^ k) with (M * ((2 * M - 1) * 2 ^ t * 2 ^ k)) by ring. replace (m * (2 * M)) with (M * (2 * m)) by ring.
      symmetry. apply Z.mul_le_mono_pos_l. lia. }
    rewrite K, Ht, PM2. clear K. set (M := 2 ^ (mb f + 1)) in *. replace ((2 * M - 1) * 2 ^ t * 2 ^ k) with (2 * M * (2 ^ t * 2 ^ k) - 2 ^ t * 2 ^ k) by ring. rewrite TE in *. clear TE PT. assert (TE' : 2 ^ (e + k) = 2 ^ e * 2 ^ k) by (apply Z.pow_add_r; lia).
    pose proof (ratio_upper m k Hm Hk) as RU. fold e in RU. fold M in RU. rewrite TE' in RU.
    assert (PTK : 0 < 2 ^ t * 2 ^ k) by (apply Z.mul_pos_pos; lia). assert (M4 : 4 <= M) by (rewrite PM1; pose proof (pow_le 1 (mb f) ltac:(clear - F1; lia)) as P; change (2 ^ 1) with 2 in P; clear - P; lia).
    destruct (Z_lt_ge_dec e t) as [L | G]; [|destruct (Z.eq_dec e t) as [Et | Nt]].
    + (* far below *)
      assert (P2 : 2 * 2 ^ e <= 2 ^ t) by (rewrite <- pow_S by lia; apply pow_le; lia).
      assert (QM : Q <= M) by (destruct RR as [(_ & _ & R) | (_ & _ & _ & R)]; lia).
      assert (A1 : Q * 2 ^ e <= M * 2 ^ e) by (apply Z.mul_le_mono_nonneg_r; lia). assert (A2 : M * (2 * 2 ^ e) <= M * 2 ^ t) by (apply Z.mul_le_mono_nonneg_l; lia).
      assert (A3 : 0 < M * 2 ^ t) by (apply Z.mul_pos_pos; lia).
      assert (A4 : 2 * m < M * (2 ^ t * 2 ^ k)). { assert (2 * 2 ^ e * 2 ^ k <= 2 ^ t * 2 ^ k) by (apply Z.mul_le_mono_nonneg_r; lia). assert (M * (2 * 2 ^ e * 2 ^ k) <= M * (2 ^ t * 2 ^ k)) by (apply Z.mul_le_mono_nonneg_l; lia). lia. }
      clear - A1 A2 A3 A4 PTK M4. set (X := 2 ^ t * 2 ^ k) in *. clearbody X. split; intros H1; exfalso; nia.
    + subst t. clear G. set (X := 2 ^ e * 2 ^ k) in *. assert (QM : Q <= M) by (destruct RR as [(_ & _ & R) | (_ & _ & _ & R)]; lia). clear RR RU. split; intros H.
      * assert (Q = M). { assert (M <= Q); [|lia]. apply (Z.mul_le_mono_pos_r _ _ (2 ^ e)); lia. } subst Q. rewrite H0 in NS. clear - NS. lia.
      * destruct (Z_lt_ge_dec Q M) as [L | G2]; [exfalso|apply Z.mul_le_mono_nonneg_r; lia]. (* Q <= M - 1: m is at most half a unit above it, and the tie goes to the even M *)
        assert (U : Q * X <= (M - 1) * X) by (apply Z.mul_le_mono_nonneg_r; lia).
        assert (EX : Q * X = (M - 1) * X) by lia. assert (QE : Q = M - 1) by (apply (Z.mul_reg_r _ _ X); lia). assert (TI : 2 * Z.abs (m - Q * X) = X) by lia. specialize (NE TI). rewrite QE in NE.
        rewrite PM1 in NE. replace (2 * 2 ^ mb f - 1) with (1 + 2 * (2 ^ mb f - 1)) in NE by ring. rewrite Z.even_add, Z.even_mul in NE. discriminate.
    + (* far above *)
      destruct RR as [(R0 & _) | (_ & RM & _ & R)]; [lia|]. assert (P2 : 2 * 2 ^ t <= 2 ^ e) by (rewrite <- pow_S by lia; apply pow_le; lia). rewrite Z.pow_add_r, TE' in RM by lia.
      assert (A1 : 2 ^ mb f * (2 * 2 ^ t) <= Q * 2 ^ e) by (apply Z.mul_le_mono_nonneg; lia).
      assert (A2 : 2 * (2 ^ t * 2 ^ k) <= 2 ^ e * 2 ^ k) by (rewrite Z.mul_assoc; apply Z.mul_le_mono_nonneg_r; lia).
      assert (A3 : 2 ^ mb f * (2 * (2 ^ t * 2 ^ k)) <= 2 ^ mb f * (2 ^ e * 2 ^ k)) by (apply Z.mul_le_mono_nonneg_l; lia).
      rewrite PM1. clear - A1 A3 RM PTK. split; intros H; lia.
  - intros NI b Hb. assert (AI : a < infinity f) by lia. apply V2 in AI. destruct (V3 AI) as [A1 A2]. rewrite A2. clear V2 V3.
    assert (BI : 0 <= b < infinity f) by lia.
    assert (GR : (exists g, mag f b = g * 2 ^ e) \/ (0 < e /\ mag f b < 2 ^ (mb f + e))).
    { destruct (Z.eq_dec e 0) as [E | E]; [left; exists (mag f b); rewrite E; change (2 ^ 0) with 1; lia|]. destruct (Z_lt_ge_dec (mag f b) (2 ^ (mb f + e))); [right; lia|left]. apply grid; auto; lia. }
    replace (Q * 2 ^ e * 2 ^ k) with (Q * 2 ^ (e + k)) by (rewrite TE; ring).
    assert (MB : b <> a -> mag f b <> Q * 2 ^ e). { intros N E. apply N. pose proof (infinity_lt f F1 F2). apply (mag_inj f F1 F2); lia. }
    destruct GR as [(g & Hg) | (Ep & Hlt)].
    + rewrite Hg in *. replace (g * 2 ^ e * 2 ^ k) with (g * 2 ^ (e + k)) by (rewrite TE; ring). set (T := 2 ^ (e + k)) in *.
      destruct (Z.eq_dec g Q) as [-> | D]; [split; [lia|intros N; specialize (MB N); lia]|].
      pose proof (abs_grid g Q T PT D) as AG. split; [clear - AG NS; lia|]. intros _ EQ.
      assert (TI : 2 * Z.abs (m - Q * T) = T) by (clear - AG NS EQ; lia). specialize (NE TI). rewrite A1, Z.even_add, NE.
      replace (mb f) with (mb f - 1 + 1) by lia. rewrite pow_S by lia. rewrite Z.mul_assoc, (Z.mul_comm e 2), <- Z.mul_assoc, Z.even_mul. reflexivity.
    + destruct RR as [(R0 & _) | (_ & RM & RD & R)]; [lia|]. set (T := 2 ^ (e + k)) in *.
      assert (B1 : mag f b * 2 ^ k < 2 ^ mb f * T). { rewrite Z.pow_add_r in Hlt by lia. rewrite TE. replace (2 ^ mb f * (2 ^ e * 2 ^ k)) with (2 ^ mb f * 2 ^ e * 2 ^ k) by ring. apply Z.mul_lt_mono_pos_r; lia. }
      assert (B2 : 2 ^ mb f * T <= m / T * T) by (apply Z.mul_le_mono_nonneg_r; lia).
      assert (B3 : Z.abs (m - Q * T) <= m - m / T * T).
      { unfold Q, rne. pose proof (Z.div_mod m T ltac:(lia)) as DM. pose proof (Z.mod_pos_bound m T ltac:(lia)) as MB2. set (q := m / T) in *. set (r := m mod T) in *. clearbody q r. clear - DM MB2.
        destruct (Z.ltb_spec T (2 * r)); cbn [orb]; [lia|]. destruct (Z.eqb_spec (2 * r) T); cbn [andb]; [|lia]. destruct (Z.odd q); lia. }
      clear - B1 B2 B3. lia.
Qed.

(** scaling *)
Lemma rne_scale : forall m t j, 0 <= t -> 0 <= j -> rne (m * 2 ^ j) (2 ^ (t + j)) = rne m (2 ^ t).
Proof.
  intros m t j Ht Hj. pose proof (pow_pos t Ht) as Pt. pose proof (pow_pos j Hj) as Pj. unfold rne. rewrite Z.pow_add_r by lia. rewrite Z.div_mul_cancel_r, Z.mul_mod_distr_r by lia.
  replace (2 ^ t * 2 ^ j <? 2 * (m mod 2 ^ t * 2 ^ j)) with (2 ^ t <? 2 * (m mod 2 ^ t)).
  2: { destruct (Z.ltb_spec (2 ^ t) (2 * (m mod 2 ^ t))), (Z.ltb_spec (2 ^ t * 2 ^ j) (2 * (m mod 2 ^ t * 2 ^ j))); try reflexivity; nia. }
  replace (2 * (m mod 2 ^ t * 2 ^ j) =? 2 ^ t * 2 ^ j) with (2 * (m mod 2 ^ t) =? 2 ^ t).
  2: { destruct (Z.eqb_spec (2 * (m mod 2 ^ t)) (2 ^ t)), (Z.eqb_spec (2 * (m mod 2 ^ t * 2 ^ j)) (2 ^ t * 2 ^ j)); try reflexivity; nia. }
  reflexivity.
Qed.
Lemma ratio_scale : forall m k j, 0 <= m -> 0 <= k -> 0 <= j -> round_ratio f (m * 2 ^ j) (k + j) = round_ratio f m k.
Proof.
  intros m k j Hm Hk Hj. rewrite !ratio_eq. assert (E : rexp (m * 2 ^ j) (k + j) = rexp m k).
  { unfold rexp. destruct (Z.eq_dec m 0) as [-> | N]; [cbn; lia|]. rewrite Z.log2_mul_pow2 by lia. lia. }
  rewrite E. assert (0 <= rexp m k) by (unfold rexp; lia). rewrite Z.add_assoc, rne_scale by lia. reflexivity.
Qed.
Lemma ratio_tiny : forall m k, 0 <= m -> 2 * m < 2 ^ k -> round_ratio f m k = 0.
Proof.
  intros m k Hm H. assert (Hk : 0 <= k) by (destruct (Z_le_gt_dec 0 k); [auto|]; rewrite (Z.pow_neg_r 2 k) in H by lia; lia).
  rewrite ratio_eq. assert (E : rexp m k = 0).
  { unfold rexp. destruct (Z.eq_dec m 0) as [-> | N]; [cbn; lia|]. destruct (Z_le_gt_dec (Z.log2 m) k); [lia|]. pose proof (log2_range m ltac:(lia)) as [L1 _]. pose proof (pow_le k (Z.log2 m) ltac:(lia)). lia. }
  rewrite E, Z.mul_0_l, Z.add_0_l, Z.add_0_l. unfold rne. rewrite Z.div_small, Z.mod_small by lia. pose proof (infinity_lt f F1 F2).
  destruct (Z.ltb_spec (2 ^ k) (2 * m)); [lia|]. destruct (Z.eqb_spec (2 * m) (2 ^ k)); [lia|]. cbn [orb andb]. lia.
Qed.
Lemma ratio_over : forall m k, 0 <= k -> top f * 2 ^ k <= m -> round_ratio f m k = infinity f.
Proof.
  intros m k Hk H. pose proof (pow_pos k Hk) as PK. assert (T : 0 < top f) by (unfold top; apply pow_pos; pose proof (pow_le 2 (eb f) ltac:(lia)) as P; change (2 ^ 2) with 4 in P; lia).
  destruct (ratio_rounded m k ltac:(nia) Hk) as (_ & I & _). apply I. change (max_mag f) with (top f). pose proof (pow_pos (mb f + 2) ltac:(lia)) as PM. set (M := 2 ^ (mb f + 2)) in *. clearbody M.
  assert (top f * 2 ^ k * M <= m * M) by (apply Z.mul_le_mono_nonneg_r; lia). assert (0 < top f * 2 ^ k) by nia. nia.
Qed.
Lemma ratio_exact : forall d s k, 0 <= d < 2 ^ (mb f + 1) -> 0 <= s -> 0 <= k -> d * 2 ^ s < top f -> 0 <= round_ratio f (d * 2 ^ s * 2 ^ k) k < infinity f /\ mag f (round_ratio f (d * 2 ^ s * 2 ^ k) k) = d * 2 ^ s.
Proof.
  intros d s k Hd Hs Hk T. pose proof (ratio_scale (d * 2 ^ s) 0 k) as S. rewrite Z.add_0_l in S. rewrite S, ratio_0 by (auto; pose proof (pow_pos s Hs); nia). apply round_exact; auto.
Qed.
End Fmt.
