From Verif Require Import Scalbn_Model Scalbn_Spec Rint_Proof Fmod_Proof Next_Proof Ieee_Mul_Proof.
Open Scope Z_scope.
Notation bias := Scalbn_Model.bias.
Notation power := Scalbn_Model.power.

Section Fmt.
Variable f : fmt.
Hypothesis F1 : 1 <= mb f.
Hypothesis F2 : 2 <= eb f.
Hypothesis F4 : 3 <= eb f.
Hypothesis F5 : 3 * mb f + 7 <= bias f.
Hypothesis F6 : mb f < 64 <= bias f.

Notation num := (num f).
Notation U := (unit_exp f).

Lemma top_exp : top f = 2 ^ (2 * bias f + mb f).
Proof. unfold top, Scalbn_Model.bias. f_equal. assert (2 ^ eb f = 2 * 2 ^ (eb f - 1)) by (rewrite <- pow_S by lia; f_equal; lia). lia. Qed.
Lemma U_exp : U = bias f - 1 + mb f.
Proof. unfold unit_exp, Scalbn_Model.bias. lia. Qed.
Lemma power_num : forall k, 1 - bias f <= k <= bias f -> num (power f k) (2 ^ (U + k)) false.
Proof. intros k Hk. exact (num_power f F1 F2 F4 k Hk). Qed.

(** [X * 2^n] rounded *)
Definition rs (X n : Z) : Z := round_ratio f (X * 2 ^ Z.max 0 n) (Z.max 0 (- n)).
Lemma rs_range : forall X n, 0 <= X -> 0 <= rs X n <= infinity f.
Proof. intros X n H. unfold rs. pose proof (pow_pos (Z.max 0 n) ltac:(lia)). apply (ratio_rounded f F1 F2); [nia|lia]. Qed.
Lemma rs_nonneg : forall X n, 0 <= n -> rs X n = round_mag f (X * 2 ^ n).
Proof. intros X n H. unfold rs. rewrite Z.max_r, Z.max_l by lia. apply ratio_0. Qed.
Lemma rs_neg : forall X n, 0 <= n -> rs X (- n) = round_ratio f X n.
Proof. intros X n H. unfold rs. rewrite Z.max_l, Z.max_r by lia. change (2 ^ 0) with 1. rewrite Z.mul_1_r. f_equal. lia. Qed.

Lemma mul_finite : forall x k, bits f x -> finite f x -> 1 - bias f <= k <= bias f -> fmul f x (power f k) = with_sign f (sign f x) (rs (mag f x) k).
Proof.
  intros x k B Fx Hk. destruct (power_num k Hk) as (Bp & Fp & Vp & Sp). unfold fmul. destruct (finite_nan f x Fx) as [-> ->]. destruct (finite_nan f _ Fp) as [-> ->]. cbn [orb]. rewrite Sp, xorb_false_r. f_equal.
  assert (M : mag f (power f k) = 2 ^ (U + k)) by (rewrite <- (value_abs f F1 F2) by auto; rewrite Vp; apply Z.abs_eq; apply Z.pow_nonneg; lia). rewrite M. pose proof U_exp as UE. pose proof (mag_nonneg f F1 F2 x B) as MN.
  unfold rs. destruct (Z_le_gt_dec 0 k) as [K | K].
  - rewrite (Z.max_r 0 k), (Z.max_l 0 (- k)) by lia. rewrite (Z.add_comm U), Z.pow_add_r, Z.mul_assoc by lia. pose proof (pow_pos k K). rewrite <- (Z.add_0_l U) at 2. apply ratio_scale; try lia; nia.
  - rewrite (Z.max_l 0 k), (Z.max_r 0 (- k)) by lia. change (2 ^ 0) with 1. rewrite Z.mul_1_r. replace U with (- k + (U + k)) at 2 by lia. apply ratio_scale; lia.
Qed.
Lemma inf_number : forall s, nan f (with_sign f s (infinity f)) = false /\ inf f (with_sign f s (infinity f)) = true /\ bits f (with_sign f s (infinity f)) /\ sign f (with_sign f s (infinity f)) = s /\ value f (with_sign f s (infinity f)) <> 0.
Proof.
  intros s. pose proof (infinity_lt f F1 F2) as IL. destruct (form_number f F1 F2 s (infinity f) ltac:(lia)) as ((B & N) & S & V). split; [exact N|]. split; [|split; [exact B|split; [exact S|]]].
  - destruct (with_sign_mag f F1 F2 s (infinity f) ltac:(lia)) as [_ SP]. unfold nan in N. unfold inf. destruct (special f (with_sign f s (infinity f))) eqn:E.
    + cbn [andb] in *. apply negb_false_iff in N. exact N.
    + exfalso. assert (Fi : finite f (infinity f)) by (unfold finite; congruence). apply (finite_lt f F1 F2) in Fi; lia.
  - rewrite V, mag_infinity by auto. pose proof (top_pos f F1 F2) as TP. unfold ord. destruct s; lia.
Qed.
Lemma mul_inf : forall s k, 1 - bias f <= k <= bias f -> fmul f (with_sign f s (infinity f)) (power f k) = with_sign f s (infinity f).
Proof.
  intros s k Hk. destruct (power_num k Hk) as (Bp & Fp & Vp & Sp). destruct (inf_number s) as (N & I & B & S & V). unfold fmul. rewrite N, I, S, Sp. destruct (finite_nan f _ Fp) as [-> ->]. cbn [orb].
  rewrite Vp, xorb_false_r. pose proof U_exp. pose proof (pow_pos (U + k) ltac:(lia)). destruct (Z.eqb_spec (value f (with_sign f s (infinity f))) 0); [congruence|]. destruct (Z.eqb_spec (2 ^ (U + k)) 0); [lia|reflexivity].
Qed.

(** multiplication by large powers is exact or overflows *)
Lemma mag_rep : forall x, bits f x -> finite f x -> exists d s, 0 <= d < 2 ^ (mb f + 1) /\ 0 <= s /\ mag f x = d * 2 ^ s /\ mag f x < top f.
Proof. intros x B Fx. destruct (mag_form f F1 F2 x B) as (d & s & H1 & H2 & H3). exists d, s. split; [auto|]. split; [auto|]. split; [auto|]. apply finite_mag; auto. Qed.
Lemma up_exact : forall x k, bits f x -> finite f x -> 0 <= k <= bias f -> mag f x * 2 ^ k < top f ->
  exists y, fmul f x (power f k) = y /\ bits f y /\ finite f y /\ sign f y = sign f x /\ mag f y = mag f x * 2 ^ k.
Proof.
  intros x k B Fx Hk T. destruct (mag_rep x B Fx) as (d & s & H1 & H2 & H3 & _). rewrite mul_finite, rs_nonneg by (auto; lia).
  assert (E : mag f x * 2 ^ k = d * 2 ^ (s + k)) by (rewrite H3, Z.pow_add_r by lia; ring). rewrite E in *. destruct (round_exact f F1 F2 d (s + k) H1 ltac:(lia) T) as [R1 R2].
  destruct (finite_sign f F1 F2 (sign f x) _ R1) as (G1 & G2 & G3 & _ & G5). eexists. split; [reflexivity|]. rewrite G5. auto.
Qed.
Lemma rs_over : forall X n, 0 <= n -> top f <= X * 2 ^ n -> rs X n = infinity f.
Proof. intros X n H T. unfold rs. rewrite Z.max_r, Z.max_l by lia. apply ratio_over; auto; [lia|]. change (2 ^ 0) with 1. lia. Qed.
Lemma up_over : forall x k, bits f x -> finite f x -> 0 <= k <= bias f -> top f <= mag f x * 2 ^ k -> fmul f x (power f k) = with_sign f (sign f x) (infinity f).
Proof. intros x k B Fx Hk T. rewrite mul_finite, rs_over by (auto; lia). reflexivity. Qed.
Lemma over_more : forall X a b, 0 <= X -> 0 <= a <= b -> top f <= X * 2 ^ a -> top f <= X * 2 ^ b.
Proof. intros X a b HX H T. pose proof (pow_le a b H). nia. Qed.

(** [y] stands for [x] divided by [2^k]: exactly, or both vanish below *)
Definition stands (x y k : Z) : Prop := bits f y /\ finite f y /\ sign f y = sign f x /\
  (mag f y * 2 ^ k = mag f x \/ (mag f x < 2 ^ (mb f + k) /\ mag f y <= 2 ^ mb f)).
Lemma stands_step : forall x y k, bits f x -> 0 <= k -> stands x y k -> stands x (fmul f y (small f)) (k + small_exp f).
Proof.
  intros x y k Bx Hk (B & Fy & S & H). set (c := small_exp f) in *. assert (C : mb f + 2 <= c <= bias f - 1) by (unfold c, small_exp; lia).
  unfold small. fold c. rewrite mul_finite by (auto; lia). rewrite rs_neg by lia. pose proof (mag_nonneg f F1 F2 y B) as MN. pose proof (infinity_lt f F1 F2) as IL.
  destruct (mag_rep y B Fy) as (d & s & H1 & H2 & H3 & H4). pose proof (pow_pos (mb f) ltac:(lia)) as PM.
  assert (K : (0 <= round_ratio f (mag f y) c < infinity f) /\ (mag f (round_ratio f (mag f y) c) * 2 ^ c = mag f y \/ (mag f y < 2 ^ (mb f + c) /\ mag f (round_ratio f (mag f y) c) <= 2 ^ mb f))).
  { destruct (Z_le_gt_dec c s) as [CS | CS].
    - assert (E : mag f y = d * 2 ^ (s - c) * 2 ^ c) by (rewrite H3, (pow_split c s) by lia; ring). pose proof (pow_pos c ltac:(lia)). pose proof (pow_pos (s - c) ltac:(lia)).
      destruct (ratio_exact f F1 F2 d (s - c) c H1 ltac:(lia) ltac:(lia)) as [R1 R2]; [nia|]. rewrite <- E in R1, R2. split; [exact R1|]. left. rewrite R2. lia.
    - assert (E : mag f y < 2 ^ (mb f + c)). { pose proof (pow_pos s H2) as Ps. assert (HL : mag f y < 2 ^ (mb f + 1) * 2 ^ s) by (rewrite H3; apply Z.mul_lt_mono_pos_r; lia). rewrite <- Z.pow_add_r in HL by lia. pose proof (pow_le (mb f + 1 + s) (mb f + c) ltac:(lia)). lia. }
      destruct (ratio_rounded f F1 F2 (mag f y) c MN ltac:(lia)) as (R0 & R1 & R2).
      assert (NI : round_ratio f (mag f y) c < infinity f).
      { assert (round_ratio f (mag f y) c <> infinity f); [|lia]. intros I. apply R1 in I. clear R1 R2. change (max_mag f) with (top f) in I. pose proof (pow_le (mb f + 1) (2 * bias f + mb f) ltac:(lia)) as TP. rewrite <- top_exp in TP. rewrite pow_S in TP by lia.
        pose proof (pow_pos c ltac:(lia)) as Pc. pose proof (pow_le 1 (mb f + 2) ltac:(lia)) as P2. change (2 ^ 1) with 2 in P2. set (M := 2 ^ (mb f + 2)) in *. rewrite Z.pow_add_r in E by lia.
        assert (top f * 2 ^ c * M <= 2 * ((M - 1) * top f * 2 ^ c)). { replace (2 * ((M - 1) * top f * 2 ^ c)) with (top f * 2 ^ c * (2 * (M - 1))) by ring. apply Z.mul_le_mono_nonneg_l; [pose proof (top_pos f F1 F2); nia|lia]. }
        assert (top f * 2 ^ c <= 2 * mag f y) by (apply (Z.mul_le_mono_pos_r _ _ M); lia). nia. }
      split; [lia|]. right. split; [exact E|].
      (* no nearer than 2^mb *)
      assert (B0 : 0 <= 2 ^ mb f < infinity f /\ mag f (2 ^ mb f) = 2 ^ mb f).
      { destruct (encode_le f F1 F2 (2 ^ mb f) 0) as [Z1 Z2]; [rewrite pow_S by lia; lia|lia| |rewrite Z.mul_0_l, Z.add_0_l in Z1, Z2; split; [exact Z1|]; rewrite Z2; change (2 ^ 0) with 1; lia].
        change (2 ^ 0) with 1. rewrite top_exp, Z.mul_1_r. apply pow_lt. lia. }
      destruct (R2 ltac:(lia) _ (proj1 B0)) as [NR _]. rewrite (proj2 B0) in NR. rewrite Z.pow_add_r in E by lia. set (g := mag f (round_ratio f (mag f y) c)) in *. pose proof (pow_pos c ltac:(lia)) as Pc. clear - NR E Pc MN.
      destruct (Z_le_gt_dec g (2 ^ mb f)); [auto|exfalso]. assert ((2 ^ mb f + 1) * 2 ^ c <= g * 2 ^ c) by (apply Z.mul_le_mono_nonneg_r; lia). lia. }
  destruct K as [K1 K2]. destruct (finite_sign f F1 F2 (sign f y) _ K1) as (G1 & G2 & G3 & _ & G5). split; [exact G1|]. split; [exact G2|]. split; [congruence|]. rewrite G5.
  pose proof (pow_pos k Hk) as Pk. pose proof (pow_pos c ltac:(lia)) as Pc. rewrite Z.pow_add_r by lia. destruct H as [H | [Ha Hb]].
  - destruct K2 as [K2 | [K2 K3]]; [left; rewrite <- H; transitivity (mag f (round_ratio f (mag f y) c) * 2 ^ c * 2 ^ k); [ring|rewrite K2; ring]|right]. split; [|exact K3]. rewrite <- H. replace (mb f + (k + c)) with (mb f + c + k) by lia. rewrite (Z.pow_add_r 2 (mb f + c)) by lia. apply Z.mul_lt_mono_pos_r; lia.
  - right. split. { pose proof (pow_le (mb f + k) (mb f + (k + c)) ltac:(lia)). lia. }
    rewrite ratio_tiny by (auto; assert (2 ^ mb f * 2 < 2 ^ c) by (rewrite Z.mul_comm, <- pow_S by lia; apply pow_lt; lia); lia). rewrite mag_0 by auto. lia.
Qed.
Lemma stands_final : forall x y k n, bits f x -> finite f x -> 0 <= k -> stands x y k -> mb f + 2 <= n <= bias f - 1 -> fmul f y (power f (- n)) = with_sign f (sign f x) (round_ratio f (mag f x) (k + n)).
Proof.
  intros x y k n Bx Fx Hk (B & Fy & S & H) Hn. rewrite mul_finite, rs_neg, S by (auto; lia). f_equal. pose proof (mag_nonneg f F1 F2 y B) as MN. destruct H as [H | [Ha Hb]].
  - rewrite <- H, Z.add_comm. symmetry. apply ratio_scale; auto; lia.
  - assert (2 ^ mb f * 2 < 2 ^ n) by (rewrite Z.mul_comm, <- pow_S by lia; apply pow_lt; lia).
    assert (2 * 2 ^ (mb f + k) < 2 ^ (k + n)) by (rewrite <- pow_S by lia; apply pow_lt; lia). pose proof (mag_nonneg f F1 F2 x Bx). rewrite !ratio_tiny by (auto; lia). reflexivity.
Qed.

Lemma scalbn_rs : forall x n, bits f x -> finite f x -> scalbn f x n = with_sign f (sign f x) (rs (mag f x) n).
Proof.
  intros x n B Fx. unfold scalbn. pose proof (mag_nonneg f F1 F2 x B) as MN. destruct (Z.ltb_spec (bias f) n) as [N1 | N1].
  - (* up *)
    destruct (Z_lt_ge_dec (mag f x * 2 ^ bias f) (top f)) as [L1 | G1].
    + destruct (up_exact x (bias f) B Fx ltac:(lia) L1) as (y & -> & By & Fy & Sy & My). destruct (Z.ltb_spec (bias f) (n - bias f)) as [N2 | N2].
      * destruct (Z_lt_ge_dec (mag f y * 2 ^ bias f) (top f)) as [L2 | G2].
        -- destruct (up_exact y (bias f) By Fy ltac:(lia) L2) as (z & -> & Bz & Fz & Sz & Mz). rewrite mul_finite by (auto; destruct (Z.ltb_spec (bias f) (n - bias f - bias f)); lia).
           rewrite Sz, Sy. f_equal. rewrite Mz, My. pose proof (pow_pos (bias f) ltac:(lia)) as Pb. rewrite (rs_nonneg (mag f x)) by lia.
           destruct (Z.ltb_spec (bias f) (n - bias f - bias f)) as [N3 | N3].
           ++ rewrite rs_nonneg by lia. destruct (Z.eq_dec (mag f x) 0) as [-> | NZ]; [rewrite !Z.mul_0_l; reflexivity|].
              rewrite <- !ratio_0. rewrite !ratio_over; auto; try lia; change (2 ^ 0) with 1; rewrite Z.mul_1_r.
              ** apply Z.le_trans with (1 * 2 ^ n); [rewrite Z.mul_1_l, top_exp; apply pow_le; lia|apply Z.mul_le_mono_nonneg_r; [apply Z.pow_nonneg; lia|lia]].
              ** apply Z.le_trans with (1 * 2 ^ bias f * 2 ^ bias f * 2 ^ bias f); [rewrite Z.mul_1_l, <- !Z.pow_add_r, top_exp by lia; apply pow_le; lia|]. repeat apply Z.mul_le_mono_nonneg_r; lia.
           ++ rewrite rs_nonneg by lia. rewrite <- !Z.mul_assoc, <- !Z.pow_add_r by lia. do 3 f_equal. lia.
        -- rewrite (up_over y (bias f)) by (auto; lia). rewrite Sy, mul_inf by (destruct (Z.ltb_spec (bias f) (n - bias f - bias f)); lia). f_equal. symmetry. apply rs_over; [lia|].
           rewrite My, <- Z.mul_assoc, <- Z.pow_add_r in G2 by lia. apply over_more with (a := bias f + bias f); auto; lia.
      * rewrite mul_finite by (auto; lia). rewrite Sy. f_equal. rewrite My, !rs_nonneg by lia. rewrite <- Z.mul_assoc, <- Z.pow_add_r by lia. do 3 f_equal. lia.
    + rewrite (up_over x (bias f)) by (auto; lia). assert (R : rs (mag f x) n = infinity f) by (apply rs_over; [lia|]; apply over_more with (a := bias f); auto; lia). rewrite R.
      destruct (Z.ltb_spec (bias f) (n - bias f)) as [N2 | N2]; rewrite ?mul_inf by lia; [|reflexivity]. apply mul_inf. destruct (Z.ltb_spec (bias f) (n - bias f - bias f)); lia.
  - destruct (Z.ltb_spec n (- (bias f - 1))) as [N2 | N2]; [|apply mul_finite; auto; lia].
    assert (C : mb f + 2 <= small_exp f <= bias f - 1) by (unfold small_exp; lia).
    assert (S0 : stands x x 0) by (split; [auto|split; [auto|split; [auto|left; change (2 ^ 0) with 1; lia]]]).
    pose proof (stands_step x x 0 B ltac:(lia) S0) as S1. rewrite Z.add_0_l in S1. set (y := fmul f x (small f)) in *. clearbody y.
    assert (RS : forall k, k = - n -> rs (mag f x) n = round_ratio f (mag f x) k) by (intros k ->; rewrite <- rs_neg by lia; f_equal; lia).
    destruct (Z.ltb_spec (n + small_exp f) (- (bias f - 1))) as [N3 | N3].
    + pose proof (stands_step x y (small_exp f) B ltac:(lia) S1) as S2. set (z := fmul f y (small f)) in *. clearbody z. destruct (Z.ltb_spec (n + small_exp f + small_exp f) (- (bias f - 1))) as [N4 | N4].
      * rewrite (stands_final x z (small_exp f + small_exp f) (bias f - 1) B Fx ltac:(lia) S2) by lia. f_equal. rewrite (RS (- n)) by lia. pose proof (finite_mag f F1 F2 x B Fx) as T. rewrite top_exp in T.
        assert (2 * 2 ^ (2 * bias f + mb f) <= 2 ^ (small_exp f + small_exp f + (bias f - 1))) by (rewrite <- pow_S by lia; apply pow_le; unfold small_exp; lia).
        assert (2 * 2 ^ (2 * bias f + mb f) <= 2 ^ (- n)) by (rewrite <- pow_S by lia; apply pow_le; unfold small_exp in *; lia). rewrite !ratio_tiny by (auto; lia). reflexivity.
      * replace (n + small_exp f + small_exp f) with (- (- (n + small_exp f + small_exp f))) by lia. rewrite (stands_final x z (small_exp f + small_exp f) _ B Fx ltac:(lia) S2) by (unfold small_exp in *; lia). f_equal. symmetry. apply RS. lia.
    + replace (n + small_exp f) with (- (- (n + small_exp f))) by lia. rewrite (stands_final x y (small_exp f) _ B Fx ltac:(lia) S1) by (unfold small_exp in *; lia). f_equal. symmetry. apply RS. lia.
Qed.

Lemma scalbn_correct : forall x n, bits f x -> finite f x -> is_scaled f x n (scalbn f x n).
Proof.
  intros x n B Fx. exists (rs (mag f x) n). split; [apply scalbn_rs; auto|]. pose proof (mag_nonneg f F1 F2 x B). pose proof (pow_pos (Z.max 0 n) ltac:(lia)). unfold rs. apply (ratio_rounded f F1 F2); [nia|lia].
Qed.

(** infinities and NaNs *)
Lemma inf_form : forall x, bits f x -> inf f x = true -> x = with_sign f (sign f x) (infinity f).
Proof.
  intros x B I. unfold inf, special in I. apply andb_true_iff in I. destruct I as [I1 I2]. apply Z.eqb_eq in I1. apply Z.eqb_eq in I2. destruct (compose f F1 F2 x B) as (_ & _ & E). rewrite I1, I2, Z.add_0_r in E. exact E.
Qed.
Lemma scalbn_inf : forall x n, bits f x -> inf f x = true -> scalbn f x n = x.
Proof.
  intros x n B I. pose proof (inf_form x B I) as E. set (s := sign f x) in *. clearbody s. subst x. clear B I. unfold scalbn, small.
  assert (C : mb f + 2 <= small_exp f <= bias f - 1) by (unfold small_exp; lia).
  repeat (match goal with |- context [Z.ltb ?a ?b] => destruct (Z.ltb_spec a b) end); rewrite ?mul_inf by lia; try reflexivity.
Qed.
Lemma mul_nan : forall x k, nan f x = true -> nan f (fmul f x k) = true.
Proof.
  intros x k N. unfold fmul. rewrite N. cbn [orb]. clear - F1 F2. unfold quiet_nan, nan, special. pose proof (pow_pos (mb f - 1) ltac:(lia)). pose proof (pow_S (mb f - 1) ltac:(lia)) as PS. replace (mb f - 1 + 1) with (mb f) in PS by lia.
  pose proof (pow_pos (eb f) ltac:(lia)).
  destruct (parts f F1 F2 false (2 ^ eb f - 1) (2 ^ (mb f - 1)) ltac:(lia) ltac:(lia)) as (_ & _ & E & Fr). cbn [with_sign] in E, Fr. unfold infinity. rewrite E, Fr, Z.eqb_refl. destruct (Z.eqb_spec (2 ^ (mb f - 1)) 0); [lia|reflexivity].
Qed.
Lemma scalbn_nan : forall x n, nan f x = true -> nan f (scalbn f x n) = true.
Proof.
  intros x n N. unfold scalbn. repeat (match goal with |- context [Z.ltb ?a ?b] => destruct (Z.ltb a b) end); repeat apply mul_nan; exact N.
Qed.

(** frexp *)
Lemma fields : forall x, bits f x -> exists e m, expo f x = e /\ frac f x = m /\ 0 <= e < 2 ^ eb f /\ 0 <= m < 2 ^ mb f /\ x = with_sign f (sign f x) (e * 2 ^ mb f + m) /\
  mag f x = (if e =? 0 then m else (2 ^ mb f + m) * 2 ^ (e - 1)).
Proof.
  intros x B. destruct (compose f F1 F2 x B) as (H1 & H2 & H3). exists (expo f x), (frac f x). split; [reflexivity|]. split; [reflexivity|]. split; [auto|]. split; [auto|]. split; [auto|]. reflexivity.
Qed.
Lemma set_exponent : forall x k, bits f x -> 0 <= k < 2 ^ eb f ->
  Z.lor (Z.land x (2 ^ (width f - 1) + (2 ^ mb f - 1))) (Z.shiftl k (mb f)) = with_sign f (sign f x) (k * 2 ^ mb f + frac f x).
Proof.
  intros x k B Hk. pose proof (pow_pos (mb f) ltac:(lia)) as PM.
  assert (W : width f - 1 = eb f + mb f) by (unfold width; lia).
  assert (E : 2 ^ (width f - 1) + (2 ^ mb f - 1) = Z.lor (2 ^ mb f - 1) (2 ^ (width f - 1))). { rewrite W, Z.pow_add_r by lia. rewrite lor_add by lia. lia. }
  rewrite E, Z.land_lor_distr_r, (land_sign f F1 F2 F4) by auto. rewrite (land_mask f) by lia. change (x mod 2 ^ mb f) with (frac f x). rewrite Z.shiftl_mul_pow2 by lia.
  destruct (compose f F1 F2 x B) as (_ & Fr & _). unfold with_sign, sign_bit. destruct (sign f x).
  - rewrite Z.add_0_r. replace (2 ^ (eb f + mb f)) with (2 ^ eb f * 2 ^ mb f) by (rewrite Z.pow_add_r by lia; ring). rewrite <- Z.lor_assoc.
    assert (K : Z.lor (2 ^ eb f * 2 ^ mb f) (k * 2 ^ mb f) = (k + 2 ^ eb f) * 2 ^ mb f). { rewrite <- !Z.shiftl_mul_pow2 by lia. rewrite <- Z.shiftl_lor. f_equal. rewrite Z.lor_comm. rewrite <- (Z.mul_1_l (2 ^ eb f)). apply lor_add; lia. }
    rewrite K, lor_add by lia. lia.
  - rewrite Z.lor_0_r, lor_add by lia. lia.
Qed.
Definition frexp_of (x : Z) (o : res (Z * Z)) : Prop :=
  exists r e, o = Ok (r, e) /\ bits f r /\ finite f r /\ sign f r = sign f x /\ one f <= 2 * mag f r /\ mag f r < one f /\ mag f x * 2 ^ Z.max 0 (- e) = mag f r * 2 ^ Z.max 0 e.
Lemma frexp_normal : forall n x, bits f x -> finite f x -> expo f x <> 0 -> frexp_of x (frexp (S n) f x).
Proof.
  intros n x B Fx NZ. destruct (fields x B) as (e & m & E & M & He & Hm & X & MX). cbn [frexp]. rewrite (Fmod_Proof.expn_expo f F1 F2 x), E. rewrite E in NZ. destruct (Z.eqb_spec e 0) as [|_]; [lia|].
  unfold finite, special in Fx. rewrite E in Fx. rewrite Fx. apply Z.eqb_neq in Fx.
  assert (Hb : 0 <= bias f - 1 < 2 ^ eb f - 1). { unfold Scalbn_Model.bias in *. pose proof (pow_S (eb f - 1) ltac:(lia)) as PS. replace (eb f - 1 + 1) with (eb f) in PS by lia. lia. }
  rewrite set_exponent by (auto; lia). rewrite M. destruct (parts f F1 F2 (sign f x) (bias f - 1) m ltac:(lia) Hm) as (P1 & P2 & P3 & P4). set (r := with_sign f (sign f x) ((bias f - 1) * 2 ^ mb f + m)) in *.
  assert (MR : mag f r = (2 ^ mb f + m) * 2 ^ (bias f - 2)). { unfold mag. rewrite P3, P4. destruct (Z.eqb_spec (bias f - 1) 0); [lia|]. do 2 f_equal. lia. }
  exists r, (e - (bias f - 1)). split; [reflexivity|]. split; [exact P1|]. split; [unfold finite, special; rewrite P3; apply Z.eqb_neq; lia|]. split; [exact P2|].
  pose proof (pow_pos (bias f - 2) ltac:(lia)) as PB. assert (O : one f = 2 * (2 ^ mb f * 2 ^ (bias f - 2))). { rewrite <- Z.pow_add_r, <- pow_S by lia. unfold one, Scalbn_Model.bias. f_equal. lia. }
  rewrite O, MR. split; [nia|]. split; [nia|]. rewrite MX. destruct (Z.eqb_spec e 0) as [|_]; [lia|]. rewrite <- !Z.mul_assoc, <- !Z.pow_add_r by lia. do 2 f_equal. lia.
Qed.
Lemma unscale : forall A B E, A * 2 ^ 64 * 2 ^ Z.max 0 (- E) = B * 2 ^ Z.max 0 E -> A * 2 ^ Z.max 0 (- (E - 64)) = B * 2 ^ Z.max 0 (E - 64).
Proof.
  intros A B E H. destruct (Z_le_gt_dec E 0) as [H0 | H0]; [|destruct (Z_le_gt_dec E 64) as [H1 | H1]].
  - rewrite (Z.max_r 0 (- E)), (Z.max_l 0 E) in H by lia. rewrite (Z.max_l 0 (E - 64)), Z.max_r by lia. rewrite <- Z.mul_assoc, <- Z.pow_add_r in H by lia. rewrite <- H. do 2 f_equal. lia.
  - rewrite (Z.max_l 0 (- E)), (Z.max_r 0 E) in H by lia. rewrite (Z.max_l 0 (E - 64)), Z.max_r by lia. pose proof (pow_pos E ltac:(lia)). apply (Z.mul_cancel_r _ _ (2 ^ E)); [lia|]. rewrite <- Z.mul_assoc, <- Z.pow_add_r by lia. replace (- (E - 64) + E) with 64 by lia. change (2 ^ 0) with 1 in *. lia.
  - rewrite (Z.max_l 0 (- E)), (Z.max_r 0 E) in H by lia. rewrite (Z.max_r 0 (E - 64)), Z.max_l by lia. apply (Z.mul_cancel_r _ _ (2 ^ 64)); [lia|]. rewrite <- (Z.mul_assoc B), <- Z.pow_add_r by lia. replace (E - 64 + 64) with E by lia. change (2 ^ 0) with 1 in *. lia.
Qed.
Lemma frexp_correct : forall n x, (2 <= n)%nat -> bits f x -> finite f x -> value f x <> 0 -> frexp_of x (frexp n f x).
Proof.
  intros n x Hn B Fx V. destruct n as [|[|n]]; [lia|lia|]. destruct (Z.eq_dec (expo f x) 0) as [Z0 | NZ]; [|apply frexp_normal; auto].
  destruct (fields x B) as (e & m & E & M & He & Hm & X & MX). rewrite E in Z0. rewrite Z0 in E, MX. cbn [Z.eqb] in MX.
  assert (m <> 0). { intros ->. apply V. unfold value. rewrite MX. destruct (sign f x); reflexivity. }
  remember (S n) as n1. cbn [frexp]. rewrite (Fmod_Proof.expn_expo f F1 F2 x), E, Z.eqb_refl.
  assert (Q : feq f x 0 = false). { rewrite (feq_num f x 0 (value f x) 0 (sign f x) false); [apply Z.eqb_neq; auto|repeat split; auto; apply B|apply (num_zero f F1 F2 false)]. }
  rewrite Q. cbn [negb]. destruct (up_exact x 64 B Fx ltac:(lia)) as (y & -> & By & Fy & Sy & My).
  { rewrite MX, top_exp. assert (m * 2 ^ 64 < 2 ^ mb f * 2 ^ 64) by (apply Z.mul_lt_mono_pos_r; lia). rewrite <- Z.pow_add_r in H0 by lia. pose proof (pow_le (mb f + 64) (2 * bias f + mb f) ltac:(lia)). lia. }
  assert (NY : expo f y <> 0). { intros EY. destruct (compose f F1 F2 y By) as (_ & Fr & _). unfold mag in My at 1. rewrite EY in My. cbn [Z.eqb] in My. rewrite MX in My. pose proof (pow_lt (mb f) 64 ltac:(lia)). lia. }
  subst n1. destruct (frexp_normal n y By Fy NY) as (r & k & -> & R1 & R2 & R3 & R4 & R5 & R6). cbn [bind]. exists r, (k - 64). split; [reflexivity|]. split; [auto|]. split; [auto|]. split; [congruence|]. split; [auto|]. split; [auto|]. apply unscale. rewrite <- My. exact R6.
Qed.
Lemma frexp_zero : forall n x, bits f x -> finite f x -> value f x = 0 -> frexp (S n) f x = Ok (x, 0).
Proof.
  intros n x B Fx V. cbn [frexp]. rewrite (Fmod_Proof.expn_expo f F1 F2 x). assert (Z0 : mag f x = 0) by (rewrite <- (value_abs f F1 F2) by auto; rewrite V; reflexivity).
  destruct (fields x B) as (e & m & E & M & He & Hm & X & MX). rewrite E. rewrite Z0 in MX. destruct (Z.eqb_spec e 0) as [|NE].
  - assert (Q : feq f x 0 = true). { rewrite (feq_num f x 0 (value f x) 0 (sign f x) false); [apply Z.eqb_eq; auto|repeat split; auto; apply B|apply (num_zero f F1 F2 false)]. } rewrite Q. reflexivity.
  - exfalso. pose proof (pow_pos (e - 1) ltac:(lia)). pose proof (pow_pos (mb f) ltac:(lia)). nia.
Qed.
Lemma frexp_special : forall n x, bits f x -> ~ finite f x -> frexp (S n) f x = Ok (x, 0).
Proof.
  intros n x B Fx. cbn [frexp]. rewrite (Fmod_Proof.expn_expo f F1 F2 x). unfold finite, special in Fx. apply not_false_iff_true in Fx. rewrite Fx. apply Z.eqb_eq in Fx. pose proof (pow_le 2 (eb f) ltac:(lia)). change (2 ^ 2) with 4 in *. destruct (Z.eqb_spec (expo f x) 0); [lia|reflexivity].
Qed.

(** ilogb *)
Lemma ilogb_correct : forall n x, mb f <= Z.of_nat n -> bits f x -> finite f x -> value f x <> 0 -> exists e, ilogb n f x = Ok e /\ is_exponent f x e.
Proof.
  intros n x Hn B Fx V. unfold ilogb. rewrite (Fmod_Proof.expn_expo f F1 F2 x). destruct (fields x B) as (e & m & E & M & He & Hm & X & MX). rewrite E. unfold finite, special in Fx. rewrite E in Fx. rewrite Fx. unfold is_exponent.
  assert (O : one f = 2 ^ mb f * 2 ^ (bias f - 1)) by (rewrite <- Z.pow_add_r by lia; unfold one, Scalbn_Model.bias; f_equal; lia).
  destruct (Z.eqb_spec e 0) as [E0 | NE].
  - assert (m <> 0). { intros ->. apply V. unfold value. rewrite MX. destruct (sign f x); reflexivity. }
    rewrite (frac_shl f F1 F2) by auto. rewrite M. assert (W : 0 < width f - mb f) by (unfold width; lia). pose proof (pow_pos (width f - mb f) ltac:(lia)) as PW.
    destruct (Z.eqb_spec (m * 2 ^ (width f - mb f)) 0); [nia|].
    assert (WS : 2 ^ width f = 2 ^ mb f * 2 ^ (width f - mb f)) by (rewrite <- Z.pow_add_r by lia; f_equal; lia).
    destruct (lead_spec f F1 F2 n (m * 2 ^ (width f - mb f)) (- bias f)) as (j & J1 & J2 & J3).
    + rewrite WS. split; [nia|]. apply Z.mul_lt_mono_pos_r; lia.
    + rewrite WS. pose proof (pow_le (mb f) (Z.of_nat n) ltac:(lia)). nia.
    + exists (- bias f - j). split; [exact J2|]. rewrite MX. rewrite Z.max_l, Z.max_r by lia. change (2 ^ 0) with 1. rewrite Z.mul_1_r.
      assert (SB : sign_bit f = 2 ^ (mb f - 1) * 2 ^ (width f - mb f)) by (rewrite <- Z.pow_add_r by lia; unfold sign_bit, width; f_equal; lia). rewrite SB, WS in J3.
      assert (J4 : 2 ^ (mb f - 1) <= m * 2 ^ j < 2 ^ mb f). { pose proof (pow_pos j J1). split; [apply (Z.mul_le_mono_pos_r _ _ (2 ^ (width f - mb f)))|apply (Z.mul_lt_mono_pos_r (2 ^ (width f - mb f)))]; lia. }
      replace (- (- bias f - j)) with (j + (1 + (bias f - 1))) by lia. rewrite O. rewrite (Z.pow_add_r 2 j), (Z.pow_add_r 2 1) by lia. change (2 ^ 1) with 2.
      pose proof (pow_S (mb f - 1) ltac:(lia)) as PS. replace (mb f - 1 + 1) with (mb f) in PS by lia. pose proof (pow_pos (bias f - 1) ltac:(lia)) as PB. set (q := 2 ^ (bias f - 1)) in *. replace (m * (2 ^ j * (2 * q))) with (2 * (m * 2 ^ j) * q) by ring. clear - PS PB J4. split; [apply Z.mul_le_mono_nonneg_r; lia|]. replace (2 * (2 ^ mb f * q)) with (2 * 2 ^ mb f * q) by ring. apply Z.mul_lt_mono_pos_r; lia.
  - exists (e - bias f). split; [reflexivity|]. rewrite MX, O. set (q := 2 ^ (bias f - 1 + Z.max 0 (e - bias f))).
    assert (Q1 : 2 ^ mb f * 2 ^ (bias f - 1) * 2 ^ Z.max 0 (e - bias f) = 2 ^ mb f * q) by (unfold q; rewrite (Z.pow_add_r 2 (bias f - 1)) by lia; ring).
    assert (Q2 : (2 ^ mb f + m) * 2 ^ (e - 1) * 2 ^ Z.max 0 (- (e - bias f)) = (2 ^ mb f + m) * q) by (rewrite <- Z.mul_assoc, <- Z.pow_add_r by lia; unfold q; do 2 f_equal; lia).
    rewrite Q1, Q2. assert (0 < q) by (apply pow_pos; lia). clear - H Hm. nia.
Qed.
Lemma ilogb_special : forall n x, bits f x ->
  (value f x = 0 -> ilogb n f x = Ok FP_ILOGB0) /\ (inf f x = true -> ilogb n f x = Ok INT_MAX) /\ (nan f x = true -> ilogb n f x = Ok FP_ILOGBNAN).
Proof.
  intros n x B. unfold ilogb. rewrite (Fmod_Proof.expn_expo f F1 F2 x), (frac_shl f F1 F2) by auto. destruct (fields x B) as (e & m & E & M & He & Hm & X & MX). rewrite E, M. assert (W : 0 < width f - mb f) by (unfold width; lia). pose proof (pow_pos (width f - mb f) ltac:(lia)) as PW.
  pose proof (pow_le 2 (eb f) ltac:(lia)) as P4. change (2 ^ 2) with 4 in P4. unfold inf, nan, special. rewrite E, M. split; [|split].
  - intros V. assert (Z0 : mag f x = 0) by (unfold value in V; destruct (sign f x); lia). rewrite Z0 in MX. destruct (Z.eqb_spec e 0) as [|NE].
    + subst m. rewrite <- MX. reflexivity.
    + exfalso. pose proof (pow_pos (e - 1) ltac:(lia)). pose proof (pow_pos (mb f) ltac:(lia)). nia.
  - intros I. apply andb_true_iff in I. destruct I as [I1 I2]. rewrite I1. apply Z.eqb_eq in I1, I2. destruct (Z.eqb_spec e 0); [lia|]. rewrite I2. reflexivity.
  - intros I. apply andb_true_iff in I. destruct I as [I1 I2]. rewrite I1. apply Z.eqb_eq in I1. apply negb_true_iff, Z.eqb_neq in I2. destruct (Z.eqb_spec e 0); [lia|]. destruct (Z.eqb_spec (m * 2 ^ (width f - mb f)) 0); [nia|reflexivity].
Qed.
End Fmt.
