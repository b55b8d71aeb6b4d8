(** Facts about the formats of Ieee.v, among them that [round_mag] rounds to the nearest number. *)
From Verif Require Export Ieee.
Open Scope Z_scope.

Lemma pow_pos : forall n, 0 <= n -> 0 < 2 ^ n.
Proof. intros. apply Z.pow_pos_nonneg; lia. Qed.
Lemma pow_S : forall n, 0 <= n -> 2 ^ (n + 1) = 2 * 2 ^ n.
Proof. intros. rewrite Z.pow_add_r by lia. change (2 ^ 1) with 2. lia. Qed.
Lemma pow_split : forall a b, 0 <= a <= b -> 2 ^ b = 2 ^ a * 2 ^ (b - a).
Proof. intros. rewrite <- Z.pow_add_r by lia. f_equal. lia. Qed.
Lemma pow_le : forall a b, 0 <= a <= b -> 2 ^ a <= 2 ^ b.
Proof. intros. apply Z.pow_le_mono_r; lia. Qed.
Lemma pow_lt : forall a b, 0 <= a < b -> 2 ^ a < 2 ^ b.
Proof. intros. apply Z.pow_lt_mono_r; lia. Qed.

Section Fmt.
Variable f : fmt.
Hypothesis F1 : 1 <= mb f.
Hypothesis F2 : 2 <= eb f.

Lemma sign_bit_split : sign_bit f = 2 ^ eb f * 2 ^ mb f.
Proof. unfold sign_bit. rewrite Z.pow_add_r by lia. reflexivity. Qed.
Lemma width_split : 2 ^ width f = 2 * sign_bit f.
Proof. unfold width, sign_bit. rewrite <- pow_S by lia. f_equal. lia. Qed.

(** composing numbers from their parts *)
Lemma parts : forall s e m, 0 <= e < 2 ^ eb f -> 0 <= m < 2 ^ mb f ->
  let u := with_sign f s (e * 2 ^ mb f + m) in
  bits f u /\ sign f u = s /\ expo f u = e /\ frac f u = m.
Proof.
  intros s e m He Hm u.
  pose proof (pow_pos (mb f) ltac:(lia)) as P1. pose proof (pow_pos (eb f) ltac:(lia)) as P2.
  assert (B : 0 <= e * 2 ^ mb f + m < sign_bit f) by (rewrite sign_bit_split; nia).
  assert (A : (e * 2 ^ mb f + m) / 2 ^ mb f = e) by (rewrite Z.div_add_l by lia; rewrite Z.div_small by lia; lia).
  assert (C : (e * 2 ^ mb f + m) mod 2 ^ mb f = m) by (rewrite Z.add_comm, Z.mod_add by lia; apply Z.mod_small; lia).
  unfold u, with_sign, bits, sign, expo, frac. rewrite width_split. destruct s.
  - split; [lia|split; [apply Z.leb_le; lia|split]].
    + rewrite sign_bit_split. rewrite Z.div_add_l by lia. rewrite A. rewrite Z.add_comm, <- (Z.mul_1_l (2 ^ eb f)) at 1.
      rewrite Z.mod_add by lia. apply Z.mod_small. lia.
    + rewrite sign_bit_split, Z.add_comm, Z.mod_add by lia. exact C.
  - split; [lia|split; [apply Z.leb_gt; lia|split]].
    + rewrite A. apply Z.mod_small. lia.
    + exact C.
Qed.
Lemma compose : forall u, bits f u -> 0 <= expo f u < 2 ^ eb f /\ 0 <= frac f u < 2 ^ mb f /\
  u = with_sign f (sign f u) (expo f u * 2 ^ mb f + frac f u).
Proof.
  intros u [B1 B2]. rewrite width_split in B2.
  pose proof (pow_pos (mb f) ltac:(lia)) as P1. pose proof (pow_pos (eb f) ltac:(lia)) as P2.
  unfold expo, frac, with_sign, sign.
  pose proof (Z.mod_pos_bound u (2 ^ mb f) ltac:(lia)). pose proof (Z.mod_pos_bound (u / 2 ^ mb f) (2 ^ eb f) ltac:(lia)).
  pose proof (Z.div_mod u (2 ^ mb f) ltac:(lia)) as D1. pose proof (Z.div_mod (u / 2 ^ mb f) (2 ^ eb f) ltac:(lia)) as D2.
  split; [lia|]. split; [lia|].
  set (q := u / 2 ^ mb f) in *. set (t := q / 2 ^ eb f) in *.
  rewrite sign_bit_split in *.
  destruct (2 ^ eb f * 2 ^ mb f <=? u) eqn:E; [apply Z.leb_le in E | apply Z.leb_gt in E].
  - assert (t = 1) by nia. nia.
  - assert (t = 0) by nia. nia.
Qed.
Lemma magnitude_bits : forall u, bits f u -> exists a, 0 <= a < sign_bit f /\ u = with_sign f (sign f u) a /\ a = expo f u * 2 ^ mb f + frac f u.
Proof.
  intros u B. destruct (compose u B) as (H1 & H2 & H3). exists (expo f u * 2 ^ mb f + frac f u). split; [|split]; auto.
  pose proof (pow_pos (mb f) ltac:(lia)). rewrite sign_bit_split. nia.
Qed.
Lemma with_sign_bits : forall s a, 0 <= a < sign_bit f -> bits f (with_sign f s a) /\ sign f (with_sign f s a) = s /\
  expo f (with_sign f s a) = expo f a /\ frac f (with_sign f s a) = frac f a.
Proof.
  intros s a H. assert (Ba : bits f a) by (unfold bits; rewrite width_split; lia).
  destruct (compose a Ba) as (H1 & H2 & H3).
  assert (S : sign f a = false) by (unfold sign; apply Z.leb_gt; lia). rewrite S in H3. cbn [with_sign] in H3.
  pose proof (parts s _ _ H1 H2) as P. cbn zeta in P. rewrite <- H3 in P. exact P.
Qed.
Lemma with_sign_inj : forall s a t b, 0 <= a < sign_bit f -> 0 <= b < sign_bit f -> with_sign f s a = with_sign f t b -> s = t /\ a = b.
Proof. intros s a t b. unfold with_sign. destruct s, t; intros; split; auto; lia. Qed.
Lemma with_sign_mag : forall s a, 0 <= a < sign_bit f -> mag f (with_sign f s a) = mag f a /\ special f (with_sign f s a) = special f a.
Proof.
  intros s a H. destruct (with_sign_bits s a H) as (_ & _ & H1 & H2). unfold mag, special. rewrite H1, H2. auto.
Qed.
Lemma with_sign_value : forall s a, 0 <= a < sign_bit f -> value f (with_sign f s a) = if s then - mag f a else mag f a.
Proof.
  intros s a H. destruct (with_sign_bits s a H) as (_ & H1 & _). unfold value. rewrite H1. destruct (with_sign_mag s a H) as [-> _]. reflexivity.
Qed.

(** magnitudes *)
Lemma mag_nonneg : forall u, bits f u -> 0 <= mag f u.
Proof.
  intros u B. destruct (compose u B) as (H1 & H2 & _). unfold mag. destruct (expo f u =? 0) eqn:E; [lia|].
  apply Z.eqb_neq in E. pose proof (pow_pos (mb f) ltac:(lia)). pose proof (pow_pos (expo f u - 1) ltac:(lia)). nia.
Qed.
Lemma mag_parts : forall e m, 0 <= e < 2 ^ eb f -> 0 <= m < 2 ^ mb f ->
  mag f (e * 2 ^ mb f + m) = if e =? 0 then m else (2 ^ mb f + m) * 2 ^ (e - 1).
Proof. intros e m He Hm. destruct (parts false e m He Hm) as (_ & _ & H1 & H2). cbn [with_sign] in *. unfold mag. rewrite H1, H2. reflexivity. Qed.
Lemma mag_mono_parts : forall e m e' m', 0 <= e -> 0 <= m < 2 ^ mb f -> 0 <= m' < 2 ^ mb f -> e < e' \/ (e = e' /\ m < m') ->
  (if e =? 0 then m else (2 ^ mb f + m) * 2 ^ (e - 1)) < (if e' =? 0 then m' else (2 ^ mb f + m') * 2 ^ (e' - 1)).
Proof.
  intros e m e' m' He Hm Hm' [H | [-> H]].
  - pose proof (pow_pos (mb f) ltac:(lia)) as P.
    assert (G : 2 ^ mb f * 2 ^ (e' - 1) <= (2 ^ mb f + m') * 2 ^ (e' - 1)) by (pose proof (pow_pos (e' - 1) ltac:(lia)); nia).
    destruct (e' =? 0) eqn:E'; [apply Z.eqb_eq in E'; lia|].
    destruct (e =? 0) eqn:E.
    + pose proof (pow_pos (e' - 1) ltac:(lia)). nia.
    + apply Z.eqb_neq in E. rewrite (pow_split (e - 1) (e' - 1)) in * by lia.
      pose proof (pow_pos (e - 1) ltac:(lia)). pose proof (pow_le 1 (e' - 1 - (e - 1)) ltac:(lia)) as Q. change (2 ^ 1) with 2 in Q.
      set (A := 2 ^ (e - 1)) in *. set (C := 2 ^ (e' - 1 - (e - 1))) in *. set (M := 2 ^ mb f) in *.
      assert ((M + m) * A < 2 * M * A) by nia. assert (2 * M * A <= M * (A * C)) by nia. lia.
  - destruct (e' =? 0) eqn:E'; [lia|]. apply Z.eqb_neq in E'. pose proof (pow_pos (e' - 1) ltac:(lia)). nia.
Qed.
Lemma mag_mono : forall a b, 0 <= a < sign_bit f -> 0 <= b < sign_bit f -> a < b -> mag f a < mag f b.
Proof.
  intros a b Ha Hb H.
  assert (X : forall u, 0 <= u < sign_bit f -> 0 <= u / 2 ^ mb f < 2 ^ eb f /\ 0 <= u mod 2 ^ mb f < 2 ^ mb f /\ u = (u / 2 ^ mb f) * 2 ^ mb f + u mod 2 ^ mb f).
  { intros u Hu. pose proof (pow_pos (mb f) ltac:(lia)). rewrite sign_bit_split in Hu.
    pose proof (Z.div_mod u (2 ^ mb f) ltac:(lia)). pose proof (Z.mod_pos_bound u (2 ^ mb f) ltac:(lia)). split; [|split]; [nia|lia|lia]. }
  destruct (X a Ha) as (A1 & A2 & A3). destruct (X b Hb) as (B1 & B2 & B3).
  rewrite A3, B3, !mag_parts by auto. apply mag_mono_parts; try lia. rewrite A3, B3 in H. pose proof (pow_pos (mb f) ltac:(lia)). nia.
Qed.
Lemma mag_le : forall a b, 0 <= a < sign_bit f -> 0 <= b < sign_bit f -> (a <= b <-> mag f a <= mag f b).
Proof.
  intros a b Ha Hb. split; intros H.
  - destruct (Z.eq_dec a b) as [-> | N]; [lia|]. pose proof (mag_mono a b Ha Hb ltac:(lia)). lia.
  - destruct (Z_le_gt_dec a b) as [G | G]; [exact G|]. pose proof (mag_mono b a Hb Ha ltac:(lia)). lia.
Qed.
Lemma mag_inj : forall a b, 0 <= a < sign_bit f -> 0 <= b < sign_bit f -> mag f a = mag f b -> a = b.
Proof. intros a b Ha Hb H. pose proof (proj2 (mag_le a b Ha Hb) ltac:(lia)). pose proof (proj2 (mag_le b a Hb Ha) ltac:(lia)). lia. Qed.
Lemma mag_0 : mag f 0 = 0.
Proof. unfold mag, expo, frac. rewrite Z.div_0_l, !Z.mod_0_l; try reflexivity; pose proof (pow_pos (mb f) ltac:(lia)); pose proof (pow_pos (eb f) ltac:(lia)); lia. Qed.
Lemma infinity_lt : 0 < infinity f < sign_bit f.
Proof. rewrite sign_bit_split. unfold infinity. pose proof (pow_pos (mb f) ltac:(lia)). pose proof (pow_le 2 (eb f) ltac:(lia)) as P. change (2 ^ 2) with 4 in P. nia. Qed.
Lemma finite_lt : forall a, 0 <= a < sign_bit f -> (finite f a <-> a < infinity f).
Proof.
  intros a Ha. assert (Ba : bits f a) by (unfold bits; rewrite width_split; lia).
  destruct (compose a Ba) as (H1 & H2 & H3). assert (S : sign f a = false) by (unfold sign; apply Z.leb_gt; lia). rewrite S in H3. cbn [with_sign] in H3.
  unfold finite, special, infinity. rewrite Z.eqb_neq. pose proof (pow_pos (mb f) ltac:(lia)).
  rewrite H3 at 2. split; intros; nia.
Qed.
Definition top : Z := 2 ^ (2 ^ eb f - 2 + mb f).
Lemma mag_infinity : mag f (infinity f) = top.
Proof.
  pose proof (pow_pos (mb f) ltac:(lia)). pose proof (pow_le 2 (eb f) ltac:(lia)) as P. change (2 ^ 2) with 4 in P.
  unfold infinity. rewrite <- (Z.add_0_r ((2 ^ eb f - 1) * 2 ^ mb f)). rewrite mag_parts by lia.
  destruct (2 ^ eb f - 1 =? 0) eqn:E; [apply Z.eqb_eq in E; lia|]. rewrite Z.add_0_r. unfold top.
  rewrite <- Z.pow_add_r by lia. f_equal. lia.
Qed.
Lemma finite_mag : forall u, bits f u -> finite f u -> mag f u < top.
Proof.
  intros u B Fu. destruct (magnitude_bits u B) as (a & Ha & Hu & _).
  rewrite Hu in Fu |- *. destruct (with_sign_mag (sign f u) a Ha) as [-> G]. unfold finite in Fu. rewrite G in Fu.
  rewrite <- mag_infinity. apply mag_mono; auto. { pose proof infinity_lt. lia. } apply finite_lt; auto.
Qed.

(** a number of the form d * 2^s with d of at most mb + 1 bits is representable *)
Lemma encode : forall d s, 2 ^ mb f <= d < 2 ^ (mb f + 1) -> 0 <= s -> s * 2 ^ mb f + d < infinity f ->
  0 <= s * 2 ^ mb f + d < sign_bit f /\ mag f (s * 2 ^ mb f + d) = d * 2 ^ s.
Proof.
  intros d s Hd Hs H. pose proof infinity_lt. pose proof (pow_pos (mb f) ltac:(lia)). rewrite pow_S in Hd by lia.
  split; [nia|]. replace (s * 2 ^ mb f + d) with ((s + 1) * 2 ^ mb f + (d - 2 ^ mb f)) in * by lia.
  unfold infinity in *. rewrite mag_parts by nia.
  destruct (s + 1 =? 0) eqn:E; [apply Z.eqb_eq in E; lia|]. f_equal; [lia|]. f_equal. lia.
Qed.
Lemma small_mag : forall d, 0 <= d < 2 ^ mb f -> 0 <= d < sign_bit f /\ mag f d = d /\ d < infinity f.
Proof.
  intros d Hd. pose proof (pow_pos (mb f) ltac:(lia)). pose proof (pow_le 2 (eb f) ltac:(lia)) as P. change (2 ^ 2) with 4 in P.
  split; [rewrite sign_bit_split; nia|]. pose proof (mag_parts 0 d ltac:(lia) Hd) as M. cbn in M. split; [exact M|]. unfold infinity. nia.
Qed.
Lemma encode_bound : forall d s, 2 ^ mb f <= d < 2 ^ (mb f + 1) -> 0 <= s -> d * 2 ^ s < top -> s * 2 ^ mb f + d < infinity f.
Proof.
  intros d s Hd Hs H. unfold top in H. pose proof (pow_pos (mb f) ltac:(lia)). pose proof (pow_pos s ltac:(lia)).
  assert (G : 2 ^ (mb f + s) < 2 ^ (2 ^ eb f - 2 + mb f)) by (rewrite Z.pow_add_r by lia; nia).
  assert (s < 2 ^ eb f - 2).
  { destruct (Z_lt_ge_dec s (2 ^ eb f - 2)); [lia|]. pose proof (pow_le 2 (eb f) ltac:(lia)) as P. change (2 ^ 2) with 4 in P. pose proof (pow_le (2 ^ eb f - 2 + mb f) (mb f + s) ltac:(lia)). lia. }
  unfold infinity. rewrite pow_S in Hd by lia. nia.
Qed.

Lemma log2_range : forall m, 0 < m -> 2 ^ Z.log2 m <= m < 2 ^ (Z.log2 m + 1).
Proof. intros m H. destruct (Z.log2_spec m H). rewrite <- Z.add_1_r in *. lia. Qed.
Lemma round_exact : forall d s, 0 <= d < 2 ^ (mb f + 1) -> 0 <= s -> d * 2 ^ s < top ->
  0 <= round_mag f (d * 2 ^ s) < infinity f /\ mag f (round_mag f (d * 2 ^ s)) = d * 2 ^ s.
Proof.
  intros d s Hd Hs Ht. pose proof (pow_pos (mb f) ltac:(lia)) as PM. pose proof (pow_pos s ltac:(lia)) as PS.
  set (m := d * 2 ^ s) in *. assert (0 <= m) by (subst m; nia).
  unfold round_mag. destruct (Z_lt_ge_dec m (2 ^ mb f)) as [L | G].
  - assert (Z.log2 m <= mb f).
    { destruct (Z.eq_dec m 0) as [-> | N]; [cbn; lia|]. pose proof (log2_range m ltac:(lia)). destruct (Z_le_gt_dec (Z.log2 m) (mb f)) as [|Q]; [auto|].
      pose proof (pow_le (mb f) (Z.log2 m) ltac:(lia)). lia. }
    rewrite Z.max_l by lia. cbn [Z.mul]. change (2 ^ 0) with 1. rewrite Z.div_1_r, Z.mod_1_r.
    rewrite Z.add_0_l. change (Z.min (infinity f) _) with (Z.min (infinity f) m).
    destruct (small_mag m ltac:(lia)) as (S1 & S2 & S3). rewrite Z.min_r by lia. split; [lia|exact S2].
  - pose proof (log2_range m ltac:(lia)) as [L1 L2].
    assert (K : mb f <= Z.log2 m). { destruct (Z_le_gt_dec (mb f) (Z.log2 m)) as [|Q]; [auto|]. pose proof (pow_le (Z.log2 m + 1) (mb f) ltac:(pose proof (Z.log2_nonneg m); lia)). lia. }
    rewrite Z.max_r by lia. set (e := Z.log2 m - mb f) in *.
    assert (E : e <= s).
    { destruct (Z_le_gt_dec e s); [auto|exfalso]. assert (2 ^ Z.log2 m = 2 ^ e * 2 ^ mb f) by (rewrite <- Z.pow_add_r by lia; f_equal; lia).
      pose proof (pow_le (s + 1) e ltac:(lia)) as Q. rewrite pow_S in Q by lia. rewrite pow_S in Hd by lia. subst m. nia. }
    assert (D : m = d * 2 ^ (s - e) * 2 ^ e) by (subst m; rewrite (pow_split e s) by lia; lia).
    pose proof (pow_pos e ltac:(lia)) as PE. set (d' := d * 2 ^ (s - e)) in *.
    assert (Q1 : m / 2 ^ e = d') by (rewrite D; apply Z.div_mul; lia). assert (Q2 : m mod 2 ^ e = 0) by (rewrite D; apply Z.mod_mul; lia).
    rewrite Q1, Q2. replace (2 ^ e <? 2 * 0) with false by (symmetry; apply Z.ltb_ge; lia). replace (2 * 0 =? 2 ^ e) with false by (symmetry; apply Z.eqb_neq; lia).
    cbn [orb andb].
    assert (Hd' : 2 ^ mb f <= d' < 2 ^ (mb f + 1)).
    { assert (2 ^ Z.log2 m = 2 ^ mb f * 2 ^ e) by (rewrite <- Z.pow_add_r by lia; f_equal; lia).
      assert (2 ^ (Z.log2 m + 1) = 2 ^ (mb f + 1) * 2 ^ e) by (rewrite <- Z.pow_add_r by lia; f_equal; lia). nia. }
    assert (Z1 : e * 2 ^ mb f + d' < infinity f) by (apply encode_bound; auto; lia).
    destruct (encode d' e Hd' ltac:(lia) Z1) as [Z2 Z3]. rewrite Z.min_r by lia. split; [lia|]. rewrite Z3. lia.
Qed.

(** every magnitude has that form *)
Lemma mag_form : forall u, bits f u -> exists d s, 0 <= d < 2 ^ (mb f + 1) /\ 0 <= s /\ mag f u = d * 2 ^ s.
Proof.
  intros u B. destruct (compose u B) as (H1 & H2 & _). unfold mag. rewrite pow_S by lia. destruct (expo f u =? 0) eqn:E.
  - exists (frac f u), 0. change (2 ^ 0) with 1. lia.
  - apply Z.eqb_neq in E. exists (2 ^ mb f + frac f u), (expo f u - 1). lia.
Qed.
Lemma round_mag_id : forall a, 0 <= a < infinity f -> round_mag f (mag f a) = a.
Proof.
  intros a Ha. pose proof infinity_lt. assert (Ba : bits f a) by (unfold bits; rewrite width_split; lia).
  assert (T : mag f a < top) by (rewrite <- mag_infinity; apply mag_mono; lia).
  destruct (mag_form a Ba) as (d & s & Hd & Hs & M). rewrite M in T |- *. destruct (round_exact d s Hd Hs T) as [R1 R2].
  apply mag_inj; lia.
Qed.

(** a finite number from its sign and magnitude *)
Lemma finite_sign : forall s a, 0 <= a < infinity f -> bits f (with_sign f s a) /\ finite f (with_sign f s a) /\ sign f (with_sign f s a) = s /\
  value f (with_sign f s a) = (if s then - mag f a else mag f a) /\ mag f (with_sign f s a) = mag f a.
Proof.
  intros s a Ha. pose proof infinity_lt. destruct (with_sign_bits s a ltac:(lia)) as (H1 & H2 & _). destruct (with_sign_mag s a ltac:(lia)) as [H3 H4].
  split; [exact H1|]. split; [|split; [exact H2|split; [apply with_sign_value; lia|exact H3]]]. unfold finite. rewrite H4. apply finite_lt; lia.
Qed.
Lemma finite_form : forall u, bits f u -> finite f u -> exists a, 0 <= a < infinity f /\ u = with_sign f (sign f u) a /\ mag f u = mag f a.
Proof.
  intros u B Fu. destruct (magnitude_bits u B) as (a & Ha & Hu & _). exists a. destruct (with_sign_mag (sign f u) a Ha) as [M S]. rewrite <- Hu in M, S.
  split; [|auto]. unfold finite in Fu. rewrite S in Fu. split; [lia|]. apply finite_lt; auto.
Qed.
Lemma fneg_with_sign : forall s a, 0 <= a < sign_bit f -> fneg f (with_sign f s a) = with_sign f (negb s) a.
Proof. intros s a H. destruct (with_sign_bits s a H) as (_ & S & _). unfold fneg. rewrite S. unfold with_sign. destruct s; cbn [negb]; lia. Qed.
Lemma fneg_finite : forall u, bits f u -> finite f u -> bits f (fneg f u) /\ finite f (fneg f u) /\ sign f (fneg f u) = negb (sign f u) /\ value f (fneg f u) = - value f u.
Proof.
  intros u B Fu. destruct (finite_form u B Fu) as (a & Ha & Hu & _). pose proof infinity_lt.
  destruct (finite_sign (negb (sign f u)) a Ha) as (H1 & H2 & H3 & H4 & _). destruct (finite_sign (sign f u) a Ha) as (_ & _ & _ & H5 & _).
  rewrite <- Hu in H5. rewrite <- fneg_with_sign, <- Hu in H1, H2, H3, H4 by lia. split; [exact H1|]. split; [exact H2|]. split; [exact H3|].
  rewrite H4, H5. destruct (sign f u); cbn [negb]; lia.
Qed.
Lemma finite_nan : forall u, finite f u -> nan f u = false /\ inf f u = false.
Proof. intros u H. unfold nan, inf. unfold finite in H. rewrite H. auto. Qed.
Lemma value_abs : forall u, bits f u -> Z.abs (value f u) = mag f u.
Proof. intros u B. pose proof (mag_nonneg u B). unfold value. destruct (sign f u); lia. Qed.
Lemma fadd_exact : forall x y d s, bits f x -> bits f y -> finite f x -> finite f y -> Z.abs (value f x + value f y) = d * 2 ^ s ->
  0 <= d < 2 ^ (mb f + 1) -> 0 <= s -> d * 2 ^ s < top ->
  bits f (fadd f x y) /\ finite f (fadd f x y) /\ value f (fadd f x y) = value f x + value f y /\
  sign f (fadd f x y) = if value f x + value f y =? 0 then sign f x && sign f y else value f x + value f y <? 0.
Proof.
  intros x y d s Bx By Fx Fy V Hd Hs Ht. unfold fadd. destruct (finite_nan x Fx) as [-> ->]. destruct (finite_nan y Fy) as [-> ->]. cbn [orb].
  pose proof infinity_lt as I. destruct (value f x + value f y =? 0) eqn:E; [apply Z.eqb_eq in E | apply Z.eqb_neq in E].
  - destruct (finite_sign (sign f x && sign f y) 0 ltac:(lia)) as (H1 & H2 & H3 & H4 & _). split; [exact H1|]. split; [exact H2|]. split; [|exact H3].
    rewrite H4, mag_0, E. destruct (sign f x && sign f y); reflexivity.
  - unfold round_value. rewrite V. destruct (round_exact d s Hd Hs Ht) as [R1 R2].
    destruct (finite_sign (value f x + value f y <? 0) _ R1) as (H1 & H2 & H3 & H4 & _). split; [exact H1|]. split; [exact H2|]. split; [|exact H3].
    rewrite H4, R2, <- V. destruct (Z.ltb_spec (value f x + value f y) 0); lia.
Qed.
Lemma fsub_fadd : forall x y, bits f x -> bits f y -> finite f y -> fsub f x y = fadd f x (fneg f y).
Proof. intros x y Bx By Fy. unfold fsub. destruct (finite_nan y Fy) as [-> _]. reflexivity. Qed.
End Fmt.
