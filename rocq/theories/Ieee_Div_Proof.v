From Verif Require Import Ieee_Mul Ieee_Div.
From Verif Require Export Ieee_Proof Ieee_Round Ieee_Mul_Proof.
Open Scope Z_scope.

Section Fmt.
Variable f : fmt.
Hypothesis F1 : 1 <= mb f.
Hypothesis F2 : 2 <= eb f.

Lemma div_eq : forall m d, round_div f m d =
  Z.min (infinity f) (Z.max 0 (Z.log2 (m / d) - mb f) * 2 ^ mb f + rne m (d * 2 ^ Z.max 0 (Z.log2 (m / d) - mb f))).
Proof. reflexivity. Qed.
Lemma rne_mult : forall n d k, 0 < d -> 0 < k -> rne (n * d) (d * k) = rne n k.
Proof.
  intros n d k Hd Hk. unfold rne. rewrite (Z.mul_comm n d), Z.div_mul_cancel_l, Z.mul_mod_distr_l by lia.
  set (r := n mod k). set (q := n / k). clearbody r q.
  replace (d * k <? 2 * (d * r)) with (k <? 2 * r) by (destruct (Z.ltb_spec k (2 * r)); destruct (Z.ltb_spec (d * k) (2 * (d * r))); nia).
  replace (2 * (d * r) =? d * k) with (2 * r =? k) by (destruct (Z.eqb_spec (2 * r) k); destruct (Z.eqb_spec (2 * (d * r)) (d * k)); nia).
  reflexivity.
Qed.
Lemma div_exact : forall n d, 0 < d -> round_div f (n * d) d = round_mag f n.
Proof.
  intros n d Hd. rewrite div_eq, Z.div_mul by lia. unfold round_mag. set (e := Z.max 0 (Z.log2 n - mb f)).
  rewrite rne_mult by (try apply pow_pos; lia). reflexivity.
Qed.

Lemma unit_exp_pos : 0 < unit_exp f.
Proof. unfold unit_exp. pose proof (pow_le 1 (eb f - 1) ltac:(lia)) as P. change (2 ^ 1) with 2 in P. lia. Qed.
Lemma one_eq : one f = 2 ^ unit_exp f.
Proof. reflexivity. Qed.

Lemma num_round : forall s z, rep f z -> 0 <= z -> num f (with_sign f s (round_mag f z)) (if s then - z else z) s.
Proof.
  intros s z (d & k & Hd & Hk & E & T) Hz. rewrite Z.abs_eq in E, T by lia. subst z.
  destruct (round_exact f F1 F2 d k Hd Hk T) as [R1 R2].
  destruct (finite_sign f F1 F2 s _ R1) as (H1 & H2 & H3 & H4 & _). split; [exact H1|]. split; [exact H2|]. split; [|exact H3].
  rewrite H4, R2. reflexivity.
Qed.

Lemma num_mul : forall x y v w s t z, num f x v s -> num f y w t -> Z.abs v * Z.abs w = z * 2 ^ unit_exp f -> rep f z ->
  num f (fmul f x y) (if xorb s t then - z else z) (xorb s t).
Proof.
  intros x y v w s t z X Y E R. destruct (num_mag f F1 F2 x v s X) as [M1 _]. destruct (num_mag f F1 F2 y w t Y) as [M2 _].
  destruct X as (B & Fu & V & S). destruct Y as (B' & Fu' & V' & S'). unfold fmul.
  destruct (finite_nan f x Fu) as [-> ->]. destruct (finite_nan f y Fu') as [-> ->]. cbn [orb].
  rewrite M1, M2, E, S, S'. pose proof unit_exp_pos as U. pose proof (pow_pos (unit_exp f) ltac:(lia)) as PU.
  assert (Z0 : 0 <= z) by nia.
  pose proof (ratio_scale f F1 z 0 (unit_exp f) Z0 ltac:(lia) ltac:(lia)) as SC. rewrite Z.add_0_l in SC. rewrite SC, ratio_0 by auto.
  apply num_round; auto.
Qed.

Lemma num_div : forall x y v w s t z, num f x v s -> num f y w t -> w <> 0 -> Z.abs v * 2 ^ unit_exp f = z * Z.abs w -> rep f z ->
  num f (fdiv f x y) (if xorb s t then - z else z) (xorb s t).
Proof.
  intros x y v w s t z X Y W E R. destruct (num_mag f F1 F2 x v s X) as [M1 _]. destruct (num_mag f F1 F2 y w t Y) as [M2 _].
  destruct X as (B & Fu & V & S). destruct Y as (B' & Fu' & V' & S'). unfold fdiv. cbv zeta.
  destruct (finite_nan f x Fu) as [-> ->]. destruct (finite_nan f y Fu') as [-> ->]. cbn [orb].
  rewrite V'. destruct (Z.eqb_spec w 0); [contradiction|]. rewrite M1, M2, E, S, S'. pose proof (pow_pos (unit_exp f) ltac:(pose proof unit_exp_pos; lia)) as PU.
  rewrite div_exact by lia. apply num_round; [exact R|]. nia.
Qed.

Lemma num_int : forall n, 0 <= n < 2 ^ (mb f + 1) -> n * one f < top f -> num f (fint f n) (n * one f) false.
Proof.
  intros n Hn T. unfold fint. pose proof (pow_pos (unit_exp f) ltac:(pose proof unit_exp_pos; lia)) as PU. rewrite one_eq in *.
  apply (num_round false); [|nia]. apply (rep_intro f F1 n (unit_exp f)); [lia|pose proof unit_exp_pos; lia|reflexivity|rewrite Z.abs_eq; nia].
Qed.

End Fmt.
