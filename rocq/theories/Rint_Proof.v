From Verif Require Import Rint_Model Rint_Spec Ieee_Proof Ieee_Round.
Open Scope Z_scope.

Notation floor := Rint_Model.floor.
Notation ceil := Rint_Model.ceil.
Section Fmt.
Variable f : fmt.
Hypothesis F1 : 1 <= mb f.
Hypothesis F2 : 2 <= eb f.
Hypothesis F4 : 3 <= eb f.
Hypothesis F3 : mb f + 2 <= 2 ^ (eb f - 1).

Notation num := (num f).
Notation rep := (rep f).

(** the exponent of one *)
Definition L : Z := 2 ^ (eb f - 1) - 2 + mb f.
Lemma L_bias : L = bias f - 1 + mb f /\ 2 <= bias f /\ mb f <= L.
Proof. unfold L, bias. pose proof (pow_le 2 (eb f - 1) ltac:(lia)) as P. change (2 ^ 2) with 4 in P. lia. Qed.
Lemma one_L : one f = 2 ^ L. Proof. reflexivity. Qed.
Lemma fsub_eq : forall x y, finite f y -> fsub f x y = fadd f x (fneg f y).
Proof. intros x y Fy. unfold fsub. destruct (finite_nan f y Fy) as [-> _]. reflexivity. Qed.
Lemma one_pos : 0 < one f.
Proof. rewrite one_L. pose proof L_bias as (H1 & H2 & H3). apply pow_pos. lia. Qed.
Lemma one_top : 2 ^ (mb f + 1) * one f <= top f.
Proof.
  unfold one, top. fold L. pose proof L_bias. rewrite <- Z.pow_add_r by lia. apply pow_le. unfold L in *.
  assert (2 ^ eb f = 2 * 2 ^ (eb f - 1)) by (rewrite <- pow_S by lia; f_equal; lia). lia.
Qed.
Lemma expn_expo : forall u, expn f u = expo f u.
Proof. intros u. unfold expn, expo. rewrite Z.shiftr_div_pow2 by lia. rewrite Z.sub_1_r, <- Z.ones_equiv, Z.land_ones by lia. reflexivity. Qed.
Lemma minus_zero_eq : minus_zero f = with_sign f true 0.
Proof. unfold minus_zero, with_sign, width, sign_bit. rewrite Z.add_0_r. f_equal. lia. Qed.
Lemma neg_sign : forall u, bits f u -> neg f u = sign f u.
Proof.
  intros u B. unfold neg, sign, bits in *. rewrite Z.shiftr_div_pow2 by (unfold width; lia).
  replace (2 ^ (width f - 1)) with (sign_bit f) by (unfold width, sign_bit; f_equal; lia). rewrite width_split in B by auto.
  assert (P : 0 < sign_bit f) by (unfold sign_bit; apply pow_pos; lia). destruct (Z.leb_spec (sign_bit f) u).
  - replace (u / sign_bit f) with 1; [reflexivity|]. apply Z.div_unique with (r := u - sign_bit f); lia.
  - rewrite Z.div_small by lia. reflexivity.
Qed.
Lemma num_power : forall k, 1 - bias f <= k <= bias f -> num (power f k) (2 ^ (L + k)) false.
Proof.
  intros k Hk. unfold power. rewrite Z.shiftl_mul_pow2 by lia. pose proof (pow_pos (mb f) ltac:(lia)) as PM. destruct L_bias as (Lb & B1 & _).
  assert (E2 : 2 ^ eb f = 2 * 2 ^ (eb f - 1)) by (rewrite <- pow_S by lia; f_equal; lia).
  assert (R : 2 ^ mb f <= 2 ^ mb f < 2 ^ (mb f + 1)) by (rewrite pow_S by lia; lia).
  assert (P : (bias f + k) * 2 ^ mb f = (bias f + k - 1) * 2 ^ mb f + 2 ^ mb f) by ring.
  assert (I : (bias f + k) * 2 ^ mb f < infinity f) by (unfold infinity, bias in *; nia).
  rewrite P in *. destruct (encode f F1 F2 (2 ^ mb f) (bias f + k - 1) R ltac:(lia) I) as [Z1 Z2].
  destruct (finite_sign f F1 F2 false _ (conj (proj1 Z1) I)) as (H1 & H2 & H3 & H4 & _). cbn [with_sign] in *.
  split; [exact H1|]. split; [exact H2|]. split; [|exact H3]. rewrite H4, Z2, <- Z.pow_add_r by lia. f_equal. lia.
Qed.
Lemma num_one : num (power f 0) (one f) false.
Proof. pose proof L_bias. pose proof (num_power 0 ltac:(lia)) as H0. rewrite Z.add_0_r in H0. exact H0. Qed.
Lemma num_toint : num (toint f) (2 ^ mb f * one f) false.
Proof.
  pose proof L_bias. unfold toint. pose proof (num_power (mb f) ltac:(unfold bias in *; lia)) as H0.
  replace (2 ^ mb f * one f) with (2 ^ (L + mb f)); [exact H0|]. rewrite one_L, <- Z.pow_add_r by lia. f_equal. lia.
Qed.
Lemma num_half : exists h, num (power f (-1)) h false /\ 2 * h = one f.
Proof.
  pose proof L_bias as (H1 & H2 & H3). pose proof (pow_pos (L - 1) ltac:(lia)). exists (2 ^ (L - 1)). assert (E : 2 * 2 ^ (L - 1) = one f) by (rewrite <- pow_S by lia; rewrite one_L; f_equal; lia).
  split; [|exact E]. apply (num_power (-1)). lia.
Qed.
Lemma rep_int : forall n v, Z.abs n <= 2 ^ (mb f + 1) - 1 -> v = n * one f -> rep v.
Proof.
  intros n v Hn ->. pose proof L_bias. apply (rep_intro f F1) with (n := n) (s := L); [lia|lia|reflexivity|]. pose proof one_pos. pose proof one_top. rewrite Z.abs_mul, (Z.abs_eq (one f)) by lia. nia.
Qed.

(** a finite number of which the fraction may be non-zero *)
Lemma small_expo : forall x, bits f x -> expo f x < bias f + mb f -> finite f x /\ mag f x < 2 ^ mb f * one f /\
  exists d s, 0 <= d < 2 ^ (mb f + 1) /\ 0 <= s <= L /\ mag f x = d * 2 ^ s.
Proof.
  intros x B E. destruct (compose f F1 F2 x B) as (H1 & H2 & _). destruct L_bias as (Lb & B1 & ML). pose proof (pow_pos (mb f) ltac:(lia)) as PM.
  assert (E2 : 2 ^ eb f = 2 * 2 ^ (eb f - 1)) by (rewrite <- pow_S by lia; f_equal; lia).
  split; [unfold finite, special; apply Z.eqb_neq; unfold bias in *; lia|]. rewrite one_L. unfold mag. destruct (Z.eqb_spec (expo f x) 0) as [E0 | E0].
  - split; [|exists (frac f x), 0; rewrite pow_S by lia; change (2 ^ 0) with 1; lia]. pose proof (pow_pos L ltac:(lia)). nia.
  - split.
    + replace L with ((expo f x - 1) + 1 + (L - expo f x)) by lia. rewrite Z.pow_add_r, pow_S by lia. pose proof (pow_pos (expo f x - 1) ltac:(lia)) as P1.
      pose proof (pow_pos (L - expo f x) ltac:(lia)) as P2.
      apply Z.lt_le_trans with ((2 * 2 ^ mb f) * 2 ^ (expo f x - 1)); [apply Z.mul_lt_mono_pos_r; lia|].
      replace (2 ^ mb f * (2 * 2 ^ (expo f x - 1) * 2 ^ (L - expo f x))) with (2 * 2 ^ mb f * 2 ^ (expo f x - 1) * 2 ^ (L - expo f x)) by ring.
      rewrite <- (Z.mul_1_r (2 * 2 ^ mb f * 2 ^ (expo f x - 1))) at 1. apply Z.mul_le_mono_nonneg_l; nia.
    + exists (2 ^ mb f + frac f x), (expo f x - 1). rewrite pow_S by lia. split; [lia|]. split; [lia|reflexivity].
Qed.
Lemma big_expo : forall x, bits f x -> bias f + mb f <= expo f x -> exists n, mag f x = n * one f.
Proof.
  intros x B E. destruct L_bias as (Lb & B1 & ML). unfold mag. destruct (Z.eqb_spec (expo f x) 0); [lia|]. exists ((2 ^ mb f + frac f x) * 2 ^ (expo f x - 1 - L)).
  rewrite one_L, (pow_split L (expo f x - 1)) by lia. ring.
Qed.
Lemma one_expo : forall x, bits f x -> bias f <= expo f x -> one f <= mag f x.
Proof.
  intros x B E. destruct (compose f F1 F2 x B) as (H1 & H2 & _). destruct L_bias as (Lb & B1 & ML). unfold mag. destruct (Z.eqb_spec (expo f x) 0); [lia|].
  rewrite one_L. replace L with (mb f + (bias f - 1)) by lia. rewrite Z.pow_add_r by lia. pose proof (pow_le (bias f - 1) (expo f x - 1) ltac:(lia)).
  pose proof (pow_pos (mb f) ltac:(lia)). pose proof (pow_pos (bias f - 1) ltac:(lia)). nia.
Qed.
Lemma lt_one_expo : forall x k, bits f x -> 0 <= k < bias f -> expo f x < bias f - k -> mag f x * 2 ^ k < one f.
Proof.
  intros x k B Hk E. destruct (compose f F1 F2 x B) as (H1 & H2 & _). destruct L_bias as (Lb & B1 & ML). unfold mag. rewrite one_L. pose proof (pow_pos k ltac:(lia)). pose proof (pow_pos (mb f) ltac:(lia)). destruct (Z.eqb_spec (expo f x) 0).
  - pose proof (pow_le (mb f + k) L ltac:(lia)) as Q. rewrite Z.pow_add_r in Q by lia. nia.
  - pose proof (pow_le (mb f + 1 + (expo f x - 1) + k) L ltac:(lia)) as Q. rewrite !Z.pow_add_r in Q by lia. change (2 ^ 1) with 2 in Q.
    pose proof (pow_pos (expo f x - 1) ltac:(lia)). apply Z.lt_le_trans with (2 ^ mb f * 2 * 2 ^ (expo f x - 1) * 2 ^ k); [|lia].
    apply Z.mul_lt_mono_pos_r; [lia|]. apply Z.mul_lt_mono_pos_r; lia.
Qed.
Lemma half_expo : forall x, bits f x -> bias f - 1 <= expo f x -> 1 < bias f -> one f <= 2 * mag f x.
Proof.
  intros x B E G. destruct (compose f F1 F2 x B) as (H1 & H2 & _). destruct L_bias as (Lb & B1 & ML). unfold mag. destruct (Z.eqb_spec (expo f x) 0); [lia|].
  rewrite one_L. replace L with (mb f + (bias f - 2) + 1) by lia. rewrite pow_S, Z.pow_add_r by lia. pose proof (pow_le (bias f - 2) (expo f x - 1) ltac:(lia)).
  pose proof (pow_pos (mb f) ltac:(lia)). pose proof (pow_pos (bias f - 2) ltac:(lia)). nia.
Qed.

(** adding and subtracting 2^mb rounds to an integer *)
Definition signed (s : bool) (v : Z) : Z := if s then - v else v.
Lemma round_toint : forall X, 0 <= X < 2 ^ mb f * one f ->
  rne (2 ^ mb f * one f + X) (2 ^ ulp_exp f (2 ^ mb f * one f + X)) * 2 ^ ulp_exp f (2 ^ mb f * one f + X) = (2 ^ mb f + rne X (one f)) * one f.
Proof.
  intros X HX. destruct L_bias as (Lb & B1 & ML). pose proof one_pos as OP. pose proof (pow_pos (mb f) ltac:(lia)) as PM.
  assert (E : ulp_exp f (2 ^ mb f * one f + X) = L).
  { unfold ulp_exp. assert (Z.log2 (2 ^ mb f * one f + X) = mb f + L); [|lia]. apply Z.log2_unique; [lia|]. rewrite <- Z.add_1_r, (pow_S (mb f + L)), Z.pow_add_r by lia. rewrite <- one_L. nia. }
  rewrite E, <- one_L. f_equal. unfold rne. rewrite (Z.add_comm (2 ^ mb f * one f)), Z.div_add, Z.mod_add by lia.
  assert (O : Z.odd (X / one f + 2 ^ mb f) = Z.odd (X / one f)).
  { rewrite Z.odd_add. replace (Z.odd (2 ^ mb f)) with false; [apply xorb_false_r|]. replace (mb f) with (mb f - 1 + 1) by lia. rewrite pow_S by lia. rewrite Z.odd_mul. reflexivity. }
  rewrite O. destruct (_ || _); lia.
Qed.
Lemma rne_range : forall X, 0 <= X < 2 ^ mb f * one f -> 0 <= rne X (one f) <= 2 ^ mb f.
Proof.
  intros X HX. pose proof one_pos as OP. pose proof (rne_bounds X (one f) OP). pose proof (Z.div_pos X (one f) ltac:(lia) OP).
  pose proof (Z.div_lt_upper_bound X (one f) (2 ^ mb f) OP ltac:(lia)). lia.
Qed.
Lemma to_and_fro : forall x t s s', num x (signed s (mag f x)) s' -> num t (signed s (2 ^ mb f * one f)) s -> mag f x < 2 ^ mb f * one f ->
  num (fsub f (fadd f x t) t) (signed s (rne (mag f x) (one f) * one f)) (if rne (mag f x) (one f) =? 0 then false else s).
Proof.
  intros x t s s' Hx Ht Hm. pose proof one_pos as OP. pose proof one_top as OT. pose proof (pow_pos (mb f) ltac:(lia)) as PM. destruct L_bias as (Lb & B1 & ML).
  assert (HX : 0 <= mag f x < 2 ^ mb f * one f) by (split; [apply mag_nonneg; auto; apply Hx | auto]).
  pose proof (rne_range _ HX) as NR. set (X := mag f x) in *. set (N := rne X (one f)) in *.
  assert (P1 : 0 < 2 ^ mb f * one f) by nia.
  assert (S : round_to f (signed s X + signed s (2 ^ mb f * one f)) = signed s ((2 ^ mb f + N) * one f)).
  { unfold round_to. replace (Z.abs (signed s X + signed s (2 ^ mb f * one f))) with (2 ^ mb f * one f + X) by (unfold signed; destruct s; lia).
    rewrite round_toint by auto. fold N. unfold signed. destruct s; [rewrite Z.sgn_neg by lia | rewrite Z.sgn_pos by lia]; ring. }
  assert (NT : (2 ^ mb f + N) * one f < top f).
  { apply Z.le_lt_trans with (2 ^ (mb f + 1) * one f); [rewrite pow_S by lia; nia|]. unfold one, top. fold L. rewrite <- Z.pow_add_r by lia. apply pow_lt. split; [lia|]. unfold L in *.
    assert (2 ^ eb f = 2 * 2 ^ (eb f - 1)) by (rewrite <- pow_S by lia; f_equal; lia). lia. }
  assert (A : num (fadd f x t) (signed s ((2 ^ mb f + N) * one f)) s).
  { pose proof (num_add_round f F1 F2 x t _ _ _ _ Hx Ht) as A. rewrite S in A. replace (signed s X + signed s (2 ^ mb f * one f) <? 0) with s in A by (unfold signed; destruct s; symmetry; [apply Z.ltb_lt|apply Z.ltb_ge]; lia).
    apply A; [|unfold signed; destruct s; lia]. unfold signed. destruct s; rewrite ?Z.abs_opp, Z.abs_eq; nia. }
  assert (V : signed s ((2 ^ mb f + N) * one f) - signed s (2 ^ mb f * one f) = signed s (N * one f)) by (unfold signed; destruct s; ring).
  pose proof (num_sub f F1 F2 _ t _ _ _ _ A Ht) as D. rewrite V in D.
  assert (R : rep (signed s (N * one f))).
  { apply rep_int with (n := signed s N); [|unfold signed; destruct s; ring]. rewrite pow_S by lia. unfold signed; destruct s; lia. }
  specialize (D R). replace (if N =? 0 then false else s) with (if signed s (N * one f) =? 0 then s && negb s else signed s (N * one f) <? 0); [exact D|].
  destruct (Z.eqb_spec N 0) as [-> | NZ]; [destruct s; reflexivity|]. assert (0 < N * one f) by nia. unfold signed; destruct s; [destruct (Z.eqb_spec (- (N * one f)) 0); [lia|]; apply Z.ltb_lt; lia|].
  destruct (Z.eqb_spec (N * one f) 0); [lia|]. apply Z.ltb_ge; lia.
Qed.
Definition mid (x : Z) : Z := if neg f x then fadd f (fsub f x (toint f)) (toint f) else fsub f (fadd f x (toint f)) (toint f).
Lemma num_self : forall x, bits f x -> finite f x -> num x (signed (sign f x) (mag f x)) (sign f x).
Proof. intros x B Fx. split; [auto|]. split; [auto|]. split; [|reflexivity]. unfold value, signed. destruct (sign f x); reflexivity. Qed.
Lemma mid_spec : forall x, bits f x -> expo f x < bias f + mb f ->
  num (mid x) (signed (sign f x) (rne (mag f x) (one f) * one f)) (if rne (mag f x) (one f) =? 0 then false else sign f x).
Proof.
  intros x B E. destruct (small_expo x B E) as (Fx & Hm & _). pose proof (num_self x B Fx) as Nx. unfold mid. rewrite neg_sign by auto.
  destruct num_toint as (T1 & T2 & T3). pose proof num_toint as T. destruct (sign f x) eqn:S.
  - rewrite fsub_eq by auto. pose proof (num_neg f F1 F2 _ _ _ T) as T'. cbn [negb] in T'.
    pose proof (to_and_fro x (fneg f (toint f)) true true Nx T' Hm) as R. rewrite fsub_eq in R by apply T'.
    replace (fneg f (fneg f (toint f))) with (toint f) in R; [exact R|].
    destruct (finite_form f F1 F2 _ T1 T2) as (a & Ha & Hu & _). pose proof (infinity_lt f F1 F2). rewrite Hu, !fneg_with_sign, negb_involutive by (auto; lia). reflexivity.
  - exact (to_and_fro x (toint f) false false Nx T Hm).
Qed.

(** the results *)
Lemma num_0 : num 0 0 false.
Proof. exact (num_zero f F1 F2 false). Qed.
Lemma floor_unique : forall v n, n * one f <= v < (n + 1) * one f -> int_floor f v = n.
Proof. intros v n H. unfold int_floor. symmetry. apply Z.div_unique with (r := v - n * one f); lia. Qed.
Lemma ceil_unique : forall v n, (n - 1) * one f < v <= n * one f -> int_ceil f v = n.
Proof. intros v n H. unfold int_ceil. enough (- v / one f = - n) by lia. symmetry. apply Z.div_unique with (r := - v + n * one f); lia. Qed.
Lemma trunc_signed : forall s X, 0 <= X -> int_trunc f (signed s X) = signed s (X / one f).
Proof.
  intros s X H. pose proof one_pos. unfold int_trunc, signed. destruct s; rewrite ?Z.quot_opp_l, Z.quot_div_nonneg by lia; reflexivity.
Qed.
Lemma int_self : forall v n, v = n * one f -> int_floor f v = n /\ int_ceil f v = n /\ int_trunc f v = n /\ nearest_even f v n /\ nearest_away f v n.
Proof.
  intros v n ->. pose proof one_pos. split; [apply floor_unique; lia|]. split; [apply ceil_unique; lia|]. split; [apply Z.quot_mul; lia|].
  unfold nearest_even, nearest_away. rewrite Z.sub_diag. cbn [Z.abs]. split; split; lia.
Qed.
Lemma is_int_self : forall x n, bits f x -> finite f x -> mag f x = n * one f -> is_int f x x (signed (sign f x) n) /\ value f x = signed (sign f x) n * one f.
Proof.
  intros x n B Fx M. pose proof (num_self x B Fx) as (_ & _ & V & _). rewrite M in V. split; [split; [auto|split; [auto|split; [|auto]]]|]; rewrite V; unfold signed; destruct (sign f x); ring.
Qed.
Lemma rep_diff : forall x n s, bits f x -> expo f x < bias f + mb f -> Z.abs (n * one f - mag f x) <= mag f x -> rep (signed s (n * one f - mag f x)).
Proof.
  intros x n s B E H. destruct (small_expo x B E) as (Fx & Hm & d & k & Hd & Hk & M). pose proof (finite_mag f F1 F2 x B Fx) as T.
  assert (Q : n * one f - mag f x = (n * 2 ^ (L - k) - d) * 2 ^ k) by (rewrite M, one_L, (pow_split k L) by lia; ring).
  pose proof (pow_pos k ltac:(lia)) as PK.
  apply (rep_intro f F1) with (n := signed s (n * 2 ^ (L - k) - d)) (s := k).
  - assert (Z.abs (n * 2 ^ (L - k) - d) <= d). { rewrite Q, M, Z.abs_mul, (Z.abs_eq (2 ^ k)) in H by lia. nia. } unfold signed; destruct s; lia.
  - lia.
  - rewrite Q. unfold signed; destruct s; ring.
  - unfold signed; destruct s; lia.
Qed.
Lemma signed_0 : forall s v, (signed s v =? 0) = (v =? 0).
Proof. intros s v. unfold signed. destruct s; [destruct (Z.eqb_spec (- v) 0), (Z.eqb_spec v 0); try reflexivity; lia|reflexivity]. Qed.
Lemma signed_neg : forall s v, 0 < v -> (signed s v <? 0) = s.
Proof. intros s v H. unfold signed. destruct s; [apply Z.ltb_lt | apply Z.ltb_ge]; lia. Qed.
(** the integer is reached from its neighbourhood *)
Lemma mid_diff : forall x, bits f x -> bias f - 1 <= expo f x < bias f + mb f -> let N := rne (mag f x) (one f) in
  exists t, num (fsub f (mid x) x) (signed (sign f x) (N * one f - mag f x)) t.
Proof.
  intros x B E N. destruct (small_expo x B ltac:(lia)) as (Fx & Hm & _). pose proof (num_self x B Fx) as Nx. pose proof (mid_spec x B ltac:(lia)) as M. fold N in M.
  destruct (rne_spec (mag f x) (one f) one_pos) as [NS _]. fold N in NS. pose proof (half_expo x B ltac:(lia) ltac:(pose proof L_bias; lia)).
  pose proof (num_sub f F1 F2 _ _ _ _ _ _ M Nx) as D. replace (signed (sign f x) (N * one f) - signed (sign f x) (mag f x)) with (signed (sign f x) (N * one f - mag f x)) in D by (unfold signed; destruct (sign f x); ring).
  eexists. apply D. apply rep_diff; auto; lia.
Qed.
Lemma add_back : forall x y t N, bits f x -> expo f x < bias f + mb f -> num y (signed (sign f x) (N * one f - mag f x)) t -> 0 < N <= 2 ^ mb f ->
  num (fadd f x y) (signed (sign f x) (N * one f)) (sign f x) /\ num (fadd f y x) (signed (sign f x) (N * one f)) (sign f x).
Proof.
  intros x y t N B E Y HN. destruct (small_expo x B ltac:(lia)) as (Fx & Hm & _). pose proof (num_self x B Fx) as Nx. pose proof one_pos.
  assert (R : rep (signed (sign f x) (N * one f))). { apply rep_int with (n := signed (sign f x) N); [rewrite pow_S by lia|]; unfold signed; destruct (sign f x); try ring; lia. }
  assert (P : 0 < N * one f) by nia.
  pose proof (num_add f F1 F2 _ _ _ _ _ _ Nx Y) as D1. pose proof (num_add f F1 F2 _ _ _ _ _ _ Y Nx) as D2.
  replace (signed (sign f x) (mag f x) + signed (sign f x) (N * one f - mag f x)) with (signed (sign f x) (N * one f)) in D1 by (unfold signed; destruct (sign f x); ring).
  replace (signed (sign f x) (N * one f - mag f x) + signed (sign f x) (mag f x)) with (signed (sign f x) (N * one f)) in D2 by (unfold signed; destruct (sign f x); ring).
  rewrite signed_0, signed_neg in D1, D2 by auto. replace (N * one f =? 0) with false in D1, D2 by (symmetry; apply Z.eqb_neq; lia). auto.
Qed.
Lemma add_one : forall u n s (up : bool), num u (n * one f) s -> Z.abs n <= 2 ^ mb f -> let n' := if up then n + 1 else n - 1 in n' <> 0 ->
  num (if up then fadd f u (power f 0) else fsub f u (power f 0)) (n' * one f) (n' <? 0).
Proof.
  intros u n s up U Hn n' NZ. pose proof one_pos as OP. pose proof (pow_pos (mb f) ltac:(lia)). pose proof (pow_le 1 (mb f) ltac:(lia)) as P2. change (2 ^ 1) with 2 in P2.
  assert (R : rep (n' * one f)). { apply rep_int with (n := n'); [rewrite pow_S by lia|reflexivity]. unfold n'. destruct up; lia. }
  assert (Sg : forall k, k <> 0 -> (k * one f =? 0) = false /\ (k * one f <? 0) = (k <? 0)).
  { intros k Hk. split; [apply Z.eqb_neq; nia|]. destruct (Z.ltb_spec k 0), (Z.ltb_spec (k * one f) 0); try reflexivity; nia. }
  destruct (Sg n' NZ) as [G1 G2]. unfold n' in *. destruct up.
  - pose proof (num_add f F1 F2 _ _ _ _ _ _ U num_one) as D. replace (n * one f + one f) with ((n + 1) * one f) in D by ring. specialize (D R). rewrite G1, G2 in D. exact D.
  - pose proof (num_sub f F1 F2 _ _ _ _ _ _ U num_one) as D. replace (n * one f - one f) with ((n - 1) * one f) in D by ring. specialize (D R). rewrite G1, G2 in D. exact D.
Qed.
Lemma special_big : forall x, ~ finite f x -> bias f + mb f <= expn f x.
Proof.
  intros x H. rewrite expn_expo. unfold finite, special in H. destruct (Z.eqb_spec (expo f x) (2 ^ eb f - 1)) as [-> |]; [|tauto].
  assert (E2 : 2 ^ eb f = 2 * 2 ^ (eb f - 1)) by (rewrite <- pow_S by lia; f_equal; lia). unfold bias. lia.
Qed.

Lemma rint_correct : forall x, bits f x -> finite f x -> exists n, is_int f x (rint f x) n /\ nearest_even f (value f x) n.
Proof.
  intros x B Fx. unfold rint. rewrite expn_expo, neg_sign by auto. destruct (Z.leb_spec (bias f + mb f) (expo f x)) as [G | G].
  - destruct (big_expo x B G) as (n & M). destruct (is_int_self x n B Fx M) as [I V]. exists (signed (sign f x) n). split; [exact I|]. apply int_self. exact V.
  - pose proof (mid_spec x B G) as M. unfold mid in M. rewrite neg_sign in M by auto. set (m := if sign f x then _ else _) in *. clearbody m.
    pose proof one_pos. pose proof (mag_nonneg f F1 F2 x B) as MN. pose proof (num_self x B Fx) as (_ & _ & V & _).
    pose proof (rne_range (mag f x) ltac:(split; [auto|apply (small_expo x B G)])) as NR. destruct (rne_spec (mag f x) (one f) one_pos) as [NS NE].
    set (N := rne (mag f x) (one f)) in *. clearbody N. exists (signed (sign f x) N). split.
    + rewrite (feq_num f _ _ _ _ _ _ M num_0), signed_0. replace (N * one f =? 0) with (N =? 0) by (destruct (Z.eqb_spec N 0), (Z.eqb_spec (N * one f) 0); try reflexivity; nia).
      destruct (Z.eqb_spec N 0) as [N0 | NZ].
      * rewrite N0, minus_zero_eq. replace (if sign f x then with_sign f true 0 else 0) with (with_sign f (sign f x) 0) by (destruct (sign f x); reflexivity).
        destruct (num_zero f F1 F2 (sign f x)) as (Z1 & Z2 & Z3 & Z4). split; [auto|]. split; [auto|]. split; [|auto]. rewrite Z3. unfold signed; destruct (sign f x); reflexivity.
      * destruct M as (Z1 & Z2 & Z3 & Z4). split; [auto|]. split; [auto|]. split; [|auto]. rewrite Z3. unfold signed; destruct (sign f x); ring.
    + rewrite V. unfold nearest_even.
      replace (signed (sign f x) (mag f x) - signed (sign f x) N * one f) with (signed (sign f x) (mag f x - N * one f)) by (unfold signed; destruct (sign f x); ring).
      replace (Z.abs (signed (sign f x) (mag f x - N * one f))) with (Z.abs (mag f x - N * one f)) by (unfold signed; destruct (sign f x); lia).
      split; [exact NS|]. intros T. specialize (NE T). unfold signed. destruct (sign f x); [rewrite Z.even_opp|]; exact NE.
Qed.
Lemma rint_special : forall x, ~ finite f x -> rint f x = x.
Proof. intros x H. unfold rint. rewrite (proj2 (Z.leb_le _ _) (special_big x H)). reflexivity. Qed.

Lemma num_is_int : forall x r n v s, num r v s -> v = n * one f -> s = sign f x -> is_int f x r n.
Proof. intros x r n v s (Z1 & Z2 & Z3 & Z4) -> ->. split; [auto|]. split; auto. Qed.
Lemma feq_zero : forall x, bits f x -> finite f x -> feq f x 0 = (mag f x =? 0).
Proof. intros x B Fx. rewrite (feq_num f _ _ _ _ _ _ (num_self x B Fx) num_0), signed_0. reflexivity. Qed.

Lemma floor_correct : forall x, bits f x -> finite f x -> is_int f x (floor f x) (int_floor f (value f x)).
Proof.
  intros x B Fx. unfold floor. rewrite expn_expo. pose proof one_pos as OP. pose proof (mag_nonneg f F1 F2 x B) as MN. pose proof (num_self x B Fx) as Nx. pose proof Nx as (_ & _ & V & _).
  destruct (Z.leb_spec (bias f + mb f) (expo f x)) as [G | G]; cbn [orb].
  { destruct (big_expo x B G) as (n & M). destruct (is_int_self x n B Fx M) as [I V']. rewrite (proj1 (int_self _ _ V')). exact I. }
  rewrite feq_zero by auto. destruct (Z.eqb_spec (mag f x) 0) as [M0 | M0].
  { destruct (is_int_self x 0 B Fx ltac:(lia)) as [I V']. rewrite (proj1 (int_self _ _ V')). exact I. }
  cbn zeta. pose proof (small_expo x B G) as (_ & XL & _).
  assert (Y : (if neg f x then fsub f (fadd f (fsub f x (toint f)) (toint f)) x else fsub f (fsub f (fadd f x (toint f)) (toint f)) x) = fsub f (mid x) x) by (unfold mid; destruct (neg f x); reflexivity).
  rewrite Y, neg_sign by auto. clear Y. destruct (Z.leb_spec (expo f x) (bias f - 1)) as [E | E].
  - pose proof (lt_one_expo x 0 B ltac:(pose proof L_bias; lia) ltac:(lia)) as X1. change (2 ^ 0) with 1 in X1. rewrite V. unfold signed. destruct (sign f x) eqn:S.
    + rewrite (floor_unique _ (-1)) by lia. pose proof (num_neg f F1 F2 _ _ _ num_one) as D. apply (num_is_int _ _ _ _ _ D); [lia|]. rewrite S. reflexivity.
    + rewrite (floor_unique _ 0) by lia. apply (num_is_int _ _ _ _ _ num_0); [lia|]. rewrite S. reflexivity.
  - destruct (mid_diff x B ltac:(lia)) as (t & Y). pose proof (one_expo x B ltac:(lia)) as X1. set (y := fsub f (mid x) x) in *. clearbody y.
    pose proof (rne_range (mag f x) ltac:(lia)) as NR. destruct (rne_spec (mag f x) (one f) OP) as [NS _]. set (N := rne (mag f x) (one f)) in *. clearbody N.
    assert (N1 : 1 <= N) by nia. destruct (add_back x y t N B G Y ltac:(lia)) as [A _]. rewrite (flt_num f _ _ _ _ _ _ num_0 Y).
    rewrite V. destruct (Z.ltb_spec 0 (signed (sign f x) (N * one f - mag f x))) as [U | U].
    + replace (signed (sign f x) (N * one f)) with (signed (sign f x) N * one f) in A by (unfold signed; destruct (sign f x); ring).
      unfold signed in *. destruct (sign f x) eqn:S.
      * rewrite (floor_unique _ (- N - 1)) by lia. pose proof (add_one _ _ _ false A ltac:(lia) ltac:(lia)) as D. apply (num_is_int _ _ _ _ _ D); [reflexivity|]. rewrite S. apply Z.ltb_lt. lia.
      * rewrite (floor_unique _ (N - 1)) by lia. assert (1 < N) by nia. pose proof (add_one _ _ _ false A ltac:(lia) ltac:(lia)) as D. apply (num_is_int _ _ _ _ _ D); [reflexivity|]. rewrite S. apply Z.ltb_ge. lia.
    + rewrite (floor_unique _ (signed (sign f x) N)). { apply (num_is_int _ _ _ _ _ A); [unfold signed; destruct (sign f x); ring|reflexivity]. }
      unfold signed in *; destruct (sign f x); lia.
Qed.
Lemma floor_special : forall x, ~ finite f x -> floor f x = x.
Proof. intros x H. unfold floor. rewrite (proj2 (Z.leb_le _ _) (special_big x H)). reflexivity. Qed.

Lemma ceil_correct : forall x, bits f x -> finite f x -> is_int f x (ceil f x) (int_ceil f (value f x)).
Proof.
  intros x B Fx. unfold ceil. rewrite expn_expo. pose proof one_pos as OP. pose proof (mag_nonneg f F1 F2 x B) as MN. pose proof (num_self x B Fx) as Nx. pose proof Nx as (_ & _ & V & _).
  destruct (Z.leb_spec (bias f + mb f) (expo f x)) as [G | G]; cbn [orb].
  { destruct (big_expo x B G) as (n & M). destruct (is_int_self x n B Fx M) as [I V']. rewrite (proj1 (proj2 (int_self _ _ V'))). exact I. }
  rewrite feq_zero by auto. destruct (Z.eqb_spec (mag f x) 0) as [M0 | M0].
  { destruct (is_int_self x 0 B Fx ltac:(lia)) as [I V']. rewrite (proj1 (proj2 (int_self _ _ V'))). exact I. }
  cbn zeta. pose proof (small_expo x B G) as (_ & XL & _).
  assert (Y : (if neg f x then fsub f (fadd f (fsub f x (toint f)) (toint f)) x else fsub f (fsub f (fadd f x (toint f)) (toint f)) x) = fsub f (mid x) x) by (unfold mid; destruct (neg f x); reflexivity).
  rewrite Y, neg_sign by auto. clear Y. destruct (Z.leb_spec (expo f x) (bias f - 1)) as [E | E].
  - pose proof (lt_one_expo x 0 B ltac:(pose proof L_bias; lia) ltac:(lia)) as X1. change (2 ^ 0) with 1 in X1. rewrite V. unfold signed. destruct (sign f x) eqn:S.
    + rewrite (ceil_unique _ 0), minus_zero_eq by lia. apply (num_is_int _ _ _ _ _ (num_zero f F1 F2 true)); [lia|]. rewrite S. reflexivity.
    + rewrite (ceil_unique _ 1) by lia. apply (num_is_int _ _ _ _ _ num_one); [lia|]. rewrite S. reflexivity.
  - destruct (mid_diff x B ltac:(lia)) as (t & Y). pose proof (one_expo x B ltac:(lia)) as X1. set (y := fsub f (mid x) x) in *. clearbody y.
    pose proof (rne_range (mag f x) ltac:(lia)) as NR. destruct (rne_spec (mag f x) (one f) OP) as [NS _]. set (N := rne (mag f x) (one f)) in *. clearbody N.
    assert (N1 : 1 <= N) by nia. destruct (add_back x y t N B G Y ltac:(lia)) as [A _]. rewrite (flt_num f _ _ _ _ _ _ Y num_0).
    rewrite V. destruct (Z.ltb_spec (signed (sign f x) (N * one f - mag f x)) 0) as [U | U].
    + replace (signed (sign f x) (N * one f)) with (signed (sign f x) N * one f) in A by (unfold signed; destruct (sign f x); ring).
      unfold signed in *. destruct (sign f x) eqn:S.
      * rewrite (ceil_unique _ (- N + 1)) by lia. assert (1 < N) by nia. pose proof (add_one _ _ _ true A ltac:(lia) ltac:(lia)) as D. apply (num_is_int _ _ _ _ _ D); [reflexivity|]. rewrite S. apply Z.ltb_lt. lia.
      * rewrite (ceil_unique _ (N + 1)) by lia. pose proof (add_one _ _ _ true A ltac:(lia) ltac:(lia)) as D. apply (num_is_int _ _ _ _ _ D); [reflexivity|]. rewrite S. apply Z.ltb_ge. lia.
    + rewrite (ceil_unique _ (signed (sign f x) N)). { apply (num_is_int _ _ _ _ _ A); [unfold signed; destruct (sign f x); ring|reflexivity]. }
      unfold signed in *; destruct (sign f x); lia.
Qed.
Lemma ceil_special : forall x, ~ finite f x -> ceil f x = x.
Proof. intros x H. unfold ceil. rewrite (proj2 (Z.leb_le _ _) (special_big x H)). reflexivity. Qed.

Lemma abs_expo : forall x, bits f x -> finite f x -> let u := if sign f x then fneg f x else x in
  bits f u /\ finite f u /\ sign f u = false /\ mag f u = mag f x /\ expo f u = expo f x.
Proof.
  intros x B Fx u. destruct (finite_form f F1 F2 x B Fx) as (a & Ha & Hx & M). pose proof (infinity_lt f F1 F2).
  assert (U : u = a). { unfold u. destruct (sign f x) eqn:S; [|exact Hx]. rewrite Hx, fneg_with_sign by (auto; lia). reflexivity. }
  destruct (with_sign_bits f F1 F2 (sign f x) a ltac:(lia)) as (_ & _ & E & _). rewrite <- Hx in E.
  destruct (finite_sign f F1 F2 false a Ha) as (Z1 & Z2 & Z3 & _). cbn [with_sign] in *. rewrite U, M, E. auto.
Qed.
Lemma round_correct : forall x, bits f x -> finite f x -> exists n, is_int f x (round f x) n /\ nearest_away f (value f x) n.
Proof.
  intros x0 B0 Fx0. unfold round. rewrite expn_expo, neg_sign by auto. pose proof one_pos as OP. pose proof (mag_nonneg f F1 F2 x0 B0) as MN. pose proof (num_self x0 B0 Fx0) as (_ & _ & V & _).
  destruct (Z.leb_spec (bias f + mb f) (expo f x0)) as [G | G].
  { destruct (big_expo x0 B0 G) as (n & M). destruct (is_int_self x0 n B0 Fx0 M) as [I V']. exists (signed (sign f x0) n). split; [exact I|]. apply int_self. exact V'. }
  destruct (abs_expo x0 B0 Fx0) as (B & Fx & Sx & Mx & Ex). set (x := if sign f x0 then _ else _) in *. clearbody x. cbn zeta.
  pose proof L_bias as LB.
  destruct (Z.ltb_spec (expo f x0) (bias f - 1)) as [E | E].
  - pose proof (lt_one_expo x0 1 B0 ltac:(lia) ltac:(lia)) as X1. change (2 ^ 1) with 2 in X1. exists 0. split; [apply (num_is_int _ _ _ _ _ (num_zero f F1 F2 (sign f x0))); auto|].
    rewrite V. unfold nearest_away. rewrite Z.mul_0_l, Z.sub_0_r. unfold signed; destruct (sign f x0); split; lia.
  - assert (MID : fsub f (fadd f x (toint f)) (toint f) = mid x) by (unfold mid; rewrite neg_sign, Sx by auto; reflexivity). rewrite MID. clear MID.
    destruct (mid_diff x B ltac:(lia)) as (t & Y). set (y := fsub f (mid x) x) in *. clearbody y. pose proof (small_expo x B ltac:(lia)) as (_ & XL & _).
    pose proof (half_expo x B ltac:(lia) ltac:(lia)) as X1. rewrite Mx in *. pose proof (rne_range (mag f x0) ltac:(lia)) as NR. destruct (rne_spec (mag f x0) (one f) OP) as [NS _]. set (N := rne (mag f x0) (one f)) in *. clearbody N.
    rewrite Sx in Y. unfold signed at 1 in Y. destruct num_half as (h & H1 & H2).
    rewrite (flt_num f _ _ _ _ _ _ H1 Y). replace (h <? N * one f - mag f x0) with false by (symmetry; apply Z.ltb_ge; lia).
    unfold fle. rewrite (flt_num f _ _ _ _ _ _ Y (num_neg f F1 F2 _ _ _ H1)), (feq_num f _ _ _ _ _ _ Y (num_neg f F1 F2 _ _ _ H1)).
    assert (K : exists r n, 0 < n /\ (if (N * one f - mag f x0 <? - h) || (N * one f - mag f x0 =? - h) then fadd f (fadd f y x) (power f 0) else fadd f y x) = r /\
      num r (n * one f) false /\ 2 * Z.abs (mag f x0 - n * one f) <= one f /\ (2 * Z.abs (mag f x0 - n * one f) = one f -> mag f x0 < n * one f)).
    { destruct (Z.ltb_spec (N * one f - mag f x0) (- h)); [lia|]. cbn [orb]. destruct (Z.eqb_spec (N * one f - mag f x0) (- h)) as [T | T].
      - exists (fadd f (fadd f y x) (power f 0)), (N + 1). split; [lia|]. split; [reflexivity|]. split; [|lia].
        pose proof (num_self x B Fx) as Nx. rewrite Sx, Mx in Nx. unfold signed in Nx. pose proof (num_add f F1 F2 _ _ _ _ _ _ Y Nx) as D.
        replace (N * one f - mag f x0 + mag f x0) with (N * one f) in D by ring. pose proof (rep_int N (N * one f) ltac:(rewrite pow_S by lia; pose proof (pow_pos (mb f) ltac:(lia)); lia) eq_refl) as R.
        specialize (D R). pose proof (add_one _ _ _ true D ltac:(lia) ltac:(lia)) as D2. cbv beta iota zeta in D2. replace (N + 1 <? 0) with false in D2 by (symmetry; apply Z.ltb_ge; lia). exact D2.
      - assert (0 < N) by nia. exists (fadd f y x), N. split; [lia|]. split; [reflexivity|]. split; [|lia].
        assert (Y' : num y (signed (sign f x) (N * one f - mag f x)) t) by (rewrite Sx, Mx; exact Y). destruct (add_back x y t N B ltac:(lia) Y' ltac:(lia)) as [_ A]. rewrite Sx in A. exact A. }
    destruct K as (r & n & N0 & -> & R & K1 & K2). exists (signed (sign f x0) n). split.
    + destruct (sign f x0) eqn:S; unfold signed.
      * apply (num_is_int _ _ _ _ _ (num_neg f F1 F2 _ _ _ R)); [ring|]. rewrite S. reflexivity.
      * apply (num_is_int _ _ _ _ _ R); [ring|]. rewrite S. reflexivity.
    + rewrite V. unfold nearest_away.
      replace (signed (sign f x0) (mag f x0) - signed (sign f x0) n * one f) with (signed (sign f x0) (mag f x0 - n * one f)) by (unfold signed; destruct (sign f x0); ring).
      replace (Z.abs (signed (sign f x0) (mag f x0 - n * one f))) with (Z.abs (mag f x0 - n * one f)) by (unfold signed; destruct (sign f x0); lia).
      split; [exact K1|]. intros T. specialize (K2 T). unfold signed. destruct (sign f x0); lia.
Qed.
Lemma round_special : forall x, ~ finite f x -> round f x = x.
Proof. intros x H. unfold round. rewrite (proj2 (Z.leb_le _ _) (special_big x H)). reflexivity. Qed.

(** the functions that work on the bits *)
Lemma mask_shift : forall n e, 0 <= e <= n -> Z.shiftr (2 ^ n - 1) e = 2 ^ (n - e) - 1.
Proof.
  intros n e H. rewrite Z.shiftr_div_pow2 by lia. pose proof (pow_pos e ltac:(lia)). pose proof (pow_pos (n - e) ltac:(lia)). rewrite (pow_split e n) by lia.
  symmetry. apply Z.div_unique with (r := 2 ^ e - 1); nia.
Qed.
Lemma land_mask : forall u k, 0 <= k -> Z.land u (2 ^ k - 1) = u mod 2 ^ k.
Proof. intros. rewrite Z.sub_1_r, <- Z.ones_equiv, Z.land_ones by lia. reflexivity. Qed.
Lemma ldiff_mask : forall u k, 0 <= k -> Z.ldiff u (2 ^ k - 1) = u - u mod 2 ^ k.
Proof.
  intros u k H. rewrite Z.sub_1_r, <- Z.ones_equiv, Z.ldiff_ones_r, Z.shiftl_mul_pow2, Z.shiftr_div_pow2 by lia. pose proof (pow_pos k H). pose proof (Z.div_mod u (2 ^ k) ltac:(lia)). lia.
Qed.
Lemma with_sign_mod : forall s a k, 0 <= k <= eb f + mb f -> with_sign f s a mod 2 ^ k = a mod 2 ^ k.
Proof.
  intros s a k H. unfold with_sign. destruct s; [|reflexivity]. unfold sign_bit. rewrite (pow_split k (eb f + mb f)) by lia. pose proof (pow_pos k ltac:(lia)).
  rewrite Z.add_comm, (Z.mul_comm (2 ^ k)), Z.mod_add by lia. reflexivity.
Qed.
Lemma with_sign_sub : forall s a r, with_sign f s a - r = with_sign f s (a - r).
Proof. intros s a r. unfold with_sign. destruct s; lia. Qed.
Lemma with_sign_add : forall s a r, with_sign f s a + r = with_sign f s (a + r).
Proof. intros s a r. unfold with_sign. destruct s; lia. Qed.
Lemma x_mod : forall x s a k, x = with_sign f s a -> 0 <= k <= eb f + mb f -> x mod 2 ^ k = a mod 2 ^ k.
Proof. intros x s a k -> H. apply with_sign_mod. exact H. Qed.
Lemma x_sub : forall x s a r, x = with_sign f s a -> x - r = with_sign f s (a - r).
Proof. intros x s a r ->. apply with_sign_sub. Qed.
Lemma x_up : forall x s a k, x = with_sign f s a -> 0 <= k <= eb f + mb f -> 0 <= a -> a + (2 ^ k - 1) < sign_bit f ->
  Z.ldiff (wrap f (x + (2 ^ k - 1))) (2 ^ k - 1) = with_sign f s (a + (2 ^ k - 1) - (a + (2 ^ k - 1)) mod 2 ^ k).
Proof.
  intros x s a k -> H H1 H2. pose proof (pow_pos k ltac:(lia)). rewrite with_sign_add. unfold wrap. rewrite Z.mod_small by (apply (with_sign_bits f F1 F2); lia).
  rewrite ldiff_mask, with_sign_mod, with_sign_sub by lia. reflexivity.
Qed.

(** clearing the fractional bits *)
Lemma clear_frac : forall x, bits f x -> bias f <= expo f x < bias f + mb f -> let k := mb f - (expo f x - bias f) in
  exists a, 0 <= a < infinity f /\ x = with_sign f (sign f x) a /\ 0 <= mag f x /\ mag f x mod one f = (a mod 2 ^ k) * 2 ^ (expo f x - 1) /\
    num (with_sign f (sign f x) (a - a mod 2 ^ k)) (signed (sign f x) (mag f x / one f * one f)) (sign f x) /\
    (a mod 2 ^ k <> 0 -> a + (2 ^ k - 1) < sign_bit f /\ num (with_sign f (sign f x) (a + (2 ^ k - 1) - (a + (2 ^ k - 1)) mod 2 ^ k)) (signed (sign f x) ((mag f x / one f + 1) * one f)) (sign f x)).
Proof.
  intros x B E k. destruct (small_expo x B ltac:(lia)) as (Fx & XL & _). destruct (finite_form f F1 F2 x B Fx) as (a & Ha & Hx & M). pose proof (infinity_lt f F1 F2) as IL.
  destruct L_bias as (Lb & B1 & ML). pose proof (pow_pos (mb f) ltac:(lia)) as PM. pose proof (pow_pos k ltac:(lia)) as PK. pose proof (pow_pos (expo f x - 1) ltac:(lia)) as PE.
  destruct (magnitude_bits f F1 F2 x B) as (a' & Ha' & Hx' & A).
  assert (a' = a). { rewrite Hx' in Hx at 1. apply (with_sign_inj f) in Hx; [tauto| |]; lia. } subst a'. clear Hx' Ha'.
  destruct (compose f F1 F2 x B) as (H1 & H2 & _). set (d := 2 ^ mb f + frac f x) in *.
  assert (A2 : a = (expo f x - 1) * 2 ^ mb f + d) by (unfold d; lia). assert (X : mag f x = d * 2 ^ (expo f x - 1)) by (unfold mag, d; destruct (Z.eqb_spec (expo f x) 0); [lia|reflexivity]).
  assert (O : one f = 2 ^ k * 2 ^ (expo f x - 1)) by (rewrite one_L, <- Z.pow_add_r by lia; f_equal; unfold k; lia).
  assert (DM : d mod 2 ^ k = a mod 2 ^ k).
  { rewrite A2, (pow_split k (mb f)) by lia. rewrite Z.mul_comm, <- Z.mul_assoc, Z.mul_comm, Z.add_comm, Z.mod_add by lia. reflexivity. }
  assert (XD : mag f x / one f = d / 2 ^ k) by (rewrite X, O, Z.div_mul_cancel_r by lia; reflexivity).
  assert (XM : mag f x mod one f = (a mod 2 ^ k) * 2 ^ (expo f x - 1)) by (rewrite X, O, Z.mul_mod_distr_r, DM by lia; reflexivity).
  pose proof (Z.div_mod d (2 ^ k) ltac:(lia)) as DD. rewrite DM in DD. pose proof (Z.mod_pos_bound a (2 ^ k) PK) as RB. set (q := d / 2 ^ k) in *. set (r := a mod 2 ^ k) in *.
  assert (Q1 : 2 ^ mb f <= q * 2 ^ k /\ (q + 1) * 2 ^ k <= 2 ^ (mb f + 1)).
  { assert (K2 : 2 ^ mb f = 2 ^ (mb f - k) * 2 ^ k) by (rewrite (pow_split k (mb f)) by lia; ring). assert (K3 : 2 ^ (mb f + 1) = 2 * 2 ^ (mb f - k) * 2 ^ k) by (rewrite pow_S by lia; lia).
    assert (d < 2 ^ (mb f + 1)) by (rewrite pow_S by lia; unfold d; lia). assert (2 ^ mb f <= d) by (unfold d; lia). pose proof (pow_pos (mb f - k) ltac:(lia)).
    rewrite K3 in *. rewrite K2 in *. split; apply Z.mul_le_mono_nonneg_r; try lia.
    - assert (2 ^ (mb f - k) < q + 1); [|lia]. apply (Z.mul_lt_mono_pos_r (2 ^ k)); lia.
    - assert (q < 2 * 2 ^ (mb f - k)); [|lia]. apply (Z.mul_lt_mono_pos_r (2 ^ k)); lia. }
  assert (T : forall n, 2 ^ mb f <= n * 2 ^ k <= 2 ^ (mb f + 1) ->
     num (with_sign f (sign f x) ((expo f x - 1) * 2 ^ mb f + n * 2 ^ k)) (signed (sign f x) (n * one f)) (sign f x)).
  { intros n Hn. destruct (encode_le f F1 F2 (n * 2 ^ k) (expo f x - 1) Hn ltac:(lia)) as [Z1 Z2].
    { apply Z.le_lt_trans with (2 ^ (mb f + 1) * 2 ^ (expo f x - 1)); [apply Z.mul_le_mono_nonneg_r; lia|]. unfold top. rewrite <- Z.pow_add_r by lia. apply pow_lt.
      assert (E2 : 2 ^ eb f = 2 * 2 ^ (eb f - 1)) by (rewrite <- pow_S by lia; f_equal; lia). unfold bias in *. lia. }
    destruct (finite_sign f F1 F2 (sign f x) _ Z1) as (G1 & G2 & G3 & G4 & _). split; [exact G1|]. split; [exact G2|]. split; [|exact G3]. rewrite G4, Z2, O, Z.mul_assoc. reflexivity. }
  exists a. split; [exact Ha|]. split; [exact Hx|]. split; [apply mag_nonneg; auto|]. split; [exact XM|]. rewrite XD. split.
  - fold r. replace (a - r) with ((expo f x - 1) * 2 ^ mb f + q * 2 ^ k) by lia. apply T. lia.
  - fold r. intros R. assert (SB : infinity f + 2 ^ mb f = sign_bit f) by (unfold infinity; rewrite sign_bit_split by auto; ring).
    pose proof (pow_le k (mb f) ltac:(lia)). split; [lia|].
    assert (RM : (a + (2 ^ k - 1)) mod 2 ^ k = r - 1).
    { symmetry. apply Z.mod_unique with (q := a / 2 ^ k + 1); [lia|]. pose proof (Z.div_mod a (2 ^ k) ltac:(lia)) as AD. fold r in AD. lia. }
    rewrite RM. replace (a + (2 ^ k - 1) - (r - 1)) with ((expo f x - 1) * 2 ^ mb f + (q + 1) * 2 ^ k) by lia. apply T. lia.
Qed.

Lemma int_frac : forall X, 0 <= X -> X / one f * one f <= X < (X / one f + 1) * one f /\ (X mod one f = 0 -> X = X / one f * one f) /\ (X mod one f <> 0 -> X / one f * one f < X).
Proof. intros X H. pose proof one_pos. pose proof (Z.div_mod X (one f) ltac:(lia)). pose proof (Z.mod_pos_bound X (one f) ltac:(lia)). lia. Qed.
Lemma trunc_correct : forall x, bits f x -> finite f x -> is_int f x (trunc f x) (int_trunc f (value f x)).
Proof.
  intros x B Fx. unfold trunc. rewrite expn_expo. pose proof one_pos as OP. pose proof (mag_nonneg f F1 F2 x B) as MN. pose proof (num_self x B Fx) as (_ & _ & V & _). pose proof L_bias as LB. cbn zeta.
  destruct (Z.leb_spec (mb f + (width f - mb f)) (expo f x - bias f + (width f - mb f))) as [G | G].
  { destruct (big_expo x B ltac:(lia)) as (n & M). destruct (is_int_self x n B Fx M) as [I V']. rewrite (proj1 (proj2 (proj2 (int_self _ _ V')))). exact I. }
  rewrite V, trunc_signed by auto. assert (W : width f = 1 + eb f + mb f) by reflexivity.
  destruct (Z.ltb_spec (expo f x - bias f + (width f - mb f)) (width f - mb f)) as [E | E].
  - rewrite mask_shift by lia. pose proof (lt_one_expo x 0 B ltac:(lia) ltac:(lia)) as X1. change (2 ^ 0) with 1 in X1. rewrite Z.div_small by lia.
    destruct (finite_form f F1 F2 x B Fx) as (a & Ha & Hx & M). pose proof (infinity_lt f F1 F2) as IL. rewrite land_mask, ldiff_mask, (x_mod x _ a _ Hx) by lia.
    assert (AM : a mod 2 ^ (width f - 1) = a) by (apply Z.mod_small; replace (width f - 1) with (eb f + mb f) by lia; fold (sign_bit f); lia). rewrite AM.
    destruct (Z.eqb_spec a 0) as [A0 | A0].
    + rewrite A0, mag_0 in M by auto. destruct (is_int_self x 0 B Fx ltac:(lia)) as [I V']. exact I.
    + rewrite (x_sub _ _ _ _ Hx), Z.sub_diag. apply (num_is_int _ _ _ _ _ (num_zero f F1 F2 (sign f x))); [unfold signed; destruct (sign f x); reflexivity|reflexivity].
  - rewrite mask_shift by lia. replace (width f - (expo f x - bias f + (width f - mb f))) with (mb f - (expo f x - bias f)) by lia.
    destruct (clear_frac x B ltac:(lia)) as (a & Ha & Hx & _ & XM & D & _). set (k := mb f - (expo f x - bias f)) in *. assert (0 < k) by lia. pose proof (pow_pos (expo f x - 1) ltac:(lia)).
    rewrite land_mask, ldiff_mask, (x_mod x _ a _ Hx) by lia. destruct (int_frac (mag f x) MN) as (_ & I0 & _). destruct (Z.eqb_spec (a mod 2 ^ k) 0) as [A0 | A0].
    + destruct (is_int_self x (mag f x / one f) B Fx) as [I V']; [apply I0; rewrite XM, A0; reflexivity|exact I].
    + rewrite (x_sub _ _ _ _ Hx). apply (num_is_int _ _ _ _ _ D); [unfold signed; destruct (sign f x); ring|reflexivity].
Qed.
Lemma trunc_special : forall x, ~ finite f x -> trunc f x = x.
Proof. intros x H. unfold trunc. pose proof (special_big x H). rewrite (proj2 (Z.leb_le _ _)) by lia. reflexivity. Qed.

Lemma shl_zero : forall x a, 0 <= a < sign_bit f -> x = with_sign f (sign f x) a -> (wrap f (Z.shiftl x 1) =? 0) = (a =? 0).
Proof.
  intros x a Ha Hx. unfold wrap. rewrite Hx, Z.shiftl_mul_pow2, width_split by (auto; lia). change (2 ^ 1) with 2. rewrite Z.mul_comm, Z.mul_mod_distr_l by lia.
  replace (with_sign f (sign f x) a mod sign_bit f) with (a mod sign_bit f). 2: { unfold with_sign. destruct (sign f x); [|reflexivity]. rewrite <- (Z.mul_1_l (sign_bit f)) at 2. rewrite Z.add_comm, Z.mod_add by lia. reflexivity. }
  rewrite Z.mod_small by lia. destruct (Z.eqb_spec (2 * a) 0), (Z.eqb_spec a 0); try reflexivity; lia.
Qed.
Lemma mag_zero : forall x a, 0 <= a < infinity f -> mag f x = mag f a -> (a =? 0) = (mag f x =? 0).
Proof.
  intros x a Ha ->. pose proof (infinity_lt f F1 F2). destruct (Z.eqb_spec a 0) as [-> |]; [rewrite mag_0 by auto; reflexivity|].
  pose proof (mag_mono f F1 F2 0 a ltac:(lia) ltac:(lia) ltac:(lia)) as P. rewrite mag_0 in P by auto. symmetry. apply Z.eqb_neq. lia.
Qed.
Lemma floorf_correct : forall x, bits f x -> finite f x -> is_int f x (floorf f x) (int_floor f (value f x)).
Proof.
  intros x B Fx. unfold floorf. rewrite expn_expo, neg_sign by auto. pose proof one_pos as OP. pose proof (mag_nonneg f F1 F2 x B) as MN. pose proof (num_self x B Fx) as (_ & _ & V & _). pose proof L_bias as LB. cbn zeta.
  destruct (Z.leb_spec (mb f) (expo f x - bias f)) as [G | G].
  { destruct (big_expo x B ltac:(lia)) as (n & M). destruct (is_int_self x n B Fx M) as [I V']. rewrite (proj1 (int_self _ _ V')). exact I. }
  destruct (Z.leb_spec 0 (expo f x - bias f)) as [E | E].
  - rewrite mask_shift by lia. destruct (clear_frac x B ltac:(lia)) as (a & Ha & Hx & _ & XM & D & U). set (k := mb f - (expo f x - bias f)) in *. assert (0 < k) by lia. pose proof (pow_pos (expo f x - 1) ltac:(lia)).
    rewrite land_mask, (x_mod x _ a _ Hx) by lia. destruct (int_frac (mag f x) MN) as (I1 & I0 & I2). destruct (Z.eqb_spec (a mod 2 ^ k) 0) as [A0 | A0].
    + destruct (is_int_self x (mag f x / one f) B Fx) as [I V']; [apply I0; rewrite XM, A0; reflexivity|]. rewrite (proj1 (int_self _ _ V')). exact I.
    + specialize (I2 ltac:(rewrite XM; nia)). destruct (U A0) as [U1 U2]. clear U. rewrite V. unfold signed in *. destruct (sign f x) eqn:S.
      * rewrite (floor_unique _ (- (mag f x / one f + 1))) by lia. rewrite (x_up _ _ _ _ Hx) by lia. apply (num_is_int _ _ _ _ _ U2); [ring|]. congruence.
      * rewrite (floor_unique _ (mag f x / one f)) by lia. rewrite ldiff_mask, (x_mod x _ a _ Hx), (x_sub _ _ _ _ Hx) by lia. apply (num_is_int _ _ _ _ _ D); [ring|]. congruence.
  - pose proof (lt_one_expo x 0 B ltac:(lia) ltac:(lia)) as X1. change (2 ^ 0) with 1 in X1. destruct (finite_form f F1 F2 x B Fx) as (a & Ha & Hx & M). pose proof (infinity_lt f F1 F2) as IL.
    rewrite (shl_zero x a), (mag_zero x a) by (auto; lia). rewrite V. unfold signed. destruct (sign f x) eqn:S; cbn [negb].
    + destruct (Z.eqb_spec (mag f x) 0) as [Z0 | Z0]; cbn [negb].
      * rewrite (floor_unique _ 0) by lia. destruct (is_int_self x 0 B Fx ltac:(lia)) as [I _]. rewrite S in I. exact I.
      * rewrite (floor_unique _ (-1)) by lia. apply (num_is_int _ _ _ _ _ (num_neg f F1 F2 _ _ _ num_one)); [ring|]. rewrite S. reflexivity.
    + rewrite (floor_unique _ 0) by lia. apply (num_is_int _ _ _ _ _ num_0); [ring|auto].
Qed.
Lemma floorf_special : forall x, ~ finite f x -> floorf f x = x.
Proof. intros x H. unfold floorf. pose proof (special_big x H). cbn zeta. rewrite (proj2 (Z.leb_le _ _)) by lia. reflexivity. Qed.
Lemma ceilf_correct : forall x, bits f x -> finite f x -> is_int f x (ceilf f x) (int_ceil f (value f x)).
Proof.
  intros x B Fx. unfold ceilf. rewrite expn_expo, neg_sign by auto. pose proof one_pos as OP. pose proof (mag_nonneg f F1 F2 x B) as MN. pose proof (num_self x B Fx) as (_ & _ & V & _). pose proof L_bias as LB. cbn zeta.
  destruct (Z.leb_spec (mb f) (expo f x - bias f)) as [G | G].
  { destruct (big_expo x B ltac:(lia)) as (n & M). destruct (is_int_self x n B Fx M) as [I V']. rewrite (proj1 (proj2 (int_self _ _ V'))). exact I. }
  destruct (Z.leb_spec 0 (expo f x - bias f)) as [E | E].
  - rewrite mask_shift by lia. destruct (clear_frac x B ltac:(lia)) as (a & Ha & Hx & _ & XM & D & U). set (k := mb f - (expo f x - bias f)) in *. assert (0 < k) by lia. pose proof (pow_pos (expo f x - 1) ltac:(lia)).
    rewrite land_mask, (x_mod x _ a _ Hx) by lia. destruct (int_frac (mag f x) MN) as (I1 & I0 & I2). destruct (Z.eqb_spec (a mod 2 ^ k) 0) as [A0 | A0].
    + destruct (is_int_self x (mag f x / one f) B Fx) as [I V']; [apply I0; rewrite XM, A0; reflexivity|]. rewrite (proj1 (proj2 (int_self _ _ V'))). exact I.
    + specialize (I2 ltac:(rewrite XM; nia)). destruct (U A0) as [U1 U2]. clear U. rewrite V. unfold signed in *. destruct (sign f x) eqn:S.
      * rewrite (ceil_unique _ (- (mag f x / one f))) by lia. rewrite ldiff_mask, (x_mod x _ a _ Hx), (x_sub _ _ _ _ Hx) by lia. apply (num_is_int _ _ _ _ _ D); [ring|]. congruence.
      * rewrite (ceil_unique _ (mag f x / one f + 1)) by lia. rewrite (x_up _ _ _ _ Hx) by lia. apply (num_is_int _ _ _ _ _ U2); [ring|]. congruence.
  - pose proof (lt_one_expo x 0 B ltac:(lia) ltac:(lia)) as X1. change (2 ^ 0) with 1 in X1. destruct (finite_form f F1 F2 x B Fx) as (a & Ha & Hx & M). pose proof (infinity_lt f F1 F2) as IL.
    rewrite (shl_zero x a), (mag_zero x a) by (auto; lia). rewrite V. unfold signed. destruct (sign f x) eqn:S; cbn [negb].
    + rewrite (ceil_unique _ 0), minus_zero_eq by lia. apply (num_is_int _ _ _ _ _ (num_zero f F1 F2 true)); [ring|auto].
    + destruct (Z.eqb_spec (mag f x) 0) as [Z0 | Z0]; cbn [negb].
      * rewrite (ceil_unique _ 0) by lia. destruct (is_int_self x 0 B Fx ltac:(lia)) as [I _]. rewrite S in I. exact I.
      * rewrite (ceil_unique _ 1) by lia. apply (num_is_int _ _ _ _ _ num_one); [ring|]. rewrite S. reflexivity.
Qed.
Lemma ceilf_special : forall x, ~ finite f x -> ceilf f x = x.
Proof. intros x H. unfold ceilf. pose proof (special_big x H). cbn zeta. rewrite (proj2 (Z.leb_le _ _)) by lia. reflexivity. Qed.

Lemma land_sign : forall x, bits f x -> Z.land x (2 ^ (width f - 1)) = with_sign f (sign f x) 0.
Proof.
  intros x B. replace (2 ^ (width f - 1)) with (sign_bit f) by (unfold width, sign_bit; f_equal; lia).
  assert (T : Z.testbit x (eb f + mb f) = sign f x).
  { destruct B as [B1 B2]. rewrite width_split in B2 by auto. unfold sign. destruct (Z.leb_spec (sign_bit f) x).
    - apply Z.testbit_true; [lia|]. fold (sign_bit f). replace (x / sign_bit f) with 1; [reflexivity|]. apply Z.div_unique with (r := x - sign_bit f); lia.
    - apply Z.testbit_false; [lia|]. fold (sign_bit f). rewrite Z.div_small by lia. reflexivity. }
  apply Z.bits_inj'. intros n Hn. rewrite Z.land_spec. unfold sign_bit at 1. rewrite Z.pow2_bits_eqb by lia. unfold with_sign. rewrite Z.add_0_r. destruct (Z.eqb_spec (eb f + mb f) n) as [<- | D].
  - rewrite T, andb_true_r. destruct (sign f x); [unfold sign_bit; rewrite Z.pow2_bits_true by lia; reflexivity|rewrite Z.bits_0; reflexivity].
  - rewrite andb_false_r. destruct (sign f x); [unfold sign_bit; rewrite Z.pow2_bits_false by lia; reflexivity|rewrite Z.bits_0; reflexivity].
Qed.
Lemma frac_shift : forall u, (wrap f (Z.shiftl u (width f - mb f)) =? 0) = (frac f u =? 0).
Proof.
  intros u. unfold wrap, frac. rewrite Z.shiftl_mul_pow2 by (unfold width; lia). rewrite (pow_split (width f - mb f) (width f)) by (unfold width; lia).
  replace (width f - (width f - mb f)) with (mb f) by lia. pose proof (pow_pos (width f - mb f) ltac:(unfold width; lia)). pose proof (pow_pos (mb f) ltac:(lia)).
  rewrite (Z.mul_comm u), Z.mul_mod_distr_l by lia. destruct (Z.eqb_spec (2 ^ (width f - mb f) * (u mod 2 ^ mb f)) 0), (Z.eqb_spec (u mod 2 ^ mb f) 0); try reflexivity; nia.
Qed.
Lemma is_frac_zero : forall x n, bits f x -> value f x = n * one f -> is_frac f x (with_sign f (sign f x) 0) n.
Proof. intros x n B V. destruct (num_zero f F1 F2 (sign f x)) as (Z1 & Z2 & Z3 & Z4). split; [auto|]. split; [auto|]. split; [|auto]. lia. Qed.
Lemma modf_correct : forall x, bits f x -> finite f x -> let (r, i) := modf f x in
  is_int f x i (int_trunc f (value f x)) /\ is_frac f x r (int_trunc f (value f x)).
Proof.
  intros x B Fx. unfold modf. rewrite expn_expo. pose proof one_pos as OP. pose proof (mag_nonneg f F1 F2 x B) as MN. pose proof (num_self x B Fx) as Nx. pose proof Nx as (_ & _ & V & _). pose proof L_bias as LB. cbn zeta.
  rewrite land_sign by auto. destruct (compose f F1 F2 x B) as (X1 & _ & _).
  assert (E2 : 2 ^ eb f = 2 * 2 ^ (eb f - 1)) by (rewrite <- pow_S by lia; f_equal; lia).
  destruct (Z.leb_spec (mb f) (expo f x - bias f)) as [G | G].
  { destruct (big_expo x B ltac:(lia)) as (n & M). destruct (is_int_self x n B Fx M) as [I V'].
    assert (NE : expo f x <> 2 ^ eb f - 1) by (apply Z.eqb_neq; exact Fx). destruct (Z.eqb_spec (expo f x - bias f) (bias f + 1)) as [Q | Q]; [unfold bias in *; lia|]. cbn [andb].
    rewrite (proj1 (proj2 (proj2 (int_self _ _ V')))). split; [exact I|]. apply is_frac_zero; auto. }
  destruct (Z.ltb_spec (expo f x - bias f) 0) as [E | E].
  - pose proof (lt_one_expo x 0 B ltac:(lia) ltac:(lia)) as X2. change (2 ^ 0) with 1 in X2. rewrite V, trunc_signed, Z.div_small by lia.
    replace (signed (sign f x) 0) with 0 by (unfold signed; destruct (sign f x); reflexivity). split.
    + apply (num_is_int _ _ _ _ _ (num_zero f F1 F2 (sign f x))); reflexivity.
    + split; [auto|]. split; [auto|]. split; [lia|auto].
  - rewrite mask_shift by lia. destruct (clear_frac x B ltac:(lia)) as (a & Ha & Hx & _ & XM & D & _). set (k := mb f - (expo f x - bias f)) in *. assert (0 < k) by lia. pose proof (pow_pos (expo f x - 1) ltac:(lia)).
    rewrite land_mask, ldiff_mask, (x_mod x _ a _ Hx) by lia. destruct (int_frac (mag f x) MN) as (I1 & I0 & I2). destruct (Z.eqb_spec (a mod 2 ^ k) 0) as [A0 | A0].
    + destruct (is_int_self x (mag f x / one f) B Fx) as [I V']; [apply I0; rewrite XM, A0; reflexivity|]. rewrite (proj1 (proj2 (proj2 (int_self _ _ V')))). split; [exact I|]. apply is_frac_zero; auto.
    + specialize (I2 ltac:(rewrite XM; nia)). rewrite V, trunc_signed by auto. rewrite (x_sub _ _ _ _ Hx). split; [apply (num_is_int _ _ _ _ _ D); [unfold signed; destruct (sign f x); ring|reflexivity]|].
      assert (DP : 0 <= mag f x / one f) by (apply Z.div_pos; lia).
      pose proof (num_sub f F1 F2 _ _ _ _ _ _ Nx D) as S. replace (signed (sign f x) (mag f x) - signed (sign f x) (mag f x / one f * one f)) with (signed (sign f x) (mag f x - mag f x / one f * one f)) in S by (unfold signed; destruct (sign f x); ring).
      rewrite signed_0, signed_neg in S by lia. replace (mag f x - mag f x / one f * one f =? 0) with false in S by (symmetry; apply Z.eqb_neq; lia).
      assert (0 <= mag f x / one f * one f) by nia.
      pose proof (rep_diff x (mag f x / one f) (negb (sign f x)) B ltac:(lia) ltac:(lia)) as R.
      replace (signed (negb (sign f x)) (mag f x / one f * one f - mag f x)) with (signed (sign f x) (mag f x - mag f x / one f * one f)) in R by (unfold signed; destruct (sign f x); cbn [negb]; ring).
      destruct (S R) as (S1 & S2 & S3 & S4). split; [exact S1|]. split; [exact S2|]. split; [|exact S4]. rewrite S3, V. unfold signed; destruct (sign f x); ring.
Qed.
Lemma modf_special : forall x, bits f x -> (nan f x = true -> modf f x = (x, x)) /\ (inf f x = true -> modf f x = (with_sign f (sign f x) 0, x)).
Proof.
  intros x B. assert (E2 : 2 ^ eb f = 2 * 2 ^ (eb f - 1)) by (rewrite <- pow_S by lia; f_equal; lia). pose proof L_bias as LB.
  assert (K : special f x = true -> modf f x = if frac f x =? 0 then (with_sign f (sign f x) 0, x) else (x, x)).
  { intros S. apply Z.eqb_eq in S. unfold modf. rewrite expn_expo, frac_shift, land_sign by auto. cbn zeta. destruct (Z.leb_spec (mb f) (expo f x - bias f)); [|unfold bias in *; lia].
    destruct (Z.eqb_spec (expo f x - bias f) (bias f + 1)); [|unfold bias in *; lia]. destruct (frac f x =? 0); reflexivity. }
  unfold nan, inf. destruct (special f x); [|split; discriminate]. rewrite K by reflexivity. destruct (frac f x =? 0); split; intros; try reflexivity; discriminate.
Qed.

Lemma to_int_correct : forall x r n w, is_int f x r n -> to_int f w r = if (- 2 ^ (w - 1) <=? n) && (n <? 2 ^ (w - 1)) then Ok n else UB.
Proof.
  intros x r n w (B & Fr & V & _). pose proof one_pos. unfold to_int. rewrite Fr, V, Z.quot_mul by lia. cbn [orb].
  destruct (Z.ltb_spec n (- 2 ^ (w - 1))), (Z.leb_spec (- 2 ^ (w - 1)) n), (Z.leb_spec (2 ^ (w - 1)) n), (Z.ltb_spec n (2 ^ (w - 1))); try reflexivity; lia.
Qed.
End Fmt.
