From Verif Require Import Next_Model Next_Spec Ieee_Proof Ieee_Round Fmod_Proof Rint_Proof.
Open Scope Z_scope.

Section Fmt.
Variable f : fmt.
Hypothesis F1 : 1 <= mb f.
Hypothesis F2 : 2 <= eb f.
Hypothesis F4 : 3 <= eb f.

(** numbers as signed integers, in the same order *)
Definition ord (s : bool) (a : Z) : Z := if s then - a else a.
Lemma number_form : forall x, number f x -> exists a, 0 <= a <= infinity f /\ x = with_sign f (sign f x) a.
Proof.
  intros x [B N]. destruct (magnitude_bits f F1 F2 x B) as (a & Ha & Hx & A). exists a. split; [|exact Hx]. split; [lia|].
  destruct (compose f F1 F2 x B) as (H1 & H2 & _). unfold nan, special in N. pose proof (pow_pos (mb f) ltac:(lia)) as PM. rewrite A. unfold infinity.
  destruct (Z.eqb_spec (expo f x) (2 ^ eb f - 1)) as [E | E]; cbn [andb] in N.
  - destruct (Z.eqb_spec (frac f x) 0) as [E2 | E2]; [|discriminate]. rewrite E, E2. lia.
  - nia.
Qed.
Lemma form_number : forall s a, 0 <= a <= infinity f -> number f (with_sign f s a) /\ sign f (with_sign f s a) = s /\ value f (with_sign f s a) = ord s (mag f a).
Proof.
  intros s a Ha. pose proof (infinity_lt f F1 F2) as IL. destruct (with_sign_bits f F1 F2 s a ltac:(lia)) as (B & S & E & Fr). split; [|split; [exact S|]].
  - split; [exact B|]. unfold nan, special. rewrite E, Fr. destruct (Z.eq_dec a (infinity f)) as [-> | N].
    + unfold frac, infinity. rewrite Z.mod_mul by (pose proof (pow_pos (mb f) ltac:(lia)); lia). apply andb_false_r.
    + assert (Fa : finite f a) by (apply (finite_lt f F1 F2); lia). unfold finite, special in Fa. rewrite Fa. reflexivity.
  - rewrite with_sign_value by (auto; lia). reflexivity.
Qed.
Lemma ord_lt : forall s a t b, 0 <= a <= infinity f -> 0 <= b <= infinity f -> (ord s (mag f a) < ord t (mag f b) <-> ord s a < ord t b).
Proof.
  intros s a t b Ha Hb. pose proof (infinity_lt f F1 F2) as IL.
  assert (M : forall c, 0 <= c <= infinity f -> 0 <= mag f c /\ (mag f c = 0 <-> c = 0)).
  { intros c Hc. destruct (Z.eq_dec c 0) as [-> | N]; [rewrite mag_0 by auto; lia|]. pose proof (mag_mono f F1 F2 0 c ltac:(lia) ltac:(lia) ltac:(lia)) as P. rewrite mag_0 in P by auto. lia. }
  pose proof (M a Ha). pose proof (M b Hb). pose proof (mag_le f F1 F2 a b ltac:(lia) ltac:(lia)). pose proof (mag_le f F1 F2 b a ltac:(lia) ltac:(lia)).
  unfold ord. destruct s, t; lia.
Qed.
Lemma ord_le : forall s a t b, 0 <= a <= infinity f -> 0 <= b <= infinity f -> (ord s (mag f a) <= ord t (mag f b) <-> ord s a <= ord t b).
Proof. intros s a t b Ha Hb. pose proof (ord_lt t b s a Hb Ha). lia. Qed.

Lemma next_up_intro : forall s a t b, 0 <= a <= infinity f -> 0 <= b <= infinity f -> ord t b = ord s a + 1 -> (b = 0 -> t = s) -> next_up f (with_sign f s a) (with_sign f t b).
Proof.
  intros s a t b Ha Hb H Z0. destruct (form_number s a Ha) as (_ & Sa & Va). destruct (form_number t b Hb) as (Nb & Sb & Vb). split; [exact Nb|]. rewrite Va, Vb. split; [apply ord_lt; auto; lia|]. split.
  - intros z Nz. destruct (number_form z Nz) as (c & Hc & Hz). rewrite Hz. destruct (form_number (sign f z) c Hc) as (_ & _ & ->). rewrite (ord_lt s a _ c), (ord_le t b _ c) by auto. lia.
  - rewrite Sa, Sb. intros V. apply Z0. pose proof (ord_le t b false 0 Hb ltac:(pose proof (infinity_lt f F1 F2); lia)) as L1.
    pose proof (ord_le false 0 t b ltac:(pose proof (infinity_lt f F1 F2); lia) Hb) as L2. rewrite mag_0 in * by auto. unfold ord in *. destruct t; lia.
Qed.
Lemma next_down_intro : forall s a t b, 0 <= a <= infinity f -> 0 <= b <= infinity f -> ord t b = ord s a - 1 -> (b = 0 -> t = s) -> next_down f (with_sign f s a) (with_sign f t b).
Proof.
  intros s a t b Ha Hb H Z0. destruct (form_number s a Ha) as (_ & Sa & Va). destruct (form_number t b Hb) as (Nb & Sb & Vb). split; [exact Nb|]. rewrite Va, Vb. split; [apply ord_lt; auto; lia|]. split.
  - intros z Nz. destruct (number_form z Nz) as (c & Hc & Hz). rewrite Hz. destruct (form_number (sign f z) c Hc) as (_ & _ & ->). rewrite (ord_lt _ c s a), (ord_le _ c t b) by auto. lia.
  - rewrite Sa, Sb. intros V. apply Z0. pose proof (ord_le t b false 0 Hb ltac:(pose proof (infinity_lt f F1 F2); lia)) as L1.
    pose proof (ord_le false 0 t b ltac:(pose proof (infinity_lt f F1 F2); lia) Hb) as L2. rewrite mag_0 in * by auto. unfold ord in *. destruct t; lia.
Qed.

Lemma low_mask : forall s a, 0 <= a < sign_bit f -> Z.land (with_sign f s a) (2 ^ (width f - 1) - 1) = a.
Proof.
  intros s a Ha. assert (W : width f - 1 = eb f + mb f) by (unfold width; lia). rewrite W, (land_mask f), (with_sign_mod f) by lia. apply Z.mod_small. exact Ha.
Qed.
Lemma sign_testbit : forall x, bits f x -> Z.testbit x (eb f + mb f) = sign f x.
Proof.
  intros x [B1 B2]. rewrite width_split in B2 by auto. unfold sign. destruct (Z.leb_spec (sign_bit f) x).
  - apply Z.testbit_true; [lia|]. fold (sign_bit f). replace (x / sign_bit f) with 1; [reflexivity|]. apply Z.div_unique with (r := x - sign_bit f); lia.
  - apply Z.testbit_false; [lia|]. fold (sign_bit f). rewrite Z.div_small by lia. reflexivity.
Qed.
Lemma xor_sign : forall x y, bits f x -> bits f y -> negb (Z.land (Z.lxor x y) (2 ^ (width f - 1)) =? 0) = xorb (sign f x) (sign f y).
Proof.
  intros x y Bx By. assert (W : width f - 1 = eb f + mb f) by (unfold width; lia). rewrite W. rewrite <- (sign_testbit x Bx), <- (sign_testbit y By), <- Z.lxor_spec.
  set (u := Z.lxor x y). set (k := eb f + mb f). assert (0 <= k) by lia. destruct (Z.testbit u k) eqn:T.
  - destruct (Z.eqb_spec (Z.land u (2 ^ k)) 0) as [E | E]; [|reflexivity]. assert (Z.testbit (Z.land u (2 ^ k)) k = false) by (rewrite E; apply Z.bits_0).
    rewrite Z.land_spec, T, Z.pow2_bits_true in H0 by lia. discriminate.
  - replace (Z.land u (2 ^ k)) with 0; [reflexivity|]. apply Z.bits_inj'. intros n Hn. rewrite Z.bits_0, Z.land_spec, Z.pow2_bits_eqb by lia. destruct (Z.eqb_spec k n) as [<- |]; [rewrite T|]; rewrite ?andb_false_r; reflexivity.
Qed.

Lemma nextafter_correct : forall x y, number f x -> number f y ->
  (value f x = value f y -> nextafter f x y = y) /\
  (value f x < value f y -> next_up f x (nextafter f x y)) /\
  (value f y < value f x -> next_down f x (nextafter f x y)).
Proof.
  intros x y Nx Ny. destruct (number_form x Nx) as (a & Ha & Hx). destruct (number_form y Ny) as (b & Hb & Hy). pose proof (infinity_lt f F1 F2) as IL.
  assert (E : nextafter f x y = if x =? y then y else if a =? 0 then (if b =? 0 then y else with_sign f (sign f y) 1)
     else if (b <? a) || xorb (sign f x) (sign f y) then with_sign f (sign f x) (a - 1) else with_sign f (sign f x) (a + 1)).
  { unfold nextafter. rewrite !isnan_nan by (auto; first [apply Nx | apply Ny]). destruct Nx as [Bx ->]. destruct Ny as [By ->]. cbn [orb]. destruct (Z.eqb_spec x y) as [Exy | Exy]; [reflexivity|].
    rewrite xor_sign, (land_sign f) by auto. assert (LX : Z.land x (2 ^ (width f - 1) - 1) = a) by (rewrite Hx; apply low_mask; lia). assert (LY : Z.land y (2 ^ (width f - 1) - 1) = b) by (rewrite Hy; apply low_mask; lia). rewrite LX, LY. cbn zeta.
    destruct (Z.eqb_spec a 0) as [A0 | A0].
    - destruct (b =? 0); [reflexivity|]. unfold with_sign. destruct (sign f y); [|reflexivity]. rewrite Z.add_0_r, Z.lor_comm. pose proof (lor_add 1 1 (eb f + mb f) ltac:(lia)) as LA.
      pose proof (pow_lt 0 (eb f + mb f) ltac:(lia)) as P. change (2 ^ 0) with 1 in P. rewrite Z.mul_1_l in LA. unfold sign_bit. rewrite LA by lia. lia.
    - destruct (_ || _) eqn:Q.
      + rewrite Hx at 1. unfold wrap. rewrite Z.mod_small by (rewrite with_sign_sub; apply (with_sign_bits f F1 F2); lia). apply with_sign_sub.
      + assert (b <> a). { intros ->. apply Exy. apply orb_false_iff in Q. destruct Q as [_ Q]. rewrite Hx, Hy. destruct (sign f x), (sign f y); try discriminate; reflexivity. }
        apply orb_false_iff in Q. destruct Q as [Q _]. apply Z.ltb_ge in Q. rewrite Hx at 1. unfold wrap. rewrite Z.mod_small by (rewrite with_sign_add; apply (with_sign_bits f F1 F2); lia). apply with_sign_add. }
  rewrite E. clear E. assert (Vx : value f x = ord (sign f x) (mag f a)) by (rewrite Hx at 1; apply form_number; auto). assert (Vy : value f y = ord (sign f y) (mag f b)) by (rewrite Hy at 1; apply form_number; auto).
  assert (EQ : value f x = value f y <-> ord (sign f x) a = ord (sign f y) b). { rewrite Vx, Vy. pose proof (ord_lt (sign f x) a (sign f y) b Ha Hb). pose proof (ord_lt (sign f y) b (sign f x) a Hb Ha). lia. }
  assert (LT : value f x < value f y <-> ord (sign f x) a < ord (sign f y) b) by (rewrite Vx, Vy; apply ord_lt; auto).
  assert (GT : value f y < value f x <-> ord (sign f y) b < ord (sign f x) a) by (rewrite Vx, Vy; apply ord_lt; auto).
  rewrite EQ, LT, GT. clear EQ LT GT Vx Vy. set (s := sign f x) in *. set (t := sign f y) in *. clearbody s t. destruct (Z.eqb_spec x y) as [Exy | Exy].
  - assert (s = t /\ a = b) as [-> ->]. { rewrite Hx, Hy in Exy. apply (with_sign_inj f) in Exy; auto; lia. } split; [auto|]. split; lia.
  - assert (NE : s = t -> a = b -> False) by (intros -> ->; congruence). clear Exy Nx Ny. rewrite Hx, Hy. clear Hx Hy x y.
    destruct (Z.eqb_spec a 0) as [-> | A0].
    + destruct (Z.eqb_spec b 0) as [-> | B0]; [split; [auto|unfold ord; destruct s, t; lia]|]. split; [unfold ord; destruct s, t; lia|]. split; intros H.
      * assert (t = false) as -> by (unfold ord in H; destruct s, t; lia || reflexivity). apply next_up_intro; unfold ord; destruct s; lia.
      * assert (t = true) as -> by (unfold ord in H; destruct s, t; lia || reflexivity). apply next_down_intro; unfold ord; destruct s; lia.
    + destruct (Z.ltb_spec b a) as [L | L]; cbn [orb].
      * split; [unfold ord; destruct s, t; lia|]. split; intros H.
        -- assert (s = true) as -> by (unfold ord in H; destruct s, t; lia || reflexivity). apply next_up_intro; unfold ord; auto; lia.
        -- assert (s = false) as -> by (unfold ord in H; destruct s, t; lia || reflexivity). apply next_down_intro; unfold ord; auto; lia.
      * destruct (xorb s t) eqn:X.
        -- split; [unfold ord; destruct s, t; try discriminate; lia|]. split; intros H.
           ++ assert (s = true) as -> by (unfold ord in H; destruct s, t; lia || reflexivity || discriminate). apply next_up_intro; unfold ord; auto; lia.
           ++ assert (s = false) as -> by (unfold ord in H; destruct s, t; lia || reflexivity || discriminate). apply next_down_intro; unfold ord; auto; lia.
        -- assert (s = t) as -> by (destruct s, t; auto; discriminate). specialize (NE eq_refl). assert (a <> b) by auto.
           split; [unfold ord; destruct t; lia|]. split; intros H0.
           ++ assert (t = false) as -> by (unfold ord in H0; destruct t; lia || reflexivity). apply next_up_intro; unfold ord; auto; lia.
           ++ assert (t = true) as -> by (unfold ord in H0; destruct t; lia || reflexivity). apply next_down_intro; unfold ord; auto; lia.
Qed.
Lemma quiet_nan_is_nan : bits f (quiet_nan f) /\ nan f (quiet_nan f) = true.
Proof.
  pose proof (pow_pos (mb f - 1) ltac:(lia)) as P. assert (P2 : 2 ^ mb f = 2 * 2 ^ (mb f - 1)) by (rewrite <- pow_S by lia; f_equal; lia). pose proof (pow_le 1 (eb f) ltac:(lia)) as P3. change (2 ^ 1) with 2 in P3.
  destruct (parts f F1 F2 false (2 ^ eb f - 1) (2 ^ (mb f - 1)) ltac:(lia) ltac:(lia)) as (B & _ & E & Fr). cbn [with_sign] in *. unfold quiet_nan, infinity. split; [exact B|].
  unfold nan, special. rewrite E, Fr, Z.eqb_refl. destruct (Z.eqb_spec (2 ^ (mb f - 1)) 0); [lia|reflexivity].
Qed.
Lemma nextafter_nan : forall x y, bits f x -> bits f y -> nan f x = true \/ nan f y = true -> nan f (nextafter f x y) = true.
Proof.
  intros x y Bx By H. unfold nextafter, fadd. rewrite !isnan_nan by auto. assert (E : nan f x || nan f y = true) by (apply orb_true_iff; auto). rewrite E. apply quiet_nan_is_nan.
Qed.

Lemma fmax_correct : forall x y, number f x -> number f y -> (fmax f x y = x \/ fmax f x y = y) /\ ordered f x (fmax f x y) /\ ordered f y (fmax f x y).
Proof.
  intros x y Nx Ny. destruct (number_form x Nx) as (a & Ha & Hx). destruct (number_form y Ny) as (b & Hb & Hy). destruct Nx as [Bx Nx], Ny as [By Ny].
  unfold fmax, signbit, flt. rewrite !isnan_nan, !sign_shr, Nx, Ny by auto. cbn [negb andb]. pose proof (mag_nonneg f F1 F2 x Bx). pose proof (mag_nonneg f F1 F2 y By).
  unfold ordered. destruct (sign f x) eqn:Sx, (sign f y) eqn:Sy; cbn [Bool.eqb negb]; try (destruct (Z.ltb_spec (value f x) (value f y)); cbn [negb]); rewrite ?Sx, ?Sy; unfold value in *; rewrite ?Sx, ?Sy in *; (split; [auto|split; lia || auto]); try (destruct (Z.eq_dec (mag f x) (mag f y)); lia);
  try (destruct (Z.eq_dec (- mag f x) (mag f y)); [right; split; [lia|auto]|left; lia]); try (destruct (Z.eq_dec (- mag f y) (mag f x)); [right; split; [lia|auto]|left; lia]).
  all: try (right; split; [lia|auto]; fail). all: left; lia.
Qed.
Lemma fmin_correct : forall x y, number f x -> number f y -> (fmin f x y = x \/ fmin f x y = y) /\ ordered f (fmin f x y) x /\ ordered f (fmin f x y) y.
Proof.
  intros x y Nx Ny. destruct (number_form x Nx) as (a & Ha & Hx). destruct (number_form y Ny) as (b & Hb & Hy). destruct Nx as [Bx Nx], Ny as [By Ny].
  unfold fmin, signbit, flt. rewrite !isnan_nan, !sign_shr, Nx, Ny by auto. cbn [negb andb]. pose proof (mag_nonneg f F1 F2 x Bx). pose proof (mag_nonneg f F1 F2 y By).
  unfold ordered. destruct (sign f x) eqn:Sx, (sign f y) eqn:Sy; cbn [Bool.eqb negb]; try (destruct (Z.ltb_spec (value f x) (value f y)); cbn [negb]); rewrite ?Sx, ?Sy; unfold value in *; rewrite ?Sx, ?Sy in *; (split; [auto|split; lia || auto]); try (destruct (Z.eq_dec (mag f x) (mag f y)); lia);
  try (destruct (Z.eq_dec (- mag f x) (mag f y)); [right; split; [lia|auto]|left; lia]); try (destruct (Z.eq_dec (- mag f y) (mag f x)); [right; split; [lia|auto]|left; lia]).
  all: try (right; split; [lia|auto]; fail). all: left; lia.
Qed.
Lemma minmax_nan : forall x y, bits f x -> bits f y ->
  (nan f x = true -> fmax f x y = y /\ fmin f x y = y) /\ (nan f x = false -> nan f y = true -> fmax f x y = x /\ fmin f x y = x).
Proof. intros x y Bx By. unfold fmax, fmin. rewrite !isnan_nan by auto. split; [intros -> | intros -> ->]; auto. Qed.
Lemma fdim_correct : forall x y, bits f x -> bits f y -> finite f x -> finite f y ->
  (value f x <= value f y -> fdim f x y = 0) /\
  (value f y < value f x -> finite f (fdim f x y) -> sign f (fdim f x y) = false /\
    forall z, bits f z -> finite f z -> Z.abs (value f x - value f y - value f (fdim f x y)) <= Z.abs (value f x - value f y - value f z)).
Proof.
  intros x y Bx By Fx Fy. unfold fdim, flt. rewrite !isnan_nan by auto. destruct (finite_nan f x Fx) as [-> _]. destruct (finite_nan f y Fy) as [Ny _]. rewrite Ny. cbn [negb andb].
  destruct (Z.ltb_spec (value f y) (value f x)) as [L | L]; [|split; lia]. split; [lia|]. intros _ Fr. rewrite (fsub_fadd f x y Bx By Fy) in *.
  destruct (fneg_finite f F1 F2 y By Fy) as (B' & F' & _ & V'). split.
  - unfold fadd. destruct (finite_nan f x Fx) as [-> ->]. destruct (finite_nan f _ F') as [-> ->]. cbn [orb]. rewrite V'. destruct (Z.eqb_spec (value f x + - value f y) 0); [lia|].
    unfold round_value. replace (value f x + - value f y <? 0) with false by (symmetry; apply Z.ltb_ge; lia). cbn [with_sign]. unfold sign. apply Z.leb_gt. pose proof (infinity_lt f F1 F2). eapply Z.le_lt_trans; [apply Z.le_min_l|lia].
  - intros z Bz Fz. pose proof (fadd_nearest f F1 F2 x (fneg f y) Bx B' Fx F' Fr z Bz Fz) as N. rewrite V' in N. exact N.
Qed.

Lemma copysign_correct : forall x y, bits f x -> bits f y -> let r := copysign f x y in bits f r /\ sign f r = sign f y /\ expo f r = expo f x /\ frac f r = frac f x.
Proof.
  intros x y Bx By r. destruct (magnitude_bits f F1 F2 x Bx) as (a & Ha & Hx & A).
  assert (R : r = with_sign f (sign f y) a).
  { unfold r, copysign. rewrite (land_sign f F1 F2 F4 y By). rewrite Hx at 1. rewrite low_mask by auto. unfold with_sign. destruct (sign f y); [|apply Z.lor_0_r].
    pose proof (lor_add a 1 (eb f + mb f) ltac:(lia) Ha) as LA. rewrite Z.mul_1_l in LA. unfold sign_bit. rewrite Z.add_0_r, LA. lia. }
  rewrite R. destruct (with_sign_bits f F1 F2 (sign f y) a Ha) as (H1 & H2 & H3 & H4). destruct (with_sign_bits f F1 F2 (sign f x) a Ha) as (_ & _ & H5 & H6). rewrite <- Hx in H5, H6. rewrite H3, H4. auto.
Qed.
Lemma fabs_correct : forall x, bits f x -> let r := fabs f x in bits f r /\ sign f r = false /\ expo f r = expo f x /\ frac f r = frac f x.
Proof.
  intros x Bx r. destruct (magnitude_bits f F1 F2 x Bx) as (a & Ha & Hx & A). assert (R : r = with_sign f false a) by (unfold r, fabs; rewrite Hx; apply low_mask; auto).
  rewrite R. destruct (with_sign_bits f F1 F2 false a Ha) as (H1 & H2 & H3 & H4). destruct (with_sign_bits f F1 F2 (sign f x) a Ha) as (_ & _ & H5 & H6). rewrite <- Hx in H5, H6. rewrite H3, H4. auto.
Qed.
Lemma fpclassify_correct : forall x, bits f x -> class_of f x (fpclassify f x).
Proof.
  intros x B. unfold fpclassify. rewrite expn_expo, frac_shl by auto. destruct (compose f F1 F2 x B) as (H1 & H2 & Hx). cbn zeta.
  pose proof (pow_pos (mb f) ltac:(lia)) as PM. pose proof (pow_le 1 (eb f) ltac:(lia)) as P3. change (2 ^ 1) with 2 in P3. pose proof (value_abs f F1 F2 x B) as VA. unfold mag in VA.
  destruct (Z.eqb_spec (expo f x) 0) as [E | E].
  - assert (Fx : finite f x) by (unfold finite, special; apply Z.eqb_neq; lia).
    rewrite Hx. rewrite shl_1 by (auto; rewrite sign_bit_split by auto; nia). rewrite E, Z.mul_0_l, Z.add_0_l.
    assert (V : value f (with_sign f (sign f x) (frac f x)) = value f x) by (rewrite Hx at 3; rewrite E, Z.mul_0_l, Z.add_0_l; reflexivity).
    assert (Fx' : finite f (with_sign f (sign f x) (frac f x))) by (rewrite Hx, E, Z.mul_0_l, Z.add_0_l in Fx; exact Fx).
    destruct (Z.eqb_spec (2 * frac f x) 0); cbn [negb class_of]; rewrite V; split; auto; lia.
  - unfold shl. pose proof (pow_pos (width f - mb f) ltac:(unfold width; lia)) as PW. destruct (Z.eqb_spec (expo f x) (2 ^ eb f - 1)) as [E2 | E2].
    + assert (S : special f x = true) by (apply Z.eqb_eq; exact E2). destruct (Z.eqb_spec (frac f x * 2 ^ (width f - mb f)) 0) as [Q | Q]; cbn [negb class_of]; unfold nan, inf; rewrite S; cbn [andb].
      * apply Z.eqb_eq. nia.
      * destruct (Z.eqb_spec (frac f x) 0); [nia|reflexivity].
    + cbn [class_of]. split; [unfold finite, special; apply Z.eqb_neq; exact E2|]. rewrite VA. pose proof (pow_pos (expo f x - 1) ltac:(lia)). nia.
Qed.
End Fmt.
