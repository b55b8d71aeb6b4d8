From Verif Require Export Fmod_Model Fmod_Spec Ieee_Proof.
Open Scope Z_scope.

Lemma lor_add : forall a b k, 0 <= k -> 0 <= a < 2 ^ k -> Z.lor a (b * 2 ^ k) = a + b * 2 ^ k.
Proof.
  intros a b k Hk Ha. assert (L : Z.land a (b * 2 ^ k) = 0).
  { apply Z.bits_inj'. intros n Hn. rewrite Z.land_spec, Z.bits_0. destruct (Z_lt_ge_dec n k) as [H | H].
    - rewrite Z.mul_pow2_bits_low by lia. apply andb_false_r.
    - assert (Z.testbit a n = false) as ->; [|reflexivity].
      destruct (Z.eq_dec a 0) as [-> | N]; [apply Z.bits_0|]. apply Z.bits_above_log2; [lia|].
      pose proof (Z.log2_lt_pow2 a k ltac:(lia)). lia. }
  rewrite <- Z.lxor_lor by exact L. rewrite Z.add_nocarry_lxor by exact L. reflexivity.
Qed.

Section Fmt.
Variable f : fmt.
Hypothesis F1 : 1 <= mb f.
Hypothesis F2 : 2 <= eb f.

Lemma expn_expo : forall u, expn f u = expo f u.
Proof. intros u. unfold expn, expo. rewrite Z.shiftr_div_pow2 by lia. rewrite Z.sub_1_r, <- Z.ones_equiv, Z.land_ones by lia. reflexivity. Qed.
Lemma wlow : 2 ^ (width f - 1) = sign_bit f.
Proof. unfold width, sign_bit. f_equal. lia. Qed.
Lemma width_pos : mb f + 3 <= width f.
Proof. unfold width. lia. Qed.
Lemma top_bit : forall i, 0 <= i < 2 ^ width f -> (Z.shiftr i (width f - 1) =? 0) = (i <? sign_bit f).
Proof.
  intros i Hi. pose proof width_pos. rewrite Z.shiftr_div_pow2, wlow by lia. rewrite width_split in Hi by assumption.
  destruct (i <? sign_bit f) eqn:E; [apply Z.ltb_lt in E | apply Z.ltb_ge in E].
  - apply Z.eqb_eq. apply Z.div_small. lia.
  - apply Z.eqb_neq. assert (1 <= i / sign_bit f) by (apply Z.div_le_lower_bound; lia). lia.
Qed.
Lemma shl_small : forall x k, 0 <= k -> 0 <= x -> x * 2 ^ k < 2 ^ width f -> shl f x k = x * 2 ^ k.
Proof. intros. unfold shl, wrap. rewrite Z.shiftl_mul_pow2 by lia. apply Z.mod_small. pose proof (pow_pos k ltac:(lia)). nia. Qed.
Lemma shl_1 : forall s a, 0 <= a < sign_bit f -> shl f (with_sign f s a) 1 = 2 * a.
Proof.
  intros s a Ha. unfold shl, wrap. rewrite Z.shiftl_mul_pow2, width_split by lia. change (2 ^ 1) with 2. unfold with_sign. destruct s.
  - replace ((sign_bit f + a) * 2) with (2 * a + 1 * (2 * sign_bit f)) by lia. rewrite Z.mod_add by lia. apply Z.mod_small. lia.
  - rewrite Z.mul_comm. apply Z.mod_small. lia.
Qed.
Lemma frac_shl : forall u, bits f u -> shl f u (width f - mb f) = frac f u * 2 ^ (width f - mb f).
Proof.
  intros u B. unfold shl, wrap, frac. pose proof width_pos. rewrite Z.shiftl_mul_pow2 by lia.
  rewrite (pow_split (width f - mb f) (width f)) by lia. replace (width f - (width f - mb f)) with (mb f) by lia.
  rewrite (Z.mul_comm (2 ^ (width f - mb f)) (2 ^ mb f)). pose proof (pow_pos (width f - mb f) ltac:(lia)). pose proof (pow_pos (mb f) ltac:(lia)).
  apply Z.mul_mod_distr_r; lia.
Qed.
Lemma isnan_nan : forall u, bits f u -> isnan f u = nan f u.
Proof.
  intros u B. unfold isnan, nan, special. rewrite expn_expo, frac_shl by auto. pose proof (pow_pos (width f - mb f) ltac:(pose proof width_pos; lia)) as P.
  pose proof (pow_le 2 (eb f) ltac:(lia)) as Q. change (2 ^ 2) with 4 in Q.
  destruct (expo f u =? 0) eqn:E; [apply Z.eqb_eq in E|].
  - rewrite E. destruct (0 =? 2 ^ eb f - 1) eqn:G; [apply Z.eqb_eq in G; lia|reflexivity].
  - destruct (expo f u =? 2 ^ eb f - 1); [|reflexivity]. cbn [andb]. f_equal.
    destruct (frac f u =? 0) eqn:G; [apply Z.eqb_eq in G; rewrite G; reflexivity|]. apply Z.eqb_neq in G. apply Z.eqb_neq. nia.
Qed.
Lemma sign_shr : forall u, bits f u -> negb (Z.shiftr u (width f - 1) =? 0) = sign f u.
Proof. intros u B. rewrite top_bit by exact B. unfold sign. destruct (Z.leb_spec (sign_bit f) u), (Z.ltb_spec u (sign_bit f)); try reflexivity; lia. Qed.

Lemma lead_spec : forall n i ex, 0 < i < 2 ^ width f -> 2 ^ width f <= i * 2 ^ Z.of_nat n ->
  exists j, 0 <= j /\ lead n f i ex = Ok (ex - j) /\ sign_bit f <= i * 2 ^ j < 2 ^ width f.
Proof.
  induction n as [|n IH]; intros i ex Hi Hn.
  - change (2 ^ Z.of_nat 0) with 1 in Hn. lia.
  - cbn [lead]. rewrite top_bit by lia. destruct (i <? sign_bit f) eqn:E; [apply Z.ltb_lt in E | apply Z.ltb_ge in E].
    + pose proof (width_split f F1 F2) as W. rewrite shl_small by (change (2 ^ 1) with 2; lia). change (2 ^ 1) with 2.
      destruct (IH (i * 2) (ex - 1)) as (j & H1 & H2 & H3).
      * lia.
      * replace (Z.of_nat (S n)) with (Z.of_nat n + 1) in Hn by lia. rewrite pow_S in Hn by lia. lia.
      * exists (j + 1). split; [lia|]. rewrite H2, pow_S by lia. split; [f_equal; lia|lia].
    + exists 0. split; [lia|]. change (2 ^ 0) with 1. split; [f_equal; lia|lia].
Qed.
Lemma normalize_spec : forall n u, bits f u -> 0 < mag f u -> mb f <= Z.of_nat n ->
  exists U e, normalize n f u (expo f u) = Ok (U, e) /\ 2 ^ mb f <= U < 2 ^ (mb f + 1) /\ 1 - mb f <= e <= expo f u /\
    mag f u * 2 ^ mb f = U * 2 ^ (e - 1 + mb f) /\ (0 < e -> e = expo f u).
Proof.
  intros n u B M Hn. destruct (compose f F1 F2 u B) as (H1 & H2 & H3). pose proof (pow_pos (mb f) ltac:(lia)) as P. pose proof width_pos as W.
  unfold normalize. unfold mag in M |- *. destruct (expo f u =? 0) eqn:E.
  - apply Z.eqb_eq in E. rewrite frac_shl by exact B. set (m := frac f u) in *.
    pose proof (pow_pos (width f - mb f) ltac:(lia)) as PW.
    assert (WS : 2 ^ width f = 2 ^ mb f * 2 ^ (width f - mb f)) by (apply pow_split; lia).
    destruct (lead_spec n (m * 2 ^ (width f - mb f)) 0) as (j & J1 & J2 & J3).
    { rewrite WS. nia. } { rewrite WS. pose proof (pow_le (mb f) (Z.of_nat n) ltac:(lia)). assert (2 ^ mb f <= m * 2 ^ Z.of_nat n) by nia. nia. }
    rewrite J2. cbn [bind].
    assert (SB : sign_bit f = 2 ^ (mb f - 1) * 2 ^ (width f - mb f)) by (rewrite <- wlow, <- Z.pow_add_r by lia; f_equal; lia).
    assert (J4 : 2 ^ (mb f - 1) <= m * 2 ^ j < 2 ^ mb f) by (rewrite WS, SB in J3; nia).
    assert (J5 : j < mb f). { destruct (Z_lt_ge_dec j (mb f)); [auto|]. pose proof (pow_le (mb f) j ltac:(lia)). nia. }
    assert (J6 : 2 ^ mb f <= m * 2 ^ (j + 1) < 2 ^ (mb f + 1)).
    { assert (2 ^ mb f = 2 * 2 ^ (mb f - 1)) by (rewrite <- pow_S by lia; f_equal; lia). rewrite !pow_S by lia. lia. }
    assert (V : vshl f u (- (0 - j) + 1) = Ok (m * 2 ^ (j + 1))).
    { unfold vshl. replace (- (0 - j) + 1) with (j + 1) by lia. replace ((0 <=? j + 1) && (j + 1 <? width f)) with true by (symmetry; apply andb_true_iff; split; [apply Z.leb_le|apply Z.ltb_lt]; lia).
      f_equal. rewrite H3. rewrite E. rewrite Z.mul_0_l, Z.add_0_l. unfold shl, wrap. rewrite Z.shiftl_mul_pow2 by lia.
      pose proof (pow_le (mb f + 1) (width f) ltac:(lia)). unfold with_sign. destruct (sign f u).
      - rewrite Z.mul_add_distr_r. replace (sign_bit f * 2 ^ (j + 1)) with (2 ^ j * 2 ^ width f) by (rewrite width_split, pow_S by lia; lia).
        rewrite Z.add_comm, Z.mod_add by lia. apply Z.mod_small. lia.
      - apply Z.mod_small. lia. }
    rewrite V. cbn [bind]. exists (m * 2 ^ (j + 1)), (0 - j). split; [reflexivity|]. split; [exact J6|]. split; [lia|]. split; [|lia].
    replace (2 ^ mb f) with (2 ^ (j + 1) * 2 ^ (0 - j - 1 + mb f)); [lia|]. rewrite <- Z.pow_add_r by lia. f_equal. lia.
  - apply Z.eqb_neq in E. exists (frac f u + 1 * 2 ^ mb f), (expo f u). split.
    + rewrite Z.sub_1_r, <- Z.ones_equiv, Z.land_ones by lia. rewrite <- lor_add by lia. rewrite Z.mul_1_l. reflexivity.
    + split; [rewrite pow_S by lia; lia|]. split; [lia|]. split; [|lia]. rewrite Z.pow_add_r by lia. lia.
Qed.

Lemma wrap_sub : forall a b, 0 <= a <= sign_bit f -> 0 < b < sign_bit f ->
  let i := wrap f (a - b) in (Z.shiftr i (width f - 1) =? 0) = (b <=? a) /\ (b <= a -> i = a - b).
Proof.
  intros a b Ha Hb i. pose proof (width_split f F1 F2) as W. pose proof (pow_pos (width f) ltac:(pose proof width_pos; lia)) as P.
  assert (Hi : 0 <= i < 2 ^ width f) by (apply Z.mod_pos_bound; lia). rewrite top_bit by exact Hi.
  subst i. unfold wrap in *. destruct (Z_le_gt_dec b a) as [L | G].
  - rewrite Z.mod_small by lia. split; [|auto]. destruct (Z.ltb_spec (a - b) (sign_bit f)), (Z.leb_spec b a); try reflexivity; lia.
  - assert (E : (a - b) mod 2 ^ width f = a - b + 2 ^ width f) by (symmetry; apply Z.mod_unique with (q := -1); lia).
    rewrite E. split; [|lia]. destruct (Z.ltb_spec (a - b + 2 ^ width f) (sign_bit f)), (Z.leb_spec b a); try reflexivity; lia.
Qed.
Lemma mant_small : forall u, u < 2 ^ (mb f + 1) -> 2 * u <= sign_bit f.
Proof. intros u H. unfold sign_bit. pose proof (pow_le (mb f + 2) (eb f + mb f) ltac:(lia)) as P. replace (mb f + 2) with (mb f + 1 + 1) in P by lia. rewrite pow_S in P by lia. lia. Qed.

Lemma reduce_spec : forall n ux uy ex ey, 2 ^ mb f <= uy < 2 ^ (mb f + 1) -> 0 < ux < 2 * uy -> ey <= ex -> ex - ey < Z.of_nat n ->
  (reduce n f ux uy ex ey = Ok None /\ (ux * 2 ^ (ex - ey)) mod uy = 0) \/
  (exists u, reduce n f ux uy ex ey = Ok (Some u) /\ 0 < u < 2 * uy /\ u mod uy = (ux * 2 ^ (ex - ey)) mod uy).
Proof.
  induction n as [|n IH]; intros ux uy ex ey Hy Hx He Hn; [lia|].
  pose proof (pow_pos (mb f) ltac:(lia)) as P. cbn [reduce]. destruct (ey <? ex) eqn:L; [apply Z.ltb_lt in L | apply Z.ltb_ge in L].
  - pose proof (mant_small uy ltac:(lia)) as Q.
    destruct (wrap_sub ux uy ltac:(lia) ltac:(lia)) as [W1 W2]. cbn zeta in *. rewrite W1.
    assert (D : ex - ey = ex - 1 - ey + 1) by lia.
    assert (S1 : forall i, 0 <= i < uy -> shl f i 1 = 2 * i).
    { intros i Hi. rewrite shl_small; change (2 ^ 1) with 2; try lia. rewrite width_split by auto. lia. }
    destruct (uy <=? ux) eqn:C; [apply Z.leb_le in C | apply Z.leb_gt in C].
    + rewrite W2 by exact C. destruct (ux - uy =? 0) eqn:Z0; [apply Z.eqb_eq in Z0 | apply Z.eqb_neq in Z0].
      * left. split; [reflexivity|]. replace ux with (1 * uy) by lia. rewrite <- Z.mul_assoc, (Z.mul_comm uy), Z.mul_assoc. apply Z.mod_mul. lia.
      * rewrite S1 by lia.
        assert (M : (2 * (ux - uy) * 2 ^ (ex - 1 - ey)) mod uy = (ux * 2 ^ (ex - ey)) mod uy).
        { rewrite D, pow_S by lia. replace (2 * (ux - uy) * 2 ^ (ex - 1 - ey)) with (ux * (2 * 2 ^ (ex - 1 - ey)) + (- 2 * 2 ^ (ex - 1 - ey)) * uy) by lia.
          apply Z.mod_add. lia. }
        rewrite <- M. apply IH; lia.
    + rewrite S1 by lia.
      assert (M : (2 * ux * 2 ^ (ex - 1 - ey)) mod uy = (ux * 2 ^ (ex - ey)) mod uy) by (rewrite D, pow_S by lia; f_equal; lia).
      rewrite <- M. apply IH; lia.
  - right. exists ux. split; [reflexivity|]. split; [lia|]. replace (ex - ey) with 0 by lia. change (2 ^ 0) with 1. rewrite Z.mul_1_r. reflexivity.
Qed.
Lemma renorm_spec : forall n u ex, 0 < u < 2 ^ (mb f + 1) -> 2 ^ (mb f + 1) <= u * 2 ^ Z.of_nat n ->
  exists j, 0 <= j /\ renorm n f u ex = Ok (u * 2 ^ j, ex - j) /\ 2 ^ mb f <= u * 2 ^ j < 2 ^ (mb f + 1).
Proof.
  induction n as [|n IH]; intros u ex Hu Hn; [change (2 ^ Z.of_nat 0) with 1 in Hn; lia|].
  cbn [renorm]. rewrite Z.shiftr_div_pow2 by lia. pose proof (pow_pos (mb f) ltac:(lia)) as P. pose proof (mant_small u ltac:(lia)) as Q.
  destruct (u / 2 ^ mb f =? 0) eqn:E; [apply Z.eqb_eq in E | apply Z.eqb_neq in E].
  - assert (u < 2 ^ mb f). { destruct (Z_lt_ge_dec u (2 ^ mb f)); [auto|]. pose proof (Z.div_le_lower_bound u (2 ^ mb f) 1 ltac:(lia) ltac:(lia)). lia. }
    rewrite shl_small; change (2 ^ 1) with 2; try lia. 2: { rewrite width_split by auto. lia. }
    replace (Z.of_nat (S n)) with (Z.of_nat n + 1) in Hn by lia. rewrite (pow_S (Z.of_nat n)) in Hn by lia.
    destruct (IH (u * 2) (ex - 1)) as (j & J1 & J2 & J3); [rewrite pow_S by lia; lia|lia|].
    exists (j + 1). rewrite J2, (pow_S j) by lia. split; [lia|]. split; [f_equal; f_equal; lia|lia].
  - assert (2 ^ mb f <= u). { destruct (Z_lt_ge_dec u (2 ^ mb f)); [|lia]. rewrite Z.div_small in E by lia. lia. }
    exists 0. change (2 ^ 0) with 1. split; [lia|]. split; [f_equal; f_equal; lia|lia].
Qed.
Lemma scale_spec : forall U ex R, 2 ^ mb f <= U < 2 ^ (mb f + 1) -> 1 - mb f <= ex < 2 ^ eb f - 1 -> R * 2 ^ mb f = U * 2 ^ (ex - 1 + mb f) ->
  exists r, scale f U ex = Ok r /\ 0 <= r < infinity f /\ mag f r = R.
Proof.
  intros U ex R HU He HR. pose proof (pow_pos (mb f) ltac:(lia)) as P. unfold scale. pose proof width_pos. rewrite pow_S in HU by lia.
  pose proof (mant_small U ltac:(rewrite pow_S by lia; lia)).
  destruct (0 <? ex) eqn:E; [apply Z.ltb_lt in E | apply Z.ltb_ge in E].
  - unfold wrap. rewrite Z.mod_small by (rewrite width_split by auto; lia).
    rewrite shl_small by (try lia; rewrite width_split, sign_bit_split by auto; nia). rewrite lor_add by lia.
    eexists. split; [reflexivity|]. replace (U - 2 ^ mb f + ex * 2 ^ mb f) with ((ex - 1) * 2 ^ mb f + U) by lia.
    assert (B : (ex - 1) * 2 ^ mb f + U < infinity f) by (unfold infinity; nia).
    destruct (encode f F1 F2 U (ex - 1) ltac:(rewrite pow_S by lia; lia) ltac:(lia) B) as [E1 E2]. split; [lia|]. rewrite E2.
    rewrite Z.pow_add_r in HR by lia. nia.
  - unfold vshr. replace ((0 <=? - ex + 1) && (- ex + 1 <? width f)) with true by (symmetry; apply andb_true_iff; split; [apply Z.leb_le|apply Z.ltb_lt]; lia).
    rewrite Z.shiftr_div_pow2 by lia. eexists. split; [reflexivity|].
    assert (X : U = R * 2 ^ (- ex + 1)).
    { rewrite (pow_split (- ex + 1) (mb f)) in HR by lia. replace (mb f - (- ex + 1)) with (ex - 1 + mb f) in HR by lia. pose proof (pow_pos (ex - 1 + mb f) ltac:(lia)). nia. }
    pose proof (pow_le 1 (- ex + 1) ltac:(lia)) as Q. change (2 ^ 1) with 2 in Q.
    assert (0 <= R) by nia. assert (R < 2 ^ mb f) by nia.
    rewrite X, Z.div_mul by lia. destruct (small_mag f F1 F2 R ltac:(lia)) as (S1 & S2 & S3). split; [lia|auto].
Qed.

Lemma sign_or : forall r u, bits f u -> 0 <= r < sign_bit f -> Z.lor r (shl f (Z.shiftr u (width f - 1)) (width f - 1)) = with_sign f (sign f u) r.
Proof.
  intros r u B Hr. pose proof width_pos. pose proof (width_split f F1 F2) as W.
  assert (E : Z.shiftr u (width f - 1) = if sign f u then 1 else 0).
  { rewrite Z.shiftr_div_pow2, wlow by lia. unfold sign, bits in *. destruct (Z.leb_spec (sign_bit f) u).
    - symmetry. apply Z.div_unique with (r := u - sign_bit f); lia.
    - apply Z.div_small. lia. }
  rewrite E. rewrite shl_small; rewrite ?wlow; try lia. 2, 3: destruct (sign f u); lia.
  rewrite <- wlow, lor_add, wlow; rewrite ?wlow; try lia. unfold with_sign. destruct (sign f u); lia.
Qed.
Lemma rem_signs : forall s t X Y, 0 <= X -> 0 < Y -> Z.rem (if s : bool then - X else X) (if t : bool then - Y else Y) = if s then - (X mod Y) else X mod Y.
Proof.
  intros s t X Y HX HY. destruct s, t; rewrite ?Z.rem_opp_l, ?Z.rem_opp_r by lia; rewrite Z.rem_mod_nonneg by lia; reflexivity.
Qed.

(** the size of exponents *)
Lemma expo_order : forall X Y U V ex ey, 2 ^ mb f <= U < 2 ^ (mb f + 1) -> 2 ^ mb f <= V < 2 ^ (mb f + 1) -> 1 - mb f <= ex -> 1 - mb f <= ey ->
  X * 2 ^ mb f = U * 2 ^ (ex - 1 + mb f) -> Y * 2 ^ mb f = V * 2 ^ (ey - 1 + mb f) -> ex < ey -> X < Y.
Proof.
  intros X Y U V ex ey HU HV He He' HX HY L. pose proof (pow_pos (mb f) ltac:(lia)).
  rewrite pow_S in HU by lia. rewrite (pow_split (ex - 1 + mb f) (ey - 1 + mb f)) in HY by lia.
  pose proof (pow_le 1 (ey - 1 + mb f - (ex - 1 + mb f)) ltac:(lia)) as Q. change (2 ^ 1) with 2 in Q. pose proof (pow_pos (ex - 1 + mb f) ltac:(lia)).
  set (A := 2 ^ (ex - 1 + mb f)) in *. set (C := 2 ^ (ey - 1 + mb f - (ex - 1 + mb f))) in *. set (M := 2 ^ mb f) in *.
  assert (U * A < V * (A * C)); [|nia]. assert (U * A < 2 * M * A) by nia. assert (2 * M * A <= V * (A * C)); [|lia]. assert (2 * A <= A * C) by nia. nia.
Qed.

(** fmod.c:50-64 *)
Lemma fmod_tail : forall fuel u V ey R, 2 ^ mb f <= V < 2 ^ (mb f + 1) -> 0 < u < 2 * V -> 1 - mb f <= ey < 2 ^ eb f - 1 -> mb f + 1 <= Z.of_nat fuel ->
  R * 2 ^ mb f = (u mod V) * 2 ^ (ey - 1 + mb f) ->
  let i := wrap f (u - V) in
  let z := Z.shiftr i (width f - 1) =? 0 in
  (z && (i =? 0) = true /\ R = 0) \/
  (z && (i =? 0) = false /\ 0 < R /\ exists U e, renorm fuel f (if z then i else u) ey = Ok (U, e) /\ exists r, scale f U e = Ok r /\ 0 <= r < infinity f /\ mag f r = R).
Proof.
  intros fuel u V ey R HV Hu He Hf HR i z. pose proof (pow_pos (mb f) ltac:(lia)) as PM. pose proof (mant_small V ltac:(lia)) as SV.
  destruct (wrap_sub u V ltac:(lia) ltac:(lia)) as [W1 W2]. fold i in W1, W2. fold z in W1. pose proof (pow_pos (ey - 1 + mb f) ltac:(lia)) as PY.
  assert (UM : u mod V = if V <=? u then u - V else u).
  { destruct (Z.leb_spec V u); [|apply Z.mod_small; lia]. symmetry. apply Z.mod_unique with (q := 1); lia. }
  rewrite W1. assert (W4 : (if V <=? u then i else u) = u mod V).
  { rewrite UM. destruct (Z.leb_spec V u); [apply W2; auto|reflexivity]. }
  assert (W3 : ((V <=? u) && (i =? 0)) = (u mod V =? 0)).
  { rewrite UM. destruct (Z.leb_spec V u); cbn [andb]; [rewrite W2 by lia; reflexivity|]. symmetry. apply Z.eqb_neq. lia. }
  rewrite W3, W4. pose proof (Z.mod_pos_bound u V ltac:(lia)) as UB0. set (w := u mod V) in *. clearbody w.
  destruct (w =? 0) eqn:Z0; [apply Z.eqb_eq in Z0 | apply Z.eqb_neq in Z0].
  { left. split; [reflexivity|]. subst w. nia. }
  right. split; [reflexivity|]. assert (R0 : 0 < R) by nia. split; [exact R0|].
  destruct (renorm_spec fuel w ey) as (j & J1 & J2 & J3).
  { lia. } { pose proof (pow_le (mb f + 1) (Z.of_nat fuel) ltac:(lia)). nia. }
  exists (w * 2 ^ j), (ey - j). split; [exact J2|].
  assert (J4 : 1 - mb f <= ey - j).
  { destruct (Z_le_gt_dec (1 - mb f) (ey - j)); [auto|exfalso].
    assert (A : w * 2 ^ j * 2 ^ (ey - 1 + mb f) = R * 2 ^ mb f * 2 ^ j) by (rewrite HR; ring).
    pose proof (pow_le (ey - 1 + mb f + 1) j ltac:(lia)) as Q. rewrite (pow_S (ey - 1 + mb f)) in Q by lia. rewrite pow_S in J3 by lia.
    clear - A Q J3 R0 PY PM. assert (2 ^ mb f * (2 * 2 ^ (ey - 1 + mb f)) <= R * 2 ^ mb f * 2 ^ j).
    { replace (R * 2 ^ mb f * 2 ^ j) with (2 ^ mb f * (R * 2 ^ j)) by ring. apply Z.mul_le_mono_nonneg_l; [lia|nia]. }
    assert (w * 2 ^ j * 2 ^ (ey - 1 + mb f) < 2 * 2 ^ mb f * 2 ^ (ey - 1 + mb f)) by (apply Z.mul_lt_mono_pos_r; lia). lia. }
  destruct (scale_spec (w * 2 ^ j) (ey - j) R J3 ltac:(lia)) as (r & S3 & S4 & S5).
  { rewrite HR. rewrite <- Z.mul_assoc, <- Z.pow_add_r by lia. f_equal. f_equal. lia. }
  exists r. auto.
Qed.

Lemma fmod_correct : forall fuel x y, 2 ^ eb f + 2 * mb f + 2 <= Z.of_nat fuel -> bits f x -> bits f y -> finite f x -> finite f y -> mag f y <> 0 ->
  exists r, fmod fuel f x y = Ok r /\ is_fmod f x y r.
Proof.
  intros fuel x y Hfuel Bx By Fx Fy Ny.
  destruct (magnitude_bits f F1 F2 x Bx) as (a & Ha & Ex & _). destruct (magnitude_bits f F1 F2 y By) as (b & Hb & Ey & _).
  assert (Ma : mag f x = mag f a) by (rewrite Ex; apply with_sign_mag; auto). assert (Mb : mag f y = mag f b) by (rewrite Ey; apply with_sign_mag; auto).
  assert (Ba : bits f a) by (unfold bits; rewrite width_split by auto; lia). assert (Bb : bits f b) by (unfold bits; rewrite width_split by auto; lia).
  pose proof (mag_nonneg f F1 F2 a Ba) as Na. pose proof (mag_nonneg f F1 F2 b Bb) as Nb.
  pose proof (infinity_lt f F1 F2) as INF. pose proof (pow_pos (mb f) ltac:(lia)) as PM. pose proof (pow_pos (eb f) ltac:(lia)) as PE.
  assert (S1 : shl f x 1 = 2 * a) by (rewrite Ex; apply shl_1; auto). assert (S2 : shl f y 1 = 2 * b) by (rewrite Ey; apply shl_1; auto).
  unfold fmod. cbn zeta. rewrite !expn_expo, isnan_nan, S1, S2 by auto.
  assert (b <> 0) by (intros ->; rewrite mag_0 in Mb by auto; lia).
  replace (2 * b =? 0) with false by (symmetry; apply Z.eqb_neq; lia).
  unfold nan. unfold finite in Fx, Fy. rewrite Fy. unfold special in Fx. rewrite Fx. cbn [andb orb].
  assert (Zr : bits f (zero_times f x) /\ finite f (zero_times f x) /\ value f (zero_times f x) = 0 /\ sign f (zero_times f x) = sign f x).
  { unfold zero_times. destruct (with_sign_bits f F1 F2 (sign f x) 0 ltac:(lia)) as (W1 & W2 & _). split; [exact W1|]. split.
    - unfold finite. destruct (with_sign_mag f F1 F2 (sign f x) 0 ltac:(lia)) as [_ ->]. apply finite_lt; auto; lia.
    - split; [|exact W2]. rewrite with_sign_value by (auto; lia). rewrite mag_0 by auto. destruct (sign f x); reflexivity. }
  assert (Val : Z.rem (value f x) (value f y) = if sign f x then - (mag f a mod mag f b) else mag f a mod mag f b).
  { unfold value. rewrite Ma, Mb. apply rem_signs; lia. }
  unfold is_fmod. rewrite Val.
  destruct (2 * a <=? 2 * b) eqn:LE; [apply Z.leb_le in LE | apply Z.leb_gt in LE].
  { destruct (2 * a =? 2 * b) eqn:EQ; [apply Z.eqb_eq in EQ | apply Z.eqb_neq in EQ].
    - eexists. split; [reflexivity|]. assert (a = b) by lia. subst b. rewrite Z.mod_same by lia. destruct Zr as (? & ? & V & ?). split; [|split; [|split]]; auto.
      rewrite V. destruct (sign f x); reflexivity.
    - eexists. split; [reflexivity|]. split; [|split; [|split]]; auto. pose proof (mag_mono f F1 F2 a b Ha Hb ltac:(lia)). rewrite Z.mod_small by lia.
      unfold value. rewrite Ma. reflexivity. }
  pose proof (mag_mono f F1 F2 b a Hb Ha ltac:(lia)) as XY.
  destruct (normalize_spec fuel x Bx ltac:(lia) ltac:(lia)) as (U & ex & NX1 & NX2 & NX3 & NX4 & _).
  destruct (normalize_spec fuel y By ltac:(lia) ltac:(lia)) as (V & ey & NY1 & NY2 & NY3 & NY4 & _).
  rewrite NX1, NY1. cbn [bind]. rewrite Ma in NX4. rewrite Mb in NY4.
  assert (EE : ey <= ex). { destruct (Z_le_gt_dec ey ex); [auto|]. pose proof (expo_order _ _ U V ex ey NX2 NY2 ltac:(lia) ltac:(lia) NX4 NY4 ltac:(lia)). lia. }
  destruct (compose f F1 F2 x Bx) as (CX & _). destruct (compose f F1 F2 y By) as (CY & _).
  assert (Fy' : expo f y < 2 ^ eb f - 1) by (unfold special in Fy; apply Z.eqb_neq in Fy; lia).
  (* the remainder of the significands *)
  assert (MOD : (mag f a mod mag f b) * 2 ^ mb f = ((U * 2 ^ (ex - ey)) mod V) * 2 ^ (ey - 1 + mb f)).
  { rewrite <- !Z.mul_mod_distr_r by (pose proof (pow_pos (ey - 1 + mb f) ltac:(lia)); lia). rewrite NX4, NY4. f_equal.
    rewrite <- Z.mul_assoc, <- Z.pow_add_r by lia. f_equal. f_equal. lia. }
  assert (V2 : 0 < U < 2 * V) by (clear - NX2 NY2 F1 PM; rewrite pow_S in NX2 by lia; lia).
  destruct (reduce_spec fuel U V ex ey NY2 V2 EE ltac:(clear - NX3 NY3 CX CY Hfuel F1; lia)) as [(R1 & R2) | (u & R1 & R2 & R3)]; rewrite R1; cbn [bind].
  { rewrite R2 in MOD. assert (mag f a mod mag f b = 0) as -> by (clear - MOD PM; nia). eexists. split; [reflexivity|]. destruct Zr as (? & ? & VV & ?). split; [|split; [|split]]; auto.
    rewrite VV. destruct (sign f x); reflexivity. }
  rewrite <- R3 in MOD. rewrite Z.min_r by exact EE.
  assert (EY : 1 - mb f <= ey < 2 ^ eb f - 1) by (clear - NY3 Fy'; lia).
  assert (FU : mb f + 1 <= Z.of_nat fuel) by (clear - Hfuel PE F1; lia).
  destruct (fmod_tail fuel u V ey (mag f a mod mag f b) NY2 R2 EY FU MOD) as [(T1 & T2) | (T1 & T2 & U' & e' & T3 & r & T4 & T5 & T6)].
  - rewrite T1, T2. eexists. split; [reflexivity|]. destruct Zr as (? & ? & VV & ?). split; [|split; [|split]]; auto. rewrite VV. destruct (sign f x); reflexivity.
  - rewrite T1, T3. cbn [bind]. rewrite T4. cbn [bind]. eexists. split; [reflexivity|]. 
    assert (T7 : 0 <= r < sign_bit f) by (clear - T5 INF; lia). rewrite sign_or by auto.
    destruct (with_sign_bits f F1 F2 (sign f x) r T7) as (G1 & G2 & _). split; [exact G1|]. split.
    + unfold finite. destruct (with_sign_mag f F1 F2 (sign f x) r T7) as [_ ->]. apply finite_lt; auto. apply T5.
    + split; [|exact G2]. rewrite with_sign_value by auto. rewrite T6. reflexivity.
Qed.
End Fmt.
