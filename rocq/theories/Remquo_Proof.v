From Verif Require Export Fmod_Proof.
Open Scope Z_scope.

Section Fmt.
Variable f : fmt.
Hypothesis F1 : 1 <= mb f.
Hypothesis F2 : 2 <= eb f.

(** ** remquo *)
Lemma reduce_quo_spec : forall n ux uy ex ey q Q, 2 ^ mb f <= uy < 2 ^ (mb f + 1) -> 0 <= ux < 2 * uy -> ey <= ex -> ex - ey < Z.of_nat n -> 0 <= Q -> q = Q mod 2 ^ 32 ->
  exists u Q', reduce_quo n f ux uy ex ey q = Ok (u, Q' mod 2 ^ 32) /\ 0 <= u < 2 * uy /\ 0 <= Q' /\ Q' * uy + u = (Q * uy + ux) * 2 ^ (ex - ey).
Proof.
  induction n as [|n IH]; intros ux uy ex ey q Q Hy Hx He Hn HQ Hq; [lia|].
  pose proof (pow_pos (mb f) ltac:(lia)) as P. cbn [reduce_quo]. destruct (ey <? ex) eqn:L; [apply Z.ltb_lt in L | apply Z.ltb_ge in L].
  - pose proof (mant_small f F1 F2 uy ltac:(lia)) as W.
    destruct (wrap_sub f F1 F2 ux uy ltac:(lia) ltac:(lia)) as [W1 W2]. cbn zeta in *. rewrite W1.
    assert (D : ex - ey = ex - 1 - ey + 1) by lia.
    assert (S1 : forall i, 0 <= i < uy -> shl f i 1 = 2 * i).
    { intros i Hi. rewrite shl_small; change (2 ^ 1) with 2; try lia. rewrite width_split by auto. lia. }
    assert (QM : forall k, (2 * (q + k)) mod 2 ^ 32 = (2 * (Q + k)) mod 2 ^ 32).
    { intros k. subst q. rewrite <- Zmult_mod_idemp_r, Zplus_mod_idemp_l, Zmult_mod_idemp_r. reflexivity. }
    destruct (uy <=? ux) eqn:C; [apply Z.leb_le in C | apply Z.leb_gt in C].
    + rewrite W2, S1 by lia. destruct (IH (2 * (ux - uy)) uy (ex - 1) ey ((2 * (q + 1)) mod 2 ^ 32) (2 * (Q + 1))) as (u & Q' & H1 & H2 & H3 & H4); try lia; try apply QM.
      exists u, Q'. split; [exact H1|]. split; [lia|]. split; [lia|]. rewrite H4, D, pow_S by lia. ring.
    + rewrite S1 by lia. destruct (IH (2 * ux) uy (ex - 1) ey ((2 * q) mod 2 ^ 32) (2 * Q)) as (u & Q' & H1 & H2 & H3 & H4); try lia; try (pose proof (QM 0) as Z0; rewrite !Z.add_0_r in Z0; exact Z0).
      exists u, Q'. split; [exact H1|]. split; [lia|]. split; [lia|]. rewrite H4, D, pow_S by lia. ring.
  - exists ux, Q. subst q. split; [reflexivity|]. split; [lia|]. split; [lia|]. replace (ex - ey) with 0 by lia. change (2 ^ 0) with 1. ring.
Qed.

(** remquo.c:64-81, for the remainder [R] and the quotient [N] of the magnitudes *)
Lemma finish_correct : forall sx y U V ex ey R N r, bits f y -> finite f y -> 0 < mag f y -> scale f U ex = Ok r -> 0 <= r < infinity f -> mag f r = R ->
  0 <= R < mag f y -> 0 <= N -> 1 - mb f <= ey < 2 ^ eb f - 1 -> 2 ^ mb f <= V < 2 ^ (mb f + 1) -> mag f y * 2 ^ mb f = V * 2 ^ (ey - 1 + mb f) ->
  (R = 0 /\ ex + 1 < ey) \/ (1 - mb f <= ex <= ey /\ 2 ^ mb f <= U < 2 ^ (mb f + 1) /\ R * 2 ^ mb f = U * 2 ^ (ex - 1 + mb f)) ->
  let up := (mag f y <? 2 * R) || ((2 * R =? mag f y) && Z.odd N) in
  exists r', finish_quo f sx (sign f y) y U ex ey (N mod 2 ^ 32) = Ok (r', (if xorb sx (sign f y) then -1 else 1) * ((if up then N + 1 else N) mod 2 ^ 31)) /\
    bits f r' /\ finite f r' /\ value f r' = (if sx then -1 else 1) * (if up then R - mag f y else R) /\ (value f r' = 0 -> sign f r' = sx).
Proof.
  intros sx y U V ex ey R N r By Fy My Sc Hr Mr HR HN Hey HV HY HX up. set (Y := mag f y) in *.
  unfold finish_quo. rewrite Sc. cbn [bind]. pose proof (pow_pos (mb f) ltac:(lia)) as PM. pose proof (infinity_lt f F1 F2) as INF.
  destruct (finite_form f F1 F2 y By Fy) as (b & Hb & Eb & Mb).
  set (y' := if sign f y then fneg f y else y).
  assert (Y' : y' = b).
  { unfold y'. destruct (sign f y); rewrite Eb; [|reflexivity]. rewrite fneg_with_sign by (auto; lia). reflexivity. }
  rewrite Y'. clear y' Y'. destruct (finite_sign f F1 F2 false b Hb) as (Bb & Fb & Sb & Vb & _). cbn [with_sign] in Bb, Fb, Sb, Vb. rewrite <- Mb in Vb. fold Y in Vb, Mb.
  destruct (finite_sign f F1 F2 false r Hr) as (Br & Fr & Sr & Vr & _). cbn [with_sign] in Br, Fr, Sr, Vr. rewrite Mr in Vr.
  assert (Q2 : (N mod 2 ^ 32) mod 2 = N mod 2).
  { change (2 ^ 32) with (2 * 2 ^ 31). rewrite Z.rem_mul_r by lia. rewrite Z.mul_comm, Z.mod_add by lia. apply Z.mod_mod. lia. }
  assert (Odd : negb (N mod 2 ^ 32 mod 2 =? 0) = Z.odd N). { rewrite Q2, Zmod_odd. destruct (Z.odd N); reflexivity. }
  (* the condition of line 73 *)
  assert (Cond : ((ex =? ey) || ((ex + 1 =? ey) && (flt f b (fadd f r r) || (feq f (fadd f r r) b && negb (N mod 2 ^ 32 mod 2 =? 0))))) = up /\
                 (up = true -> Y <= 2 * R /\ ey - 1 <= ex /\ 1 - mb f <= ex <= ey /\ 2 ^ mb f <= U < 2 ^ (mb f + 1) /\ R * 2 ^ mb f = U * 2 ^ (ex - 1 + mb f))).
  { rewrite Odd. destruct HX as [[HX1 HX2] | (HX1 & HX2 & HX3)].
    - subst up. rewrite HX1. change (2 * 0) with 0. replace (Y <? 0) with false by (symmetry; apply Z.ltb_ge; lia). replace (0 =? Y) with false by (symmetry; apply Z.eqb_neq; lia).
      replace (ex =? ey) with false by (symmetry; apply Z.eqb_neq; lia). replace (ex + 1 =? ey) with false by (symmetry; apply Z.eqb_neq; lia). cbn [andb orb]. split; [reflexivity|discriminate].
    - assert (PX : 0 < 2 ^ (ex - 1 + mb f)) by (apply pow_pos; lia).
      rewrite (pow_split (ex - 1 + mb f) (ey - 1 + mb f)) in HY by lia. replace (ey - 1 + mb f - (ex - 1 + mb f)) with (ey - ex) in HY by lia.
      rewrite pow_S in HX2, HV by lia.
      destruct (Z.eq_dec ex ey) as [E | NE].
      + rewrite (proj2 (Z.eqb_eq ex ey) E). cbn [orb]. replace (ey - ex) with 0 in HY by lia. change (2 ^ 0) with 1 in HY. rewrite Z.mul_1_r in HY.
        assert (U1 : V < 2 * U) by lia. assert (U2 : Y < 2 * R) by (clear - U1 HX3 HY PX PM; nia).
        assert (up = true) as -> by (unfold up; rewrite (proj2 (Z.ltb_lt Y (2 * R)) U2); reflexivity). split; [reflexivity|]. intros _. rewrite pow_S by lia. lia.
      + replace (ex =? ey) with false by (symmetry; apply Z.eqb_neq; lia). cbn [orb].
        destruct (Z.eq_dec (ex + 1) ey) as [E | NE2].
        * rewrite (proj2 (Z.eqb_eq _ _) E). cbn [andb].
          assert (D : exists d s, Z.abs (value f r + value f r) = d * 2 ^ s /\ 0 <= d < 2 ^ (mb f + 1) /\ 0 <= s /\ d * 2 ^ s < top f).
          { assert (X1 : 2 * R * 2 ^ mb f = U * 2 ^ (ey - 1 + mb f)). { replace (ey - 1 + mb f) with (ex - 1 + mb f + 1) by lia. rewrite (pow_S (ex - 1 + mb f)) by lia. lia. }
            rewrite Vr. replace (Z.abs (R + R)) with (2 * R) by lia. destruct (Z_le_gt_dec 1 ey) as [G | G].
            - exists U, (ey - 1). assert (X2 : 2 * R = U * 2 ^ (ey - 1)). { rewrite Z.pow_add_r in X1 by lia. clear - X1 PM. nia. }
              split; [exact X2|]. split; [rewrite pow_S by lia; lia|]. split; [lia|]. unfold top.
              apply Z.lt_le_trans with (2 ^ (mb f + 1) * 2 ^ (ey - 1)).
              + apply Z.mul_lt_mono_pos_r; [apply pow_pos; lia|rewrite pow_S by lia; lia].
              + rewrite <- Z.pow_add_r by lia. apply pow_le. lia.
            - exists (2 * R), 0. change (2 ^ 0) with 1. split; [lia|].
              assert (X3 : 2 * R < 2 ^ mb f).
              { pose proof (pow_le (ey - 1 + mb f) (mb f - 1) ltac:(lia)) as X4. pose proof (pow_pos (ey - 1 + mb f) ltac:(lia)).
                assert (X5 : 2 ^ mb f = 2 * 2 ^ (mb f - 1)) by (rewrite <- pow_S by lia; f_equal; lia).
                assert (U * 2 ^ (ey - 1 + mb f) < 2 ^ mb f * 2 ^ mb f); [|clear - X1 H0 PM; nia].
                apply Z.lt_le_trans with (2 * 2 ^ mb f * 2 ^ (ey - 1 + mb f)); [apply Z.mul_lt_mono_pos_r; lia|]. clear - X4 X5 PM. nia. }
              split; [rewrite pow_S by lia; lia|]. split; [lia|]. unfold top. pose proof (pow_pos (eb f) ltac:(lia)). pose proof (pow_le 2 (eb f) ltac:(lia)) as X4. change (2 ^ 2) with 4 in X4.
              pose proof (pow_le (mb f) (2 ^ eb f - 2 + mb f) ltac:(lia)). lia. }
          destruct D as (d & s & D1 & D2 & D3 & D4). destruct (fadd_exact f F1 F2 r r d s Br Br Fr Fr D1 D2 D3 D4) as (A1 & A2 & A3 & _).
          unfold flt, feq. destruct (finite_nan f b Fb) as [-> _]. destruct (finite_nan f (fadd f r r) A2) as [-> _]. cbn [negb andb]. rewrite A3, Vr, Vb.
          replace (R + R) with (2 * R) by lia. split; [reflexivity|]. intros Hup. split; [|split; [lia|split; [lia|split; [rewrite pow_S by lia; lia|exact HX3]]]].
          unfold up in Hup. apply orb_true_iff in Hup. destruct Hup as [H | H]; [apply Z.ltb_lt in H; lia|]. apply andb_true_iff in H. destruct H as [H _]. apply Z.eqb_eq in H. lia.
        * replace (ex + 1 =? ey) with false by (symmetry; apply Z.eqb_neq; lia). cbn [andb].
          assert (U2 : 2 * R < Y).
          { pose proof (pow_le 2 (ey - ex) ltac:(lia)) as X4. change (2 ^ 2) with 4 in X4. 
            assert (2 * R * 2 ^ mb f < Y * 2 ^ mb f); [|clear - H PM; nia]. rewrite HY. replace (2 * R * 2 ^ mb f) with (2 * U * 2 ^ (ex - 1 + mb f)) by (clear - HX3; lia).
            replace (V * (2 ^ (ex - 1 + mb f) * 2 ^ (ey - ex))) with (V * 2 ^ (ey - ex) * 2 ^ (ex - 1 + mb f)) by ring. apply Z.mul_lt_mono_pos_r; [exact PX|]. clear - X4 HV HX2 PM. nia. }
          assert (up = false) as ->; [|split; [reflexivity|discriminate]]. unfold up. replace (Y <? 2 * R) with false by (symmetry; apply Z.ltb_ge; lia).
          replace (2 * R =? Y) with false by (symmetry; apply Z.eqb_neq; lia). reflexivity. }
  destruct Cond as [Cond C2]. rewrite Cond. clear Cond.
  assert (QQ : forall M, 0 <= M -> Z.land (M mod 2 ^ 32) 2147483647 = M mod 2 ^ 31).
  { intros M HM. change 2147483647 with (Z.ones 31). rewrite Z.land_ones by lia. change (2 ^ 32) with (2 ^ 31 * 2). rewrite Z.rem_mul_r by lia. rewrite Z.mul_comm, Z.mod_add by lia. apply Z.mod_mod. lia. }
  assert (Fin : forall z v, bits f z -> finite f z -> value f z = v -> (v = 0 -> sign f z = false) ->
    let r' := if sx then fneg f z else z in bits f r' /\ finite f r' /\ value f r' = (if sx then -1 else 1) * v /\ (value f r' = 0 -> sign f r' = sx)).
  { intros z v Bz Fz Vz Z0. cbn zeta. destruct (fneg_finite f F1 F2 z Bz Fz) as (N1 & N2 & N3 & N4). destruct sx.
    - split; [exact N1|]. split; [exact N2|]. split; [rewrite N4; lia|]. intros G. rewrite N3, Z0 by lia. reflexivity.
    - split; [exact Bz|]. split; [exact Fz|]. split; [lia|]. intros G. apply Z0. lia. }
  destruct up eqn:Hup.
  - destruct (C2 eq_refl) as (C3 & C4 & C5 & C6 & C7). rewrite fsub_fadd by auto.
    destruct (fneg_finite f F1 F2 b Bb Fb) as (N1 & N2 & N3 & N4). rewrite Sb in N3. rewrite Vb in N4.
    assert (D : exists d s, Z.abs (value f r + value f (fneg f b)) = d * 2 ^ s /\ 0 <= d < 2 ^ (mb f + 1) /\ 0 <= s /\ d * 2 ^ s < top f).
    { rewrite Vr, N4. replace (Z.abs (R + - Y)) with (Y - R) by lia. pose proof (finite_mag f F1 F2 y By Fy) as T. fold Y in T.
      destruct (Z_le_gt_dec 1 ex) as [G | G].
      - assert (X2 : R = U * 2 ^ (ex - 1)). { rewrite Z.pow_add_r in C7 by lia. clear - C7 PM. nia. }
        assert (X3 : Y = V * 2 ^ (ey - ex) * 2 ^ (ex - 1)).
        { rewrite <- Z.mul_assoc, <- Z.pow_add_r by lia. replace (ey - ex + (ex - 1)) with (ey - 1) by lia. rewrite Z.pow_add_r in HY by lia. clear - HY PM. nia. }
        exists (V * 2 ^ (ey - ex) - U), (ex - 1). assert (X4 : Y - R = (V * 2 ^ (ey - ex) - U) * 2 ^ (ex - 1)) by (rewrite X2, X3; ring).
        pose proof (pow_pos (ex - 1) ltac:(lia)) as X5. split; [exact X4|]. split; [|split; [lia|rewrite <- X4; lia]].
        assert (0 < (V * 2 ^ (ey - ex) - U) * 2 ^ (ex - 1) <= U * 2 ^ (ex - 1)) by lia. clear - H X5 C6. nia.
      - exists (Y - R), 0. change (2 ^ 0) with 1. split; [lia|]. split; [|lia]. split; [lia|].
        apply Z.le_lt_trans with R; [lia|]. pose proof (pow_le (ex - 1 + mb f) (mb f) ltac:(lia)). pose proof (pow_pos (ex - 1 + mb f) ltac:(lia)).
        assert (R <= U); [|lia]. assert (R * 2 ^ mb f <= U * 2 ^ mb f); [|clear - H1 PM; nia]. rewrite C7. apply Z.mul_le_mono_nonneg_l; lia. }
    destruct D as (d & s & D1 & D2 & D3 & D4). destruct (fadd_exact f F1 F2 r (fneg f b) d s Br N1 Fr N2 D1 D2 D3 D4) as (A1 & A2 & A3 & _).
    rewrite Vr, N4 in A3. rewrite Zplus_mod_idemp_l. rewrite QQ by lia.
    exists (if sx then fneg f (fadd f r (fneg f b)) else fadd f r (fneg f b)). split; [f_equal; f_equal; destruct (xorb sx (sign f y)); ring|].
    apply Fin; auto. intros Z0. lia.
  - rewrite QQ by lia. exists (if sx then fneg f r else r). split; [f_equal; f_equal; destruct (xorb sx (sign f y)); ring|]. apply Fin; auto.
Qed.

Lemma remquo_correct : forall fuel x y, 2 ^ eb f + 2 * mb f + 2 <= Z.of_nat fuel -> - (width f - 2) <= tiny f < - mb f -> bits f x -> bits f y -> finite f x -> finite f y -> mag f y <> 0 ->
  exists r quo, remquo fuel f x y = Ok (r, quo) /\ is_remquo f x y r quo.
Proof.
  intros fuel x y Hfuel Ht Bx By Fx Fy Ny.
  destruct (magnitude_bits f F1 F2 x Bx) as (a & Ha & Ex & _). destruct (magnitude_bits f F1 F2 y By) as (b & Hb & Ey & _).
  assert (Ma : mag f x = mag f a) by (rewrite Ex; apply with_sign_mag; auto). assert (Mb : mag f y = mag f b) by (rewrite Ey; apply with_sign_mag; auto).
  assert (Ba : bits f a) by (unfold bits; rewrite width_split by auto; lia). assert (Bb : bits f b) by (unfold bits; rewrite width_split by auto; lia).
  pose proof (mag_nonneg f F1 F2 x Bx) as Na. pose proof (mag_nonneg f F1 F2 y By) as Nb.
  pose proof (infinity_lt f F1 F2) as INF. pose proof (pow_pos (mb f) ltac:(lia)) as PM. pose proof (pow_pos (eb f) ltac:(lia)) as PE.
  assert (S1 : shl f x 1 = 2 * a) by (rewrite Ex; apply shl_1; auto). assert (S2 : shl f y 1 = 2 * b) by (rewrite Ey; apply shl_1; auto).
  unfold remquo. cbn zeta. rewrite !sign_shr, !expn_expo, isnan_nan, S1, S2 by auto.
  assert (b <> 0) by (intros ->; rewrite mag_0 in Mb by auto; lia).
  replace (2 * b =? 0) with false by (symmetry; apply Z.eqb_neq; lia).
  unfold nan. pose proof Fx as Fx'. pose proof Fy as Fy'. unfold finite in Fx', Fy'. rewrite Fy'. unfold special in Fx'. rewrite Fx'. cbn [andb orb].
  assert (Spec : forall r quo N R (up : bool), 0 <= N -> mag f x = N * mag f y + R -> 0 <= R < mag f y ->
     up = (mag f y <? 2 * R) || ((2 * R =? mag f y) && Z.odd N) ->
     bits f r -> finite f r -> value f r = (if sign f x then -1 else 1) * (if up then R - mag f y else R) -> (value f r = 0 -> sign f r = sign f x) ->
     quo = (if xorb (sign f x) (sign f y) then -1 else 1) * ((if up then N + 1 else N) mod 2 ^ 31) -> is_remquo f x y r quo).
  { clear - Ny Nb. intros r quo N R up HN HX HR Hup B Fr V Z0 Q. split; [exact B|]. split; [exact Fr|]. split; [exact Z0|].
    set (n := if up then N + 1 else N) in *. exists ((if xorb (sign f x) (sign f y) then -1 else 1) * n).
    assert (Hn : 0 <= n) by (unfold n; destruct up; lia).
    split; [|split; [|split]].
    - rewrite V. unfold value. rewrite HX. unfold n. destruct (sign f x), (sign f y), up; cbn [xorb]; ring.
    - unfold value at 2. rewrite V. destruct up; symmetry in Hup.
      + apply orb_true_iff in Hup. assert (mag f y <= 2 * R) by (destruct Hup as [G | G]; [apply Z.ltb_lt in G; lia|]; apply andb_true_iff in G; destruct G as [G _]; apply Z.eqb_eq in G; lia).
        destruct (sign f x), (sign f y); lia.
      + apply orb_false_iff in Hup. destruct Hup as [G _]. apply Z.ltb_ge in G. destruct (sign f x), (sign f y); lia.
    - intros E. assert (E2 : 2 * R = mag f y).
      { unfold value at 2 in E. rewrite V in E. destruct up; destruct (sign f x), (sign f y); lia. }
      rewrite E2, Z.ltb_irrefl, Z.eqb_refl in Hup. cbn [orb andb] in Hup. unfold n. rewrite Hup.
      assert (Z.even (if Z.odd N then N + 1 else N) = true).
      { destruct (Z.odd N) eqn:O; [rewrite Z.even_add, <- Z.negb_odd, O; reflexivity|rewrite <- Z.negb_odd, O; reflexivity]. }
      rewrite Z.even_mul. rewrite H. apply orb_true_r.
    - rewrite Q. f_equal. f_equal. destruct (xorb (sign f x) (sign f y)); lia. }
  destruct (2 * a =? 0) eqn:A0; [apply Z.eqb_eq in A0 | apply Z.eqb_neq in A0].
  { assert (a = 0) by lia. assert (M0 : mag f x = 0) by (rewrite Ma; subst a; apply mag_0; auto). exists x, 0. split; [reflexivity|].
    apply (Spec x 0 0 0 false); auto; try lia.
    - unfold value. rewrite M0. destruct (sign f x); reflexivity.
    - destruct (xorb (sign f x) (sign f y)); reflexivity. }
  assert (XP : 0 < mag f x) by (rewrite Ma; rewrite <- (mag_0 f F1 F2); apply mag_mono; auto; lia). clear S1 S2.
  assert (YP : 0 < mag f y) by (clear - Nb Ny; lia).
  assert (FU : mb f <= Z.of_nat fuel) by (clear - Hfuel PE F1; lia).
  destruct (normalize_spec f F1 F2 fuel x Bx XP FU) as (U & ex & NX1 & NX2 & NX3 & NX4 & NX5).
  destruct (normalize_spec f F1 F2 fuel y By YP FU) as (V & ey & NY1 & NY2 & NY3 & NY4 & _).
  rewrite NX1, NY1. cbn [bind].
  assert (EX : expo f x < 2 ^ eb f - 1). { destruct (compose f F1 F2 x Bx) as (C & _). apply Z.eqb_neq in Fx'. clear - C Fx'. lia. }
  assert (EY : expo f y < 2 ^ eb f - 1). { destruct (compose f F1 F2 y By) as (C & _). unfold special in Fy'. apply Z.eqb_neq in Fy'. clear - C Fy'. lia. }
  assert (Hey : 1 - mb f <= ey < 2 ^ eb f - 1) by (clear - NY3 EY; lia).
  set (X := mag f x) in *. set (Y := mag f y) in *.
  destruct (ex <? ey) eqn:L; [apply Z.ltb_lt in L | apply Z.ltb_ge in L].
  - pose proof (expo_order f F1 X Y U V ex ey NX2 NY2 ltac:(clear - NX3; lia) ltac:(clear - NY3; lia) NX4 NY4 L) as XY.
    destruct (ex + 1 =? ey) eqn:L1; [apply Z.eqb_eq in L1 | apply Z.eqb_neq in L1].
    + destruct (scale_spec f F1 F2 U ex X NX2 ltac:(clear - NX3 Hey L; lia) NX4) as (r & R1 & R2 & R3).
      destruct (finish_correct (sign f x) y U V ex ey X 0 r By Fy YP R1 R2 R3 ltac:(clear - XP XY; lia) ltac:(lia) Hey NY2 NY4) as (r' & G1 & G2 & G3 & G4 & G5).
      { right. split; [clear - NX3 L; lia|]. auto. }
      change (0 mod 2 ^ 32) with 0 in G1. exists r'. eexists. split; [exact G1|]. eapply (Spec r' _ 0 X); auto; try (clear - XP XY; lia).
    + exists x, 0. split; [reflexivity|].
      assert (U2 : 2 * X < Y).
      { pose proof (pow_le 2 (ey - ex) ltac:(clear - L L1; lia)) as X4. change (2 ^ 2) with 4 in X4. assert (PX : 0 < 2 ^ (ex - 1 + mb f)) by (apply pow_pos; clear - NX3; lia).
        rewrite (pow_split (ex - 1 + mb f) (ey - 1 + mb f)) in NY4 by (clear - NX3 L; lia). replace (ey - 1 + mb f - (ex - 1 + mb f)) with (ey - ex) in NY4 by (clear; lia).
        rewrite pow_S in NX2 by (clear - F1; lia).
        assert (G : 2 * X * 2 ^ mb f < Y * 2 ^ mb f); [|clear - G PM; nia]. rewrite NY4. replace (2 * X * 2 ^ mb f) with (2 * U * 2 ^ (ex - 1 + mb f)) by (clear - NX4; lia).
        replace (V * (2 ^ (ex - 1 + mb f) * 2 ^ (ey - ex))) with (V * 2 ^ (ey - ex) * 2 ^ (ex - 1 + mb f)) by ring. apply Z.mul_lt_mono_pos_r; [exact PX|]. clear - X4 NX2 NY2 PM. nia. }
      apply (Spec x 0 0 X false); auto; try (clear - XP XY; lia).
      * replace (Y <? 2 * X) with false by (symmetry; apply Z.ltb_ge; clear - U2; lia). replace (2 * X =? Y) with false by (symmetry; apply Z.eqb_neq; clear - U2; lia). reflexivity.
      * unfold value. fold X. destruct (sign f x); ring.
      * destruct (xorb (sign f x) (sign f y)); reflexivity.
  - assert (V2 : 0 <= U < 2 * V) by (clear - NX2 NY2 F1 PM; rewrite pow_S in NX2 by lia; lia).
    destruct (reduce_quo_spec fuel U V ex ey 0 0 NY2 V2 ltac:(clear - L; lia) ltac:(clear - NX3 NY3 EX Hey Hfuel F1 PM; lia) ltac:(lia) eq_refl) as (u & Q & Q1 & Q2 & Q3 & Q4).
    rewrite Q1. cbn [bind]. rewrite Z.mul_0_l, Z.add_0_l in Q4.
    pose proof (mant_small f F1 F2 V ltac:(clear - NY2; lia)) as SV.
    destruct (wrap_sub f F1 F2 u V ltac:(clear - Q2 SV; lia) ltac:(clear - SV NY2 PM; lia)) as [W1 W2]. cbn zeta in W1, W2. rewrite W1.
    (* quotient and remainder of the significands, then of the numbers *)
    assert (T : exists w N, (if V <=? u then (wrap f (u - V), (Q mod 2 ^ 32 + 1) mod 2 ^ 32) else (u, Q mod 2 ^ 32)) = (w, N mod 2 ^ 32) /\ 0 <= w < V /\ 0 <= N /\ N * V + w = U * 2 ^ (ex - ey)).
    { destruct (V <=? u) eqn:C; [apply Z.leb_le in C | apply Z.leb_gt in C].
      - rewrite W2 by exact C. rewrite Zplus_mod_idemp_l. exists (u - V), (Q + 1). split; [reflexivity|]. clear - Q2 Q3 Q4 C. lia.
      - exists u, Q. split; [reflexivity|]. clear - Q2 Q3 Q4 C. lia. }
    destruct T as (w & N & T1 & T2 & T3 & T4). rewrite T1. clear T1 W1 W2 Q1 Q2 Q3 Q4.
    assert (Rem : exists R, X = N * Y + R /\ R * 2 ^ mb f = w * 2 ^ (ey - 1 + mb f)).
    { exists (X - N * Y). split; [ring|]. rewrite Z.mul_sub_distr_r, NX4, <- Z.mul_assoc, NY4. replace (ex - 1 + mb f) with (ex - ey + (ey - 1 + mb f)) by (clear; lia).
      rewrite Z.pow_add_r by (clear - L Hey; lia). rewrite Z.mul_assoc, <- T4. ring. }
    destruct Rem as (R & Re1 & Re2).
    assert (HR : 0 <= R < Y).
    { pose proof (pow_pos (ey - 1 + mb f) ltac:(clear - Hey; lia)) as PY. split.
      - clear - Re2 T2 PY PM. nia.
      - assert (G : R * 2 ^ mb f < Y * 2 ^ mb f); [|clear - G PM; nia]. rewrite Re2, NY4. apply Z.mul_lt_mono_pos_r; [exact PY|clear - T2; lia]. }
    destruct (w =? 0) eqn:W0; [apply Z.eqb_eq in W0 | apply Z.eqb_neq in W0].
    + assert (R0 : R = 0) by (clear - Re2 W0 PM; subst w; nia).
      assert (Sc : scale f w (tiny f) = Ok 0).
      { unfold scale, vshr. replace (0 <? tiny f) with false by (symmetry; apply Z.ltb_ge; clear - Ht F1; lia).
        replace ((0 <=? - tiny f + 1) && (- tiny f + 1 <? width f)) with true by (symmetry; apply andb_true_iff; split; [apply Z.leb_le|apply Z.ltb_lt]; clear - Ht F1; lia).
        rewrite W0, Z.shiftr_0_l. reflexivity. }
      destruct (finish_correct (sign f x) y w V (tiny f) ey R N 0 By Fy YP Sc ltac:(clear - INF; lia) ltac:(rewrite R0; apply mag_0; auto) HR T3 Hey NY2 NY4) as (r' & G1 & G2 & G3 & G4 & G5).
      { left. split; [exact R0|]. clear - Ht Hey. lia. }
      exists r'. eexists. split; [exact G1|]. eapply (Spec r' _ N R); auto.
    + destruct (renorm_spec f F1 F2 fuel w ey) as (j & J1 & J2 & J3).
      { clear - T2 NY2 W0. lia. } { pose proof (pow_le (mb f + 1) (Z.of_nat fuel) ltac:(clear - Hfuel PE F1; lia)) as G. clear - G T2 W0. nia. }
      rewrite J2. cbn [bind].
      assert (RP : 0 < R) by (pose proof (pow_pos (ey - 1 + mb f) ltac:(clear - Hey; lia)) as PY; clear - Re2 PY T2 W0 PM; nia).
      assert (J5 : R * 2 ^ mb f * 2 ^ j = w * 2 ^ j * 2 ^ (ey - 1 + mb f)) by (rewrite Re2; ring).
      assert (J4 : 1 - mb f <= ey - j).
      { destruct (Z_le_gt_dec (1 - mb f) (ey - j)) as [|G]; [auto|exfalso].
        pose proof (pow_le (ey - 1 + mb f + 1) j ltac:(clear - G Hey; lia)) as Q'. rewrite (pow_S (ey - 1 + mb f)) in Q' by (clear - Hey; lia). rewrite pow_S in J3 by (clear - F1; lia).
        pose proof (pow_pos (ey - 1 + mb f) ltac:(clear - Hey; lia)) as PY. clear - J5 Q' J3 RP PY PM.
        assert (2 ^ mb f * (2 * 2 ^ (ey - 1 + mb f)) <= R * 2 ^ mb f * 2 ^ j).
        { replace (R * 2 ^ mb f * 2 ^ j) with (2 ^ mb f * (R * 2 ^ j)) by ring. apply Z.mul_le_mono_nonneg_l; [lia|nia]. }
        assert (w * 2 ^ j * 2 ^ (ey - 1 + mb f) < 2 * 2 ^ mb f * 2 ^ (ey - 1 + mb f)) by (apply Z.mul_lt_mono_pos_r; lia). lia. }
      assert (J6 : R * 2 ^ mb f = w * 2 ^ j * 2 ^ (ey - j - 1 + mb f)).
      { rewrite Re2. rewrite <- Z.mul_assoc, <- Z.pow_add_r by (clear - J1 J4; lia). f_equal. f_equal. clear; lia. }
      destruct (scale_spec f F1 F2 (w * 2 ^ j) (ey - j) R J3 ltac:(clear - J4 J1 Hey; lia) J6) as (r & S3 & S4 & S5).
      destruct (finish_correct (sign f x) y (w * 2 ^ j) V (ey - j) ey R N r By Fy YP S3 S4 S5 HR T3 Hey NY2 NY4) as (r' & G1 & G2 & G3 & G4 & G5).
      { right. split; [clear - J4 J1; lia|]. auto. }
      exists r'. eexists. split; [exact G1|]. eapply (Spec r' _ N R); auto.
Qed.

(** ** the special cases *)
Lemma nan_cases : forall x y, bits f x -> bits f y -> special f x = true \/ nan f y = true \/ mag f y = 0 ->
  ((shl f y 1 =? 0) || isnan f y || (expn f x =? 2 ^ eb f - 1)) = true.
Proof.
  intros x y Bx By H. destruct (magnitude_bits f F1 F2 y By) as (b & Hb & Ey & _).
  assert (Mb : mag f y = mag f b) by (rewrite Ey; apply with_sign_mag; auto). assert (S2 : shl f y 1 = 2 * b) by (rewrite Ey; apply shl_1; auto).
  rewrite isnan_nan, expn_expo, S2 by auto. destruct H as [H | [H | H]].
  - unfold special in H. rewrite H. apply orb_true_r.
  - rewrite H. rewrite orb_true_r. reflexivity.
  - rewrite Mb in H. pose proof (infinity_lt f F1 F2). rewrite <- (mag_0 f F1 F2) in H. apply mag_inj in H; auto; lia.
Qed.
Lemma quiet_nan_nan : nan f (quiet_nan f) = true.
Proof.
  unfold quiet_nan, infinity. pose proof (pow_le 2 (eb f) ltac:(lia)) as P. change (2 ^ 2) with 4 in P. pose proof (pow_pos (mb f - 1) ltac:(lia)) as Q. pose proof (pow_lt (mb f - 1) (mb f) ltac:(lia)) as Q2.
  destruct (parts f F1 F2 false (2 ^ eb f - 1) (2 ^ (mb f - 1)) ltac:(lia) ltac:(lia)) as (_ & _ & H1 & H2). cbn [with_sign] in H1, H2.
  unfold nan, special. rewrite H1, H2, Z.eqb_refl. cbn [andb]. apply negb_true_iff, Z.eqb_neq. lia.
Qed.
Lemma fmod_nan : forall fuel x y, bits f x -> bits f y -> special f x = true \/ nan f y = true \/ mag f y = 0 ->
  exists r, fmod fuel f x y = Ok r /\ nan f r = true.
Proof. intros fuel x y Bx By H. exists (quiet_nan f). split; [|apply quiet_nan_nan]. unfold fmod. cbn zeta. rewrite nan_cases by auto. reflexivity. Qed.
Lemma remquo_nan : forall fuel x y, bits f x -> bits f y -> special f x = true \/ nan f y = true \/ mag f y = 0 ->
  exists r, remquo fuel f x y = Ok (r, 0) /\ nan f r = true.
Proof. intros fuel x y Bx By H. exists (quiet_nan f). split; [|apply quiet_nan_nan]. unfold remquo. cbn zeta. rewrite nan_cases by auto. reflexivity. Qed.
Lemma inf_form : forall y, bits f y -> inf f y = true -> y = with_sign f (sign f y) (infinity f).
Proof.
  intros y By H. unfold inf, special in H. apply andb_true_iff in H. destruct H as [H1 H2]. apply Z.eqb_eq in H1. apply Z.eqb_eq in H2.
  destruct (compose f F1 F2 y By) as (_ & _ & E). rewrite H1, H2, Z.add_0_r in E. exact E.
Qed.
Lemma no_nan_cases : forall x y, bits f x -> bits f y -> finite f x -> inf f y = true ->
  ((shl f y 1 =? 0) || isnan f y || (expn f x =? 2 ^ eb f - 1)) = false.
Proof.
  intros x y Bx By Fx Iy. pose proof (infinity_lt f F1 F2) as I. rewrite isnan_nan, expn_expo by auto. unfold finite, special in Fx. rewrite Fx.
  pose proof (inf_form y By Iy) as E. rewrite E, shl_1, <- E by (auto; lia). replace (2 * infinity f =? 0) with false by (symmetry; apply Z.eqb_neq; lia).
  unfold inf in Iy. unfold nan. apply andb_true_iff in Iy. destruct Iy as [-> ->]. reflexivity.
Qed.
Lemma fmod_inf : forall fuel x y, bits f x -> bits f y -> finite f x -> inf f y = true -> fmod fuel f x y = Ok x.
Proof.
  intros fuel x y Bx By Fx Iy. pose proof (infinity_lt f F1 F2) as I. unfold fmod. cbn zeta. rewrite no_nan_cases by auto.
  destruct (finite_form f F1 F2 x Bx Fx) as (a & Ha & Ex & _). pose proof (inf_form y By Iy) as Ey. rewrite Ex, Ey, !shl_1, <- Ex by (auto; lia).
  replace (2 * a <=? 2 * infinity f) with true by (symmetry; apply Z.leb_le; lia). replace (2 * a =? 2 * infinity f) with false by (symmetry; apply Z.eqb_neq; lia). reflexivity.
Qed.
Lemma round_mag_range : forall m, 0 <= m -> 0 <= round_mag f m <= infinity f.
Proof.
  intros m Hm. pose proof (infinity_lt f F1 F2). unfold round_mag. cbn zeta. split; [|apply Z.le_min_l]. apply Z.min_glb; [lia|].
  pose proof (pow_pos (mb f) ltac:(lia)). pose proof (pow_pos (Z.max 0 (Z.log2 m - mb f)) ltac:(lia)). pose proof (Z.div_pos m (2 ^ Z.max 0 (Z.log2 m - mb f)) Hm ltac:(lia)).
  destruct (_ || _); nia.
Qed.
Lemma remquo_inf : forall fuel x y, mb f <= Z.of_nat fuel -> bits f x -> bits f y -> finite f x -> inf f y = true -> remquo fuel f x y = Ok (x, 0).
Proof.
  intros fuel x y Hfuel Bx By Fx Iy. pose proof (infinity_lt f F1 F2) as I. unfold remquo. cbn zeta. rewrite no_nan_cases by auto.
  destruct (finite_form f F1 F2 x Bx Fx) as (a & Ha & Ex & Ma). pose proof (inf_form y By Iy) as Ey. rewrite Ex at 1. rewrite shl_1 by (auto; lia).
  destruct (2 * a =? 0) eqn:A0; [reflexivity|]. apply Z.eqb_neq in A0. rewrite !expn_expo, !sign_shr by auto.
  assert (XP : 0 < mag f x) by (rewrite Ma; rewrite <- (mag_0 f F1 F2); apply mag_mono; auto; lia).
  assert (YP : mag f y = top f). { rewrite Ey. destruct (with_sign_mag f F1 F2 (sign f y) (infinity f) ltac:(lia)) as [-> _]. apply mag_infinity; auto. }
  assert (TP : 0 < top f) by (unfold top; apply pow_pos; pose proof (pow_le 2 (eb f) ltac:(lia)) as P; change (2 ^ 2) with 4 in P; lia).
  destruct (normalize_spec f F1 F2 fuel x Bx XP Hfuel) as (U & ex & NX1 & NX2 & NX3 & NX4 & _).
  destruct (normalize_spec f F1 F2 fuel y By ltac:(lia) Hfuel) as (V & ey & NY1 & NY2 & NY3 & NY4 & NY5).
  rewrite NX1, NY1. cbn [bind].
  assert (EX : expo f x < 2 ^ eb f - 1). { destruct (compose f F1 F2 x Bx) as (C & _). unfold finite, special in Fx. apply Z.eqb_neq in Fx. lia. }
  assert (EY : ey = 2 ^ eb f - 1).
  { assert (G : 0 < ey). { destruct (Z_lt_ge_dec 0 ey); [auto|exfalso]. rewrite YP in NY4. pose proof (pow_le (ey - 1 + mb f) (mb f - 1) ltac:(lia)). unfold top in NY4.
      pose proof (pow_le 2 (eb f) ltac:(lia)) as P. change (2 ^ 2) with 4 in P. pose proof (pow_lt (mb f + 1) (2 ^ eb f - 2 + mb f) ltac:(lia)). pose proof (pow_pos (mb f) ltac:(lia)).
      pose proof (pow_lt (mb f - 1) (mb f) ltac:(lia)). pose proof (pow_pos (ey - 1 + mb f) ltac:(lia)). clear - H H0 H1 H2 H3 NY2 NY4. nia. }
    rewrite NY5 by exact G. unfold inf, special in Iy. apply andb_true_iff in Iy. destruct Iy as [Iy _]. apply Z.eqb_eq in Iy. exact Iy. }
  replace (ex <? ey) with true by (symmetry; apply Z.ltb_lt; lia).
  destruct (ex + 1 =? ey) eqn:L1; [|reflexivity]. apply Z.eqb_eq in L1.
  destruct (scale_spec f F1 F2 U ex (mag f x) NX2 ltac:(lia) NX4) as (r & R1 & R2 & R3).
  assert (r = a) by (apply (mag_inj f F1 F2); try lia). subst r.
  unfold finish_quo. rewrite R1. cbn [bind]. replace (ex =? ey) with false by (symmetry; apply Z.eqb_neq; lia).
  set (y' := if sign f y then fneg f y else y).
  assert (Y' : y' = infinity f). { unfold y'. destruct (sign f y); rewrite Ey; [|reflexivity]. rewrite fneg_with_sign by (auto; lia). reflexivity. }
  rewrite Y'. destruct (finite_sign f F1 F2 false a Ha) as (Bb & Fb & Sb & Vb & _). cbn [with_sign] in *.
  assert (LT : flt f (infinity f) (fadd f a a) = false).
  { assert (G : value f (fadd f a a) <= top f).
    { unfold fadd. destruct (finite_nan f a Fb) as [-> ->]. cbn [orb]. rewrite Vb. replace (mag f a + mag f a =? 0) with false by (symmetry; apply Z.eqb_neq; lia).
      unfold round_value. replace (mag f a + mag f a <? 0) with false by (symmetry; apply Z.ltb_ge; lia).
      pose proof (round_mag_range (Z.abs (mag f a + mag f a)) ltac:(lia)) as RR. rewrite with_sign_value by (auto; lia). rewrite <- (mag_infinity f F1 F2). apply mag_le; auto; lia. }
    unfold flt. assert (value f (infinity f) = top f) as ->.
    { pose proof (with_sign_value f F1 F2 false (infinity f) ltac:(lia)) as W. cbn [with_sign] in W. rewrite W. apply mag_infinity; auto. }
    rewrite (proj2 (Z.ltb_ge (top f) (value f (fadd f a a))) G). apply andb_false_r. }
  rewrite LT. change (negb (0 mod 2 =? 0)) with false. rewrite andb_false_r. cbn [orb andb]. rewrite andb_false_r. change (Z.land 0 2147483647) with 0.
  f_equal. f_equal; [|destruct (xorb (sign f x) (sign f y)); reflexivity]. rewrite Ex at 2. destruct (sign f x); [|reflexivity].
  pose proof (fneg_with_sign f F1 F2 false a ltac:(lia)) as W. cbn [with_sign negb] in W. exact W.
Qed.
End Fmt.

Lemma fmt_ok : forall f, format f -> 1 <= mb f /\ 2 <= eb f /\ - (width f - 2) <= tiny f < - mb f /\ 2 ^ eb f + 2 * mb f + 2 <= 2200.
Proof. intros f [-> | ->]; cbn; lia. Qed.
