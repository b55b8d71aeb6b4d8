From Verif Require Import Sqrt_Model Sqrt_Spec Rint_Proof Fmod_Proof Ieee_Mul_Proof Ieee_Proof Ieee_Round.
From Coq Require Import Lia.
Open Scope Z_scope.

(** * The root bit by bit *)
Fixpoint root (n : nat) (X S Q : Z) : Z * Z :=
  match n with
  | O => (X, Q)
  | Datatypes.S k => let R := 2 ^ Z.of_nat k in if S + R <=? X then root k (2 * (X - (S + R))) (S + 2 * R) (Q + R) else root k (2 * X) S Q
  end.
Lemma root_S : forall n X S Q, root (Datatypes.S n) X S Q = if S + 2 ^ Z.of_nat n <=? X then root n (2 * (X - (S + 2 ^ Z.of_nat n))) (S + 2 * 2 ^ Z.of_nat n) (Q + 2 ^ Z.of_nat n) else root n (2 * X) S Q.
Proof. reflexivity. Qed.
Definition inv (C : Z) (n : Z) (X Q : Z) : Prop :=
  X * 2 ^ n = 2 * (C - Q ^ 2) /\ C < (Q + 2 ^ n) ^ 2 /\ 0 <= X /\ 0 <= Q.
Lemma inv_step : forall C k X Q, 0 <= k -> inv C (k + 1) X Q ->
  if 2 * Q + 2 ^ k <=? X then inv C k (2 * (X - (2 * Q + 2 ^ k))) (Q + 2 ^ k) else inv C k (2 * X) Q.
Proof.
  intros C k X Q Hk (H1 & H2 & H3 & H4). rewrite Z.pow_add_r in * by lia. change (2 ^ 1) with 2 in *. pose proof (pow_pos k Hk) as P. set (R := 2 ^ k) in *. unfold inv. fold R.
  destruct (Z.leb_spec (2 * Q + R) X) as [L | L]; (split; [nia|]; split; [nia|lia]).
Qed.
Lemma inv_bound : forall C n X Q, 0 <= n -> inv C n X Q -> X < 4 * Q + 2 * 2 ^ n.
Proof.
  intros C n X Q Hn (H1 & H2 & H3 & H4). pose proof (pow_pos n Hn) as P. set (R := 2 ^ n) in *. apply (Z.mul_lt_mono_pos_r R); [lia|]. rewrite H1. nia.
Qed.
Lemma root_spec : forall n C X Q, inv C (Z.of_nat n) X Q -> let '(X', Q') := root n X (2 * Q) Q in X' = 2 * (C - Q' ^ 2) /\ 0 <= X' /\ C < (Q' + 1) ^ 2 /\ Q <= Q' < Q + 2 ^ Z.of_nat n.
Proof.
  induction n as [|n IH]; intros C X Q I.
  - destruct I as (H1 & H2 & H3 & H4). cbn [root]. change (2 ^ Z.of_nat 0) with 1 in *. lia.
  - cbn [root]. replace (Z.of_nat (S n)) with (Z.of_nat n + 1) in * by lia. pose proof (inv_step C (Z.of_nat n) X Q ltac:(lia) I) as ST. rewrite Z.pow_add_r by lia. change (2 ^ 1) with 2. pose proof (pow_pos (Z.of_nat n) ltac:(lia)) as P. set (R := 2 ^ Z.of_nat n) in *. destruct (2 * Q + R <=? X).
    + replace (2 * Q + 2 * R) with (2 * (Q + R)) by ring. apply IH in ST. destruct (root n _ _ _) as [X' Q']. lia.
    + apply IH in ST. destruct (root n _ _ _) as [X' Q']. lia.
Qed.

(** * Words *)
Lemma int32_ok : forall v, - 2 ^ 31 <= v < 2 ^ 31 -> int32 v = Ok v.
Proof. intros v H. unfold int32. destruct (Z.leb_spec (- 2 ^ 31) v); [|lia]. destruct (Z.ltb_spec v (2 ^ 31)); [|lia]. reflexivity. Qed.
Lemma shiftr_pow : forall k, 0 <= k -> Z.shiftr (2 ^ (k + 1)) 1 = 2 ^ k.
Proof. intros k H. rewrite Z.shiftr_div_pow2 by lia. rewrite Z.pow_add_r by lia. change (2 ^ 1) with 2. apply Z.div_mul. lia. Qed.

Definition step (n : nat) : Z := match n with O => 0 | S k => 2 ^ Z.of_nat k end.
Lemma step_half : forall n, Z.shiftr (step (S n)) 1 = step n.
Proof. intros [|n]; cbn [step]; [reflexivity|]. replace (Z.of_nat (S n)) with (Z.of_nat n + 1) by lia. apply shiftr_pow. lia. Qed.
Lemma loopf_root : forall n fuel C X Q, (n < fuel)%nat -> inv C (Z.of_nat n) X Q -> Q + 2 ^ Z.of_nat n <= 2 ^ 28 -> loopf fuel (step n) X (2 * Q) Q = Ok (root n X (2 * Q) Q).
Proof.
  induction n as [|n IH]; intros fuel C X Q Hf I B; (destruct fuel as [|fuel]; [lia|]).
  - reflexivity.
  - cbn [loopf root]. rewrite step_half. change (step (S n)) with (2 ^ Z.of_nat n). pose proof (inv_bound C (Z.of_nat (S n)) X Q ltac:(lia) I) as XB. replace (Z.of_nat (S n)) with (Z.of_nat n + 1) in * by lia. pose proof (inv_step C (Z.of_nat n) X Q ltac:(lia) I) as ST.
    rewrite Z.pow_add_r in B, XB by lia. change (2 ^ 1) with 2 in B, XB. pose proof (pow_pos (Z.of_nat n) ltac:(lia)) as P. destruct I as (I1 & I2 & I3 & I4). set (R := 2 ^ Z.of_nat n) in *. change (2 ^ 28) with 268435456 in B.
    destruct (Z.eqb_spec R 0); [lia|]. rewrite int32_ok by lia. cbn [bind]. destruct (Z.leb_spec (2 * Q + R) X) as [L | L].
    + rewrite int32_ok by lia. cbn [bind]. rewrite int32_ok by lia. cbn [bind]. replace (X - (2 * Q + R) + (X - (2 * Q + R))) with (2 * (X - (2 * Q + R))) by ring. replace (2 * Q + R + R) with (2 * (Q + R)) by ring. replace (2 * Q + 2 * R) with (2 * (Q + R)) by ring. apply IH with (C := C); auto; lia.
    + cbn [bind]. rewrite int32_ok by lia. cbn [bind]. replace (X + X) with (2 * X) by ring. apply IH with (C := C); auto; lia.
Qed.

Lemma land_bit : forall k a, 0 <= k -> 0 <= a < 2 * 2 ^ k -> Z.land a (2 ^ k) = if a <? 2 ^ k then 0 else 2 ^ k.
Proof.
  intros k a Hk H. pose proof (pow_pos k Hk) as P. apply Z.bits_inj'. intros n Hn. rewrite Z.land_spec, Z.pow2_bits_eqb by lia. destruct (Z.eqb_spec k n) as [E | N].
  - subst n. rewrite andb_true_r. assert (T : Z.testbit a k = negb (a <? 2 ^ k)).
    { rewrite Z.testbit_odd, Z.shiftr_div_pow2 by lia. destruct (Z.ltb_spec a (2 ^ k)).
      - rewrite Z.div_small by lia. reflexivity.
      - replace (a / 2 ^ k) with 1; [reflexivity|]. apply Z.div_unique with (a - 2 ^ k); lia. }
    rewrite T. destruct (a <? 2 ^ k); cbn [negb]; [symmetry; apply Z.testbit_0_l|rewrite Z.pow2_bits_eqb by lia; symmetry; apply Z.eqb_refl].
  - rewrite andb_false_r. destruct (a <? 2 ^ k); [symmetry; apply Z.testbit_0_l|]. rewrite Z.pow2_bits_eqb by lia. destruct (Z.eqb_spec k n); [lia|reflexivity].
Qed.
Lemma land_top : forall a, 0 <= a < 2 ^ 32 -> Z.land a sgn = if a <? 2 ^ 31 then 0 else sgn.
Proof. intros a H. apply (land_bit 31 a); lia. Qed.
Lemma twice_ok : forall a b, 0 <= a < 2 ^ 29 -> 0 <= b < 2 ^ 32 -> exists a' b', twice a b = Ok (a', b') /\ a' * 2 ^ 32 + b' = 2 * (a * 2 ^ 32 + b) /\ 0 <= a' < 2 ^ 30 /\ 0 <= b' < 2 ^ 32.
Proof.
  intros a b Ha Hb. unfold twice, w32. rewrite land_top by auto. change sgn with (2 ^ 31). destruct (Z.ltb_spec b (2 ^ 31)).
  - change (Z.shiftr 0 31) with 0. rewrite int32_ok by lia. cbn [bind]. do 2 eexists. split; [reflexivity|]. rewrite Z.mod_small by lia. lia.
  - change (Z.shiftr (2 ^ 31) 31) with 1. rewrite int32_ok by lia. cbn [bind]. do 2 eexists. split; [reflexivity|]. replace (b + b) with (2 * b - 2 ^ 32 + 1 * 2 ^ 32) by ring. rewrite Z.mod_add, Z.mod_small by lia. lia.
Qed.

Lemma low_root : forall n fuel C ix0 ix1 s0 s1 q q1, (n < fuel)%nat -> (n <= 32)%nat ->
  inv C (Z.of_nat n) (ix0 * 2 ^ 32 + ix1) (q * 2 ^ 32 + q1) -> 0 <= q -> 0 <= ix1 < 2 ^ 32 -> 0 <= s1 < 2 ^ 32 -> s0 * 2 ^ 32 + s1 = 2 * (q * 2 ^ 32 + q1) ->
  0 <= q1 -> q1 + 2 ^ Z.of_nat n <= 2 ^ 32 -> (exists c, q1 = c * 2 ^ Z.of_nat n) -> q < 2 ^ 26 ->
  exists a b d, low fuel (step n) ix0 ix1 s0 s1 q1 = Ok (a, b, d) /\ root n (ix0 * 2 ^ 32 + ix1) (2 * (q * 2 ^ 32 + q1)) (q * 2 ^ 32 + q1) = (a * 2 ^ 32 + b, q * 2 ^ 32 + d) /\ 0 <= a /\ 0 <= b < 2 ^ 32 /\ 0 <= d < 2 ^ 32.
Proof.
  induction n as [|n IH]; intros fuel C ix0 ix1 s0 s1 q q1 Hf Hn I Hq Hx Hs ES Hq1 Room [c Ec] Q26; (destruct fuel as [|fuel]; [lia|]).
  - change (2 ^ Z.of_nat 0) with 1 in *. exists ix0, ix1, q1. destruct I as (_ & _ & I3 & _). split; [reflexivity|]. split; [reflexivity|]. lia.
  - cbn [low root]. rewrite step_half. change (step (S n)) with (2 ^ Z.of_nat n). pose proof (inv_bound C (Z.of_nat (S n)) _ _ ltac:(lia) I) as XB. replace (Z.of_nat (S n)) with (Z.of_nat n + 1) in * by lia.
    pose proof (inv_step C (Z.of_nat n) _ _ ltac:(lia) I) as ST. rewrite Z.pow_add_r in Room, XB, Ec by lia. change (2 ^ 1) with 2 in Room, XB, Ec. pose proof (pow_pos (Z.of_nat n) ltac:(lia)) as P. destruct I as (I1 & I2 & I3 & I4). clear I1 I2.
    pose proof (pow_le (Z.of_nat n) 31 ltac:(lia)) as P31.
    (* the words of s + r and s + 2 r *)
    assert (TW : w32 (s1 + 2 ^ Z.of_nat n) = s1 + 2 ^ Z.of_nat n /\ exists s0' s1', 0 <= s1' < 2 ^ 32 /\ w32 (s1 + 2 ^ Z.of_nat n + 2 ^ Z.of_nat n) = s1' /\
      s0' * 2 ^ 32 + s1' = s0 * 2 ^ 32 + s1 + 2 * 2 ^ Z.of_nat n /\ (if (Z.land (s1 + 2 ^ Z.of_nat n) sgn =? sgn) && (Z.land s1' sgn =? 0) then s0 + 1 else s0) = s0' /\ s1 + 2 ^ Z.of_nat n < 2 ^ 32).
    { unfold w32. destruct (Z_le_gt_dec (Z.of_nat n) 30) as [L | G].
      - assert (E4 : 2 ^ 32 = 4 * 2 ^ Z.of_nat n * 2 ^ (30 - Z.of_nat n)). { change 4 with (2 ^ 2). rewrite <- !Z.pow_add_r by lia. f_equal. lia. }
        assert (S4 : s1 + 4 * 2 ^ Z.of_nat n <= 2 ^ 32).
        { assert (exists d, s1 = d * (4 * 2 ^ Z.of_nat n)) as [d Ed]. { exists ((2 * q - s0) * 2 ^ (30 - Z.of_nat n) + c). rewrite Ec in ES. rewrite Z.mul_add_distr_r. replace ((2 * q - s0) * 2 ^ (30 - Z.of_nat n) * (4 * 2 ^ Z.of_nat n)) with ((2 * q - s0) * 2 ^ 32) by (rewrite E4; ring). lia. }
          rewrite E4 in *. set (R := 2 ^ Z.of_nat n) in *. set (w := 2 ^ (30 - Z.of_nat n)) in *. clear - Ed Hs P. subst s1. assert (d < w) by nia. nia. }
        rewrite !Z.mod_small by lia. split; [reflexivity|]. exists s0, (s1 + 2 ^ Z.of_nat n + 2 ^ Z.of_nat n). split; [lia|]. split; [reflexivity|]. split; [ring|]. split; [|lia].
        rewrite !land_top by lia. change sgn with (2 ^ 31). destruct (Z.ltb_spec (s1 + 2 ^ Z.of_nat n) (2 ^ 31)); [reflexivity|]. destruct (Z.ltb_spec (s1 + 2 ^ Z.of_nat n + 2 ^ Z.of_nat n) (2 ^ 31)); [lia|]. reflexivity.
      - replace (Z.of_nat n) with 31 in * by lia. assert (q1 = 0) by nia. assert (s1 = 0). { assert (s1 = (2 * q - s0) * 2 ^ 32) by lia. assert (2 * q - s0 = 0) by lia. nia. }
        subst q1 s1. rewrite Z.add_0_l. split; [reflexivity|]. exists (s0 + 1), 0. split; [lia|]. split; [reflexivity|]. split; [lia|]. split; [reflexivity|lia]. }
    destruct TW as (-> & s0' & s1' & T1 & -> & T3 & -> & T5). set (R := 2 ^ Z.of_nat n) in *. destruct (Z.eqb_spec R 0); [lia|].
    assert (CMP : (s0 <? ix0) || ((s0 =? ix0) && (s1 + R <=? ix1)) = (2 * (q * 2 ^ 32 + q1) + R <=? ix0 * 2 ^ 32 + ix1)).
    { rewrite <- ES. destruct (Z.ltb_spec s0 ix0); cbn [orb]; [symmetry; apply Z.leb_le; lia|]. destruct (Z.eqb_spec s0 ix0); cbn [andb].
      - subst. destruct (Z.leb_spec (s1 + R) ix1); symmetry; [apply Z.leb_le|apply Z.leb_gt]; lia.
      - symmetry. apply Z.leb_gt. lia. }
    rewrite CMP. destruct (Z.leb_spec (2 * (q * 2 ^ 32 + q1) + R) (ix0 * 2 ^ 32 + ix1)) as [L | L].
    + assert (QW : w32 (q1 + R) = q1 + R) by (unfold w32; apply Z.mod_small; lia). rewrite QW.
      assert (XW : exists u v, (ix0 - s0 - (if ix1 <? s1 + R then 1 else 0)) = u /\ w32 (ix1 - (s1 + R)) = v /\ u * 2 ^ 32 + v = ix0 * 2 ^ 32 + ix1 - (2 * (q * 2 ^ 32 + q1) + R) /\ 0 <= v < 2 ^ 32).
      { unfold w32. rewrite <- ES. destruct (Z.ltb_spec ix1 (s1 + R)).
        - exists (ix0 - s0 - 1), (ix1 - (s1 + R) + 2 ^ 32). split; [reflexivity|]. split; [|lia]. rewrite <- (Z.mod_add _ 1) by lia. apply Z.mod_small. lia.
        - exists (ix0 - s0), (ix1 - (s1 + R)). split; [lia|]. split; [|lia]. apply Z.mod_small. lia. }
      destruct XW as (u & v & -> & -> & X1 & X2). destruct (twice_ok u v ltac:(lia) X2) as (a & b & -> & A1 & A2 & A3). cbn [bind].
      destruct (IH fuel C a b s0' s1' q (q1 + R)) as (a' & b' & d & G1 & G2 & G3); try lia.
      * rewrite A1, X1, Z.add_assoc. exact ST.
      * exists (2 * c + 1). rewrite Ec. ring.
      * exists a', b', d. split; [exact G1|]. split; [|exact G3]. rewrite A1, X1 in G2. rewrite <- G2. f_equal; ring.
    + destruct (twice_ok ix0 ix1 ltac:(lia) Hx) as (a & b & -> & A1 & A2 & A3). cbn [bind].
      destruct (IH fuel C a b s0 s1 q q1) as (a' & b' & d & G1 & G2 & G3); try lia.
      * rewrite A1. exact ST.
      * exists (2 * c). rewrite Ec. ring.
      * exists a', b', d. split; [exact G1|]. split; [|exact G3]. rewrite A1 in G2. exact G2.
Qed.

Lemma high_root : forall n fuel C ix0 ix1 q, (n < fuel)%nat -> inv C (Z.of_nat (n + 32)) (ix0 * 2 ^ 32 + ix1) (q * 2 ^ 32) -> 0 <= q -> 0 <= ix1 < 2 ^ 32 -> q + 2 ^ Z.of_nat n <= 2 ^ 26 ->
  exists a b d, high fuel (step n) ix0 ix1 (2 * q) q = Ok (a, b, 2 * d, d) /\ 0 <= b < 2 ^ 32 /\ inv C 32 (a * 2 ^ 32 + b) (d * 2 ^ 32) /\
    root (n + 32) (ix0 * 2 ^ 32 + ix1) (2 * (q * 2 ^ 32)) (q * 2 ^ 32) = root 32 (a * 2 ^ 32 + b) (2 * (d * 2 ^ 32)) (d * 2 ^ 32) /\ q <= d < q + 2 ^ Z.of_nat n.
Proof.
  induction n as [|n IH]; intros fuel C ix0 ix1 q Hf I Hq Hx Q26; (destruct fuel as [|fuel]; [lia|]).
  - exists ix0, ix1, q. change (2 ^ Z.of_nat 0) with 1 in *. split; [reflexivity|]. split; [auto|]. split; [exact I|]. split; [reflexivity|lia].
  - change (S n + 32)%nat with (S (n + 32)) in *. cbn [high]. remember (n + 32)%nat as n32 eqn:E32. rewrite (root_S n32). rewrite step_half. change (step (S n)) with (2 ^ Z.of_nat n).
    pose proof (inv_bound C (Z.of_nat (S n32)) _ _ ltac:(lia) I) as XB. replace (Z.of_nat (S n32)) with (Z.of_nat n32 + 1) in * by lia. pose proof (inv_step C (Z.of_nat n32) _ _ ltac:(lia) I) as ST.
    replace (Z.of_nat (S n)) with (Z.of_nat n + 1) in * by lia. rewrite Z.pow_add_r in XB, Q26 by lia. rewrite (Z.pow_add_r 2 (Z.of_nat n)) by lia. change (2 ^ 1) with 2 in *.
    assert (EP : 2 ^ Z.of_nat n32 = 2 ^ Z.of_nat n * 2 ^ 32) by (rewrite <- Z.pow_add_r by lia; f_equal; lia). rewrite EP in *. pose proof (pow_pos (Z.of_nat n) ltac:(lia)) as P. destruct I as (I1 & I2 & I3 & I4). clear I1 I2. set (R := 2 ^ Z.of_nat n) in *.
    destruct (Z.eqb_spec R 0); [lia|]. rewrite int32_ok by lia. cbn [bind].
    assert (CMP : (2 * q + R <=? ix0) = (2 * (q * 2 ^ 32) + R * 2 ^ 32 <=? ix0 * 2 ^ 32 + ix1)) by (destruct (Z.leb_spec (2 * q + R) ix0); symmetry; [apply Z.leb_le|apply Z.leb_gt]; lia).
    rewrite CMP. destruct (Z.leb_spec (2 * (q * 2 ^ 32) + R * 2 ^ 32) (ix0 * 2 ^ 32 + ix1)) as [L | L].
    + rewrite int32_ok by lia. cbn [bind]. destruct (twice_ok (ix0 - (2 * q + R)) ix1 ltac:(lia) Hx) as (a & b & -> & A1 & A2 & A3). cbn [bind].
      assert (A4 : a * 2 ^ 32 + b = 2 * (ix0 * 2 ^ 32 + ix1 - (2 * (q * 2 ^ 32) + R * 2 ^ 32))) by lia.
      destruct (IH fuel C a b (q + R)) as (a' & b' & d & G1 & G2 & G3 & G4 & G5); try lia.
      * rewrite A4. replace ((q + R) * 2 ^ 32) with (q * 2 ^ 32 + R * 2 ^ 32) by ring. exact ST.
      * exists a', b', d. replace (2 * q + R + R) with (2 * (q + R)) by ring. split; [exact G1|]. split; [exact G2|]. split; [exact G3|]. split; [|lia]. rewrite <- G4, A4. f_equal; ring.
    + cbn [bind]. destruct (twice_ok ix0 ix1 ltac:(lia) Hx) as (a & b & -> & A1 & A2 & A3). cbn [bind].
      destruct (IH fuel C a b q) as (a' & b' & d & G1 & G2 & G3 & G4 & G5); try lia.
      * rewrite A1. exact ST.
      * exists a', b', d. split; [exact G1|]. split; [exact G2|]. split; [exact G3|]. split; [|lia]. rewrite <- G4, A1. reflexivity.
Qed.

(** * Aligning *)
Lemma align_spec : forall p n ix i, 0 <= p <= 29 -> 0 < ix < 2 * 2 ^ p -> 2 ^ p <= ix * 2 ^ Z.of_nat n ->
  exists j, 0 <= j /\ (forall fuel, (n < fuel)%nat -> align fuel (2 ^ p) ix i = Ok (ix * 2 ^ j, i + j)) /\ 2 ^ p <= ix * 2 ^ j < 2 * 2 ^ p /\ (j = 0 <-> 2 ^ p <= ix).
Proof.
  intros p n. induction n as [|n IH]; intros ix i Hp Hi Hn.
  - change (2 ^ Z.of_nat 0) with 1 in Hn. exists 0. split; [lia|]. change (2 ^ 0) with 1. split; [|lia]. intros [|fuel] Hf; [lia|]. cbn [align]. rewrite land_bit by lia. destruct (Z.ltb_spec ix (2 ^ p)); [lia|]. destruct (Z.eqb_spec (2 ^ p) 0); [lia|]. f_equal. f_equal; lia.
  - pose proof (pow_le p 29 ltac:(lia)) as P29. destruct (Z.ltb_spec ix (2 ^ p)) as [L | G].
    + replace (Z.of_nat (S n)) with (Z.of_nat n + 1) in Hn by lia. rewrite Z.pow_add_r in Hn by lia. change (2 ^ 1) with 2 in Hn. destruct (IH (ix * 2) (i + 1) Hp ltac:(lia) ltac:(lia)) as (j & J1 & J2 & J3 & J4). exists (j + 1). split; [lia|].
      rewrite Z.pow_add_r by lia. change (2 ^ 1) with 2. split; [|lia]. intros [|fuel] Hf; [lia|]. cbn [align]. rewrite land_bit by lia. destruct (Z.ltb_spec ix (2 ^ p)); [|lia]. cbn [Z.eqb]. rewrite Z.shiftl_mul_pow2 by lia. change (2 ^ 1) with 2.
      change (2 ^ 29) with 536870912 in *. rewrite int32_ok by lia. cbn [bind]. rewrite J2 by lia. f_equal. f_equal; lia.
    + exists 0. split; [lia|]. change (2 ^ 0) with 1. split; [|lia]. intros [|fuel] Hf; [lia|]. cbn [align]. rewrite land_bit by lia. destruct (Z.ltb_spec ix (2 ^ p)); [lia|]. destruct (Z.eqb_spec (2 ^ p) 0); [lia|]. f_equal. f_equal; lia.
Qed.
Lemma hide_bit : forall p ix, 0 <= p -> Z.lor (Z.land ix (2 ^ p - 1)) (2 ^ p) = 2 ^ p + ix mod 2 ^ p.
Proof.
  intros p ix Hp. rewrite (land_mask binary64) by lia. pose proof (pow_pos p Hp). rewrite <- (Z.mul_1_l (2 ^ p)) at 2. rewrite lor_add by (auto; apply Z.mod_pos_bound; lia). lia.
Qed.
Lemma land_field : forall x p e, 0 <= p -> 0 <= e -> Z.land x ((2 ^ e - 1) * 2 ^ p) = (x / 2 ^ p) mod 2 ^ e * 2 ^ p.
Proof.
  intros x p e Hp He. rewrite <- Z.shiftl_mul_pow2 by lia. rewrite <- (Z.shiftl_mul_pow2 _ p) by lia. rewrite <- Z.shiftr_div_pow2 by lia. rewrite <- (land_mask binary64) by lia. rewrite Z.shiftl_land.
  apply Z.bits_inj'. intros n Hn. rewrite !Z.land_spec. destruct (Z_lt_ge_dec n p) as [L | G].
  - rewrite !(Z.shiftl_spec_low _ p n) by lia. rewrite !andb_false_r. reflexivity.
  - rewrite !(Z.shiftl_spec_high _ p n) by lia. rewrite Z.shiftr_spec by lia. do 2 f_equal. lia.
Qed.
Lemma land_signed : forall x m, 0 <= m < 2 ^ 32 -> Z.land (signed32 x) m = Z.land x m.
Proof.
  intros x m Hm. unfold signed32. destruct (x <? 2 ^ 31); [reflexivity|].
  assert (E : m = Z.land (2 ^ 32 - 1) m) by (rewrite Z.land_comm, (land_mask binary64), Z.mod_small by lia; reflexivity). rewrite E, !Z.land_assoc, !(land_mask binary64) by lia. f_equal.
  rewrite <- (Z.mod_add (x - 2 ^ 32) 1) by lia. f_equal. lia.
Qed.

(** * The nearest number *)
Lemma sq_le : forall a b, 0 <= a <= b -> a ^ 2 <= b ^ 2.
Proof. intros a b H. apply Z.pow_le_mono_l. lia. Qed.
Lemma sq_lt : forall a b, 0 <= a < b -> a ^ 2 < b ^ 2.
Proof. intros a b H. apply Z.pow_lt_mono_l; lia. Qed.
Lemma even_root : forall C Q M, Q ^ 2 <= C < (Q + 1) ^ 2 -> 0 < M -> 2 * M <= Q < 4 * M -> C mod 2 = 0 ->
  exists D, Q + (if C =? Q ^ 2 then 0 else Q mod 2) = 2 * D /\ M <= D <= 2 * M /\ C < (2 * D + 1) ^ 2 /\ (2 * D - 1) ^ 2 < C /\ (D = M -> (2 * D) ^ 2 <= C).
Proof.
  intros C Q M HC HM HQ Ev. pose proof (Z.div_mod Q 2 ltac:(lia)) as DM. pose proof (Z.mod_pos_bound Q 2 ltac:(lia)) as MB.
  assert (S1 : (Q - 1) ^ 2 < Q ^ 2) by (apply sq_lt; lia). destruct (Z.eqb_spec C (Q ^ 2)) as [EC | NC].
  - assert (E0 : Q mod 2 = 0). { destruct (Z.eq_dec (Q mod 2) 0); auto. exfalso. assert (E1 : Q mod 2 = 1) by lia. rewrite EC, Z.pow_2_r, Z.mul_mod in Ev by lia. rewrite E1 in Ev. discriminate Ev. }
    exists (Q / 2). assert (E : 2 * (Q / 2) = Q) by lia. rewrite E. split; [lia|]. split; [lia|]. split; [lia|]. split; [lia|]. intros _. lia.
  - destruct (Z.eq_dec (Q mod 2) 0) as [E0 | E1].
    + rewrite E0, Z.add_0_r. exists (Q / 2). assert (E : 2 * (Q / 2) = Q) by lia. rewrite E. split; [lia|]. split; [lia|]. split; [lia|]. split; [lia|]. intros _. lia.
    + assert (E2 : Q mod 2 = 1) by lia. rewrite E2. exists (Q / 2 + 1). assert (E : 2 * (Q / 2 + 1) = Q + 1) by lia. rewrite E. split; [lia|]. split; [lia|]. pose proof (sq_le (Q + 1) (Q + 1 + 1) ltac:(lia)). split; [lia|]. split; [replace (Q + 1 - 1) with Q by ring; lia|]. intros; lia.
Qed.
Lemma scaled_lt : forall C a P s, 0 <= a -> 0 < P -> C < a ^ 2 -> a * P <= s -> C * (P * P) < s ^ 2.
Proof.
  intros C a P s Ha HP H HS. pose proof (sq_le (a * P) s ltac:(nia)) as S. rewrite Z.pow_mul_l in S. assert (C * (P * P) < a ^ 2 * P ^ 2); [|lia]. rewrite (Z.pow_2_r P). apply Z.mul_lt_mono_pos_r; [nia|lia].
Qed.
Lemma scaled_gt : forall C a P s, 0 < P -> 0 <= s -> a ^ 2 < C -> s <= a * P -> s ^ 2 < C * (P * P).
Proof.
  intros C a P s HP Hs H HS. pose proof (sq_le s (a * P) ltac:(lia)) as S. rewrite Z.pow_mul_l in S. assert (a ^ 2 * P ^ 2 < C * (P * P)); [|lia]. rewrite (Z.pow_2_r P). apply Z.mul_lt_mono_pos_r; [nia|lia].
Qed.

Section Fmt.
Variable f : fmt.
Hypothesis F1 : 1 <= mb f.
Hypothesis F2 : 2 <= eb f.

Lemma root_nearest : forall x C Q k, mag f x * one f = C * 2 ^ (2 * k) -> 0 <= k -> Q ^ 2 <= C < (Q + 1) ^ 2 -> 2 ^ (mb f + 1) <= Q < 2 ^ (mb f + 2) -> C mod 2 = 0 -> 2 ^ (mb f + 1) * 2 ^ (k + 1) < top f ->
  nearest_root f x ((k + 1) * 2 ^ mb f + (Q + (if C =? Q ^ 2 then 0 else Q mod 2)) / 2).
Proof.
  intros x C Q k HM Hk HC HQ Ev HT. pose proof (pow_pos (mb f) ltac:(lia)) as PM. pose proof (pow_pos k Hk) as PK.
  rewrite (pow_S (mb f)) in * by lia. assert (P2 : 2 ^ (mb f + 2) = 4 * 2 ^ mb f) by (rewrite Z.pow_add_r by lia; change (2 ^ 2) with 4; ring). rewrite P2 in HQ. rewrite (pow_S k) in HT by lia.
  destruct (even_root C Q (2 ^ mb f) HC PM HQ Ev) as (D & ED & HD & C1 & C2 & C3). rewrite ED. rewrite (Z.mul_comm 2 D), Z.div_mul by lia. clear ED HC HQ Ev.
  assert (PK1 : 2 ^ (k + 1) = 2 * 2 ^ k) by (apply pow_S; lia).
  destruct (encode_le f F1 F2 D (k + 1)) as [R1 R2]; [rewrite pow_S by lia; lia|lia| |]. { rewrite PK1. assert (D * (2 * 2 ^ k) <= 2 * 2 ^ mb f * (2 * 2 ^ k)) by (apply Z.mul_le_mono_nonneg_r; lia). lia. }
  set (r := (k + 1) * 2 ^ mb f + D) in *. destruct (finite_sign f F1 F2 false r R1) as (G1 & G2 & G3 & _ & G5). cbn [with_sign] in *. split; [exact G1|]. split; [exact G2|]. split; [exact G3|].
  intros b Bb Fb. pose proof (mag_nonneg f F1 F2 b Bb) as V. destruct (finite_form f F1 F2 b Bb Fb) as (a & Ha & _ & EM). rewrite EM in *. rewrite R2, HM. rewrite PK1 in *. replace (2 * k) with (k + k) by lia. rewrite (Z.pow_add_r 2 k k) by lia.
  pose proof (grid f F1 F2 a (k + 1) Ha ltac:(lia)) as GR1. pose proof (grid f F1 F2 a k Ha ltac:(lia)) as GR2. rewrite (Z.pow_add_r 2 (mb f)), PK1 in GR1 by lia. rewrite (Z.pow_add_r 2 (mb f)) in GR2 by lia.
  set (P := 2 ^ k) in *. set (M := 2 ^ mb f) in *. set (v := mag f a) in *. clearbody P M v. clear - PM PK HD C1 C2 C3 GR1 GR2 V. replace (4 * (C * (P * P))) with (4 * C * (P * P)) by ring. split; intros L.
  - assert (M * (2 * P) <= D * (2 * P)) by (apply Z.mul_le_mono_nonneg_r; lia). destruct GR1 as [j ->]; [lia|]. assert (D < j) by (apply (Z.mul_lt_mono_pos_r (2 * P)); lia). assert ((D + 1) * (2 * P) <= j * (2 * P)) by (apply Z.mul_le_mono_nonneg_r; lia).
    apply scaled_lt with (a := 2 * (2 * D + 1)); [lia|lia| |lia]. rewrite Z.pow_mul_l. change (2 ^ 2) with 4. lia.
  - assert (T : D * (2 * P) + v <= 2 * (2 * D - 1) * P \/ (D = M /\ D * (2 * P) + v <= (4 * D - 1) * P)).
    { destruct (Z_le_gt_dec (M * (2 * P)) v) as [G | G].
      - destruct (GR1 G) as [j ->]. left. assert (j < D) by (apply (Z.mul_lt_mono_pos_r (2 * P)); lia). assert (j * (2 * P) <= (D - 1) * (2 * P)) by (apply Z.mul_le_mono_nonneg_r; lia). lia.
      - destruct (Z.eq_dec D M) as [EM | NM].
        + right. split; [exact EM|]. subst D. destruct (Z_le_gt_dec (M * P) v) as [G2 | G2].
          * destruct (GR2 G2) as [j ->]. assert (j < 2 * M) by (apply (Z.mul_lt_mono_pos_r P); lia). assert (j * P <= (2 * M - 1) * P) by (apply Z.mul_le_mono_nonneg_r; lia). lia.
          * assert (1 * P <= M * P) by (apply Z.mul_le_mono_nonneg_r; lia). lia.
        + left. assert (M * (2 * P) <= (D - 1) * (2 * P)) by (apply Z.mul_le_mono_nonneg_r; lia). lia. }
    assert (0 <= D * (2 * P)) by (apply Z.mul_nonneg_nonneg; lia). destruct T as [T | [E T]].
    + apply scaled_gt with (a := 2 * (2 * D - 1)); [lia|lia| |lia]. rewrite Z.pow_mul_l. change (2 ^ 2) with 4. lia.
    + apply scaled_gt with (a := 4 * D - 1); [lia|lia| |lia]. pose proof (sq_lt (4 * D - 1) (2 * (2 * D)) ltac:(lia)) as S. rewrite (Z.pow_mul_l 2) in S. change (2 ^ 2) with 4 in S. specialize (C3 E). lia.
Qed.

Notation bias := (2 ^ (eb f - 1) - 1).
Lemma root_core : forall x d E n, mb f + 6 <= bias -> Z.of_nat n = mb f + 2 -> 2 ^ mb f <= d < 2 ^ (mb f + 1) -> 0 <= E + (bias - 1 + mb f) -> E <= bias ->
  mag f x * 2 ^ mb f = d * 2 ^ (E + (bias - 1 + mb f)) ->
  inv (2 * (d * 2 ^ (E mod 2)) * 2 ^ (mb f + 1)) (mb f + 2) (2 * (d * 2 ^ (E mod 2))) 0 /\
  let '(X, Q) := root n (2 * (d * 2 ^ (E mod 2))) 0 0 in 0 <= X /\ 2 ^ (mb f + 1) <= Q < 2 ^ (mb f + 2) /\
  nearest_root f x ((E / 2 + (bias - 1)) * 2 ^ mb f + (Q + (if X =? 0 then 0 else Q mod 2)) / 2).
Proof.
  intros x d E n F5 Hn Hd HE HE2 HM. set (b := bias) in *. set (N := 2 * (d * 2 ^ (E mod 2))). set (C := N * 2 ^ (mb f + 1)). pose proof (pow_pos (mb f) ltac:(lia)) as PM.
  assert (PS : 2 ^ (mb f + 1) = 2 * 2 ^ mb f) by (apply pow_S; lia). assert (P2 : 2 ^ (mb f + 2) = 4 * 2 ^ mb f) by (rewrite Z.pow_add_r by lia; change (2 ^ 2) with 4; ring).
  pose proof (Z.div_mod E 2 ltac:(lia)) as DM. pose proof (Z.mod_pos_bound E 2 ltac:(lia)) as MB. assert (PB : 1 <= 2 ^ (E mod 2) <= 2). { destruct (Z.eq_dec (E mod 2) 0) as [-> | N0]; [cbn; lia|]. replace (E mod 2) with 1 by lia. cbn. lia. }
  assert (HN : 2 * 2 ^ mb f <= N < 8 * 2 ^ mb f) by (unfold N; nia).
  assert (I : inv C (mb f + 2) N 0). { unfold inv, C. rewrite P2, PS. split; [ring|]. split; [|unfold N; nia]. rewrite Z.add_0_l. rewrite Z.pow_2_r. nia. }
  split; [exact I|]. rewrite <- Hn in I. pose proof (root_spec n C N 0 I) as RS. change (2 * 0) with 0 in RS. destruct (root n N 0 0) as [X Q]. destruct RS as (R1 & R2 & R3 & R4). rewrite Z.add_0_l, Hn in R4. split; [exact R2|].
  assert (QL : 2 ^ (mb f + 1) <= Q). { assert ((2 ^ (mb f + 1)) ^ 2 <= C) by (unfold C; rewrite Z.pow_2_r; apply Z.mul_le_mono_nonneg_r; lia). destruct (Z_le_gt_dec (2 ^ (mb f + 1)) Q); [auto|]. pose proof (sq_le (Q + 1) (2 ^ (mb f + 1)) ltac:(lia)). lia. }
  split; [lia|]. replace (X =? 0) with (C =? Q ^ 2) by (destruct (Z.eqb_spec C (Q ^ 2)); destruct (Z.eqb_spec X 0); try reflexivity; lia).
  replace (E / 2 + (b - 1)) with (E / 2 + b - 2 + 1) by lia. apply root_nearest; auto; try lia.
  - (* the scale *)
    assert (O : one f = 2 ^ mb f * 2 ^ (b - 1)) by (rewrite <- Z.pow_add_r by lia; unfold one, b; f_equal; lia). rewrite O. rewrite Z.mul_assoc, HM. unfold C, N.
    transitivity (d * (2 ^ (E + (b - 1 + mb f)) * 2 ^ (b - 1))); [ring|]. transitivity (d * (2 ^ 1 * 2 ^ (E mod 2) * 2 ^ (mb f + 1) * 2 ^ (2 * (E / 2 + b - 2)))); [|change (2 ^ 1) with 2; ring].
    rewrite <- !Z.pow_add_r by lia. do 2 f_equal. lia.
  - rewrite <- Z.pow_add_r by lia. unfold top. apply pow_lt. assert (2 ^ eb f = 2 * 2 ^ (eb f - 1)) by (rewrite <- pow_S by lia; f_equal; lia). fold b in HE2. unfold b in *. lia.
Qed.
End Fmt.

Lemma land_1 : forall m, Z.land m 1 = m mod 2.
Proof. intros m. apply (land_mask binary64 m 1). lia. Qed.
Lemma shiftr_1 : forall m, Z.shiftr m 1 = m / 2.
Proof. intros m. apply Z.shiftr_div_pow2. lia. Qed.

(** * sqrtf *)
Lemma sqrtf_pos : forall fuel x, (40 <= fuel)%nat -> bits binary32 x -> finite binary32 x -> sign binary32 x = false -> value binary32 x <> 0 -> exists r, sqrtf fuel x = Ok r /\ nearest_root binary32 x r.
Proof.
  intros fuel x Hf B Fx S V. assert (F1 : 1 <= mb binary32) by (cbn; lia). assert (F2 : 2 <= eb binary32) by (cbn; lia).
  destruct (compose binary32 F1 F2 x B) as (He & Hm & X). rewrite S in X. cbn [with_sign] in X. unfold finite, special in Fx. apply Z.eqb_neq in Fx.
  assert (MX : mag binary32 x = if expo binary32 x =? 0 then frac binary32 x else (2 ^ 23 + frac binary32 x) * 2 ^ (expo binary32 x - 1)) by reflexivity.
  change (mb binary32) with 23 in *. change (eb binary32) with 8 in *. set (e := expo binary32 x) in *. set (g := frac binary32 x) in *. clearbody e g.
  assert (XP : 0 < x < 2 ^ 31). { split; [|lia]. assert (x <> 0); [|lia]. intros E0. apply V. unfold value. rewrite S, MX. destruct (Z.eqb_spec e 0); [|lia]. lia. }
  assert (XD : x / 2 ^ 23 = e) by (rewrite X, Z.div_add_l, Z.div_small by lia; lia). assert (XM : x mod 2 ^ 23 = g) by (rewrite X, Z.add_comm, Z.mod_add, Z.mod_small by lia; reflexivity).
  unfold sqrtf. rewrite land_signed by lia. change 0x7f800000 with ((2 ^ 8 - 1) * 2 ^ 23). rewrite land_field, XD, Z.mod_small by lia. destruct (Z.eqb_spec (e * 2 ^ 23) ((2 ^ 8 - 1) * 2 ^ 23)); [lia|].
  assert (SX : signed32 x = x) by (unfold signed32; destruct (Z.ltb_spec x (2 ^ 31)); [reflexivity|lia]). rewrite SX. destruct (Z.leb_spec x 0); [lia|]. cbn [andb]. destruct (Z.ltb_spec x 0); [lia|].
  rewrite Z.shiftr_div_pow2, XD by lia.
  assert (P : exists ix m, (if e =? 0 then (' (ix, i) <- align fuel 0x800000 x 0 ;; Ok (ix, e - (i - 1))) else Ok (x, e)) = Ok (ix, m) /\
    (let d := 2 ^ 23 + ix mod 2 ^ 23 in 2 ^ 23 <= d < 2 ^ 24 /\ 0 <= m - 127 + 149 /\ m - 127 <= 127 /\ mag binary32 x * 2 ^ 23 = d * 2 ^ (m - 127 + 149))).
  { destruct (Z.eqb_spec e 0) as [E0 | NE].
    - change 0x800000 with (2 ^ 23). destruct (align_spec 23 23 x 0 ltac:(lia) ltac:(lia)) as (j & J1 & J2 & J3 & J4). { change (Z.of_nat 23) with 23. lia. }
      rewrite J2 by lia. cbn [bind]. exists (x * 2 ^ j), (e - (0 + j - 1)). split; [reflexivity|]. assert (J23 : j <= 23). { destruct (Z_le_gt_dec j 23); [auto|]. pose proof (pow_le 24 j ltac:(lia)) as PL. change (2 ^ 24) with (2 * 2 ^ 23) in PL. nia. }
      replace (x * 2 ^ j) with (x * 2 ^ j - 2 ^ 23 + 1 * 2 ^ 23) by ring. rewrite Z.mod_add, Z.mod_small by lia. cbv zeta. change (2 ^ 24) with (2 * 2 ^ 23). split; [lia|]. split; [lia|]. split; [lia|].
      rewrite MX. replace g with x by lia. replace (2 ^ 23 + (x * 2 ^ j - 2 ^ 23)) with (x * 2 ^ j) by ring. rewrite <- Z.mul_assoc, <- Z.pow_add_r by lia. do 2 f_equal. lia.
    - exists x, e. split; [reflexivity|]. cbv zeta. rewrite XM. split; [lia|]. split; [lia|]. split; [lia|]. rewrite MX, <- Z.mul_assoc, <- Z.pow_add_r by lia. do 2 f_equal. lia. }
  destruct P as (ix & m & -> & P1 & P2 & P3 & P4). cbn [bind]. change 0x7fffff with (2 ^ 23 - 1). change 0x800000 with (2 ^ 23). rewrite hide_bit by lia. set (d := 2 ^ 23 + ix mod 2 ^ 23) in *. clearbody d. set (E := m - 127) in *.
  rewrite land_1, !shiftr_1.
  destruct (root_core binary32 F1 F2 x d E 25 ltac:(cbn; lia) eq_refl P1 P2 P3 P4) as [I RC].
  pose proof (Z.mod_pos_bound E 2 ltac:(lia)) as MB.
  assert (Q : (if E mod 2 =? 0 then Ok d else int32 (d + d)) = Ok (d * 2 ^ (E mod 2)) /\ d * 2 ^ (E mod 2) < 2 ^ 25). { destruct (Z.eqb_spec (E mod 2) 0) as [-> | NE]; [change (2 ^ 0) with 1; rewrite Z.mul_1_r; split; [reflexivity|lia]|]. replace (E mod 2) with 1 by lia. change (2 ^ 1) with 2. rewrite int32_ok by lia. split; [f_equal; ring|lia]. }
  destruct Q as [-> QB]. cbn [bind]. set (N1 := d * 2 ^ (E mod 2)) in *. assert (0 <= N1) by (destruct I as (_ & _ & I3 & _); lia). rewrite int32_ok by lia. cbn [bind]. replace (N1 + N1) with (2 * N1) by ring.
  pose proof (loopf_root 25 fuel _ (2 * N1) 0 ltac:(lia) I ltac:(cbn; lia)) as LR. change (step 25) with 0x1000000 in LR. change (2 * 0) with 0 in LR. rewrite LR. clear LR. destruct (root 25 (2 * N1) 0 0) as [R q]. destruct RC as (RC1 & RC2 & RC3). cbn [bind].
  assert (A1 : flt binary32 (fsub binary32 onef tinyf) onef = false) by (vm_compute; reflexivity). assert (A2 : flt binary32 onef (fadd binary32 onef tinyf) = false) by (vm_compute; reflexivity). rewrite A1, A2. cbn [negb]. rewrite land_1.
  set (q' := if R =? 0 then q else q + q mod 2). assert (EQ : q' = q + (if R =? 0 then 0 else q mod 2)) by (unfold q'; destruct (R =? 0); lia).
  change (mb binary32) with 23 in RC3. change (2 ^ (eb binary32 - 1) - 1 - 1) with 126 in RC3. rewrite <- EQ in RC3. replace ((E / 2 + 126) * 2 ^ 23 + q' / 2) with (Z.shiftr q' 1 + 0x3f000000 + E / 2 * 2 ^ 23) in RC3 by (rewrite shiftr_1; change 0x3f000000 with (126 * 2 ^ 23); ring).
  eexists. split; [|exact RC3]. apply int32_ok. destruct RC3 as ((B1 & B2) & _ & S3 & _).
  pose proof (compose binary32 F1 F2 _ (conj B1 B2)) as (K1 & K2 & K3). rewrite S3 in K3. cbn [with_sign] in K3. change (mb binary32) with 23 in *. change (eb binary32) with 8 in *. lia.
Qed.

(** * sqrt *)
Lemma fill_step : forall b, 0 <= b < 2 ^ 32 -> Z.lor 0 (Z.shiftr b 11) * 2 ^ 32 + w32 (Z.shiftl b 21) = b * 2 ^ 21 /\ 0 <= Z.lor 0 (Z.shiftr b 11) < 2 ^ 21 /\ 0 <= w32 (Z.shiftl b 21) < 2 ^ 32 /\ Z.lor 0 (Z.shiftr b 11) = b / 2 ^ 11.
Proof.
  intros b Hb. rewrite Z.lor_0_l, Z.shiftr_div_pow2, Z.shiftl_mul_pow2 by lia. unfold w32. pose proof (Z.div_mod b (2 ^ 11) ltac:(lia)) as DM. pose proof (Z.mod_pos_bound b (2 ^ 11) ltac:(lia)) as MB.
  assert (E : (b * 2 ^ 21) mod 2 ^ 32 = b mod 2 ^ 11 * 2 ^ 21). { rewrite DM at 1. replace ((2 ^ 11 * (b / 2 ^ 11) + b mod 2 ^ 11) * 2 ^ 21) with (b mod 2 ^ 11 * 2 ^ 21 + b / 2 ^ 11 * 2 ^ 32) by ring. rewrite Z.mod_add, Z.mod_small by lia. reflexivity. }
  rewrite E. lia.
Qed.
Lemma fill_spec : forall fuel M, (4 <= fuel)%nat -> 0 < M < 2 ^ 52 ->
  exists k a b, 0 <= k <= 42 /\ fill fuel 0 (M / 2 ^ 32) (M mod 2 ^ 32) = Ok (- k, a, b) /\ a * 2 ^ 32 + b = M * 2 ^ k /\ 0 < a < 2 ^ 21 /\ 0 <= b < 2 ^ 32 /\ (2 ^ 20 <= a <-> 2 ^ 31 <= M < 2 ^ 32 \/ 2 ^ 10 <= M < 2 ^ 11).
Proof.
  intros fuel M Hf HM. destruct fuel as [|[|[|[|fuel]]]]; try lia. cbn [fill]. pose proof (Z.div_mod M (2 ^ 32) ltac:(lia)) as DM. pose proof (Z.mod_pos_bound M (2 ^ 32) ltac:(lia)) as MB. destruct (Z.eqb_spec (M / 2 ^ 32) 0) as [E0 | N0].
  - assert (EM : M mod 2 ^ 32 = M) by lia. rewrite E0, EM in *. destruct (fill_step M ltac:(lia)) as (A1 & A2 & A3 & A4). set (a := Z.lor 0 (Z.shiftr M 11)) in *. set (b := w32 (Z.shiftl M 21)) in *. pose proof (Z.div_mod M (2 ^ 11) ltac:(lia)) as D11. pose proof (Z.mod_pos_bound M (2 ^ 11) ltac:(lia)) as M11. rewrite <- A4 in D11. clearbody a b. destruct (Z.eqb_spec a 0) as [E1 | N1].
    + subst a. rewrite E1. destruct (fill_step b ltac:(lia)) as (B1 & B2 & B3 & B4). set (a' := Z.lor 0 (Z.shiftr b 11)) in *. set (b' := w32 (Z.shiftl b 21)) in *. pose proof (Z.div_mod b (2 ^ 11) ltac:(lia)) as E11. pose proof (Z.mod_pos_bound b (2 ^ 11) ltac:(lia)) as N11. rewrite <- B4 in E11. clearbody a' b'.
      destruct (Z.eqb_spec a' 0); [lia|]. exists 42, a', b'. change (2 ^ 42) with (2 ^ 21 * 2 ^ 21). split; [lia|]. split; [reflexivity|]. split; [lia|]. split; [lia|]. split; [lia|]. lia.
    + exists 21, a, b. split; [lia|]. split; [reflexivity|]. split; [lia|]. split; [lia|]. split; [lia|]. lia.
  - exists 0, (M / 2 ^ 32), (M mod 2 ^ 32). split; [lia|]. split; [reflexivity|]. change (2 ^ 0) with 1. split; [lia|]. split; [lia|]. split; [lia|]. lia.
Qed.
Lemma shift_words : forall a b i, 0 < i < 32 -> 0 <= b < 2 ^ 32 -> exists v u, shr32 b (32 - i) = Ok v /\ shl32 b i = Ok u /\ Z.lor (a * 2 ^ i) v = a * 2 ^ i + v /\ (a * 2 ^ i + v) * 2 ^ 32 + u = (a * 2 ^ 32 + b) * 2 ^ i /\ 0 <= u < 2 ^ 32 /\ 0 <= v < 2 ^ i.
Proof.
  intros a b i Hi Hb. unfold shr32, shl32, w32. destruct (Z.leb_spec 0 (32 - i)); [|lia]. destruct (Z.ltb_spec (32 - i) 32); [|lia]. destruct (Z.leb_spec 0 i); [|lia]. destruct (Z.ltb_spec i 32); [|lia]. cbn [andb].
  rewrite Z.shiftr_div_pow2, Z.shiftl_mul_pow2 by lia. pose proof (pow_pos i ltac:(lia)) as PI. pose proof (pow_pos (32 - i) ltac:(lia)) as PJ. assert (PE : 2 ^ 32 = 2 ^ (32 - i) * 2 ^ i) by (rewrite <- Z.pow_add_r by lia; f_equal; lia).
  pose proof (Z.div_mod b (2 ^ (32 - i)) ltac:(lia)) as DM. pose proof (Z.mod_pos_bound b (2 ^ (32 - i)) ltac:(lia)) as MB. set (v := b / 2 ^ (32 - i)) in *. set (r := b mod 2 ^ (32 - i)) in *.
  assert (E : (b * 2 ^ i) mod 2 ^ 32 = r * 2 ^ i). { rewrite DM. replace ((2 ^ (32 - i) * v + r) * 2 ^ i) with (r * 2 ^ i + v * 2 ^ 32) by (rewrite PE; ring). rewrite Z.mod_add by lia. apply Z.mod_small. rewrite PE. split; [nia|]. apply Z.mul_lt_mono_pos_r; lia. }
  assert (V : 0 <= v < 2 ^ i). { unfold v. split; [apply Z.div_pos; lia|]. apply Z.div_lt_upper_bound; lia. }
  exists v, (r * 2 ^ i). split; [reflexivity|]. split; [f_equal; exact E|]. split; [rewrite Z.lor_comm, lor_add by lia; ring|]. split; [rewrite DM; replace (2 ^ 32) with (2 ^ (32 - i) * 2 ^ i) by lia; ring|]. split; [|exact V]. rewrite PE. split; [nia|]. apply Z.mul_lt_mono_pos_r; lia.
Qed.

(** the part up to the normalized fraction *)
Definition prepare (fuel : nat) (m ix0 ix1 : Z) : res (Z * Z * Z) :=
  if m =? 0 then
    ' (m, ix0, ix1) <- fill fuel m ix0 ix1 ;; ' (ix0, i) <- align fuel 0x100000 ix0 0 ;; let m := m - (i - 1) in v <- shr32 ix1 (32 - i) ;; u <- shl32 ix1 i ;; Ok (m, Z.lor ix0 v, u)
  else Ok (m, ix0, ix1).
Definition bad_shift (M : Z) : Prop := 2 ^ 31 <= M < 2 ^ 32 \/ 2 ^ 10 <= M < 2 ^ 11.
Lemma prepare_subnormal : forall fuel M, (40 <= fuel)%nat -> 0 < M < 2 ^ 52 ->
  (bad_shift M -> prepare fuel 0 (M / 2 ^ 32) (M mod 2 ^ 32) = UB) /\
  (~ bad_shift M -> exists j ix0 ix1, prepare fuel 0 (M / 2 ^ 32) (M mod 2 ^ 32) = Ok (1 - j, ix0, ix1) /\ ix0 * 2 ^ 32 + ix1 = M * 2 ^ j /\ 0 <= j /\ 2 ^ 20 <= ix0 < 2 ^ 21 /\ 0 <= ix1 < 2 ^ 32).
Proof.
  intros fuel M Hf HM. unfold prepare. cbn [Z.eqb]. destruct (fill_spec fuel M ltac:(lia) HM) as (k & a & b & K1 & -> & K2 & K3 & K4 & K5). cbn [bind]. change 0x100000 with (2 ^ 20).
  destruct (align_spec 20 20 a 0 ltac:(lia) ltac:(lia)) as (i & I1 & I2 & I3 & I4). { change (Z.of_nat 20) with 20. lia. } rewrite I2 by lia. cbn [bind]. rewrite Z.add_0_l. split.
  - intros Hb. apply K5 in Hb. apply I4 in Hb. subst i. unfold shr32. reflexivity.
  - intros Hb. assert (i <> 0) by (intros E; apply I4, K5 in E; auto). assert (I20 : i <= 20). { destruct (Z_le_gt_dec i 20); [auto|]. pose proof (pow_le 21 i ltac:(lia)) as PL. change (2 ^ 21) with (2 * 2 ^ 20) in PL. assert (1 * 2 ^ i <= a * 2 ^ i) by (apply Z.mul_le_mono_nonneg_r; lia). lia. }
    destruct (shift_words a b i ltac:(lia) K4) as (v & u & E1 & E2 & E3 & W1 & W2 & W3). cbv zeta. rewrite E1, E2. cbn [bind]. rewrite E3. exists (k + i), (a * 2 ^ i + v), u. split; [f_equal; f_equal; f_equal; lia|]. split; [rewrite W1, K2, Z.pow_add_r by lia; ring|]. split; [lia|]. split; [|exact W2].
    split; [lia|]. assert (E : exists h, 2 ^ 21 = h * 2 ^ i). { exists (2 ^ (21 - i)). rewrite <- Z.pow_add_r by lia. f_equal. lia. } destruct E as [h E]. change (2 * 2 ^ 20) with (2 ^ 21) in I3. rewrite E in *. assert (a < h) by (apply (Z.mul_lt_mono_pos_r (2 ^ i)); lia). assert ((a + 1) * 2 ^ i <= h * 2 ^ i) by (apply Z.mul_le_mono_nonneg_r; lia). lia.
Qed.

Lemma tail_words : forall q q1 R, 0 <= q -> 0 <= q1 < 2 ^ 32 -> exists a b,
  (if R =? 0 then (q, q1) else if q1 =? 0xffffffff then (q + 1, 0) else (q, w32 (q1 + Z.land q1 1))) = (a, b) /\ 0 <= b < 2 ^ 32 /\ a * 2 ^ 32 + b = q * 2 ^ 32 + q1 + (if R =? 0 then 0 else (q * 2 ^ 32 + q1) mod 2).
Proof.
  intros q q1 R Hq Hq1. destruct (R =? 0); [exists q, q1; split; [reflexivity|]; lia|].
  assert (EM : (q * 2 ^ 32 + q1) mod 2 = q1 mod 2) by (replace (q * 2 ^ 32 + q1) with (q1 + q * 2 ^ 31 * 2) by ring; apply Z.mod_add; lia). rewrite EM, land_1. pose proof (Z.mod_pos_bound q1 2 ltac:(lia)). destruct (Z.eqb_spec q1 0xffffffff) as [E | N].
  - exists (q + 1), 0. split; [reflexivity|]. split; [lia|]. rewrite E. change (0xffffffff mod 2) with 1. lia.
  - exists q, (q1 + q1 mod 2). unfold w32. rewrite Z.mod_small by lia. split; [reflexivity|]. lia.
Qed.
Lemma pack_words : forall q q1 h, 0 <= q1 < 2 ^ 32 ->
  (Z.shiftr q 1 + h) * 2 ^ 32 + (if Z.land q 1 =? 0 then Z.shiftr q1 1 else Z.lor (Z.shiftr q1 1) sgn) = (q * 2 ^ 32 + q1) / 2 + h * 2 ^ 32.
Proof.
  intros q q1 h H. rewrite land_1, !shiftr_1. pose proof (Z.div_mod q 2 ltac:(lia)) as D. pose proof (Z.mod_pos_bound q 2 ltac:(lia)) as B. pose proof (Z.div_mod q1 2 ltac:(lia)) as D1. pose proof (Z.mod_pos_bound q1 2 ltac:(lia)) as B1.
  assert (E : (q * 2 ^ 32 + q1) / 2 = q * 2 ^ 31 + q1 / 2) by (symmetry; apply Z.div_unique with (q1 mod 2); lia). rewrite E. destruct (Z.eqb_spec (q mod 2) 0).
  - lia.
  - change sgn with (1 * 2 ^ 31). rewrite lor_add by lia. lia.
Qed.

Definition sqrt_tail (fuel : nat) (m ix0 ix1 : Z) : res Z :=
  let m := m - 1023 in
  let ix0 := Z.lor (Z.land ix0 0xfffff) 0x100000 in
  ' (ix0, ix1) <- (if Z.land m 1 =? 0 then Ok (ix0, ix1) else twice ix0 ix1) ;;
  let m := Z.shiftr m 1 in
  ' (ix0, ix1) <- twice ix0 ix1 ;;
  ' (ix0, ix1, s0, q) <- high fuel 0x200000 ix0 ix1 0 0 ;;
  ' (ix0, ix1, q1) <- low fuel sgn ix0 ix1 s0 0 0 ;;
  let '(q, q1) :=
    if Z.lor ix0 ix1 =? 0 then (q, q1)
    else if negb (flt binary64 (fsub binary64 oned tinyd) oned) then
      (if q1 =? 0xffffffff then (q + 1, 0)
       else if flt binary64 oned (fadd binary64 oned tinyd) then ((if q1 =? 0xfffffffe then q + 1 else q), w32 (q1 + 2))
       else (q, w32 (q1 + Z.land q1 1)))
    else (q, q1) in
  ix0 <- int32 (Z.shiftr q 1 + 0x3fe00000 + m * 2 ^ 20) ;;
  let ix1 := if Z.land q 1 =? 0 then Z.shiftr q1 1 else Z.lor (Z.shiftr q1 1) sgn in
  Ok (ix0 * 2 ^ 32 + ix1).
Lemma sqrt_tail_ok : forall fuel x m ix0 ix1 d, (40 <= fuel)%nat -> 0 <= ix1 < 2 ^ 32 -> d = (2 ^ 20 + ix0 mod 2 ^ 20) * 2 ^ 32 + ix1 -> 0 <= m - 1023 + 1074 -> m - 1023 <= 1023 ->
  mag binary64 x * 2 ^ 52 = d * 2 ^ (m - 1023 + 1074) -> exists r, sqrt_tail fuel m ix0 ix1 = Ok r /\ nearest_root binary64 x r.
Proof.
  intros fuel x m ix0 ix1 d Hf Hx Hd P2 P3 P4. assert (F1 : 1 <= mb binary64) by (cbn; lia). assert (F2 : 2 <= eb binary64) by (cbn; lia).
  unfold sqrt_tail. change 0xfffff with (2 ^ 20 - 1). change 0x100000 with (2 ^ 20). rewrite hide_bit by lia. pose proof (Z.mod_pos_bound ix0 (2 ^ 20) ltac:(lia)) as XB. set (a := 2 ^ 20 + ix0 mod 2 ^ 20) in *. set (E := m - 1023) in *.
  assert (P1 : 2 ^ 52 <= d < 2 ^ 53) by lia.
  destruct (root_core binary64 F1 F2 x d E 54 ltac:(cbn; lia) eq_refl P1 P2 P3 P4) as [I RC]. rewrite land_1, shiftr_1. pose proof (Z.mod_pos_bound E 2 ltac:(lia)) as MB.
  assert (T : exists a' b', (if E mod 2 =? 0 then Ok (a, ix1) else twice a ix1) = Ok (a', b') /\ a' * 2 ^ 32 + b' = d * 2 ^ (E mod 2) /\ 0 <= a' < 2 ^ 29 /\ 0 <= b' < 2 ^ 32).
  { destruct (Z.eqb_spec (E mod 2) 0) as [-> | NE].
    - exists a, ix1. split; [reflexivity|]. change (2 ^ 0) with 1. lia.
    - replace (E mod 2) with 1 by lia. destruct (twice_ok a ix1 ltac:(lia) Hx) as (a' & b' & -> & T1 & T2 & T3). exists a', b'. split; [reflexivity|]. change (2 ^ 1) with 2. lia. }
  destruct T as (a' & b' & -> & T1 & T2 & T3). cbn [bind]. destruct (twice_ok a' b' T2 T3) as (u & v & -> & U1 & U2 & U3). cbn [bind]. rewrite T1 in U1. rewrite <- U1 in I, RC. set (C := (u * 2 ^ 32 + v) * 2 ^ (mb binary64 + 1)) in *. clearbody C.
  destruct (high_root 22 fuel C u v 0 ltac:(lia)) as (a2 & b2 & q & G1 & G2 & G3 & G4 & G5); [exact I|lia|lia|cbn; lia|]. change (2 * 0) with 0 in G1. change (step 22) with 0x200000 in G1. rewrite G1. cbn [bind].
  change (2 ^ Z.of_nat 22) with 4194304 in G5.
  destruct (low_root 32 fuel C a2 b2 (2 * q) 0 q 0 ltac:(lia) ltac:(lia)) as (a3 & b3 & q1 & L1 & L2 & L3 & L4 & L5); [rewrite Z.add_0_r; exact G3|lia|lia|lia|lia|lia|cbn; lia|exists 0; reflexivity|lia|].
  change (step 32) with sgn in L1. rewrite L1. cbn [bind]. rewrite Z.add_0_r in L2. rewrite <- G4 in L2. change (22 + 32)%nat with 54%nat in L2. change (2 * (0 * 2 ^ 32)) with 0 in L2. change (0 * 2 ^ 32) with 0 in L2. rewrite L2 in RC. destruct RC as (RC1 & RC2 & RC3). clear G1 G3 G4 L1 L2 I P4.
  assert (A1 : flt binary64 (fsub binary64 oned tinyd) oned = false) by (vm_compute; reflexivity). assert (A2 : flt binary64 oned (fadd binary64 oned tinyd) = false) by (vm_compute; reflexivity). rewrite A1, A2. clear A1 A2. cbn [negb].
  assert (ZE : (Z.lor a3 b3 =? 0) = (a3 * 2 ^ 32 + b3 =? 0)). { destruct (Z.eqb_spec (a3 * 2 ^ 32 + b3) 0) as [E0 | N0]; [apply Z.eqb_eq, Z.lor_eq_0_iff; lia|]. apply Z.eqb_neq. intros Z0. apply Z.lor_eq_0_iff in Z0. lia. }
  rewrite ZE. destruct (tail_words q q1 (a3 * 2 ^ 32 + b3) ltac:(lia) L5) as (q' & q1' & -> & W1 & W2). rewrite <- W2 in RC3.
  change (mb binary64) with 52 in RC3. change (2 ^ (eb binary64 - 1) - 1 - 1) with 1022 in RC3.
  pose proof (pack_words q' q1' (0x3fe00000 + E / 2 * 2 ^ 20) W1) as PW. rewrite Z.add_assoc in PW.
  assert (EW : (q' * 2 ^ 32 + q1') / 2 + (0x3fe00000 + E / 2 * 2 ^ 20) * 2 ^ 32 = (E / 2 + 1022) * 2 ^ 52 + (q' * 2 ^ 32 + q1') / 2) by (change 0x3fe00000 with (1022 * 2 ^ 20); ring). rewrite EW in PW. rewrite <- PW in RC3.
  set (h := Z.shiftr q' 1 + 0x3fe00000 + E / 2 * 2 ^ 20) in *. set (l := if Z.land q' 1 =? 0 then Z.shiftr q1' 1 else Z.lor (Z.shiftr q1' 1) sgn) in *.
  assert (HL : 0 <= l < 2 ^ 32). { unfold l. rewrite shiftr_1. pose proof (Z.div_mod q1' 2 ltac:(lia)) as D1. pose proof (Z.mod_pos_bound q1' 2 ltac:(lia)) as B1. destruct (Z.land q' 1 =? 0); [lia|]. change sgn with (1 * 2 ^ 31). rewrite lor_add by lia. lia. }
  clearbody h l. eexists. split; [|exact RC3]. rewrite int32_ok; [reflexivity|]. destruct RC3 as ((B1 & B2) & _ & S3 & _).
  pose proof (compose binary64 F1 F2 _ (conj B1 B2)) as (K1 & K2 & K3). rewrite S3 in K3. cbn [with_sign] in K3. change (mb binary64) with 52 in *. change (eb binary64) with 11 in *. lia.
Qed.

Lemma sqrt_pos : forall fuel x, (40 <= fuel)%nat -> bits binary64 x -> finite binary64 x -> sign binary64 x = false -> value binary64 x <> 0 ->
  (bad_shift (mag binary64 x) -> sqrt fuel x = UB) /\ (~ bad_shift (mag binary64 x) -> exists r, sqrt fuel x = Ok r /\ nearest_root binary64 x r).
Proof.
  intros fuel x Hf B Fx S V. assert (F1 : 1 <= mb binary64) by (cbn; lia). assert (F2 : 2 <= eb binary64) by (cbn; lia).
  destruct (compose binary64 F1 F2 x B) as (He & Hm & X). rewrite S in X. cbn [with_sign] in X. unfold finite, special in Fx. apply Z.eqb_neq in Fx.
  assert (MX : mag binary64 x = if expo binary64 x =? 0 then frac binary64 x else (2 ^ 52 + frac binary64 x) * 2 ^ (expo binary64 x - 1)) by reflexivity.
  change (mb binary64) with 52 in *. change (eb binary64) with 11 in *. set (e := expo binary64 x) in *. set (g := frac binary64 x) in *. clearbody e g.
  assert (XP : 0 < x < 2 ^ 63). { split; [|lia]. assert (x <> 0); [|lia]. intros E0. apply V. unfold value. rewrite S, MX. destruct (Z.eqb_spec e 0); [|lia]. lia. }
  set (hi := Z.shiftr x 32). assert (HE : hi = x / 2 ^ 32) by (apply Z.shiftr_div_pow2; lia). set (lo := w32 x). assert (XW : x = hi * 2 ^ 32 + lo /\ 0 <= lo < 2 ^ 32). { rewrite HE. unfold lo, w32. pose proof (Z.div_mod x (2 ^ 32) ltac:(lia)). pose proof (Z.mod_pos_bound x (2 ^ 32) ltac:(lia)). lia. }
  destruct XW as [XW XL]. assert (HH : 0 <= hi < 2 ^ 31) by lia. assert (HD : hi / 2 ^ 20 = e) by (symmetry; apply Z.div_unique with (hi - e * 2 ^ 20); lia). assert (HMo : hi mod 2 ^ 20 * 2 ^ 32 + lo = g). { pose proof (Z.div_mod hi (2 ^ 20) ltac:(lia)). lia. }
  assert (EQ : sqrt fuel x = (' (m, a, b) <- prepare fuel e hi lo ;; sqrt_tail fuel m a b)).
  { unfold sqrt. fold hi lo. rewrite !land_signed by lia. change 0x7ff00000 with ((2 ^ 11 - 1) * 2 ^ 20). rewrite land_field, HD, Z.mod_small by lia. destruct (Z.eqb_spec (e * 2 ^ 20) ((2 ^ 11 - 1) * 2 ^ 20)); [lia|].
    assert (SX : signed32 hi = hi) by (unfold signed32; destruct (Z.ltb_spec hi (2 ^ 31)); [reflexivity|lia]). rewrite SX.
    assert (Z0 : (hi <=? 0) && (Z.lor (Z.land hi 0x7fffffff) lo =? 0) = false). { destruct (Z.leb_spec hi 0); [|reflexivity]. cbn [andb]. apply Z.eqb_neq. intros L. apply Z.lor_eq_0_iff in L. lia. }
    rewrite Z0. destruct (Z.ltb_spec hi 0); [lia|]. rewrite (Z.shiftr_div_pow2 hi 20), HD by lia. reflexivity. }
  rewrite EQ. clear EQ. destruct (Z.eqb_spec e 0) as [E0 | NE].
  - assert (XM : mag binary64 x = x) by lia. rewrite XM. subst e. assert (XS : 0 < x < 2 ^ 52) by lia. destruct (prepare_subnormal fuel x Hf XS) as [B1 B2]. assert (LO : lo = x mod 2 ^ 32) by reflexivity. rewrite E0, HE, LO. split.
    + intros Hb. rewrite B1 by auto. reflexivity.
    + intros Hb. destruct (B2 Hb) as (j & a & b & -> & J1 & J2 & J3 & J4). cbn [bind]. assert (J52 : j <= 52). { destruct (Z_le_gt_dec j 52); [auto|]. pose proof (pow_le 53 j ltac:(lia)) as PL. assert (1 * 2 ^ j <= x * 2 ^ j) by (apply Z.mul_le_mono_nonneg_r; lia). lia. }
      apply sqrt_tail_ok with (d := x * 2 ^ j); auto; try lia.
      rewrite XM, <- Z.mul_assoc, <- Z.pow_add_r by lia. do 2 f_equal. lia.
  - assert (MB : 2 ^ 52 <= mag binary64 x). { rewrite MX. pose proof (pow_pos (e - 1) ltac:(lia)). nia. } split; [unfold bad_shift; lia|]. intros _. unfold prepare. destruct (Z.eqb_spec e 0); [lia|]. cbn [bind].
    apply sqrt_tail_ok with (d := 2 ^ 52 + g); auto; try lia. rewrite MX, <- Z.mul_assoc, <- Z.pow_add_r by lia. do 2 f_equal. lia.
Qed.

(** * Zeros, negative numbers, infinities and NaNs *)
Lemma zero_form : forall f, 1 <= mb f -> 2 <= eb f -> forall x, bits f x -> value f x = 0 -> x = with_sign f (sign f x) 0.
Proof.
  intros f F1 F2 x B V. destruct (compose f F1 F2 x B) as (H1 & H2 & H3). assert (M : mag f x = 0) by (unfold value in V; destruct (sign f x); lia). unfold mag in M. pose proof (pow_pos (mb f) ltac:(lia)). destruct (Z.eqb_spec (expo f x) 0) as [E | N].
  - rewrite E, M in H3. exact H3.
  - pose proof (pow_pos (expo f x - 1) ltac:(lia)). nia.
Qed.
Lemma infinite_form : forall f, 1 <= mb f -> 2 <= eb f -> forall x, bits f x -> inf f x = true -> x = with_sign f (sign f x) (infinity f).
Proof.
  intros f F1 F2 x B I. unfold inf, special in I. apply andb_true_iff in I. destruct I as [I1 I2]. apply Z.eqb_eq in I1. apply Z.eqb_eq in I2. destruct (compose f F1 F2 x B) as (_ & _ & E). rewrite I1, I2, Z.add_0_r in E. exact E.
Qed.
Lemma add_nan : forall f, 1 <= mb f -> 2 <= eb f -> forall x y, nan f x = true \/ nan f y = true -> nan f (fadd f x y) = true.
Proof.
  intros f F1 F2 x y H. unfold fadd. assert (E : nan f x || nan f y = true) by (apply orb_true_iff; auto). rewrite E. unfold quiet_nan, nan, special. pose proof (pow_pos (mb f - 1) ltac:(lia)). pose proof (pow_S (mb f - 1) ltac:(lia)) as PS. replace (mb f - 1 + 1) with (mb f) in PS by lia. pose proof (pow_pos (eb f) ltac:(lia)).
  destruct (parts f F1 F2 false (2 ^ eb f - 1) (2 ^ (mb f - 1)) ltac:(lia) ltac:(lia)) as (_ & _ & Ex & Fr). cbn [with_sign] in Ex, Fr. unfold infinity. rewrite Ex, Fr, Z.eqb_refl. destruct (Z.eqb_spec (2 ^ (mb f - 1)) 0); [lia|reflexivity].
Qed.
Lemma negative_form : forall f, 1 <= mb f -> 2 <= eb f -> forall x, bits f x -> sign f x = true -> value f x <> 0 -> sign_bit f < x < 2 * sign_bit f.
Proof.
  intros f F1 F2 x B S V. destruct (compose f F1 F2 x B) as (H1 & H2 & H3). rewrite S in H3. cbn [with_sign] in H3. pose proof (pow_pos (mb f) ltac:(lia)). unfold bits in B. rewrite width_split in B by auto. split; [|lia].
  assert (x <> sign_bit f); [|nia]. intros E. apply V. assert (expo f x * 2 ^ mb f + frac f x = 0) by lia. assert (expo f x = 0) by nia. assert (frac f x = 0) by nia. unfold value, mag. rewrite H4, H5. cbn. destruct (sign f x); reflexivity.
Qed.

Lemma sqrtf_special : forall fuel x, bits binary32 x ->
  (value binary32 x = 0 -> sqrtf fuel x = Ok x) /\ (inf binary32 x = true -> sign binary32 x = false -> sqrtf fuel x = Ok x) /\
  (nan binary32 x = true \/ (value binary32 x <> 0 /\ sign binary32 x = true) -> exists r, sqrtf fuel x = Ok r /\ nan binary32 r = true).
Proof.
  intros fuel x B. assert (F1 : 1 <= mb binary32) by (cbn; lia). assert (F2 : 2 <= eb binary32) by (cbn; lia). split; [|split].
  - intros V. rewrite (zero_form binary32 F1 F2 x B V). destruct (sign binary32 x); reflexivity.
  - intros I S. rewrite (infinite_form binary32 F1 F2 x B I), S. vm_compute. reflexivity.
  - intros H. unfold sqrtf. rewrite !land_signed by lia. change 0x7f800000 with ((2 ^ 8 - 1) * 2 ^ 23). rewrite land_field by lia. change ((x / 2 ^ 23) mod 2 ^ 8) with (expo binary32 x). destruct (Z.eqb_spec (expo binary32 x * 2 ^ 23) ((2 ^ 8 - 1) * 2 ^ 23)) as [E | N].
    + eexists. split; [reflexivity|]. destruct H as [Nx | [V S]]; [apply add_nan; auto|]. destruct (nan binary32 x) eqn:Nx; [apply add_nan; auto|].
      assert (I : inf binary32 x = true). { unfold nan, inf, special in *. change (2 ^ eb binary32 - 1) with 255 in *. destruct (Z.eqb_spec (expo binary32 x) 255); [|lia]. cbn [andb] in *. apply negb_false_iff in Nx. exact Nx. }
      rewrite (infinite_form binary32 F1 F2 x B I), S. vm_compute. reflexivity.
    + assert (nan binary32 x = false). { unfold nan, special. destruct (Z.eqb_spec (expo binary32 x) (2 ^ eb binary32 - 1)) as [E | N2]; [|reflexivity]. rewrite E in N. exfalso. apply N. reflexivity. }
      destruct H as [Nx | [V S]]; [congruence|]. pose proof (negative_form binary32 F1 F2 x B S V) as XB. change (sign_bit binary32) with (2 ^ 31) in XB. change 0x7fffffff with (2 ^ 31 - 1). rewrite (land_mask binary64) by lia.
      assert (XM : x mod 2 ^ 31 = x - 2 ^ 31) by (symmetry; apply Z.mod_unique with 1; lia). rewrite XM. destruct (Z.eqb_spec (x - 2 ^ 31) 0); [lia|]. rewrite andb_false_r. unfold signed32. destruct (Z.ltb_spec x (2 ^ 31)); [lia|]. destruct (Z.ltb_spec (x - 2 ^ 32) 0); [|lia]. eexists. split; [reflexivity|]. vm_compute. reflexivity.
Qed.
Lemma sqrt_special : forall fuel x, bits binary64 x ->
  (value binary64 x = 0 -> sqrt fuel x = Ok x) /\ (inf binary64 x = true -> sign binary64 x = false -> sqrt fuel x = Ok x) /\
  (nan binary64 x = true \/ (value binary64 x <> 0 /\ sign binary64 x = true) -> exists r, sqrt fuel x = Ok r /\ nan binary64 r = true).
Proof.
  intros fuel x B. assert (F1 : 1 <= mb binary64) by (cbn; lia). assert (F2 : 2 <= eb binary64) by (cbn; lia). split; [|split].
  - intros V. rewrite (zero_form binary64 F1 F2 x B V). destruct (sign binary64 x); reflexivity.
  - intros I S. rewrite (infinite_form binary64 F1 F2 x B I), S. vm_compute. reflexivity.
  - intros H. unfold sqrt. rewrite !land_signed by lia. change 0x7ff00000 with ((2 ^ 11 - 1) * 2 ^ 20). rewrite land_field by lia. rewrite Z.shiftr_div_pow2 by lia.
    assert (EX : (x / 2 ^ 32 / 2 ^ 20) mod 2 ^ 11 = expo binary64 x) by (rewrite Z.div_div by lia; reflexivity). rewrite EX. destruct (Z.eqb_spec (expo binary64 x * 2 ^ 20) ((2 ^ 11 - 1) * 2 ^ 20)) as [E | N].
    + eexists. split; [reflexivity|]. destruct H as [Nx | [V S]]; [apply add_nan; auto|]. destruct (nan binary64 x) eqn:Nx; [apply add_nan; auto|].
      assert (I : inf binary64 x = true). { unfold nan, inf, special in *. change (2 ^ eb binary64 - 1) with 2047 in *. destruct (Z.eqb_spec (expo binary64 x) 2047); [|lia]. cbn [andb] in *. apply negb_false_iff in Nx. exact Nx. }
      rewrite (infinite_form binary64 F1 F2 x B I), S. vm_compute. reflexivity.
    + assert (nan binary64 x = false). { unfold nan, special. destruct (Z.eqb_spec (expo binary64 x) (2 ^ eb binary64 - 1)) as [E | N2]; [|reflexivity]. rewrite E in N. exfalso. apply N. reflexivity. }
      destruct H as [Nx | [V S]]; [congruence|]. pose proof (negative_form binary64 F1 F2 x B S V) as XB. change (sign_bit binary64) with (2 ^ 63) in XB. change 0x7fffffff with (2 ^ 31 - 1). rewrite (land_mask binary64) by lia.
      pose proof (Z.div_mod x (2 ^ 32) ltac:(lia)) as DM. pose proof (Z.mod_pos_bound x (2 ^ 32) ltac:(lia)) as MB. unfold w32. set (hi := x / 2 ^ 32) in *. set (lo := x mod 2 ^ 32) in *.
      assert (XM : hi mod 2 ^ 31 = hi - 2 ^ 31) by (symmetry; apply Z.mod_unique with 1; lia). rewrite XM. assert (Z0 : (Z.lor (hi - 2 ^ 31) lo =? 0) = false) by (apply Z.eqb_neq; intros L; apply Z.lor_eq_0_iff in L; lia). rewrite Z0, andb_false_r.
      unfold signed32. destruct (Z.ltb_spec hi (2 ^ 31)); [lia|]. destruct (Z.ltb_spec (hi - 2 ^ 32) 0); [|lia]. eexists. split; [reflexivity|]. vm_compute. reflexivity.
Qed.
