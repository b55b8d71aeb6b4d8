From Verif Require Import Base Mem_Model Mem_Proof Alloc_Model.
Open Scope Z_scope.

Lemma overflow_check a b : 0 <= a <= SIZE_MAX -> 0 <= b <= SIZE_MAX ->
  (negb (b =? 0) && (a >? SIZE_MAX / b) = true <-> a * b > SIZE_MAX).
Proof.
  unfold SIZE_MAX. intros Ha Hb. destruct (Z.eqb_spec b 0) as [->|N]; cbn [negb andb]; [split; [discriminate|lia]|].
  rewrite Z.gtb_lt. split; intros H.
  - pose proof (Z.div_mod 18446744073709551615 b N). pose proof (Z.mod_pos_bound 18446744073709551615 b). nia.
  - apply Z.div_lt_upper_bound; lia.
Qed.
Lemma overflow_false a b : 0 <= a <= SIZE_MAX -> 0 <= b <= SIZE_MAX -> a * b <= SIZE_MAX ->
  negb (b =? 0) && (a >? SIZE_MAX / b) = false.
Proof. intros Ha Hb H. destruct (negb (b =? 0) && _) eqn:E; [|reflexivity]. apply overflow_check in E; lia. Qed.
Lemma wrap_id x : 0 <= x <= SIZE_MAX -> wrap x = x.
Proof. unfold wrap, SIZE_MAX. intros H. apply Z.mod_small. lia. Qed.

Lemma pow2_land a : 0 < a -> (Z.land a (a - 1) = 0 <-> exists k, 0 <= k /\ a = 2 ^ k).
Proof.
  intros Ha. split.
  - intros H. exists (Z.log2 a). split; [apply Z.log2_nonneg|]. destruct (Z.log2_spec a Ha) as [L U].
    destruct (Z.eq_dec a (2 ^ Z.log2 a)) as [E|N]; [exact E|exfalso].
    assert (L1 : Z.log2 (a - 1) = Z.log2 a) by (apply Z.log2_unique; [apply Z.log2_nonneg|]; lia).
    assert (0 < 2 ^ Z.log2 a) by (apply Z.pow_pos_nonneg; [lia|apply Z.log2_nonneg]).
    assert (B : Z.testbit (Z.land a (a - 1)) (Z.log2 a) = true).
    { rewrite Z.land_spec, Z.bit_log2 by lia. rewrite <- L1, Z.bit_log2 by lia. reflexivity. }
    rewrite H, Z.bits_0 in B. discriminate.
  - intros (k & Hk & ->). replace (2 ^ k - 1) with (Z.ones k) by (rewrite Z.ones_equiv; lia).
    rewrite Z.land_ones by lia. apply Z.mod_same. lia.
Qed.
Lemma mod_land a k s : 0 <= k -> a = 2 ^ k -> (Z.land s (a - 1) = 0 <-> (a | s)).
Proof.
  intros Hk ->. replace (2 ^ k - 1) with (Z.ones k) by (rewrite Z.ones_equiv; lia). rewrite Z.land_ones by lia.
  assert (0 < 2 ^ k) by (apply Z.pow_pos_nonneg; lia). split; [apply Z.mod_divide; lia|]. intros D. apply Z.mod_divide; [lia|exact D].
Qed.
