(** Proofs about the 48-bit generators. *)
From Coq Require Import Qpower Floats.SpecFloat.
From Verif Require Import Rand48_Model Rand48_Spec.
Open Scope Z_scope.

Lemma lor_add a b n : 0 <= n -> 0 <= b < 2 ^ n -> Z.lor b (Z.shiftl a n) = b + a * 2 ^ n.
Proof.
  intros Hn Hb. rewrite <- (Z.shiftl_mul_pow2 a n) by lia.
  assert (A : Z.land b (Z.shiftl a n) = 0).
  { apply Z.bits_inj'. intros i Hi. rewrite Z.land_spec, Z.bits_0. destruct (Z.lt_ge_cases i n) as [L|L].
    - rewrite Z.shiftl_spec_low by lia. apply andb_false_r.
    - rewrite <- (Z.mod_small b (2 ^ n)) by lia. rewrite Z.mod_pow2_bits_high by lia. reflexivity. }
  rewrite <- Z.lxor_lor by exact A. symmetry. apply Z.add_nocarry_lxor, A.
Qed.
Lemma pack a b c : is_triple (a, b, c) -> Z.lor (Z.lor a (Z.shiftl b 16)) (Z.shiftl c 32) = number (a, b, c).
Proof.
  intros (A & B & C). rewrite (lor_add b a 16) by lia. rewrite lor_add by lia. reflexivity.
Qed.
Lemma number_range t : is_triple t -> 0 <= number t < 2 ^ 48.
Proof. destruct t as [[a b] c]. unfold is_triple, number. lia. Qed.
Lemma unpack x : is_triple (u16 x, u16 (Z.shiftr x 16), u16 (Z.shiftr x 32)) /\
  number (u16 x, u16 (Z.shiftr x 16), u16 (Z.shiftr x 32)) = x mod 2 ^ 48.
Proof.
  unfold is_triple, number, u16. rewrite !Z.shiftr_div_pow2 by lia.
  split; [repeat split; apply Z.mod_pos_bound; reflexivity|].
  change (2 ^ 48) with (2 ^ 16 * (2 ^ 16 * 2 ^ 16)). rewrite (Z.rem_mul_r x (2 ^ 16)) by lia.
  rewrite (Z.rem_mul_r (x / 2 ^ 16) (2 ^ 16)) by lia. rewrite Z.div_div by lia. change (2 ^ 16 * 2 ^ 16) with (2 ^ 32). ring.
Qed.
Lemma step_ok t : is_triple t -> let (t', r) := eand48_step t in is_triple t' /\ number t' = next (number t) /\ r = next (number t).
Proof.
  destruct t as [[a b] c]. intros H. unfold eand48_step, lc. rewrite (pack a b c) by exact H.
  set (x := number (a, b, c)).
  replace (Z.lor (Z.lor 58989 (Z.shiftl 57068 16)) (Z.shiftl 5 32)) with 25214903917 by reflexivity.
  set (y := u64 (u64 (25214903917 * x) + 11)).
  assert (Y : y mod 2 ^ 48 = next x).
  { unfold y, u64, next. rewrite Z.add_mod_idemp_l by lia.
    rewrite <- Znumtheory.Zmod_div_mod; [reflexivity|reflexivity|reflexivity|exists (2 ^ 16); reflexivity]. }
  destruct (unpack y) as [T N]. rewrite N. split; [exact T|]. split; [exact Y|].
  change (2 ^ 48 - 1) with (Z.ones 48). rewrite Z.land_ones by lia. exact Y.
Qed.

(** floating point *)
Lemma digits_bounds p : 2 ^ (Zpos (digits2_pos p) - 1) <= Zpos p < 2 ^ Zpos (digits2_pos p).
Proof.
  induction p as [p IH|p IH|]; cbn [digits2_pos]; [| |lia];
    rewrite Pos2Z.inj_succ; replace (Z.succ (Zpos (digits2_pos p)) - 1) with (Z.succ (Zpos (digits2_pos p) - 1)) by lia;
    rewrite !Z.pow_succ_r by lia; lia.
Qed.
Lemma digits_shift n p : digits2_pos (shift_pos n p) = (digits2_pos p + n)%positive.
Proof.
  unfold shift_pos. induction n using Pos.peano_ind; [cbn; lia|]. rewrite Pos.iter_succ. cbn [digits2_pos]. rewrite IHn. lia.
Qed.
(** a number of at most 53 digits is not rounded *)
Lemma normalize_exact p e : Zpos p < 2 ^ 53 -> -1000 <= e <= 0 ->
  exists m e', binary_normalize 53 1024 (Zpos p) e false = S754_finite false m e' /\
    e' <= e /\ Zpos m = Zpos p * 2 ^ (e - e').
Proof.
  intros P E. pose proof (digits_bounds p) as [D1 D2].
  assert (D : Zpos (digits2_pos p) <= 53).
  { destruct (Z.le_gt_cases (Zpos (digits2_pos p)) 53) as [|G]; [assumption|exfalso].
    pose proof (Z.pow_le_mono_r 2 53 (Zpos (digits2_pos p) - 1) ltac:(lia) ltac:(lia)). lia. }
  set (d := Zpos (digits2_pos p)) in *.
  assert (F : fexp 53 1024 (d + e) = d + e - 53). { unfold fexp, emin. rewrite Z.max_l; lia. }
  assert (A : exists m, shl_align p e (d + e - 53) = (m, d + e - 53) /\ Zpos m = Zpos p * 2 ^ (53 - d) /\ Zpos (digits2_pos m) = 53).
  { unfold shl_align. replace (d + e - 53 - e) with (d - 53) by lia. destruct (d - 53) as [|q|q] eqn:Q.
    - exists p. replace (53 - d) with 0 by lia. rewrite Z.pow_0_r, Z.mul_1_r. split; [f_equal; lia|]. split; [reflexivity|]. fold d. lia.
    - lia.
    - exists (shift_pos q p). split; [reflexivity|]. replace (53 - d) with (Zpos q) by lia. split.
      + rewrite shift_pos_correct. rewrite Zpower_pos_nat, Z.mul_comm. f_equal. symmetry. rewrite <- Zpower_pos_nat. reflexivity.
      + rewrite digits_shift, Pos2Z.inj_add. fold d. lia. }
  destruct A as (m & A1 & A2 & A3). exists m, (d + e - 53).
  split; [|split; [lia|rewrite A2; f_equal; f_equal; lia]].
  unfold binary_normalize, binary_round. fold d. rewrite F, A1. unfold binary_round_aux, shr_fexp.
  cbn [Zdigits2]. rewrite A3. replace (53 + (d + e - 53)) with (d + e) by lia. rewrite F, Z.sub_diag.
  cbn [shr shr_record_of_loc shr_m loc_of_shr_record round_nearest_even]. cbn [Zdigits2]. rewrite A3.
  replace (53 + (d + e - 53)) with (d + e) by lia. rewrite F, Z.sub_diag. cbn [shr shr_record_of_loc shr_m].
  destruct (Z.leb_spec (d + e - 53) (1024 - 53)); [reflexivity|lia].
Qed.
Lemma q_value x k : 0 <= k -> (inject_Z (x * 2 ^ k) * (2 # 1) ^ (-48 - k) == x # 281474976710656)%Q.
Proof.
  intros K. rewrite inject_Z_mult. rewrite Zpower_Qpower by exact K. change (inject_Z 2) with (2 # 1)%Q.
  rewrite <- Qmult_assoc. rewrite <- Qpower_plus by discriminate. replace (k + (-48 - k)) with (-48) by lia.
  unfold Qeq. cbn. destruct x; cbn; lia.
Qed.
Lemma double_ok x : 0 <= x < 2 ^ 48 ->
  has_value (SFsub 53 1024 (double_of_bits (Z.lor 4607182418800017408 (u64 (Z.shiftl x 4)))) one) (x # 281474976710656).
Proof.
  intros X. unfold u64. rewrite Z.shiftl_mul_pow2 by lia. rewrite Z.mod_small by lia.
  change 4607182418800017408 with (Z.shiftl 1023 52). rewrite Z.lor_comm, lor_add by lia.
  set (u := x * 2 ^ 4 + 1023 * 2 ^ 52).
  assert (S : Z.testbit u 63 = false) by (apply Z.bits_above_log2; [lia|]; apply Z.log2_lt_pow2; lia).
  assert (E : Z.land (Z.shiftr u 52) 2047 = 1023).
  { change 2047 with (Z.ones 11). rewrite Z.land_ones, Z.shiftr_div_pow2 by lia. unfold u. rewrite Z.div_add, Z.div_small by lia. reflexivity. }
  assert (M : Z.land u (2 ^ 52 - 1) = x * 2 ^ 4).
  { change (2 ^ 52 - 1) with (Z.ones 52). rewrite Z.land_ones by lia. unfold u. rewrite Z.mod_add, Z.mod_small by lia. reflexivity. }
  unfold double_of_bits. rewrite S, E, M. cbn [Z.eqb Pos.eqb].
  destruct (x * 2 ^ 4 + 2 ^ 52) as [|p|p] eqn:P; [lia| |lia].
  unfold SFsub, one. change (Z.min (1023 - 1075) (-52)) with (-52). change (1023 - 1075) with (-52).
  assert (SH : forall q, shl_align q (-52) (-52) = (q, -52)) by reflexivity. rewrite !SH. cbn [fst cond_Zopp].
  replace (Zpos p - 4503599627370496) with (x * 16) by lia.
  destruct x as [|q|q]; [|clear P|lia].
  - assert (Z0' : binary_normalize 53 1024 (0 * 16) (-52) false = S754_zero false) by reflexivity.
    rewrite Z0'. cbn [has_value]. reflexivity.
  - change (Zpos q * 16) with (Zpos (q * 16)).
    destruct (normalize_exact (q * 16) (-52)) as (m & e' & N & LE & V); [lia|lia|]. rewrite N. cbn [has_value].
    rewrite V. replace (Zpos (q * 16) * 2 ^ (-52 - e')) with (Zpos q * 2 ^ (-48 - e')).
    + replace e' with (-48 - (-48 - e')) at 2 by lia. apply q_value. lia.
    + replace (-48 - e') with (4 + (-52 - e')) by lia. rewrite Z.pow_add_r by lia. rewrite Pos2Z.inj_mul. change (2 ^ 4) with 16. ring.
Qed.
Lemma signed_ok x : 0 <= x < 2 ^ 48 -> i32 (Z.shiftr x 16) = signed_high x.
Proof.
  intros X. unfold i32, signed_high. rewrite Z.shiftr_div_pow2 by lia.
  rewrite (Z.mod_small (x / 2 ^ 16)); [reflexivity|]. split; [apply Z.div_pos; lia|apply Z.div_lt_upper_bound; lia].
Qed.
Lemma next_range x : 0 <= next x < 2 ^ 48.
Proof. apply Z.mod_pos_bound. reflexivity. Qed.

Record rel (w : world) (s : state) : Prop := {
  r_own : x_own w = number (own s);
  r_arr : forall a, x_of w a = number (arrays s a);
  r_t : is_triple (own s);
  r_ts : forall a, is_triple (arrays s a) }.
Lemma call_ok w s o : rel w s -> good_call o -> rel (fst (ideal_step w o)) (fst (step s o)) /\ agrees (snd (step s o)) (snd (ideal_step w o)).
Proof.
  intros [RO RA RT RS] G. destruct o as [| |a|a|t|seed]; cbn [ideal_step step].
  - unfold erand48. pose proof (step_ok (own s) RT) as H. destruct (eand48_step (own s)) as [t r]. destruct H as (T & N & R).
    cbn [fst snd]. rewrite RO, R. split; [constructor; cbn; auto|]. apply double_ok, next_range.
  - unfold jrand48. pose proof (step_ok (own s) RT) as H. destruct (eand48_step (own s)) as [t r]. destruct H as (T & N & R).
    cbn [fst snd]. rewrite RO, R. split; [constructor; cbn; auto|]. apply signed_ok, next_range.
  - unfold erand48. pose proof (step_ok (arrays s a) (RS a)) as H. destruct (eand48_step (arrays s a)) as [t r]. destruct H as (T & N & R).
    cbn [fst snd]. rewrite RA, R. split; [|apply double_ok, next_range]. constructor; cbn [set_x with_array x_own x_of own arrays]; auto;
    intros b; destruct (b =? a); auto.
  - unfold jrand48. pose proof (step_ok (arrays s a) (RS a)) as H. destruct (eand48_step (arrays s a)) as [t r]. destruct H as (T & N & R).
    cbn [fst snd]. rewrite RA, R. split; [|apply signed_ok, next_range]. constructor; cbn [set_x with_array x_own x_of own arrays]; auto;
    intros b; destruct (b =? a); auto.
  - cbn [seed48 fst snd]. split; [constructor; cbn; auto|]. cbn. auto.
  - cbn [fst snd]. split; [|exact I]. unfold srand48. cbn [seed48 fst]. constructor; cbn [set_own with_own x_own x_of own arrays]; auto.
    + unfold number, u16. rewrite Z.shiftr_div_pow2 by lia. change (2 ^ 32) with (2 ^ 16 * 2 ^ 16). rewrite (Z.rem_mul_r seed) by lia. ring.
    + unfold is_triple, u16. repeat split; try apply Z.mod_pos_bound; lia.
Qed.
Lemma run_ok os : forall w s, rel w s -> Forall good_call os ->
  rel (fst (ideal_run w os)) (fst (run s os)) /\ Forall2 agrees (snd (run s os)) (snd (ideal_run w os)).
Proof.
  induction os as [|o os IH]; intros w s R G; cbn [run ideal_run]; [split; [exact R|constructor]|].
  pose proof (Forall_inv G) as G1. pose proof (Forall_inv_tail G) as G2. destruct (call_ok _ _ _ R G1) as [R1 A1].
  destruct (ideal_step w o) as [w1 r1], (step s o) as [s1 r2]. cbn [fst snd] in *.
  destruct (IH w1 s1 R1 G2) as [R2 A2]. destruct (ideal_run w1 os), (run s1 os). cbn [fst snd] in *. auto.
Qed.
Lemma iter_next n x : Nat.iter n next (next x) = Nat.iter (S n) next x.
Proof. induction n as [|n IH]; [reflexivity|]. apply (f_equal next) in IH. exact IH. Qed.
