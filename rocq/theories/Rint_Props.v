(** C65: the functions that round to an integer are exact for all arguments. The theorems are about double (binary64) and float (binary32). *)
From Verif Require Import Rint_Model Rint_Spec Ieee_Round Rint_Proof Check.
Open Scope Z_scope.

Lemma rint_fmt : forall f, format f -> 1 <= mb f /\ 2 <= eb f /\ 3 <= eb f /\ mb f + 2 <= 2 ^ (eb f - 1).
Proof. intros f [-> | ->]; cbn; lia. Qed.

(** the code for double and the code for float are both correct in both formats *)
Theorem C65_floor : forall f, format f -> forall x, bits f x ->
  (finite f x -> is_int f x (Rint_Model.floor f x) (int_floor f (value f x)) /\ is_int f x (floorf f x) (int_floor f (value f x))) /\
  (~ finite f x -> Rint_Model.floor f x = x /\ floorf f x = x).
Proof.
  intros f Hf x B. destruct (rint_fmt f Hf) as (F1 & F2 & F4 & F3). split; intros H; split.
  - apply floor_correct; auto. - apply floorf_correct; auto. - apply floor_special; auto. - apply floorf_special; auto.
Qed.
Print Assumptions C65_floor.

Theorem C65_ceil : forall f, format f -> forall x, bits f x ->
  (finite f x -> is_int f x (Rint_Model.ceil f x) (int_ceil f (value f x)) /\ is_int f x (ceilf f x) (int_ceil f (value f x))) /\
  (~ finite f x -> Rint_Model.ceil f x = x /\ ceilf f x = x).
Proof.
  intros f Hf x B. destruct (rint_fmt f Hf) as (F1 & F2 & F4 & F3). split; intros H; split.
  - apply ceil_correct; auto. - apply ceilf_correct; auto. - apply ceil_special; auto. - apply ceilf_special; auto.
Qed.
Print Assumptions C65_ceil.

Theorem C65_trunc : forall f, format f -> forall x, bits f x ->
  (finite f x -> is_int f x (trunc f x) (int_trunc f (value f x))) /\ (~ finite f x -> trunc f x = x).
Proof. intros f Hf x B. destruct (rint_fmt f Hf) as (F1 & F2 & F4 & F3). split; intros H; [apply trunc_correct | apply trunc_special]; auto. Qed.
Print Assumptions C65_trunc.

(** rint and nearbyint, and lrint and llrint when the integer fits into the type *)
Theorem C65_rint : forall f, format f -> forall x, bits f x ->
  (finite f x -> exists n, is_int f x (rint f x) n /\ nearest_even f (value f x) n /\
    forall w, lrint f w x = if (- 2 ^ (w - 1) <=? n) && (n <? 2 ^ (w - 1)) then Ok n else UB) /\
  (~ finite f x -> rint f x = x).
Proof.
  intros f Hf x B. destruct (rint_fmt f Hf) as (F1 & F2 & F4 & F3). split; intros H; [|apply rint_special; auto].
  destruct (rint_correct f F1 F2 F4 F3 x B H) as (n & H1 & H2). exists n. split; [exact H1|]. split; [exact H2|]. intros w. apply (to_int_correct f F1 F2 F4 x). exact H1.
Qed.
Print Assumptions C65_rint.

(** round, and lround and llround when the integer fits into the type *)
Theorem C65_round : forall f, format f -> forall x, bits f x ->
  (finite f x -> exists n, is_int f x (round f x) n /\ nearest_away f (value f x) n /\
    forall w, lround f w x = if (- 2 ^ (w - 1) <=? n) && (n <? 2 ^ (w - 1)) then Ok n else UB) /\
  (~ finite f x -> round f x = x).
Proof.
  intros f Hf x B. destruct (rint_fmt f Hf) as (F1 & F2 & F4 & F3). split; intros H; [|apply round_special; auto].
  destruct (round_correct f F1 F2 F4 F3 x B H) as (n & H1 & H2). exists n. split; [exact H1|]. split; [exact H2|]. intros w. apply (to_int_correct f F1 F2 F4 x). exact H1.
Qed.
Print Assumptions C65_round.

Theorem C65_modf : forall f, format f -> forall x, bits f x ->
  (finite f x -> let (r, i) := modf f x in is_int f x i (int_trunc f (value f x)) /\ is_frac f x r (int_trunc f (value f x))) /\
  (inf f x = true -> modf f x = (with_sign f (sign f x) 0, x)) /\
  (nan f x = true -> modf f x = (x, x)).
Proof.
  intros f Hf x B. destruct (rint_fmt f Hf) as (F1 & F2 & F4 & F3). destruct (modf_special f F1 F2 F4 F3 x B). split; [intros H1; apply modf_correct; auto|auto].
Qed.
Print Assumptions C65_modf.

(** what the model of addition guarantees *)
Theorem C65_addition_nearest : forall f, format f -> forall x y, bits f x -> bits f y -> finite f x -> finite f y -> finite f (fadd f x y) ->
  forall z, bits f z -> finite f z -> Z.abs (value f x + value f y - value f (fadd f x y)) <= Z.abs (value f x + value f y - value f z).
Proof. intros f Hf. destruct (rint_fmt f Hf) as (F1 & F2 & F4 & F3). apply fadd_nearest; auto. Qed.
Print Assumptions C65_addition_nearest.

Example C65_0 : Rint_Model.floor binary64 13836183955189006336 = 13837309855095848960. (* -2.5 -> -3.0 *)
Proof. vm_compute. reflexivity. Qed.
Example C65_1 : Rint_Model.floor binary64 4602678819172646911 = 0. (* 0.49999999999999994 -> 0.0 *)
Proof. vm_compute. reflexivity. Qed.
Example C65_2 : Rint_Model.ceil binary64 13826050856027422720 = 9223372036854775808. (* -0.5 -> -0.0 *)
Proof. vm_compute. reflexivity. Qed.
Example C65_3 : Rint_Model.ceil binary64 4612248968380809216 = 4613937818241073152. (* 2.25 -> 3.0 *)
Proof. vm_compute. reflexivity. Qed.
Example C65_4 : trunc binary64 13836746905142427648 = 13835058055282163712. (* -2.75 -> -2.0 *)
Proof. vm_compute. reflexivity. Qed.
Example C65_5 : rint binary64 4612811918334230528 = 4611686018427387904. (* 2.5 -> 2.0 *)
Proof. vm_compute. reflexivity. Qed.
Example C65_6 : rint binary64 13838435755002691584 = 13839561654909534208. (* -3.5 -> -4.0 *)
Proof. vm_compute. reflexivity. Qed.
Example C65_7 : rint binary64 13821547256400052224 = 9223372036854775808. (* -0.25 -> -0.0 *)
Proof. vm_compute. reflexivity. Qed.
Example C65_8 : round binary64 4612811918334230528 = 4613937818241073152. (* 2.5 -> 3.0 *)
Proof. vm_compute. reflexivity. Qed.
Example C65_9 : round binary64 13826050856027422720 = 13830554455654793216. (* -0.5 -> -1.0 *)
Proof. vm_compute. reflexivity. Qed.
Example C65_10 : round binary64 4602678819172646911 = 0. (* 0.49999999999999994 -> 0.0 *)
Proof. vm_compute. reflexivity. Qed.
Example C65_11 : round binary64 4841369599423283199 = 4841369599423283200. (* 4503599627370495.5 -> 4503599627370496.0 *)
Proof. vm_compute. reflexivity. Qed.
Example C65_12 : floorf binary32 3223322624 = 3225419776. (* -2.5 -> -3.0 *)
Proof. vm_compute. reflexivity. Qed.
Example C65_13 : floorf binary32 3235905537 = 3238002688. (* -7.0000005 -> -8.0 *)
Proof. vm_compute. reflexivity. Qed.
Example C65_14 : ceilf binary32 1077936129 = 1082130432. (* 3.0000002 -> 4.0 *)
Proof. vm_compute. reflexivity. Qed.
Example C65_15 : ceilf binary32 3204448256 = 2147483648. (* -0.5 -> -0.0 *)
Proof. vm_compute. reflexivity. Qed.
Example C65_16 : round binary32 1258291199 = 1258291200. (* 8388607.5 -> 8388608.0 *)
Proof. vm_compute. reflexivity. Qed.
Example C65_17 : modf binary64 13838998704956112896 = (13828302655841107968, 13837309855095848960).
Proof. vm_compute. reflexivity. Qed.
Example C65_18 : lround binary64 64 13836183955189006336 = Ok (-3) /\ lrint binary64 64 4890946611321988160 = UB.
Proof. split; vm_compute; reflexivity. Qed.
Example C65_19 : bits binary64 13836183955189006336 /\ finite binary64 13836183955189006336 /\ value binary64 13836183955189006336 * 2 = -5 * one binary64.
Proof. vm_compute. repeat split; congruence. Qed.
