(** C66: neighbours, order, classes and signs of floating-point numbers. The theorems are about double (binary64) and float (binary32). *)
From Verif Require Import Next_Model Next_Spec Ieee_Round Next_Proof Check.
Open Scope Z_scope.

Lemma next_fmt : forall f, format f -> 1 <= mb f /\ 2 <= eb f /\ 3 <= eb f.
Proof. intros f [-> | ->]; cbn; lia. Qed.

Theorem C66_nextafter : forall f, format f -> forall x y, number f x -> number f y ->
  (value f x = value f y -> nextafter f x y = y) /\
  (value f x < value f y -> next_up f x (nextafter f x y)) /\
  (value f y < value f x -> next_down f x (nextafter f x y)).
Proof. intros f Hf. destruct (next_fmt f Hf) as (F1 & F2 & F4). apply nextafter_correct; auto. Qed.
Print Assumptions C66_nextafter.

Theorem C66_nextafter_nan : forall f, format f -> forall x y, bits f x -> bits f y -> nan f x = true \/ nan f y = true -> nan f (nextafter f x y) = true.
Proof. intros f Hf. destruct (next_fmt f Hf) as (F1 & F2 & F4). apply nextafter_nan; auto. Qed.
Print Assumptions C66_nextafter_nan.

Theorem C66_fmax_fmin : forall f, format f -> forall x y, bits f x -> bits f y ->
  (nan f x = false -> nan f y = false ->
    (fmax f x y = x \/ fmax f x y = y) /\ ordered f x (fmax f x y) /\ ordered f y (fmax f x y) /\
    (fmin f x y = x \/ fmin f x y = y) /\ ordered f (fmin f x y) x /\ ordered f (fmin f x y) y) /\
  (nan f x = true -> fmax f x y = y /\ fmin f x y = y) /\
  (nan f x = false -> nan f y = true -> fmax f x y = x /\ fmin f x y = x).
Proof.
  intros f Hf x y Bx By. destruct (next_fmt f Hf) as (F1 & F2 & F4). split; [|apply minmax_nan; auto]. intros Nx Ny.
  destruct (fmax_correct f F1 F2 x y (conj Bx Nx) (conj By Ny)) as (H1 & H2 & H3). destruct (fmin_correct f F1 F2 x y (conj Bx Nx) (conj By Ny)) as (H4 & H5 & H6). auto 10.
Qed.
Print Assumptions C66_fmax_fmin.

(** fdim is zero or the nearest number to the positive difference *)
Theorem C66_fdim : forall f, format f -> forall x y, bits f x -> bits f y -> finite f x -> finite f y ->
  (value f x <= value f y -> fdim f x y = 0) /\
  (value f y < value f x -> finite f (fdim f x y) -> sign f (fdim f x y) = false /\
    forall z, bits f z -> finite f z -> Z.abs (value f x - value f y - value f (fdim f x y)) <= Z.abs (value f x - value f y - value f z)).
Proof. intros f Hf. destruct (next_fmt f Hf) as (F1 & F2 & F4). apply fdim_correct; auto. Qed.
Print Assumptions C66_fdim.

(** fabs and copysign change nothing but the sign, also of infinities and NaNs *)
Theorem C66_signs : forall f, format f -> forall x y, bits f x -> bits f y ->
  (bits f (copysign f x y) /\ sign f (copysign f x y) = sign f y /\ expo f (copysign f x y) = expo f x /\ frac f (copysign f x y) = frac f x) /\
  (bits f (fabs f x) /\ sign f (fabs f x) = false /\ expo f (fabs f x) = expo f x /\ frac f (fabs f x) = frac f x).
Proof. intros f Hf x y Bx By. destruct (next_fmt f Hf) as (F1 & F2 & F4). split; [apply copysign_correct | apply fabs_correct]; auto. Qed.
Print Assumptions C66_signs.

Theorem C66_fpclassify : forall f, format f -> forall x, bits f x -> class_of f x (fpclassify f x).
Proof. intros f Hf. destruct (next_fmt f Hf) as (F1 & F2 & F4). apply fpclassify_correct; auto. Qed.
Print Assumptions C66_fpclassify.

Example C66_0 : nextafter binary64 4607182418800017408 4611686018427387904 = 4607182418800017409. (* 1.0, 2.0 *)
Proof. vm_compute. reflexivity. Qed.
Example C66_1 : nextafter binary64 4607182418800017408 13840687554816376832 = 4607182418800017407. (* 1.0, -5.0 *)
Proof. vm_compute. reflexivity. Qed.
Example C66_2 : nextafter binary64 0 13830554455654793216 = 9223372036854775809. (* 0.0, -1.0 *)
Proof. vm_compute. reflexivity. Qed.
Example C66_3 : nextafter binary64 9223372036854775808 4607182418800017408 = 1. (* -0.0, 1.0 *)
Proof. vm_compute. reflexivity. Qed.
Example C66_4 : nextafter binary64 9223372036854775809 4607182418800017408 = 9223372036854775808. (* -5e-324, 1.0 *)
Proof. vm_compute. reflexivity. Qed.
Example C66_5 : nextafter binary64 9218868437227405311 9218868437227405312 = 9218868437227405312. (* 1.7976931348623157e+308, inf *)
Proof. vm_compute. reflexivity. Qed.
Example C66_6 : nextafter binary64 9218868437227405312 0 = 9218868437227405311. (* inf, 0.0 *)
Proof. vm_compute. reflexivity. Qed.
Example C66_7 : nextafter binary64 0 9223372036854775808 = 9223372036854775808. (* 0.0, -0.0 *)
Proof. vm_compute. reflexivity. Qed.
Example C66_8 : fmax binary64 9223372036854775808 0 = 0.
Proof. vm_compute. reflexivity. Qed.
Example C66_9 : fmin binary64 0 9223372036854775808 = 9223372036854775808.
Proof. vm_compute. reflexivity. Qed.
Example C66_10 : fmax binary32 3223322624 4286578688 = 3223322624.
Proof. vm_compute. reflexivity. Qed.
Example C66_11 : fdim binary64 4615063718147915776 4608308318706860032 = 4612248968380809216.
Proof. vm_compute. reflexivity. Qed.
Example C66_12 : copysign binary32 1080033280 2147483648 = 3227516928.
Proof. vm_compute. reflexivity. Qed.
Example C66_13 : fpclassify binary64 1 = FP_SUBNORMAL.
Proof. vm_compute. reflexivity. Qed.
Example C66_14 : fpclassify binary32 8388608 = FP_NORMAL.
Proof. vm_compute. reflexivity. Qed.
Example C66_15 : number binary64 9223372036854775809 /\ number binary64 9218868437227405312 /\ value binary64 9223372036854775809 = -1.
Proof. vm_compute. repeat split; congruence. Qed.
