(** C67: exponents of floating-point numbers: scalbn, ldexp, frexp and ilogb. The theorems are about double (binary64) and float (binary32). *)
From Verif Require Import Scalbn_Model Scalbn_Spec Scalbn_Proof Ieee_Proof Ieee_Mul_Proof Check.
Open Scope Z_scope.

Lemma scalbn_fmt : forall f, format f -> 1 <= mb f /\ 2 <= eb f /\ 3 <= eb f /\ 3 * mb f + 7 <= Scalbn_Model.bias f /\ mb f < 64 <= Scalbn_Model.bias f.
Proof. intros f [-> | ->]; cbn; lia. Qed.

(** scalbn and ldexp round once, to the nearest number to x * 2^n, for every n *)
Theorem C67_scalbn : forall f, format f -> forall x n, bits f x ->
  (finite f x -> is_scaled f x n (scalbn f x n)) /\ (inf f x = true -> scalbn f x n = x) /\ (nan f x = true -> nan f (scalbn f x n) = true).
Proof.
  intros f Hf x n B. destruct (scalbn_fmt f Hf) as (F1 & F2 & F4 & F5 & F6). split; [|split].
  - intros Fx. apply scalbn_correct; auto.
  - apply scalbn_inf; auto.
  - apply scalbn_nan; auto.
Qed.
Print Assumptions C67_scalbn.

(** frexp: x = r * 2^e exactly and 1/2 <= |r| < 1 *)
Theorem C67_frexp : forall f, format f -> forall n x, (2 <= n)%nat -> bits f x ->
  (finite f x -> value f x <> 0 -> exists r e, frexp n f x = Ok (r, e) /\ bits f r /\ finite f r /\ sign f r = sign f x /\
    one f <= 2 * mag f r /\ mag f r < one f /\ equals_scaled f x r e) /\
  (value f x = 0 \/ ~ finite f x -> frexp n f x = Ok (x, 0)).
Proof.
  intros f Hf n x Hn B. destruct (scalbn_fmt f Hf) as (F1 & F2 & F4 & F5 & F6). split.
  - intros Fx V. destruct (frexp_correct f F1 F2 F4 F5 F6 n x Hn B Fx V) as (r & e & H1 & H2 & H3 & H4 & H5 & H6 & H7). exists r, e. unfold equals_scaled, value. rewrite H4. destruct (sign f x); repeat split; auto; try apply H2; lia.
  - destruct n as [|n]; [lia|]. intros [V | Fx]; [|apply frexp_special; auto]. destruct (special f x) eqn:E; [apply frexp_special; auto; unfold finite; congruence|apply frexp_zero; auto].
Qed.
Print Assumptions C67_frexp.

(** ilogb: 2^e <= |x| < 2^(e+1), also for subnormal numbers *)
Theorem C67_ilogb : forall f, format f -> forall n x, mb f <= Z.of_nat n -> bits f x ->
  (finite f x -> value f x <> 0 -> exists e, ilogb n f x = Ok e /\ is_exponent f x e) /\
  (value f x = 0 -> ilogb n f x = Ok FP_ILOGB0) /\ (inf f x = true -> ilogb n f x = Ok INT_MAX) /\ (nan f x = true -> ilogb n f x = Ok FP_ILOGBNAN).
Proof.
  intros f Hf n x Hn B. destruct (scalbn_fmt f Hf) as (F1 & F2 & F4 & F5 & F6). split; [|apply ilogb_special; auto]. apply ilogb_correct; auto.
Qed.
Print Assumptions C67_ilogb.

(** the multiplication the model uses is the one of IEEE 754 *)
Theorem C67_multiplication : forall f, format f -> forall x y, bits f x -> bits f y -> finite f x -> finite f y ->
  exists a, fmul f x y = with_sign f (xorb (sign f x) (sign f y)) a /\ rounded f (mag f x * mag f y) (unit_exp f) a.
Proof.
  intros f Hf x y Bx By Fx Fy. destruct (scalbn_fmt f Hf) as (F1 & F2 & F4 & F5 & F6). unfold fmul. destruct (finite_nan f x Fx) as [-> ->]. destruct (finite_nan f y Fy) as [-> ->]. cbn [orb]. eexists. split; [reflexivity|].
  apply ratio_rounded; auto; [|rewrite U_exp; lia]. pose proof (mag_nonneg f F1 F2 x Bx). pose proof (mag_nonneg f F1 F2 y By). apply Z.mul_nonneg_nonneg; auto.
Qed.
Print Assumptions C67_multiplication.

(** ldexp (1.5, 4) = 24; ldexp (1, -1074) is the least number; ldexp (1.75, -1074) rounds to twice that; ldexp of the least number by 2098 overflows; -1 by -1076 is -0 *)
Example ldexp_1 : scalbn binary64 0x3ff8000000000000 4 = 0x4038000000000000. Proof. vm_compute. reflexivity. Qed.
Example ldexp_2 : scalbn binary64 0x3ff0000000000000 (-1074) = 1. Proof. vm_compute. reflexivity. Qed.
Example ldexp_3 : scalbn binary64 0x3ffc000000000000 (-1074) = 2. Proof. vm_compute. reflexivity. Qed.
Example ldexp_4 : scalbn binary64 1 2098 = 0x7ff0000000000000. Proof. vm_compute. reflexivity. Qed.
Example ldexp_5 : scalbn binary64 0xbff0000000000000 (-1076) = 0x8000000000000000. Proof. vm_compute. reflexivity. Qed.
Example ldexp_6 : scalbn binary32 0x7f7fffff (-278) = 0. Proof. vm_compute. reflexivity. Qed.
(** the least double number times 2^2097 is 2^1023 *)
Example ldexp_7 : scalbn binary64 1 2097 = 0x7fe0000000000000. Proof. vm_compute. reflexivity. Qed.
(** frexp (-24) = (-0.75, 5); frexp of the least number = (0.5, -1073) *)
Example frexp_1 : frexp 2 binary64 0xc038000000000000 = Ok (0xbfe8000000000000, 5). Proof. vm_compute. reflexivity. Qed.
Example frexp_2 : frexp 2 binary64 1 = Ok (0x3fe0000000000000, -1073). Proof. vm_compute. reflexivity. Qed.
Example frexp_3 : frexp 2 binary32 1 = Ok (0x3f000000, -148). Proof. vm_compute. reflexivity. Qed.
Example ilogb_1 : ilogb 52 binary64 0xc038000000000000 = Ok 4. Proof. vm_compute. reflexivity. Qed.
Example ilogb_2 : ilogb 52 binary64 3 = Ok (-1073). Proof. vm_compute. reflexivity. Qed.
Example ilogb_3 : ilogb 52 binary64 0 = Ok (- 2 ^ 31). Proof. vm_compute. reflexivity. Qed.
