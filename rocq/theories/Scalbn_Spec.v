(** Exponents of floating-point numbers. *)
From Verif Require Export Ieee Ieee_Mul.
Open Scope Z_scope.

(** [x = r * 2^e] *)
Definition equals_scaled (f : fmt) (x r e : Z) : Prop := value f x * 2 ^ Z.max 0 (- e) = value f r * 2 ^ Z.max 0 e.
(** [r] is [x * 2^n] rounded to nearest, with the sign of [x] *)
Definition is_scaled (f : fmt) (x n r : Z) : Prop :=
  exists a, r = with_sign f (sign f x) a /\ rounded f (mag f x * 2 ^ Z.max 0 n) (Z.max 0 (- n)) a.
(** [2^e <= |x| < 2^(e+1)] *)
Definition is_exponent (f : fmt) (x e : Z) : Prop :=
  one f * 2 ^ Z.max 0 e <= mag f x * 2 ^ Z.max 0 (- e) < 2 * (one f * 2 ^ Z.max 0 e).
