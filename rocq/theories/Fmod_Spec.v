(** The results of fmod (C11 7.12.10.1, F.10.7.1) and of remainder and remquo (7.12.10.2, 7.12.10.3, F.10.7.2). *)
From Verif Require Export Ieee.
Open Scope Z_scope.

(** [r] is exactly x - n*y for the integer n that is the quotient x/y truncated, with the sign of [x] *)
Definition is_fmod (f : fmt) (x y r : Z) : Prop :=
  bits f r /\ finite f r /\ value f r = Z.rem (value f x) (value f y) /\ sign f r = sign f x.
(** [r] is exactly x - n*y for the integer n nearest to x/y, the even one of two; a zero has the sign of [x]. [quo] has the sign of x/y and the
    last 31 bits of the magnitude of n. *)
Definition is_remquo (f : fmt) (x y r quo : Z) : Prop :=
  bits f r /\ finite f r /\ (value f r = 0 -> sign f r = sign f x) /\
  exists n, value f r = value f x - n * value f y /\
            2 * Z.abs (value f r) <= Z.abs (value f y) /\
            (2 * Z.abs (value f r) = Z.abs (value f y) -> Z.even n = true) /\
            quo = (if xorb (sign f x) (sign f y) then -1 else 1) * (Z.abs n mod 2 ^ 31).
