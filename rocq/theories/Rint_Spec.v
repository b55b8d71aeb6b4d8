(** Rounding to an integer. *)
From Verif Require Export Ieee.
Open Scope Z_scope.

(** [r] is the integer [n], with the sign of [x] also if it is zero *)
Definition is_int (f : fmt) (x r n : Z) : Prop := bits f r /\ finite f r /\ value f r = n * one f /\ sign f r = sign f x.
(** the integers next to [v] units *)
Definition int_floor (f : fmt) (v : Z) : Z := v / one f.
Definition int_ceil (f : fmt) (v : Z) : Z := - (- v / one f).
Definition int_trunc (f : fmt) (v : Z) : Z := Z.quot v (one f).
(** nearest, ties to even *)
Definition nearest_even (f : fmt) (v n : Z) : Prop :=
  2 * Z.abs (v - n * one f) <= one f /\ (2 * Z.abs (v - n * one f) = one f -> Z.even n = true).
(** nearest, ties away from zero *)
Definition nearest_away (f : fmt) (v n : Z) : Prop :=
  2 * Z.abs (v - n * one f) <= one f /\ (2 * Z.abs (v - n * one f) = one f -> Z.abs v < Z.abs (n * one f)).
(** the fractional part of [x], of which [n] is the integral part, with the sign of [x] also if it is zero *)
Definition is_frac (f : fmt) (x r n : Z) : Prop := bits f r /\ finite f r /\ value f r = value f x - n * one f /\ sign f r = sign f x.
