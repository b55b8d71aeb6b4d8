(** Multiplication of floating-point numbers, rounding to nearest with ties to even. As in Ieee.v no mlibc code is modelled here. *)
From Verif Require Export Ieee.
Open Scope Z_scope.

(** the bits of the number nearest to [m / 2^k] units; [round_mag f m] is [round_ratio f m 0] *)
Definition round_ratio (f : fmt) (m k : Z) : Z :=
  let e := Z.max 0 (Z.log2 m - k - mb f) in
  let q := m / 2 ^ (e + k) in
  let r := m mod 2 ^ (e + k) in
  let up := (2 ^ (e + k) <? 2 * r) || ((2 * r =? 2 ^ (e + k)) && Z.odd q) in
  Z.min (infinity f) (e * 2 ^ mb f + (if up then q + 1 else q)).
(** one is 2^unit_exp units *)
Definition unit_exp (f : fmt) : Z := 2 ^ (eb f - 1) - 2 + mb f.
Definition fmul (f : fmt) (x y : Z) : Z :=
  if nan f x || nan f y then quiet_nan f
  else if inf f x || inf f y then
    (if (value f x =? 0) || (value f y =? 0) then quiet_nan f else with_sign f (xorb (sign f x) (sign f y)) (infinity f))
  else with_sign f (xorb (sign f x) (sign f y)) (round_ratio f (mag f x * mag f y) (unit_exp f)).

(** what rounding to nearest means: [a] is infinity from half a unit in the last place below 2^emax on, and otherwise finite, no finite magnitude
    is nearer to [m / 2^k], and if another one is as near then [a] is the one with even fraction *)
Definition max_mag (f : fmt) : Z := 2 ^ (2 ^ eb f - 2 + mb f).
Definition rounded (f : fmt) (m k a : Z) : Prop :=
  0 <= a <= infinity f /\
  (a = infinity f <-> (2 ^ (mb f + 2) - 1) * max_mag f * 2 ^ k <= m * 2 ^ (mb f + 2)) /\
  (a <> infinity f -> forall b, 0 <= b < infinity f ->
    Z.abs (m - mag f a * 2 ^ k) <= Z.abs (m - mag f b * 2 ^ k) /\
    (b <> a -> Z.abs (m - mag f a * 2 ^ k) = Z.abs (m - mag f b * 2 ^ k) -> Z.even a = true)).
