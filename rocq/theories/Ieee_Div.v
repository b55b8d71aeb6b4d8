(** Division of floating-point numbers and conversion of integers, rounding to nearest with ties to even. As in Ieee.v no mlibc code is
    modelled here. *)
From Verif Require Export Ieee Ieee_Mul.
Open Scope Z_scope.

(** the bits of the number nearest to [m / d] units *)
Definition round_div (f : fmt) (m d : Z) : Z :=
  let e := Z.max 0 (Z.log2 (m / d) - mb f) in
  let k := d * 2 ^ e in
  let q := m / k in
  let r := m mod k in
  let up := (k <? 2 * r) || ((2 * r =? k) && Z.odd q) in
  Z.min (infinity f) (e * 2 ^ mb f + (if up then q + 1 else q)).
Definition fdiv (f : fmt) (x y : Z) : Z :=
  let s := xorb (sign f x) (sign f y) in
  if nan f x || nan f y then quiet_nan f
  else if inf f x then (if inf f y then quiet_nan f else with_sign f s (infinity f))
  else if inf f y then with_sign f s 0
  else if value f y =? 0 then (if value f x =? 0 then quiet_nan f else with_sign f s (infinity f))
  else with_sign f s (round_div f (mag f x * 2 ^ unit_exp f) (mag f y)).
(** a non-negative integer *)
Definition fint (f : fmt) (n : Z) : Z := round_mag f (n * one f).
