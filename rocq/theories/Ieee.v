(** Binary floating-point numbers in the formats of IEEE 754 and their addition, rounding to nearest with ties to even. Numbers
    are given by their bits. No mlibc code is modelled here: this is what the compiled code gets from the processor. *)
From Verif Require Export Base.
Open Scope Z_scope.

(** the widths of the fraction and of the exponent *)
Record fmt := { mb : Z; eb : Z }.
Definition binary64 : fmt := {| mb := 52; eb := 11 |}.
Definition binary32 : fmt := {| mb := 23; eb := 8 |}.

Definition width (f : fmt) : Z := 1 + eb f + mb f.
Definition bits (f : fmt) (u : Z) : Prop := 0 <= u < 2 ^ width f.
Definition sign_bit (f : fmt) : Z := 2 ^ (eb f + mb f).
Definition infinity (f : fmt) : Z := (2 ^ eb f - 1) * 2 ^ mb f.
Definition quiet_nan (f : fmt) : Z := infinity f + 2 ^ (mb f - 1).

Definition sign (f : fmt) (u : Z) : bool := sign_bit f <=? u.
Definition expo (f : fmt) (u : Z) : Z := (u / 2 ^ mb f) mod 2 ^ eb f.
Definition frac (f : fmt) (u : Z) : Z := u mod 2 ^ mb f.
Definition special (f : fmt) (u : Z) : bool := expo f u =? 2 ^ eb f - 1.
Definition nan (f : fmt) (u : Z) : bool := special f u && negb (frac f u =? 0).
Definition inf (f : fmt) (u : Z) : bool := special f u && (frac f u =? 0).
Definition finite (f : fmt) (u : Z) : Prop := special f u = false.

(** the magnitude and the value of a finite number, in units of the smallest positive number of the format, 2^(2 - 2^(eb-1) - mb); all
    finite numbers are integral in this unit. One is [one]. (For an infinity it is larger than that of all finite numbers.) *)
Definition mag (f : fmt) (u : Z) : Z := if expo f u =? 0 then frac f u else (2 ^ mb f + frac f u) * 2 ^ (expo f u - 1).
Definition value (f : fmt) (u : Z) : Z := if sign f u then - mag f u else mag f u.
Definition one (f : fmt) : Z := 2 ^ (2 ^ (eb f - 1) - 2 + mb f).

(** the bits of the number nearest to [m >= 0] units, the one with even fraction if there are two; infinity from 2^emax - ulp/2 on *)
Definition round_mag (f : fmt) (m : Z) : Z :=
  let e := Z.max 0 (Z.log2 m - mb f) in
  let q := m / 2 ^ e in
  let r := m mod 2 ^ e in
  let up := (2 ^ e <? 2 * r) || ((2 * r =? 2 ^ e) && Z.odd q) in
  Z.min (infinity f) (e * 2 ^ mb f + (if up then q + 1 else q)).
Definition with_sign (f : fmt) (s : bool) (u : Z) : Z := if s then sign_bit f + u else u.
Definition round_value (f : fmt) (v : Z) : Z := with_sign f (v <? 0) (round_mag f (Z.abs v)).

Definition fneg (f : fmt) (x : Z) : Z := if sign f x then x - sign_bit f else x + sign_bit f.
Definition fadd (f : fmt) (x y : Z) : Z :=
  if nan f x || nan f y then quiet_nan f
  else if inf f x then (if inf f y && xorb (sign f x) (sign f y) then quiet_nan f else x)
  else if inf f y then y
  else
    let v := value f x + value f y in
    if v =? 0 then with_sign f (sign f x && sign f y) 0 else round_value f v.
Definition fsub (f : fmt) (x y : Z) : Z := if nan f y then quiet_nan f else fadd f x (fneg f y).
Definition flt (f : fmt) (x y : Z) : bool := negb (nan f x) && negb (nan f y) && (value f x <? value f y).
Definition feq (f : fmt) (x y : Z) : bool := negb (nan f x) && negb (nan f y) && (value f x =? value f y).

(** what is assumed of a format *)
Definition format (f : fmt) : Prop := f = binary64 \/ f = binary32.
