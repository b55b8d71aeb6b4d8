(** Model of the functions of <math.h> that round to an integer: floor, ceil, rint, nearbyint, round, trunc, modf, lrint, lround and their
    variants for float and long long (options/ansi/musl-generic-math). FLT_EVAL_METHOD is 0: expressions are evaluated in their type. FORCE_EVAL
    and the exception flags are not modelled. The constants 52, 12, 0x7ff, 0x3ff of double are 23, 9, 0xff, 0x7f for float. *)
From Verif Require Export Base Ieee.
Open Scope Z_scope.

Definition wrap (f : fmt) (x : Z) : Z := x mod 2 ^ width f.
(** u.i>>52 & 0x7ff *)
Definition expn (f : fmt) (u : Z) : Z := Z.land (Z.shiftr u (mb f)) (2 ^ eb f - 1).
Definition neg (f : fmt) (u : Z) : bool := negb (Z.shiftr u (width f - 1) =? 0).
Definition bias (f : fmt) : Z := 2 ^ (eb f - 1) - 1.
(** the numbers 2^k, and toint, which is 1/EPS *)
Definition power (f : fmt) (k : Z) : Z := Z.shiftl (bias f + k) (mb f).
Definition toint (f : fmt) : Z := power f (mb f).
Definition minus_zero (f : fmt) : Z := 2 ^ (width f - 1).
Definition fle (f : fmt) (x y : Z) : bool := flt f x y || feq f x y.

(** floor.c:10-31 *)
Definition floor (f : fmt) (x : Z) : Z :=
  let e := expn f x in
  if (bias f + mb f <=? e) || feq f x 0 then x else
  let y := if neg f x then fsub f (fadd f (fsub f x (toint f)) (toint f)) x else fsub f (fsub f (fadd f x (toint f)) (toint f)) x in
  if e <=? bias f - 1 then (if neg f x then fneg f (power f 0) else 0) else
  if flt f 0 y then fsub f (fadd f x y) (power f 0) else fadd f x y.
(** ceil.c:10-31 *)
Definition ceil (f : fmt) (x : Z) : Z :=
  let e := expn f x in
  if (bias f + mb f <=? e) || feq f x 0 then x else
  let y := if neg f x then fsub f (fadd f (fsub f x (toint f)) (toint f)) x else fsub f (fsub f (fadd f x (toint f)) (toint f)) x in
  if e <=? bias f - 1 then (if neg f x then minus_zero f else power f 0) else
  if flt f y 0 then fadd f (fadd f x y) (power f 0) else fadd f x y.
(** floorf.c:3-27 *)
Definition floorf (f : fmt) (x : Z) : Z :=
  let e := expn f x - bias f in
  if mb f <=? e then x else
  if 0 <=? e then
    let m := Z.shiftr (2 ^ mb f - 1) e in
    if Z.land x m =? 0 then x else Z.ldiff (if neg f x then wrap f (x + m) else x) m
  else if negb (neg f x) then 0
  else if negb (wrap f (Z.shiftl x 1) =? 0) then fneg f (power f 0) else x.
(** ceilf.c:3-27 *)
Definition ceilf (f : fmt) (x : Z) : Z :=
  let e := expn f x - bias f in
  if mb f <=? e then x else
  if 0 <=? e then
    let m := Z.shiftr (2 ^ mb f - 1) e in
    if Z.land x m =? 0 then x else Z.ldiff (if neg f x then x else wrap f (x + m)) m
  else if neg f x then minus_zero f
  else if negb (wrap f (Z.shiftl x 1) =? 0) then power f 0 else x.
(** rint.c:12-28, rintf.c; nearbyint.c differs in the exception flags only *)
Definition rint (f : fmt) (x : Z) : Z :=
  if bias f + mb f <=? expn f x then x else
  let y := if neg f x then fadd f (fsub f x (toint f)) (toint f) else fsub f (fadd f x (toint f)) (toint f) in
  if feq f y 0 then (if neg f x then minus_zero f else 0) else y.
(** round.c:10-35, roundf.c; 0*u.f is a zero with the sign of u.f *)
Definition round (f : fmt) (x0 : Z) : Z :=
  let e := expn f x0 in
  if bias f + mb f <=? e then x0 else
  let x := if neg f x0 then fneg f x0 else x0 in
  if e <? bias f - 1 then with_sign f (sign f x0) 0 else
  let y := fsub f (fsub f (fadd f x (toint f)) (toint f)) x in
  let y := if flt f (power f (-1)) y then fsub f (fadd f y x) (power f 0)
           else if fle f y (fneg f (power f (-1))) then fadd f (fadd f y x) (power f 0)
           else fadd f y x in
  if neg f x0 then fneg f y else y.
(** trunc.c:3-19, truncf.c *)
Definition trunc (f : fmt) (x : Z) : Z :=
  let e := expn f x - bias f + (width f - mb f) in
  if mb f + (width f - mb f) <=? e then x else
  let e := if e <? width f - mb f then 1 else e in
  let m := Z.shiftr (2 ^ width f - 1) e in
  if Z.land x m =? 0 then x else Z.ldiff x m.
(** modf.c:3-34, modff.c: the result and *iptr *)
Definition modf (f : fmt) (x : Z) : Z * Z :=
  let e := expn f x - bias f in
  if mb f <=? e then
    if (e =? bias f + 1) && negb (wrap f (Z.shiftl x (width f - mb f)) =? 0) then (x, x) else (Z.land x (2 ^ (width f - 1)), x)
  else if e <? 0 then (x, Z.land x (2 ^ (width f - 1)))
  else
    let mask := Z.shiftr (2 ^ mb f - 1) e in
    if Z.land x mask =? 0 then (Z.land x (2 ^ (width f - 1)), x)
    else let i := Z.ldiff x mask in (fsub f x i, i).
(** the conversion of a floating-point number to an integer type of [w] bits *)
Definition to_int (f : fmt) (w x : Z) : res Z :=
  let n := Z.quot (value f x) (one f) in
  if special f x || (n <? - 2 ^ (w - 1)) || (2 ^ (w - 1) <=? n) then UB else Ok n.
(** lround.c, llround.c, lrint.c, llrint.c and the variants for float; [w] is the width of long or long long *)
Definition lround (f : fmt) (w x : Z) : res Z := to_int f w (round f x).
Definition lrint (f : fmt) (w x : Z) : res Z := to_int f w (rint f x).
