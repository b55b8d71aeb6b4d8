(** Model of fpclassify, nextafter, fmax, fmin, fabs and copysign and of their variants for float (options/ansi/musl-generic-math), which differ
    in the format only. FORCE_EVAL and the exception flags are not modelled. *)
From Verif Require Export Base Ieee Fmod_Model.
Open Scope Z_scope.

Inductive fpclass := FP_NAN | FP_INFINITE | FP_ZERO | FP_SUBNORMAL | FP_NORMAL.
(** __fpclassify.c:4-11, __fpclassifyf.c *)
Definition fpclassify (f : fmt) (x : Z) : fpclass :=
  let e := expn f x in
  if e =? 0 then (if negb (shl f x 1 =? 0) then FP_SUBNORMAL else FP_ZERO) else
  if e =? 2 ^ eb f - 1 then (if negb (shl f x (width f - mb f) =? 0) then FP_NAN else FP_INFINITE) else
  FP_NORMAL.
(** __signbit.c, the builtin of signbit *)
Definition signbit (f : fmt) (x : Z) : bool := negb (Z.shiftr x (width f - 1) =? 0).

(** nextafter.c:3-31, nextafterf.c; x + y is a NaN if x or y is one *)
Definition nextafter (f : fmt) (x y : Z) : Z :=
  if isnan f x || isnan f y then fadd f x y else
  if x =? y then y else
  let ax := Z.land x (2 ^ (width f - 1) - 1) in
  let ay := Z.land y (2 ^ (width f - 1) - 1) in
  if ax =? 0 then
    (if ay =? 0 then y else Z.lor (Z.land y (2 ^ (width f - 1))) 1)
  else if (ay <? ax) || negb (Z.land (Z.lxor x y) (2 ^ (width f - 1)) =? 0) then wrap f (x - 1)
  else wrap f (x + 1).

(** fmax.c:3-13, fmaxf.c *)
Definition fmax (f : fmt) (x y : Z) : Z :=
  if isnan f x then y else if isnan f y then x else
  if negb (Bool.eqb (signbit f x) (signbit f y)) then (if signbit f x then y else x) else
  if flt f x y then y else x.
(** fmin.c:3-13, fminf.c *)
Definition fmin (f : fmt) (x y : Z) : Z :=
  if isnan f x then y else if isnan f y then x else
  if negb (Bool.eqb (signbit f x) (signbit f y)) then (if signbit f x then x else y) else
  if flt f x y then x else y.
(** fdim.c:3-10, fdimf.c *)
Definition fdim (f : fmt) (x y : Z) : Z :=
  if isnan f x then x else if isnan f y then y else if flt f y x then fsub f x y else 0.

(** fabs.c:4-9, fabsf.c *)
Definition fabs (f : fmt) (x : Z) : Z := Z.land x (2 ^ (width f - 1) - 1).
(** copysign.c:3-8, copysignf.c *)
Definition copysign (f : fmt) (x y : Z) : Z :=
  Z.lor (Z.land x (2 ^ (width f - 1) - 1)) (Z.land y (2 ^ (width f - 1))).
