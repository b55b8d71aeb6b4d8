(** Model of fmod, remquo and remainder (options/ansi/musl-generic-math/fmod.c, remquo.c, remainder.c) and of fmodf, remquof and remainderf
    (fmodf.c, remquof.c, remainderf.c), which differ in the format only: 52, 12, 63, 0x7ff here are 23, 9, 31, 0xff there. *)
From Verif Require Export Base Ieee.
Open Scope Z_scope.

Definition wrap (f : fmt) (x : Z) : Z := x mod 2 ^ width f.
Definition shl (f : fmt) (x k : Z) : Z := wrap f (Z.shiftl x k).
(** shifts by an amount that is computed *)
Definition vshl (f : fmt) (x k : Z) : res Z := if (0 <=? k) && (k <? width f) then Ok (shl f x k) else UB.
Definition vshr (f : fmt) (x k : Z) : res Z := if (0 <=? k) && (k <? width f) then Ok (Z.shiftr x k) else UB.
(** u.i>>52 & 0x7ff *)
Definition expn (f : fmt) (u : Z) : Z := Z.land (Z.shiftr u (mb f)) (2 ^ eb f - 1).
(** isnan of a number with these bits: math.h:69 and __fpclassify.c:4-11 *)
Definition isnan (f : fmt) (u : Z) : bool :=
  if expn f u =? 0 then false else if expn f u =? 2 ^ eb f - 1 then negb (shl f u (width f - mb f) =? 0) else false.

(** fmod.c:26, 33: the loop over i *)
Fixpoint lead (fuel : nat) (f : fmt) (i ex : Z) : res Z :=
  match fuel with
  | O => Fuel
  | S n => if Z.shiftr i (width f - 1) =? 0 then lead n f (shl f i 1) (ex - 1) else Ok ex
  end.
(** fmod.c:25-31 and 32-38 *)
Definition normalize (fuel : nat) (f : fmt) (u ex : Z) : res (Z * Z) :=
  if ex =? 0 then
    ex <- lead fuel f (shl f u (width f - mb f)) 0 ;;
    u <- vshl f u (- ex + 1) ;;
    Ok (u, ex)
  else Ok (Z.lor (Z.land u (2 ^ mb f - 1)) (2 ^ mb f), ex).
(** fmod.c:41-49; None: return 0*x *)
Fixpoint reduce (fuel : nat) (f : fmt) (ux uy ex ey : Z) : res (option Z) :=
  match fuel with
  | O => Fuel
  | S n =>
      if ey <? ex then
        let i := wrap f (ux - uy) in
        if Z.shiftr i (width f - 1) =? 0 then
          if i =? 0 then Ok None else reduce n f (shl f i 1) uy (ex - 1) ey
        else reduce n f (shl f ux 1) uy (ex - 1) ey
      else Ok (Some ux)
  end.
(** fmod.c:56 *)
Fixpoint renorm (fuel : nat) (f : fmt) (ux ex : Z) : res (Z * Z) :=
  match fuel with
  | O => Fuel
  | S n => if Z.shiftr ux (mb f) =? 0 then renorm n f (shl f ux 1) (ex - 1) else Ok (ux, ex)
  end.
(** fmod.c:59-64 *)
Definition scale (f : fmt) (ux ex : Z) : res Z :=
  if 0 <? ex then Ok (Z.lor (wrap f (ux - 2 ^ mb f)) (shl f ex (mb f)))
  else vshr f ux (- ex + 1).
(** 0*x for a finite x *)
Definition zero_times (f : fmt) (x : Z) : Z := with_sign f (sign f x) 0.
(** fmod.c:4-68. (x*y)/(x*y) is a NaN whenever it is evaluated: x*y is 0, infinite or a NaN then. *)
Definition fmod (fuel : nat) (f : fmt) (x y : Z) : res Z :=
  let ex := expn f x in
  let ey := expn f y in
  let sx := Z.shiftr x (width f - 1) in
  if (shl f y 1 =? 0) || isnan f y || (ex =? 2 ^ eb f - 1) then Ok (quiet_nan f) else
  if shl f x 1 <=? shl f y 1 then
    if shl f x 1 =? shl f y 1 then Ok (zero_times f x) else Ok x
  else
    '(uxi, ex) <- normalize fuel f x ex ;;
    '(uy, ey) <- normalize fuel f y ey ;;
    r <- reduce fuel f uxi uy ex ey ;;
    match r with
    | None => Ok (zero_times f x)
    | Some uxi =>
        let i := wrap f (uxi - uy) in
        if (Z.shiftr i (width f - 1) =? 0) && (i =? 0) then Ok (zero_times f x) else
        let uxi := if Z.shiftr i (width f - 1) =? 0 then i else uxi in
        '(uxi, ex) <- renorm fuel f uxi (Z.min ex ey) ;;   (* ex is ey after the loop if it was larger *)
        uxi <- scale f uxi ex ;;
        Ok (Z.lor uxi (shl f sx (width f - 1)))
    end.

(** remquo.c:44-52; q is uint32_t *)
Fixpoint reduce_quo (fuel : nat) (f : fmt) (ux uy ex ey q : Z) : res (Z * Z) :=
  match fuel with
  | O => Fuel
  | S n =>
      if ey <? ex then
        let i := wrap f (ux - uy) in
        if Z.shiftr i (width f - 1) =? 0 then reduce_quo n f (shl f i 1) uy (ex - 1) ey ((2 * (q + 1)) mod 2 ^ 32)
        else reduce_quo n f (shl f ux 1) uy (ex - 1) ey ((2 * q) mod 2 ^ 32)
      else Ok (ux, q)
  end.
(** remquo.c:64-81; [y] is the original argument *)
Definition finish_quo (f : fmt) (sx sy : bool) (y uxi ex ey q : Z) : res (Z * Z) :=
  x <- scale f uxi ex ;;
  let y := if sy then fneg f y else y in
  let '(x, q) :=
    if (ex =? ey) || ((ex + 1 =? ey) && (flt f y (fadd f x x) || (feq f (fadd f x x) y && negb (q mod 2 =? 0))))
    then (fsub f x y, (q + 1) mod 2 ^ 32) else (x, q) in
  let q := Z.land q 2147483647 in
  Ok (if sx then fneg f x else x, if xorb sx sy then - q else q).
(** remquo.c:60 and remquof.c:60 *)
Definition tiny (f : fmt) : Z := if eb f =? 11 then -60 else -30.
(** remquo.c:4-82: the result and *quo. 2*x is x+x. *)
Definition remquo (fuel : nat) (f : fmt) (x y : Z) : res (Z * Z) :=
  let ex := expn f x in
  let ey := expn f y in
  let sx := negb (Z.shiftr x (width f - 1) =? 0) in
  let sy := negb (Z.shiftr y (width f - 1) =? 0) in
  if (shl f y 1 =? 0) || isnan f y || (ex =? 2 ^ eb f - 1) then Ok (quiet_nan f, 0) else
  if shl f x 1 =? 0 then Ok (x, 0) else
  '(uxi, ex) <- normalize fuel f x ex ;;
  '(uy, ey) <- normalize fuel f y ey ;;
  if ex <? ey then
    if ex + 1 =? ey then finish_quo f sx sy y uxi ex ey 0 else Ok (x, 0)
  else
    '(uxi, q) <- reduce_quo fuel f uxi uy ex ey 0 ;;
    let i := wrap f (uxi - uy) in
    let '(uxi, q) := if Z.shiftr i (width f - 1) =? 0 then (i, (q + 1) mod 2 ^ 32) else (uxi, q) in
    if uxi =? 0 then finish_quo f sx sy y uxi (tiny f) ey q
    else '(uxi, ex) <- renorm fuel f uxi ey ;; finish_quo f sx sy y uxi ex ey q.
(** remainder.c:3-7 *)
Definition remainder (fuel : nat) (f : fmt) (x y : Z) : res Z :=
  '(r, _) <- remquo fuel f x y ;; Ok r.
