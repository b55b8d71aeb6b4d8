(** Model of scalbn, ldexp, frexp and ilogb and of their variants for float (options/ansi/musl-generic-math). FLT_EVAL_METHOD is 0. *)
From Verif Require Export Base Ieee Ieee_Mul Fmod_Model.
Open Scope Z_scope.

Definition bias (f : fmt) : Z := 2 ^ (eb f - 1) - 1.
(** the number 2^k; scalbn.c:29-30 *)
Definition power (f : fmt) (k : Z) : Z := Z.shiftl (bias f + k) (mb f).
(** 0x1p-1022 * 0x1p53 of scalbn.c:21, 24, evaluated by the compiler; for float 0x1p-126f * 0x1p24f *)
Definition small_exp (f : fmt) : Z := bias f - 1 - (mb f + 1).
Definition small (f : fmt) : Z := power f (- small_exp f).

(** scalbn.c:4-32, scalbnf.c; 1023 is [bias], 1022 - 53 is [small_exp]. ldexp.c calls scalbn. *)
Definition scalbn (f : fmt) (x n : Z) : Z :=
  let '(y, n) :=
    if bias f <? n then
      let y := fmul f x (power f (bias f)) in let n := n - bias f in
      if bias f <? n then
        let y := fmul f y (power f (bias f)) in let n := n - bias f in
        (y, if bias f <? n then bias f else n)
      else (y, n)
    else if n <? - (bias f - 1) then
      let y := fmul f x (small f) in let n := n + small_exp f in
      if n <? - (bias f - 1) then
        let y := fmul f y (small f) in let n := n + small_exp f in
        (y, if n <? - (bias f - 1) then - (bias f - 1) else n)
      else (y, n)
    else (x, n) in
  fmul f y (power f n).

(** frexp.c:4-24, frexpf.c: the result and *e. The recursion in the case of a subnormal number is given fuel. frexpf computes x*0x1p64 in
    double and converts back, which is exact. *)
Fixpoint frexp (fuel : nat) (f : fmt) (x : Z) : res (Z * Z) :=
  match fuel with
  | O => Fuel
  | S fuel =>
      let ee := expn f x in
      if ee =? 0 then
        if negb (feq f x 0) then
          ' (r, e) <- frexp fuel f (fmul f x (power f 64)) ;; Ok (r, e - 64)
        else Ok (x, 0)
      else if ee =? 2 ^ eb f - 1 then Ok (x, 0)
      else Ok (Z.lor (Z.land x (2 ^ (width f - 1) + (2 ^ mb f - 1))) (Z.shiftl (bias f - 1) (mb f)), ee - (bias f - 1))
  end.

(** ilogb.c:4-26, ilogbf.c; math.h:27-28 *)
Definition FP_ILOGBNAN : Z := - 2 ^ 31.
Definition FP_ILOGB0 : Z := FP_ILOGBNAN.
Definition INT_MAX : Z := 2 ^ 31 - 1.
Definition ilogb (fuel : nat) (f : fmt) (x : Z) : res Z :=
  let e := expn f x in
  if e =? 0 then
    let i := shl f x (width f - mb f) in
    if i =? 0 then Ok FP_ILOGB0 else lead fuel f i (- bias f)
  else if e =? 2 ^ eb f - 1 then Ok (if negb (shl f x (width f - mb f) =? 0) then FP_ILOGBNAN else INT_MAX)
  else Ok (e - bias f).
