(** Model of sqrt and sqrtf (options/ansi/musl-generic-math/sqrt.c, sqrtf.c). A 32-bit unsigned word is an integer from 0 to 2^32 - 1. Every value
    stored in an int32_t is checked: [UB] stands for overflow, and for a shift by 32 or more. m is a small int and m<<20 of a negative m is taken
    as multiplication, as compilers do. FLT_EVAL_METHOD is 0. *)
From Verif Require Export Base Ieee Ieee_Mul.
Open Scope Z_scope.

Definition w32 (v : Z) : Z := v mod 2 ^ 32.
Definition int32 (v : Z) : res Z := if (- 2 ^ 31 <=? v) && (v <? 2 ^ 31) then Ok v else UB.
(** conversion of a word to int32_t *)
Definition signed32 (u : Z) : Z := if u <? 2 ^ 31 then u else u - 2 ^ 32.
Definition shr32 (u k : Z) : res Z := if (0 <=? k) && (k <? 32) then Ok (Z.shiftr u k) else UB.
Definition shl32 (u k : Z) : res Z := if (0 <=? k) && (k <? 32) then Ok (w32 (Z.shiftl u k)) else UB.
Definition sgn : Z := 0x80000000.

(** sqrt.c:110-111, sqrtf.c:47-48: shift until [bit] is set, counting *)
Fixpoint align (fuel : nat) (bit ix i : Z) : res (Z * Z) :=
  match fuel with
  | O => Fuel
  | S n => if Z.land ix bit =? 0 then (ix <- int32 (Z.shiftl ix 1) ;; align n bit ix (i + 1)) else Ok (ix, i)
  end.

(** sqrtf.c:63-72 *)
Fixpoint loopf (fuel : nat) (r ix s q : Z) : res (Z * Z) :=
  match fuel with
  | O => Fuel
  | S n =>
      if r =? 0 then Ok (ix, q) else
      t <- int32 (s + r) ;;
      ' (s, ix, q) <- (if t <=? ix then (s <- int32 (t + r) ;; Ok (s, ix - t, q + r)) else Ok (s, ix, q)) ;;
      ix <- int32 (ix + ix) ;;
      loopf n (Z.shiftr r 1) ix s q
  end.
(** the constants 1.0f and 1.0e-30 as a float; sqrtf.c:18 *)
Definition onef : Z := 0x3f800000.
Definition tinyf : Z := 0x0da24260.

(** sqrtf.c:20-90 *)
Definition sqrtf (fuel : nat) (x : Z) : res Z :=
  let ix := signed32 x in
  if Z.land ix 0x7f800000 =? 0x7f800000 then Ok (fadd binary32 (fmul binary32 x x) x)
  else if (ix <=? 0) && (Z.land ix 0x7fffffff =? 0) then Ok x
  else if ix <? 0 then Ok (quiet_nan binary32) (* (x-x)/(x-x) is 0/0 *)
  else
  let m := Z.shiftr ix 23 in
  ' (ix, m) <- (if m =? 0 then (' (ix, i) <- align fuel 0x800000 ix 0 ;; Ok (ix, m - (i - 1))) else Ok (ix, m)) ;;
  let m := m - 127 in
  let ix := Z.lor (Z.land ix 0x7fffff) 0x800000 in
  ix <- (if Z.land m 1 =? 0 then Ok ix else int32 (ix + ix)) ;;
  let m := Z.shiftr m 1 in
  ix <- int32 (ix + ix) ;;
  ' (ix, q) <- loopf fuel 0x1000000 ix 0 0 ;;
  let q :=
    if ix =? 0 then q
    else if negb (flt binary32 (fsub binary32 onef tinyf) onef) then
      (if flt binary32 onef (fadd binary32 onef tinyf) then q + 2 else q + Z.land q 1)
    else q in
  int32 (Z.shiftr q 1 + 0x3f000000 + m * 2 ^ 23).

(** sqrt.c:105-109 *)
Fixpoint fill (fuel : nat) (m ix0 ix1 : Z) : res (Z * Z * Z) :=
  match fuel with
  | O => Fuel
  | S n => if ix0 =? 0 then fill n (m - 21) (Z.lor ix0 (Z.shiftr ix1 11)) (w32 (Z.shiftl ix1 21)) else Ok (m, ix0, ix1)
  end.
(** sqrt.c:119-120, 125-126, 137-138, 156-157: shift both words left by one *)
Definition twice (ix0 ix1 : Z) : res (Z * Z) := v <- int32 (ix0 + (ix0 + Z.shiftr (Z.land ix1 sgn) 31)) ;; Ok (v, w32 (ix1 + ix1)).
(** sqrt.c:130-140 *)
Fixpoint high (fuel : nat) (r ix0 ix1 s0 q : Z) : res (Z * Z * Z * Z) :=
  match fuel with
  | O => Fuel
  | S n =>
      if r =? 0 then Ok (ix0, ix1, s0, q) else
      t <- int32 (s0 + r) ;;
      ' (s0, ix0, q) <- (if t <=? ix0 then (s0 <- int32 (t + r) ;; Ok (s0, ix0 - t, q + r)) else Ok (s0, ix0, q)) ;;
      ' (ix0, ix1) <- twice ix0 ix1 ;;
      high n (Z.shiftr r 1) ix0 ix1 s0 q
  end.
(** sqrt.c:143-159 *)
Fixpoint low (fuel : nat) (r ix0 ix1 s0 s1 q1 : Z) : res (Z * Z * Z) :=
  match fuel with
  | O => Fuel
  | S n =>
      if r =? 0 then Ok (ix0, ix1, q1) else
      let t1 := w32 (s1 + r) in
      let t := s0 in
      let '(ix0, ix1, s0, s1, q1) :=
        if (t <? ix0) || ((t =? ix0) && (t1 <=? ix1)) then
          let s1 := w32 (t1 + r) in
          (ix0 - t - (if ix1 <? t1 then 1 else 0), w32 (ix1 - t1), (if (Z.land t1 sgn =? sgn) && (Z.land s1 sgn =? 0) then s0 + 1 else s0), s1, w32 (q1 + r))
        else (ix0, ix1, s0, s1, q1) in
      ' (ix0, ix1) <- twice ix0 ix1 ;;
      low n (Z.shiftr r 1) ix0 ix1 s0 s1 q1
  end.
(** the constants 1.0 and 1.0e-300; sqrt.c:81 *)
Definition oned : Z := 0x3ff0000000000000.
Definition tinyd : Z := 0x01a56e1fc2f8f359.

(** sqrt.c:83-184 *)
Definition sqrt (fuel : nat) (x : Z) : res Z :=
  let ix0 := signed32 (Z.shiftr x 32) in
  let ix1 := w32 x in
  if Z.land ix0 0x7ff00000 =? 0x7ff00000 then Ok (fadd binary64 (fmul binary64 x x) x)
  else if (ix0 <=? 0) && (Z.lor (Z.land ix0 0x7fffffff) ix1 =? 0) then Ok x
  else if ix0 <? 0 then Ok (quiet_nan binary64) (* (x-x)/(x-x) is 0/0 *)
  else
  let m := Z.shiftr ix0 20 in
  ' (m, ix0, ix1) <-
    (if m =? 0 then
       ' (m, ix0, ix1) <- fill fuel m ix0 ix1 ;;
       ' (ix0, i) <- align fuel 0x100000 ix0 0 ;;
       let m := m - (i - 1) in
       v <- shr32 ix1 (32 - i) ;;
       u <- shl32 ix1 i ;;
       Ok (m, Z.lor ix0 v, u)
     else Ok (m, ix0, ix1)) ;;
  let m := m - 1023 in
  let ix0 := Z.lor (Z.land ix0 0xfffff) 0x100000 in
  ' (ix0, ix1) <- (if Z.land m 1 =? 0 then Ok (ix0, ix1) else twice ix0 ix1) ;;
  let m := Z.shiftr m 1 in
  ' (ix0, ix1) <- twice ix0 ix1 ;;
  ' (ix0, ix1, s0, q) <- high fuel 0x200000 ix0 ix1 0 0 ;;
  ' (ix0, ix1, q1) <- low fuel sgn ix0 ix1 s0 0 0 ;;
  let '(q, q1) :=
    if Z.lor ix0 ix1 =? 0 then (q, q1)
    else if negb (flt binary64 (fsub binary64 oned tinyd) oned) then
      (if q1 =? 0xffffffff then (q + 1, 0)
       else if flt binary64 oned (fadd binary64 oned tinyd) then ((if q1 =? 0xfffffffe then q + 1 else q), w32 (q1 + 2))
       else (q, w32 (q1 + Z.land q1 1)))
    else (q, q1) in
  ix0 <- int32 (Z.shiftr q 1 + 0x3fe00000 + m * 2 ^ 20) ;;
  let ix1 := if Z.land q 1 =? 0 then Z.shiftr q1 1 else Z.lor (Z.shiftr q1 1) sgn in
  Ok (ix0 * 2 ^ 32 + ix1).
