(** Model of the 48-bit generators: eand48_step, erand48, drand48, jrand48, mrand48, seed48, srand48
    (options/posix/generic/posix_stdlib.cpp:80-125).  An array of three unsigned short is a triple.
    The arrays passed to erand48 and jrand48 are numbered.  Simplification: they are not the arrays
    of the library (the pointer returned by seed48); seed48's result is given as the values in the
    array that it points to. *)
From Coq Require Export List ZArith Lia Bool.
From Coq Require Import Floats.SpecFloat.
Export ListNotations.
Open Scope Z_scope.

Definition triple : Type := Z * Z * Z.
(** conversion to unsigned short, to uint64_t *)
Definition u16 (x : Z) : Z := x mod 2 ^ 16.
Definition u64 (x : Z) : Z := x mod 2 ^ 64.
(** seed_48 + 3, posix_stdlib.cpp:82 *)
Definition lc : Z * Z * Z * Z := (58989, 57068, 5, 11).

(** posix_stdlib.cpp:84-93 *)
Definition eand48_step (xi : triple) : triple * Z :=
  let '(x0, x1, x2) := xi in
  let '(l0, l1, l2, l3) := lc in
  let x := Z.lor (Z.lor x0 (Z.shiftl x1 16)) (Z.shiftl x2 32) in
  let a := Z.lor (Z.lor l0 (Z.shiftl l1 16)) (Z.shiftl l2 32) in
  let x := u64 (u64 (a * x) + l3) in
  ((u16 x, u16 (Z.shiftr x 16), u16 (Z.shiftr x 32)), Z.land x (2 ^ 48 - 1)).

(** the double with representation [u] (IEEE 754 binary64) *)
Definition double_of_bits (u : Z) : spec_float :=
  let s := Z.testbit u 63 in
  let e := Z.land (Z.shiftr u 52) 2047 in
  let m := Z.land u (2 ^ 52 - 1) in
  if e =? 0 then match m with Zpos p => S754_finite s p (-1074) | _ => S754_zero s end
  else if e =? 2047 then match m with Z0 => S754_infinity s | _ => S754_nan end
  else match m + 2 ^ 52 with Zpos p => S754_finite s p (e - 1075) | _ => S754_nan end.
(** 1.0 *)
Definition one : spec_float := S754_finite false 4503599627370496 (-52).

(** posix_stdlib.cpp:97-103; the subtraction is that of IEEE 754 with rounding to nearest *)
Definition erand48 (s : triple) : triple * spec_float :=
  let (s', r) := eand48_step s in
  (s', SFsub 53 1024 (double_of_bits (Z.lor 4607182418800017408 (u64 (Z.shiftl r 4)))) one).
(** conversion of uint64_t to int32_t *)
Definition i32 (x : Z) : Z := let y := x mod 2 ^ 32 in if y <? 2 ^ 31 then y else y - 2 ^ 32.
(** posix_stdlib.cpp:121-123 *)
Definition jrand48 (s : triple) : triple * Z :=
  let (s', r) := eand48_step s in (s', i32 (Z.shiftr r 16)).
(** posix_stdlib.cpp:109-114; the result is the old value *)
Definition seed48 (own s : triple) : triple * triple := (s, own).
(** posix_stdlib.cpp:116-119 *)
Definition srand48 (own : triple) (seed : Z) : triple :=
  fst (seed48 own (13070, u16 seed, u16 (Z.shiftr seed 16))).

(** [own] is seed_48[0..2] *)
Record state := { own : triple; arrays : Z -> triple }.
Definition start (mem : Z -> triple) : state := {| own := (0, 0, 0); arrays := mem |}.
Definition with_array (s : state) (a : Z) (x : triple) : state :=
  {| own := own s; arrays := fun b => if b =? a then x else arrays s b |}.
Definition with_own (s : state) (x : triple) : state := {| own := x; arrays := arrays s |}.

Inductive op := Drand48 | Mrand48 | Erand48 (a : Z) | Jrand48 (a : Z) | Seed48 (x : triple) | Srand48 (seed : Z).
Inductive result := Double (f : spec_float) | Long (z : Z) | Old (x : triple) | Void.
Definition step (s : state) (o : op) : state * result :=
  match o with
  | Drand48 => let (x, r) := erand48 (own s) in (with_own s x, Double r)          (* :105-107 *)
  | Mrand48 => let (x, r) := jrand48 (own s) in (with_own s x, Long r)            (* :125-127 *)
  | Erand48 a => let (x, r) := erand48 (arrays s a) in (with_array s a x, Double r)
  | Jrand48 a => let (x, r) := jrand48 (arrays s a) in (with_array s a x, Long r)
  | Seed48 x => let (x', old) := seed48 (own s) x in (with_own s x', Old old)
  | Srand48 seed => (with_own s (srand48 (own s) seed), Void)
  end.
Fixpoint run (s : state) (os : list op) : state * list result :=
  match os with
  | [] => (s, [])
  | o :: os' => let (s1, r) := step s o in let (s2, rs) := run s1 os' in (s2, r :: rs)
  end.
