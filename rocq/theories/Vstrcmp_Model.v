(** Model of the vector versions of strcmp, options/ansi/x86_64/strcmp.cpp.

    A load of 16 or 32 bytes faults ([UB]) if one of them is not mapped.  A byte mask is a list of booleans, byte 0
    first; countr_zero is the index of the first true.  unsigned char values are 0..255. *)
From Verif Require Import Base Str_Model.
Open Scope Z_scope.

(** _mm_loadu_si128, _mm256_loadu_si256 *)
Fixpoint loadv (w : nat) (m : mem) (p : Z) : res (list Z) :=
  match w with
  | O => Ok []
  | S w => c <- load m p ;; l <- loadv w m (p + 1) ;; Ok (c :: l)
  end.

(** nearPageBoundary, strcmp.cpp:12, 61, 113; [lim]: 4080 or 4064 *)
Definition near (lim addr : Z) : bool := Z.land addr 4095 >? lim.

(** _mm_cmpeq_epi8 followed by _mm_movemask_epi8 *)
Fixpoint eq_mask (a b : list Z) : list bool :=
  match a, b with
  | x :: a, y :: b => (x =? y) :: eq_mask a b
  | _, _ => []
  end.

(** (~eq & 0xFFFF) | null_mask, strcmp.cpp:30, 130 *)
Fixpoint stop_mask (eq null : list bool) : list bool :=
  match eq, null with
  | e :: eq, n :: null => (negb e || n) :: stop_mask eq null
  | _, _ => []
  end.

(** std::countr_zero, for a mask that is not 0 *)
Fixpoint countr_zero (l : list bool) : nat :=
  match l with
  | [] => O
  | true :: _ => O
  | false :: l => S (countr_zero l)
  end.

(** what a turn of the inner loop does: return, or go on *)
Inductive turn := Ret (r : Z) | Go.

(** strcmp.cpp:21-36 (SSE2, w = 16) and 122-136 (AVX2, w = 32) *)
Definition turn_mask (w : nat) (m : mem) (s1 s2 : Z) : res turn :=
  c1 <- loadv w m s1 ;;
  c2 <- loadv w m s2 ;;
  let mask := stop_mask (eq_mask c1 c2) (eq_mask c1 (repeat 0 w)) in
  if existsb id mask then
    let index := Z.of_nat (countr_zero mask) in
    x <- load m (s1 + index) ;;
    y <- load m (s2 + index) ;;
    Ok (Ret (x - y))
  else Ok Go.

(** pcmpistri with equal-each, negative polarity, least significant index (Intel SDM volume 1, 16.3): a byte is valid if
    no null byte is at or before it; two bytes are equal if both are valid and the same, or both are invalid.
    This is the complement of that mask *)
Fixpoint istr_mask (v1 v2 : bool) (a b : list Z) : list bool :=
  match a, b with
  | x :: a, y :: b =>
      let v1 := v1 && negb (x =? 0) in
      let v2 := v2 && negb (y =? 0) in
      negb (if v1 && v2 then x =? y else Bool.eqb v1 v2) :: istr_mask v1 v2 a b
  | _, _ => []
  end.

(** strcmp.cpp:69-88 (SSE4.2): _mm_cmpistri is the index, _mm_cmpistrc whether the mask is not 0, _mm_cmpistrz whether
    the second operand has a null byte.  Returning 0 for null_found *)
Definition turn_istr (w : nat) (m : mem) (s1 s2 : Z) : res turn :=
  c1 <- loadv w m s1 ;;
  c2 <- loadv w m s2 ;;
  let mask := istr_mask true true c1 c2 in
  if existsb id mask then
    let index := Z.of_nat (countr_zero mask) in
    x <- load m (s1 + index) ;;
    y <- load m (s2 + index) ;;
    Ok (Ret (x - y))
  else if existsb (Z.eqb 0) c2 then Ok (Ret 0)
  else Ok Go.

(** the two loops, strcmp.cpp:16-55, 63-107, 116-156; [inner]: inside of the inner one *)
Fixpoint vloop (turn_ : mem -> Z -> Z -> res turn) (w : nat) (lim : Z) (fuel : nat) (inner : bool) (m : mem) (s1 s2 : Z) : res Z :=
  match fuel with
  | O => Fuel
  | S f =>
      if inner || (negb (near lim s1) && negb (near lim s2)) then
        t <- turn_ m s1 s2 ;;
        match t with
        | Ret r => Ok r
        | Go =>
            let s1 := s1 + Z.of_nat w in
            let s2 := s2 + Z.of_nat w in
            if near lim s1 || near lim s2 then vloop turn_ w lim f false m s1 s2
            else vloop turn_ w lim f true m s1 s2
        end
      else
        c1 <- load m s1 ;;
        c2 <- load m s2 ;;
        if negb (c1 =? c2) then Ok (c1 - c2)
        else if c1 =? 0 then Ok 0
        else vloop turn_ w lim f false m (s1 + 1) (s2 + 1)
  end.

(** __mlibc_strcmp_sse2, __mlibc_strcmp_sse4_2, __mlibc_strcmp_avx2 *)
Definition strcmp_sse2 (fuel : nat) (m : mem) (s1 s2 : Z) : res Z := vloop (turn_mask 16) 16 4080 fuel false m s1 s2.
Definition strcmp_sse4_2 (fuel : nat) (m : mem) (s1 s2 : Z) : res Z := vloop (turn_istr 16) 16 4080 fuel false m s1 s2.
Definition strcmp_avx2 (fuel : nat) (m : mem) (s1 s2 : Z) : res Z := vloop (turn_mask 32) 32 4064 fuel false m s1 s2.

(** what the cpuid and xgetbv instructions give, mlibc/features.hpp:24-48 (options/internal/x86_64-include); cpuid leaf 7 is
    with subleaf 0 *)
Record cpu := { max_leaf : Z; ecx1 : Z; edx1 : Z; ebx7 : Z; xcr0 : Z }.

(** xgetbv is an invalid instruction unless the system has set OSXSAVE *)
Definition xgetbv (c : cpu) : res Z := if Z.testbit (ecx1 c) 27 then Ok (xcr0 c) else UB.

(** feature_supported, features.hpp:51-96.  The cache of cpu_supports, 108-123, holds what the first call computed and is not
    modelled *)
Definition has_sse2 (c : cpu) : bool := if max_leaf c <? 1 then false else Z.testbit (edx1 c) 26.
Definition has_sse4_2 (c : cpu) : bool := if max_leaf c <? 1 then false else Z.testbit (ecx1 c) 20.
Definition has_avx2 (c : cpu) : res bool :=
  if max_leaf c <? 7 then Ok false
  else if negb (Z.testbit (ecx1 c) 27) then Ok false
  else
    x <- xgetbv c ;;
    if negb (Z.land x 6 =? 6) then Ok false
    else Ok (Z.testbit (ebx7 c) 5).

Inductive variant := Default | Sse2 | Sse4_2 | Avx2.

(** __mlibc_resolve_strcmp, strcmp.cpp:160-169 *)
Definition resolve (c : cpu) : res variant :=
  a <- has_avx2 c ;;
  if a then Ok Avx2
  else if has_sse4_2 c then Ok Sse4_2
  else if has_sse2 c then Ok Sse2
  else Ok Default.

(** the function the resolver returns *)
Definition run (v : variant) : nat -> mem -> Z -> Z -> res Z :=
  match v with Default => strcmp | Sse2 => strcmp_sse2 | Sse4_2 => strcmp_sse4_2 | Avx2 => strcmp_avx2 end.
