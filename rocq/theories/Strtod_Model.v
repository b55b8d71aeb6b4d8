(** Model of mlibc::strtofp<T, char>, options/internal/include/mlibc/strtofp.hpp:81-258, the implementation of strtod, strtof
    (ansi/generic/stdlib.cpp:75-81) and atof.
    [f] is the format of T; long double (not an interchange format) is not modelled.  [isspace] is the locale's isspace_l;
    isdigit_l, isxdigit_l and tolower_l are those of ASCII and the decimal point is "." (the C locale).  The multiplication and
    the addition of a digit are not fused.  Numbers are given by their bits; the result is the returned value and *endptr. *)
From Verif Require Import Base Strtol_Model Ieee Ieee_Div.
Open Scope Z_scope.

(** string_compare(str, lit) == 0 if [lit] ends with 0, string_compare_n(str, lit, strlen(lit)) == 0 otherwise *)
Fixpoint matches (m : mem) (p : Z) (lit : list Z) : res bool :=
  match lit with
  | [] => Ok true
  | c :: lit => x <- load m p ;; if x =? c then matches m (p + 1) lit else Ok false
  end.
(** a || b *)
Definition either (m : mem) (p : Z) (l1 l2 : list Z) : res bool :=
  b <- matches m p l1 ;; if (b : bool) then Ok true else matches m p l2.

(** strtofp.hpp:37-42 *)
Definition INF : list Z := [73; 78; 70].
Definition inf_ : list Z := [105; 110; 102].
Definition INFINITY : list Z := [73; 78; 70; 73; 78; 73; 84; 89].
Definition infinity_ : list Z := [105; 110; 102; 105; 110; 105; 116; 121].
Definition NAN : list Z := [78; 65; 78].
Definition nan_ : list Z := [110; 97; 110].

(** while (is_digit( *tmp)) { ...; tmp++; } *)
Fixpoint scan {A} (isd : Z -> bool) (step : A -> Z -> A) (fuel : nat) (m : mem) (p : Z) (a : A) : res (Z * A) :=
  match fuel with
  | O => Fuel
  | S f => c <- load m p ;; if isd c then scan isd step f m (p + 1) (step a c) else Ok (p, a)
  end.

(** the value of a digit, strtofp.hpp:146, 154 *)
Definition dec_digit (c : Z) : Z := c - 48.
Definition to_lower (c : Z) : Z := if (65 <=? c) && (c <=? 90) then c + 32 else c.
Definition hex_digit (c : Z) : Z := if c <=? 57 then c - 48 else to_lower c - 97 + 10.

(** strtofp.hpp:145-146, 153-154 *)
Definition int_step (f : fmt) (base : Z) (dval : Z -> Z) (r c : Z) : Z := fadd f (fmul f r (fint f base)) (fint f (dval c)).
(** strtofp.hpp:168-169, 178-179; the state is result and d *)
Definition frac_step (f : fmt) (base : Z) (dval : Z -> Z) (rd : Z * Z) (c : Z) : Z * Z :=
  (fadd f (fst rd) (fdiv f (fint f (dval c)) (snd rd)), fmul f (snd rd) (fint f base)).

(** int exp, strtofp.hpp:198-205, 231-238 *)
Fixpoint exp_scan (fuel : nat) (m : mem) (p e : Z) : res (Z * Z) :=
  match fuel with
  | O => Fuel
  | S f =>
      c <- load m p ;;
      if is_digit c then
        (if e * 10 + dec_digit c >? 2 ^ 31 - 1 then UB else exp_scan f m (p + 1) (e * 10 + dec_digit c))
      else Ok (p, e)
  end.

(** strtofp.hpp:207-215, 240-248 *)
Definition scale (f : fmt) (eb : Z) (neg : bool) (e r : Z) : Z :=
  Nat.iter (Z.to_nat e) (fun r => if neg then fdiv f r (fint f eb) else fmul f r (fint f eb)) r.

(** strtofp.hpp:185-218 (e, E, 10), 219-250 (p, P, 2) *)
Definition exponent (f : fmt) (l1 l2 eb : Z) (fuel : nat) (m : mem) (tmp r : Z) : res (Z * Z) :=
  c <- load m tmp ;;
  if (c =? l1) || (c =? l2) then
    s <- load m (tmp + 1) ;;
    let off := if (s =? 43) || (s =? 45) then 2 else 1 in
    d <- load m (tmp + off) ;;
    if is_digit d then
      '(tmp, e) <- exp_scan fuel m (tmp + off) 0 ;;
      Ok (tmp, scale f eb (s =? 45) e r)
    else Ok (tmp, r)
  else Ok (tmp, r).

(** strtofp.hpp:136-250, the number after the prefix *)
Definition digits_part (f : fmt) (hex : bool) (fuel : nat) (m : mem) (p : Z) : res (Z * Z) :=
  let isd := if hex then is_xdigit else is_digit in
  let dval := if hex then hex_digit else dec_digit in
  let base := if hex then 16 else 10 in
  '(tmp, r) <- scan isd (int_step f base dval) fuel m p (fint f 0) ;;
  pt <- matches m tmp [46] ;;
  '(tmp, r) <- (if (pt : bool) then
                  '(tmp, rd) <- scan isd (frac_step f base dval) fuel m (tmp + 1) (r, fint f base) ;;
                  Ok (tmp, fst rd)
                else Ok (tmp, r)) ;;
  if hex then exponent f 112 80 2 fuel m tmp r else exponent f 101 69 10 fuel m tmp r.

(** strtofp.hpp:81-258; line 85 is skip_space of Strtol_Model *)
Definition strtofp (f : fmt) (isspace : Z -> bool) (fuel : nat) (m : mem) (str : Z) : res (Z * Z) :=
  str <- skip_space isspace fuel m str ;;
  c <- load m str ;;
  let negative := c =? 45 in
  let str := if (c =? 43) || (c =? 45) then str + 1 else str in
  b <- either m str (INF ++ [0]) (inf_ ++ [0]) ;;
  if (b : bool) then Ok (with_sign f negative (infinity f), str + 3) else
  b <- either m str (INFINITY ++ [0]) (infinity_ ++ [0]) ;;
  if (b : bool) then Ok (with_sign f negative (infinity f), str + 8) else
  b <- either m str NAN nan_ ;;
  if (b : bool) then Ok (with_sign f negative (quiet_nan f), str + 3) else
  z <- load m str ;;
  hex <- (if z =? 48 then x <- load m (str + 1) ;; Ok ((x =? 120) || (x =? 88)) else Ok false) ;;
  let str := if (hex : bool) then str + 2 else str in
  '(tmp, r) <- digits_part f hex fuel m str ;;
  Ok (if negative then fneg f r else r, tmp).
