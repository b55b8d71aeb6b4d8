(** Model of mlibc::stringToInteger<Return, char>, options/internal/include/mlibc/strtol.hpp:63-163, the
    implementation of strtol/strtoll/strtoul/strtoull (ansi/generic/stdlib.cpp:86-97) and strtoimax/strtoumax
    (ansi/generic/inttypes.cpp:17-23).
    [w] is the width of Return in bits, [sg] whether it is signed, [isspace] the locale's isspace_l.
    isdigit/isupper/islower/isxdigit are those of the ASCII character set (simplification: other character
    sets can only add letters, which the "digitValue >= base" test rejects for base <= 36).
    The result is the returned value, *endptr and whether errno was set to ERANGE. *)
From Verif Require Import Base.
Open Scope Z_scope.

Definition is_digit (c : Z) : bool := (48 <=? c) && (c <=? 57).
Definition is_upper (c : Z) : bool := (65 <=? c) && (c <=? 90).
Definition is_lower (c : Z) : bool := (97 <=? c) && (c <=? 122).
Definition is_xdigit (c : Z) : bool :=
  is_digit c || ((65 <=? c) && (c <=? 70)) || ((97 <=? c) && (c <=? 102)).

(** strtol.hpp:124-131 *)
Definition digit_value (c : Z) : option Z :=
  if is_digit c then Some (c - 48)
  else if is_upper c then Some (c - 65 + 10)
  else if is_lower c then Some (c - 97 + 10)
  else None.

(** while (isSpace( *s)) s++;  strtol.hpp:75-76 *)
Fixpoint skip_space (isspace : Z -> bool) (fuel : nat) (m : mem) (s : Z) : res Z :=
  match fuel with
  | O => Fuel
  | S f => c <- load m s ;; if isspace c then skip_space isspace f m (s + 1) else Ok s
  end.

(** the digit loop, strtol.hpp:122-147; arithmetic is modulo 2^w.
    Returns totalValue, convertedAny, outOfRange and the final s *)
Fixpoint conv_loop (w : Z) (fuel : nat) (m : mem) (s base cutoff cutlim total : Z) (any oor : bool)
  : res (Z * bool * bool * Z) :=
  match fuel with
  | O => Fuel
  | S f =>
    c <- load m s ;;
    if c =? 0 then Ok (total, any, oor, s)
    else match digit_value c with
         | None => Ok (total, any, oor, s)
         | Some d =>
           if d >=? base mod 2 ^ w then Ok (total, any, oor, s)
           else if oor then conv_loop w f m (s + 1) base cutoff cutlim total any oor
           else if (total >? cutoff) || ((total =? cutoff) && (d >? cutlim))
           then conv_loop w f m (s + 1) base cutoff cutlim total any true
           else conv_loop w f m (s + 1) base cutoff cutlim ((total * base + d) mod 2 ^ w) true oor
         end
  end.

(** conversion of an unsigned value to Return *)
Definition to_ret (w : Z) (sg : bool) (v : Z) : Z :=
  if sg && (2 ^ (w - 1) <=? v mod 2 ^ w) then v mod 2 ^ w - 2 ^ w else v mod 2 ^ w.

(** int_limits<Return>, strtol.hpp:14-38 *)
Definition ret_max (w : Z) (sg : bool) : Z := if sg then 2 ^ (w - 1) - 1 else 2 ^ w - 1.
Definition ret_min (w : Z) (sg : bool) : Z := if sg then - 2 ^ (w - 1) else 0.

(** strtol.hpp:92-104, given the three prefix tests and isHexDigit(s[2]): new base and characters to skip *)
Definition pick_base (base : Z) (oct hex bin xd : bool) : Z * Z :=
  if ((base =? 0) || (base =? 16)) && hex && xd then (16, 2)
  else if ((base =? 0) || (base =? 2)) && bin then (2, 2)
  else if ((base =? 0) || (base =? 8)) && oct then (8, 0)
  else if base =? 0 then (10, 0)
  else (base, 0).

(** stringToInteger, strtol.hpp:63-163 *)
Definition string_to_integer (isspace : Z -> bool) (w : Z) (sg : bool) (fuel : nat) (m : mem) (nptr baseInt : Z)
  : res (Z * Z * bool) :=
  let base := if sg then baseInt else baseInt mod 2 ^ w in
  if (base <? 0) || (base =? 1) then Ok (0, nptr, false)
  else
    s <- skip_space isspace fuel m nptr ;;
    c <- load m s ;;
    let negative := c =? 45 in
    let s := if (c =? 45) || (c =? 43) then s + 1 else s in
    c0 <- load m s ;;
    let oct := c0 =? 48 in
    c1 <- (if oct then load m (s + 1) else Ok 0) ;;
    let hex := oct && ((c1 =? 120) || (c1 =? 88)) in
    let bin := oct && ((c1 =? 98) || (c1 =? 66)) in
    xd <- (if ((base =? 0) || (base =? 16)) && hex then c2 <- load m (s + 2) ;; Ok (is_xdigit c2) else Ok false) ;;
    let '(base, skip) := pick_base base oct hex bin xd in
    let s := s + skip in
    let '(cutoff, cutlim) :=
      if negb sg then (ret_max w sg / base, ret_max w sg mod base)
      else if negative then (Z.quot (ret_min w sg) (- base), - Z.rem (ret_min w sg) base)
      else (Z.quot (ret_max w sg) base, Z.rem (ret_max w sg) base) in
    '(total, any, oor, s) <- conv_loop w fuel m s base cutoff cutlim 0 false false ;;
    let endptr := if (any : bool) then s else nptr in
    if (oor : bool) then
      Ok (if sg && negative then ret_min w sg else ret_max w sg, endptr, true)
    else Ok (to_ret w sg (if negative then - total else total), endptr, false).
