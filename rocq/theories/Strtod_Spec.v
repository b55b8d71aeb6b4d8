(** The subject sequence of strtod (C 7.24.1.5), for numbers, and its value. *)
From Verif Require Import Base Strtol_Spec Ieee Ieee_Mul.
Open Scope Z_scope.

(** optional sign, 0x, digits, point, digits, exponent letter, sign and digits *)
Record number := Number { hex : bool; sgn : list Z; pre : list Z; ip : list Z; pt : bool; fp : list Z;
                          ex : list Z; esg : list Z; eds : list Z }.
Definition opt_sign (s : list Z) : Prop := s = [] \/ s = [43] \/ s = [45].
Definition radix (n : number) : Z := if hex n then 16 else 10.
Definition is_dig (b c : Z) : Prop := digit_in b c = true.

Definition wf (n : number) : Prop :=
  opt_sign (sgn n) /\
  (if hex n then pre n = [48; 120] \/ pre n = [48; 88] else pre n = []) /\
  Forall (is_dig (radix n)) (ip n) /\ Forall (is_dig (radix n)) (fp n) /\ ip n ++ fp n <> [] /\
  (pt n = false -> fp n = []) /\
  ((ex n = [] /\ esg n = [] /\ eds n = []) \/
   ((if hex n then ex n = [112] \/ ex n = [80] else ex n = [101] \/ ex n = [69]) /\
    opt_sign (esg n) /\ Forall (is_dig 10) (eds n) /\ eds n <> [])).

Definition unsigned_text (n : number) : list Z :=
  pre n ++ ip n ++ (if pt n then [46] else []) ++ fp n ++ ex n ++ esg n ++ eds n.
Definition text (n : number) : list Z := sgn n ++ unsigned_text n.

(** [s] is the text of [n] followed by [r], and no number has a longer text at the start of [s] *)
Definition longest (s : list Z) (n : number) (r : list Z) : Prop :=
  wf n /\ s = text n ++ r /\
  forall n' r', wf n' -> s = text n' ++ r' -> (length (text n') <= length (text n))%nat.

Definition negative (n : number) : bool := match sgn n with [45] => true | _ => false end.
(** the absolute value is [numer n / denom n] *)
Definition expo_value (n : number) : Z := digits_value 10 (eds n).
Definition expo_neg (n : number) : bool := match esg n with [45] => true | _ => false end.
Definition expo_radix (n : number) : Z := if hex n then 2 else 10.
Definition numer (n : number) : Z :=
  digits_value (radix n) (ip n ++ fp n) * (if expo_neg n then 1 else expo_radix n ^ expo_value n).
Definition denom (n : number) : Z :=
  radix n ^ Z.of_nat (length (fp n)) * (if expo_neg n then expo_radix n ^ expo_value n else 1).

(** [u] is exactly the number *)
Definition is_exact (f : fmt) (n : number) (u : Z) : Prop :=
  bits f u /\ finite f u /\ sign f u = negative n /\ mag f u * denom n = numer n * one f.
(** no other finite magnitude is nearer *)
Definition is_nearest (f : fmt) (n : number) (u : Z) : Prop :=
  forall b, 0 <= b < infinity f ->
    Z.abs (numer n * one f - mag f u * denom n) <= Z.abs (numer n * one f - mag f b * denom n).

(** the one case of a subject the code does not see: the subject is 0 and an x follows (that no hexadecimal number continues) *)
Definition dangling_hex (n : number) (r : list Z) : Prop :=
  unsigned_text n = [48] /\ (hd0 r = 120 \/ hd0 r = 88).

(** the texts of infinity and of a NaN, in any case *)
Definition lower (c : Z) : Z := if (65 <=? c) && (c <=? 90) then c + 32 else c.
Definition caseless (s t : list Z) : Prop := map lower s = t.
Definition inf_text (s : list Z) : Prop := caseless s [105; 110; 102] \/ caseless s [105; 110; 102; 105; 110; 105; 116; 121].
Definition nan_text (s : list Z) : Prop := caseless s [110; 97; 110].

(** no number at the start of [s] *)
Definition no_number (s : list Z) : Prop := forall n r, wf n -> s <> text n ++ r.
(** no run of digits in [s] is too large for an int *)
Definition small_runs (s : list Z) : Prop := forall a d b, s = a ++ d ++ b -> Forall (is_dig 10) d -> digits_value 10 d < 2 ^ 31.
