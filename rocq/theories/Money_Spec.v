(** Amounts of money. *)
From Verif Require Import Base Money_Model.
Open Scope Z_scope.

(** a string of a locale: missing, or stored with its zero byte *)
Definition stored (v s : list Z) : Prop := ~ In 0 s /\ ((v = [] /\ s = []) \/ (v = s ++ [0] /\ s <> [])).
(** [k] is the number of decimal digits of [x] *)
Definition decimal_digits (x k : Z) : Prop := (x = 0 /\ k = 1) \/ (1 <= k /\ 10 ^ (k - 1) <= x < 10 ^ k).
(** the digits of an amount have the length that its integral part, its separators, the decimal point and the precision have together *)
Definition printed (n : num) (point : list Z) : Prop := exists k, decimal_digits (integral n) k /\ 0 <= extra n 0 /\
  forall p g, 0 <= p -> Z.of_nat (length (concat (text n p g))) = k + (if g : bool then extra n 0 else 0) + (if 0 <? p then p + Z.of_nat (length point) else 0).
(** the characters of a conversion *)
Definition shown_as (l : locale) (o : opts) (n : num) : list Z := concat (map snd (conv l o n)).
Definition with_width (o : opts) (w : option Z) : opts := op (group o) (suppress o) w (lprec o) (rprec o) (padding o) (left o) (mode o) (intf o).
(** print_float appends character by character *)
Definition single (n : num) : Prop := forall p g s, In s (text n p g) -> (length s <= 1)%nat.
(** a locale and options for which the layout is defined: the sign has one of the positions 0 to 4 and, at 3 or 4, there is a currency symbol *)
Definition regular (l : locale) (o : opts) : Prop :=
  let y := if intf o then ilp l else lp l in
  0 <= sep_by_space y < 256 /\ 0 <= sign_posn y <= 4 /\
  (exists s, stored (neg_sign l) s) /\ (mode o = force_positive -> exists s, stored (pos_sign l) s) /\
  (if suppress o then sign_posn y <= 2 else if intf o then exists s, stored (int_currency l) s /\ length s = 4%nat else exists s, stored (currency l) s /\ s <> []).
(** the C locale *)
Definition unset : layout := lay 4294967295 4294967295 4294967295.
Definition C_locale : locale := loc [] [] [] [] [] 4294967295 4294967295 unset unset unset unset.
(** the value of decimal digits *)
Definition value (ds : list Z) : Z := fold_left (fun v c => 10 * v + (c - 48)) ds 0.

(** a format as a list of texts, percent signs and conversions %n or %<width>n *)
Inductive item := Txt (t : list Z) | Pct | Field (ds : list Z).
Fixpoint format_of (s : list item) : list Z :=
  match s with [] => [] | Txt t :: r => t ++ format_of r | Pct :: r => 37 :: 37 :: format_of r | Field ds :: r => 37 :: ds ++ 110 :: format_of r end.
Fixpoint proper (s : list item) : Prop :=
  match s with
  | [] => True
  | Txt t :: r => t <> [] /\ ~ In 37 t /\ match r with Txt _ :: _ => False | _ => True end /\ proper r
  | Pct :: r => proper r
  | Field ds :: r => (forall d, In d ds -> 48 <= d <= 57) /\ value ds < 18446744073709551616 /\ proper r
  end.
(** its characters: the amounts are used in order *)
Fixpoint characters (l : locale) (s : list item) (args : nat -> num) : list Z :=
  match s with
  | [] => []
  | Txt t :: r => t ++ characters l r args
  | Pct :: r => 37 :: characters l r args
  | Field ds :: r => shown_as l (with_width opts0 (match ds with [] => None | _ => Some (value ds) end)) (args O) ++ characters l r (fun i => args (S i))
  end.
Definition with_left (o : opts) (p : option Z) : opts := op (group o) (suppress o) None p (rprec o) (padding o) (left o) (mode o) (intf o).
