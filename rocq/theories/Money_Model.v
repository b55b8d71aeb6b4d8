(** Model of strfmon (options/posix/generic/monetary.cpp).  The text of a number is a parameter, because print_float and grouping_extra_characters are in
    another library: the pieces print_float appends, and the number of separators.  Simplified: sizes do not wrap (they are counted in memory);
    the arguments are an endless list of numbers; FRG_ASSERT stops the program. *)
From Verif Require Import Base.
Open Scope Z_scope.

Definition EINVAL : Z := 22.
Definition E2BIG : Z := 7.

(** BufferSink :14-48: the characters stored so far; a character is a string of one.  Writing at maxsize or after it is UB *)
Definition append (maxsize : Z) (out s : list Z) : res (option (list Z)) :=
  if maxsize <=? Z.of_nat (length out) + Z.of_nat (length s) + 1 then Ok None
  else if maxsize <? Z.of_nat (length out) + Z.of_nat (length s) then UB else Ok (Some (out ++ s)).
(** a piece with true is given to EMIT, which returns E2BIG if it does not fit; print_float does not look at the result *)
Fixpoint run (maxsize : Z) (out : list Z) (l : list (bool * list Z)) : res (option (list Z)) :=
  match l with
  | [] => Ok (Some out)
  | (checked, s) :: r =>
      o <- append maxsize out s ;;
      match o with Some out' => run maxsize out' r | None => if checked : bool then Ok None else run maxsize out r end
  end.

Fixpoint cstr (l : list Z) : list Z := match l with [] => [] | c :: r => if c =? 0 then [] else c :: cstr r end.
(** :53-57 *)
Definition strip (v : list Z) : list Z := if 1 <? Z.of_nat (length v) then removelast v else v.

Record layout := lay { cs_precedes : Z; sep_by_space : Z; sign_posn : Z }.
(** the monetary category: strings as stored, the layouts for positive and negative numbers, local and international *)
Record locale := loc { pos_sign : list Z; neg_sign : list Z; dec : list Z; currency : list Z; int_currency : list Z;
  frac : Z; int_frac : Z; lp : layout; ln : layout; ilp : layout; iln : layout }.
(** an amount: its sign, integral part, the pieces of its digits for a precision with or without grouping, and its separators for a precision *)
Record num := numb { negative : bool; integral : Z; text : Z -> bool -> list (list Z); extra : Z -> Z }.

Inductive smode := normal | force_positive | parentheses.
Record opts := op { group : bool; suppress : bool; width : option Z; lprec : option Z; rprec : option Z; padding : Z; left : bool; mode : smode; intf : bool }.
Definition opts0 : opts := op true false None None None 32 false normal false.

(** textLength :249-256: its argument is an int that is divided as an unsigned *)
Fixpoint ndigits (fuel : nat) (x : Z) : Z := match fuel with O => 0 | S f => if x / 10 =? 0 then 1 else 1 + ndigits f (x / 10) end.
Definition text_length (x : Z) : Z := ndigits 10 (x mod 4294967296).
Definition fill (k c : Z) : list (bool * list Z) := repeat (true, [c]) (Z.to_nat k).
Definition some {A} (o : option A) : bool := match o with Some _ => true | None => false end.

(** :181-182: the precision of the locale, 2 if there is none; a uint8_t *)
Definition precision (l : locale) (o : opts) : Z :=
  let p := match rprec o with Some p => p | None => if intf o then int_frac l else frac l end mod 256 in if p =? 255 then 2 else p.
(** :193-217: the sign bit is taken after the number was made positive, so these are those of positive numbers *)
Definition layout_of (l : locale) (o : opts) : layout := if intf o then ilp l else lp l.

(** :219-226: the way signs are shown, the position of the sign and the negative sign *)
Definition signs (l : locale) (o : opts) : smode * Z * list Z :=
  let posn := sign_posn (layout_of l o) mod 256 in
  let unset := (posn =? 127) || (posn =? 255) in
  let m := match mode o with normal => if unset then force_positive else normal | x => x end in
  let neg := match mode o with normal => if unset then [45] else strip (neg_sign l) | _ => strip (neg_sign l) end in
  let posn' := match m with force_positive => if (posn =? 0) || (posn =? 255) then 1 else posn | _ => posn end in
  (m, posn', neg).
Definition in_parentheses (m : smode) (posn : Z) : bool := match m with parentheses => true | normal => posn =? 0 | force_positive => false end.
(** the sign as it is emitted in the four places *)
Definition sign_pieces (l : locale) (o : opts) (n : num) (m : smode) (neg : list Z) : list (bool * list Z) :=
  if negb (negative n) && (match m with force_positive => true | _ => false end) then [(true, cstr (strip (pos_sign l)))]
  else if negb (negative n) && some (lprec o) then [(true, [32])]
  else if negative n then [(true, cstr neg)] else [].
(** :258-274 *)
Definition sign_length (l : locale) (o : opts) (n : num) (m : smode) (posn : Z) (neg : list Z) : Z :=
  if in_parentheses m posn then (if negative n then 2 else if some (lprec o) then 1 else 0)
  else if negb (negative n) && (match m with force_positive => true | _ => false end) then Z.of_nat (length (strip (pos_sign l)))
  else if negative n then Z.of_nat (length neg)
  else if some (lprec o) then 1 else 0.

(** :228-236: the currency symbol and what separates it from the number *)
Definition currency_of (l : locale) (o : opts) : list Z := strip (if intf o then int_currency l else currency l).
Definition space_of (l : locale) (o : opts) : Z := if intf o then nth 3 (currency_of l o) 0 else 32.
Definition symbol (l : locale) (o : opts) : list Z := if intf o then firstn 3 (currency_of l o) else cstr (currency_of l o).

Section Conv.
  Variables (l : locale) (o : opts) (n : num).
  Let m := fst (fst (signs l o)).
  Let posn := snd (fst (signs l o)).
  Let neg := snd (signs l o).
  Let par := in_parentheses m posn.
  Let sep := sep_by_space (layout_of l o) mod 256.
  Let precedes := cs_precedes (layout_of l o) =? 1.
  Let shown := negb (suppress o) && (0 <? Z.of_nat (length (currency_of l o))).
  Let is_par := match m with parentheses => true | _ => false end.

  (** the lengths :276-304 *)
  Definition currency_length : Z :=
    if suppress o then 0 else (if intf o then 3 else if 0 <? Z.of_nat (length (currency_of l o)) then Z.of_nat (length (currency_of l o)) else 0) + sep.
  Definition extra_grouping : Z := if group o then extra n 0 else 0.
  Definition fractional_length : Z := if 0 <? precision l o then precision l o + Z.of_nat (length (strip (dec l))) else 0.
  Definition num_len : Z := sign_length l o n m posn neg + text_length (integral n) + extra_grouping + fractional_length.
  Definition lfill : Z :=
    match lprec o with
    | None => 0
    | Some p => if text_length (integral n) <? p then p - text_length (integral n) + (if group o then extra n p - extra_grouping else 0) else 0
    end.
  Definition wfill : Z :=
    match width o with None => 0 | Some w => if currency_length + num_len + lfill <? w then w - (currency_length + num_len + lfill) else 0 end.

  Definition sgn : list (bool * list Z) := sign_pieces l o n m neg.
  (** :317-331 *)
  Definition before : list (bool * list Z) :=
    if par then (if negative n then [(true, [40])] else if some (lprec o) then [(true, [32])] else []) else if posn =? 1 then sgn else [].
  (** :401-413 *)
  Definition after : list (bool * list Z) :=
    if par then (if negative n then [(true, [41])] else []) else if posn =? 2 then sgn else [].
  Definition cur : list (bool * list Z) :=
    (if negb is_par && (posn =? 3) then sgn else []) ++ [(true, symbol l o)] ++ (if negb is_par && (posn =? 4) then sgn else []).
  Definition body : list (bool * list Z) :=
    before ++ (if shown && precedes then cur ++ fill sep (space_of l o) else []) ++ fill lfill (padding o) ++
    map (fun s => (false, s)) (text n (precision l o) (group o)) ++
    (if shown && negb precedes then fill sep (space_of l o) ++ cur else []) ++ after.
  (** :310-315, :415-419 *)
  Definition conv : list (bool * list Z) :=
    let lj := left o && some (width o) in
    (if lj then [] else fill wfill (padding o)) ++ body ++ (if lj then fill wfill 32 else []).
End Conv.

(** the format *)
Definition hd0 (f : list Z) : Z := match f with [] => 0 | c :: _ => c end.
Definition digit (c : Z) : bool := (48 <=? c) && (c <=? 57).
(** a flag must be followed by something *)
Definition need (f : list Z) : res (list Z) := match f with [] => Abort | _ => Ok f end.
(** :86-125 *)
Fixpoint flags (no_signs : bool) (f : list Z) (o : opts) : res (option (opts * list Z)) :=
  match f with
  | 45 :: r => r' <- need r ;; flags no_signs r (op (group o) (suppress o) (width o) (lprec o) (rprec o) (padding o) true (mode o) (intf o))
  | 43 :: r => if no_signs then Ok None else r' <- need r ;; flags no_signs r (op (group o) (suppress o) (width o) (lprec o) (rprec o) (padding o) (left o) force_positive (intf o))
  | 40 :: r => r' <- need r ;; flags no_signs r (op (group o) (suppress o) (width o) (lprec o) (rprec o) (padding o) (left o) parentheses (intf o))
  | 94 :: r => r' <- need r ;; flags no_signs r (op false (suppress o) (width o) (lprec o) (rprec o) (padding o) (left o) (mode o) (intf o))
  | 33 :: r => r' <- need r ;; flags no_signs r (op (group o) true (width o) (lprec o) (rprec o) (padding o) (left o) (mode o) (intf o))
  | 61 :: c :: r => r' <- need r ;; flags no_signs r (op (group o) (suppress o) (width o) (lprec o) (rprec o) c (left o) (mode o) (intf o))
  | [61] => Abort
  | _ => Ok (Some (o, f))
  end.
(** the loops over digits *)
Fixpoint number (f : list Z) (w : Z) : res (Z * list Z) :=
  match f with
  | c :: r => if digit c then r' <- need r ;; number r ((w * 10 + (c - 48)) mod 18446744073709551616) else Ok (w, f)
  | [] => Ok (w, f)
  end.
(** :76-178: the options of a conversion and the rest of the format, or EINVAL *)
Definition parse (l : locale) (f : list Z) : res (option (opts * list Z)) :=
  fo <- flags (match strip (pos_sign l), strip (neg_sign l) with [], [] => true | _, _ => false end) f opts0 ;;
  match fo with
  | None => Ok None
  | Some (o, f1) =>
      '(w, f2) <- (if digit (hd0 f1) then '(w, f2) <- number f1 0 ;; Ok (Some w, f2) else Ok (None, f1)) ;;
      '(p, f3) <- (if hd0 f2 =? 35 then r <- need (tl f2) ;; '(p, f3) <- number r 0 ;; Ok (Some p, f3) else Ok (None, f2)) ;;
      '(q, f4) <- (if hd0 f3 =? 46 then r <- need (tl f3) ;; '(q, f4) <- number r 0 ;; Ok (Some q, f4) else Ok (None, f3)) ;;
      let o' i := op (group o) (suppress o) w p q (padding o) (left o) (mode o) i in
      if hd0 f4 =? 105 then Ok (Some (o' true, tl f4)) else if hd0 f4 =? 110 then Ok (Some (o' false, tl f4)) else Ok None
  end.

(** characters up to the next % *)
Fixpoint plain (f : list Z) : list Z * list Z := match f with [] => ([], []) | c :: r => if c =? 37 then ([], f) else let '(a, b) := plain r in (c :: a, b) end.
(** the loop :63-420; the result is the number of characters or an error, and what is in the buffer *)
Fixpoint format_loop (fuel : nat) (l : locale) (maxsize : Z) (f : list Z) (args : nat -> num) (out : list Z) : res ((Z + list Z)) :=
  match fuel with
  | O => Fuel
  | S k =>
      match f with
      | [] => Ok (inr out)
      | c :: r =>
          if negb (c =? 37) then
            let '(a, b) := plain f in o <- append maxsize out a ;; match o with None => Ok (inl E2BIG) | Some out' => format_loop k l maxsize b args out' end
          else if hd0 r =? 37 then o <- append maxsize out [37] ;; match o with None => Ok (inl E2BIG) | Some out' => format_loop k l maxsize (tl r) args out' end
          else
            po <- parse l r ;;
            match po with
            | None => Ok (inl EINVAL)
            | Some (o, f') =>
                x <- run maxsize out (conv l o (args O)) ;;
                match x with None => Ok (inl E2BIG) | Some out' => format_loop k l maxsize f' (fun i => args (S i)) out' end
            end
      end
  end.
(** strfmon: an error, or the number of characters; and the bytes written *)
Definition strfmon (l : locale) (maxsize : Z) (f : list Z) (args : nat -> num) : res (Z + Z * list Z) :=
  x <- format_loop (S (length f)) l maxsize f args [] ;;
  match x with
  | inl e => Ok (inl e)
  | inr out => o <- append maxsize out [0] ;; match o with None => Ok (inl E2BIG) | Some out' => Ok (inr (Z.of_nat (length out') - 1, out')) end
  end.
