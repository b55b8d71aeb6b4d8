(** The subject sequence of C 7.24.1.7 (strtol), written down independently of the code. *)
From Verif Require Import Base.
Open Scope Z_scope.

(** value of a digit or letter *)
Definition dig (c : Z) : option Z :=
  if (48 <=? c) && (c <=? 57) then Some (c - 48)            (* '0'..'9' *)
  else if (97 <=? c) && (c <=? 122) then Some (c - 87)      (* 'a'..'z' = 10..35 *)
  else if (65 <=? c) && (c <=? 90) then Some (c - 55)       (* 'A'..'Z' = 10..35 *)
  else None.
(** [c] is a digit in base [b] *)
Definition digit_in (b c : Z) : bool := match dig c with Some d => d <? b | None => false end.
(** value of a digit sequence, most significant digit first *)
Definition digits_value (b : Z) (ds : list Z) : Z :=
  fold_left (fun v c => match dig c with Some d => v * b + d | None => v end) ds 0.

(** longest prefix satisfying [P], and the rest *)
Fixpoint span (P : Z -> bool) (s : list Z) : list Z * list Z :=
  match s with
  | [] => ([], [])
  | c :: s' => if P c then let (a, b) := span P s' in (c :: a, b) else ([], s)
  end.

(** optional sign: negative?, length, rest *)
Definition sign (s : list Z) : bool * nat * list Z :=
  match s with
  | c :: s' => if c =? 45 then (true, 1%nat, s')            (* '-' *)
               else if c =? 43 then (false, 1%nat, s')      (* '+' *)
               else (false, 0%nat, s)
  | [] => (false, 0%nat, s)
  end.

Definition hd0 (s : list Z) : Z := match s with c :: _ => c | [] => 0 end.
(** [s] starts with '0' followed by [x] or [y] *)
Definition zero_then (x y : Z) (s : list Z) : bool :=
  (hd0 s =? 48) && ((hd0 (tl s) =? x) || (hd0 (tl s) =? y)).

(** optional base prefix: the base to use, the prefix length and the digits' text.  A prefix 0x / 0b counts only
    if a digit of that base follows; otherwise the "0" is an ordinary digit. *)
Definition prefix (base : Z) (s : list Z) : Z * nat * list Z :=
  if ((base =? 0) || (base =? 16)) && zero_then 120 88 s && digit_in 16 (hd0 (tl (tl s))) then (16, 2%nat, tl (tl s))
  else if ((base =? 0) || (base =? 2)) && zero_then 98 66 s && digit_in 2 (hd0 (tl (tl s))) then (2, 2%nat, tl (tl s))
  else if base =? 0 then (if hd0 s =? 48 then 8 else 10, 0%nat, s)
  else (base, 0%nat, s).

(** What strtol must find: [None] if there is no subject sequence, else sign, magnitude and the number of
    characters consumed. *)
Definition subject (isspace : Z -> bool) (base : Z) (s : list Z) : option (bool * Z * nat) :=
  let (ws, r) := span isspace s in
  let '(neg, sl, r1) := sign r in
  let '(b, pl, r2) := prefix base r1 in
  let (ds, _) := span (digit_in b) r2 in
  match ds with
  | [] => None
  | _ => Some (neg, digits_value b ds, (length ws + sl + pl + length ds)%nat)
  end.

(** returned value and ERANGE for a w-bit signed / unsigned result type *)
Definition strtol_value (w : Z) (neg : bool) (n : Z) : Z * bool :=
  let v := if neg then - n else n in
  if v <? - 2 ^ (w - 1) then (- 2 ^ (w - 1), true)
  else if v >? 2 ^ (w - 1) - 1 then (2 ^ (w - 1) - 1, true)
  else (v, false).
Definition strtoul_value (w : Z) (neg : bool) (n : Z) : Z * bool :=
  if n >? 2 ^ w - 1 then (2 ^ w - 1, true)
  else ((if neg then - n else n) mod 2 ^ w, false).

Definition strto_result (w : Z) (sg : bool) (nptr : Z) (r : option (bool * Z * nat)) : Z * Z * bool :=
  match r with
  | None => (0, nptr, false)
  | Some (neg, n, len) =>
    let '(v, e) := if sg then strtol_value w neg n else strtoul_value w neg n in (v, nptr + Z.of_nat len, e)
  end.

(** the text after whitespace and sign starts with 0b / 0B not followed by a binary digit *)
Definition dangling_bin (isspace : Z -> bool) (s : list Z) : bool :=
  let (_, r) := span isspace s in
  let '(_, _, r1) := sign r in
  zero_then 98 66 r1 && negb (digit_in 2 (hd0 (tl (tl r1)))).
