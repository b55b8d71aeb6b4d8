(** Model of sscanf, options/ansi/generic/stdio.cpp:880-1696 and 1847-1866.

    A string is the list of its bytes 0..255 without the terminator.  [None] is the input behind its
    terminator: looking there is UB.  What a conversion stores through the pointers given as arguments is
    returned as a list, one entry for each argument in their order.  The locale is UTF-8, its classes of ASCII
    characters those of the C locale; char is signed.
    Left out (outcome Abort where the code would go on): the floating-point conversions, %p, %b, the
    modifiers m and ' and the wide forms %ls, %lc, %l[, multibyte members of a scanset. *)
From Verif Require Export Base Utf8_Model.
Open Scope Z_scope.

Definition input : Type := option (list Z).

(** stdio.cpp:1849-1851 *)
Definition look (i : input) : res Z :=
  match i with Some [] => Ok 0 | Some (b :: _) => Ok b | None => UB end.

(** stdio.cpp:1853-1856; num_consumed is carried along *)
Definition consume (i : input) (n : Z) : res (Z * input * Z) :=
  match i with
  | Some [] => Ok (0, None, n + 1)
  | Some (b :: r) => Ok (b, Some r, n + 1)
  | None => UB
  end.

(** isspace, isdigit, tolower (ansi/generic/ctype.cpp) of a char *)
Definition is_space (c : Z) : bool := (c =? 32) || ((9 <=? c) && (c <=? 13)).
Definition is_digit (c : Z) : bool := (48 <=? c) && (c <=? 57).
Definition lower (c : Z) : Z := if (65 <=? c) && (c <=? 90) then c + 32 else c.

(** stdio.cpp:882-891: the size in bits of what is stored *)
Inductive ty := TChar | TShort | TInt | TLong.
Definition bits (t : ty) : Z := match t with TChar => 8 | TShort => 16 | TInt => 32 | TLong => 64 end.

Inductive stored := SInt (t : ty) (v : Z) | SBytes (l : list Z).

(** stdio.cpp:893-922 *)
Definition store_int (t : ty) (v : Z) : stored := SInt t (v mod 2 ^ bits t).

(** stdio.cpp:946-947 and 1088-1089: while (isspace(look_ahead())) consume() *)
Fixpoint skip_space (l : list Z) (n : Z) : list Z * Z :=
  match l with
  | b :: r => if is_space b then skip_space r (n + 1) else (l, n)
  | [] => ([], n)
  end.
Definition skip_ws (i : input) (n : Z) : res (input * Z) :=
  match i with None => UB | Some l => let '(l, n) := skip_space l n in Ok (Some l, n) end.

(** the value of [c] as a digit in [base] *)
Definition digit (base c : Z) : option Z :=
  let v := if is_digit c then Some (c - 48)
           else if (97 <=? c) && (c <=? 102) then Some (c - 97 + 10)
           else if (65 <=? c) && (c <=? 70) then Some (c - 65 + 10) else None in
  match v with Some v => if v <? base then Some v else None | None => None end.

(** the loops of digits, stdio.cpp:1128-1132, 1135-1150, 1154-1158, 1163-1167, 1193-1197 and 1239-1255: the value
    modulo 2^64, how many.  [limit]: how many characters may still be consumed, none for no limit *)
Fixpoint digits (base : Z) (l : list Z) (limit : option nat) (res cnt : Z) (n : Z) : Z * Z * list Z * Z :=
  match limit, l with
  | Some O, _ => (res, cnt, l, n)
  | _, [] => (res, cnt, l, n)
  | _, c :: r =>
      match digit base c with
      | Some v => digits base r (match limit with Some (S k) => Some k | x => x end)
                    ((res * base + v) mod 2 ^ 64) (cnt + 1) (n + 1)
      | None => (res, cnt, l, n)
      end
  end.

(** what a conversion does: it stores (nothing if suppressed) and goes on, or scanf returns *)
Inductive outcome := Next (o : option stored) (i : input) (n : Z) | NoMatch | Eof.

Definition sign (l : list Z) (n : Z) : bool * list Z * Z :=
  match l with
  | c :: r => if c =? 45 then (true, r, n + 1) else if c =? 43 then (false, r, n + 1) else (false, l, n)
  | [] => (false, l, n)
  end.

Definition put (dest neg : bool) (t : ty) (v : Z) : option stored :=
  if dest then Some (store_int t (if (neg : bool) then (- v) mod 2 ^ 64 else v)) else None.

(** stdio.cpp:1093-1178; [conv]: 'd', 'u' or 'i' *)
Definition conv_int (conv : Z) (dest : bool) (t : ty) (l : list Z) (n : Z) : outcome :=
  match l with
  | [] => Eof
  | _ =>
      let '(neg, l, n) := sign l n in
      let '(base, l, n) :=
        match l with
        | c :: r =>
            if (conv =? 105) && (c =? 48) then
              match r with
              | c1 :: r1 => if lower c1 =? 120 then (16, r1, n + 2)
                            else if lower c1 =? 98 then (2, r1, n + 2) else (8, r, n + 1)
              | [] => (8, r, n + 1)
              end
            else (10, l, n)
        | [] => (10, l, n)
        end in
      let '(v, cnt, l, n) := digits base l None 0 0 n in
      if (cnt =? 0) && negb (base =? 8) then NoMatch else Next (put dest neg t v) (Some l) n
  end.

(** stdio.cpp:1179-1206 *)
Definition conv_oct (dest : bool) (t : ty) (l : list Z) (n : Z) : outcome :=
  match l with
  | [] => Eof
  | _ =>
      let '(neg, l, n) := sign l n in
      let '(v, cnt, l, n) := digits 8 l None 0 0 n in
      if cnt =? 0 then NoMatch else Next (put dest neg t v) (Some l) n
  end.

(** stdio.cpp:1207-1265; a width of 0 means none *)
Definition conv_hex (dest : bool) (width : Z) (t : ty) (l : list Z) (n : Z) : outcome :=
  match l with
  | [] => Eof
  | _ =>
      let n0 := n in
      let '(neg, l, n) := sign l n in
      let ok n := (width =? 0) || (n - n0 <? width) in
      let '(zeros, l, n) :=
        match l with
        | c :: r =>
            if (c =? 48) && ok n then
              match r with
              | c1 :: r1 => if (lower c1 =? 120) && ok (n + 1) then (0, r1, n + 2) else (1, r, n + 1)
              | [] => (1, r, n + 1)
              end
            else (0, l, n)
        | [] => (0, l, n)
        end in
      let limit := if width =? 0 then None else Some (Z.to_nat (width - (n - n0))) in
      let '(v, cnt, l, n) := digits 16 l limit 0 0 n in
      if zeros + cnt =? 0 then NoMatch else Next (put dest neg t v) (Some l) n
  end.

(** append_to_buffer, stdio.cpp:977-1000, of a char or a wide character [c]: the bytes added *)
Definition append (c : Z) : res (list Z) :=
  match enc_bytes (c mod 2 ^ 32) with Some l => Ok l | None => Abort end.

Definition signed (b : Z) : Z := if b <? 128 then b else b - 256.

(** stdio.cpp:1313-1324; the buffer so far is [acc] *)
Fixpoint word (l : list Z) (width : Z) (acc : list Z) (n : Z) : res (list Z * list Z * Z) :=
  match l with
  | [] => Ok (acc, l, n)
  | c :: r =>
      if is_space c then Ok (acc, l, n)
      else
        x <- append (signed c) ;;
        let acc := acc ++ x in
        if negb (width =? 0) && (width <=? Z.of_nat (length acc)) then Ok (acc, r, n + 1)
        else word r width acc (n + 1)
  end.

(** stdio.cpp:1310-1333 *)
Definition conv_str (dest : bool) (width : Z) (l : list Z) (n : Z) : res outcome :=
  match l with
  | [] => Ok Eof
  | _ =>
      '(acc, l, n) <- word l width [] n ;;
      match acc with
      | [] => Ok NoMatch
      | _ => Ok (Next (if dest then Some (SBytes (acc ++ [0])) else None) (Some l) n)
      end
  end.

(** stdio.cpp:1339-1348 *)
Fixpoint chars (l : list Z) (width : Z) (acc : list Z) (n : Z) : res (list Z * list Z * Z) :=
  match l with
  | [] => Ok (acc, l, n)
  | c :: r =>
      if width <=? Z.of_nat (length acc) then Ok (acc, l, n)
      else x <- append (signed c) ;; chars r width (acc ++ x) (n + 1)
  end.

(** stdio.cpp:1334-1350 *)
Definition conv_chr (dest : bool) (width : Z) (l : list Z) (n : Z) : res outcome :=
  match l with
  | [] => Ok Eof
  | _ =>
      '(acc, l, n) <- chars l (if width =? 0 then 1 else width) [] n ;;
      Ok (Next (if dest then Some (SBytes acc) else None) (Some l) n)
  end.

(** inScanset, stdio.cpp:1375-1399 *)
Fixpoint in_set (fuel : nat) (set : list Z) (invert : bool) (c : Z) : res bool :=
  match fuel with
  | O => Fuel
  | S g =>
      match set with
      | [] => Ok invert
      | f :: r =>
          if 128 <=? f then Abort
          else if f =? c then Ok (negb invert)
          else
            match r with
            | [d] => if d =? 45 then Ok (if c =? 45 then negb invert else invert) else in_set g r invert c
            | d :: s :: r' =>
                if (d =? 45) && (f <? c) then
                  if 128 <=? s then Abort
                  else if c <=? s then Ok (negb invert) else in_set g r' invert c
                else in_set g r invert c
            | [] => in_set g r invert c
            end
      end
  end.

(** nextChar, stdio.cpp:1402-1421: the wide character, of which the last byte is not consumed *)
Fixpoint next_char (fuel : nat) (i : input) (st : mbstate) (n : Z) : res (Z * input * Z) :=
  match fuel with
  | O => Fuel
  | S g =>
      b <- look i ;;
      match dstep st b with
      | None => '(_, i, n) <- consume i n ;; next_char g i st n
      | Some st' => if fst st' =? 0 then Ok (snd st', i, n)
                    else '(_, i, n) <- consume i n ;; next_char g i st' n
      end
  end.

(** stdio.cpp:1425-1436 *)
Fixpoint set_loop (fuel : nat) (set : list Z) (invert : bool) (width : Z) (c : Z) (acc : list Z) (i : input) (n : Z)
  : res (list Z * input * Z) :=
  match fuel with
  | O => Fuel
  | S g =>
      if (c =? 0) || (negb (width =? 0) && (width <=? Z.of_nat (length acc))) then Ok (acc, i, n)
      else
        ok <- in_set (S (length set)) set invert c ;;
        if (ok : bool) then
          '(_, i, n) <- consume i n ;;
          x <- append c ;;
          '(c, i, n) <- next_char fuel i mb_init n ;;
          set_loop g set invert width c (acc ++ x) i n
        else Ok (acc, i, n)
  end.

(** the text up to the first ']' and what follows it, stdio.cpp:1369-1373 *)
Fixpoint find_close (f : list Z) : option (list Z * list Z) :=
  match f with
  | [] => None
  | c :: r => if c =? 93 then Some ([], r)
              else match find_close r with Some (a, b) => Some (c :: a, b) | None => None end
  end.
Definition scanset (f : list Z) : option (list Z * list Z) :=
  match f with
  | c :: r => if c =? 93 then match find_close r with Some (a, b) => Some (c :: a, b) | None => None end
              else find_close f
  | [] => None
  end.

(** stdio.cpp:1351-1445, the format being that after '[': the outcome and the format after ']' *)
Definition conv_set (f : list Z) (dest : bool) (width : Z) (i : input) (n : Z) : res (outcome * list Z) :=
  let '(invert, f) := match f with c :: r => if c =? 94 then (true, r) else (false, f) | [] => (false, f) end in
  match scanset f with
  | None => Ok (Eof, f)
  | Some (set, f) =>
      let fuel := match i with Some l => S (S (length l)) | None => 1%nat end in
      '(c, i, n) <- next_char fuel i mb_init n ;;
      if c =? 0 then Ok (Eof, f)
      else
        '(acc, i, n) <- set_loop fuel set invert width c [] i n ;;
        match acc with
        | [] => Ok (NoMatch, f)
        | _ => Ok (Next (if dest then Some (SBytes (acc ++ [0])) else None) i n, f)
        end
  end.

(** stdio.cpp:1026-1032 (without overflow of the width) *)
Fixpoint read_width (f : list Z) (w : Z) : Z * list Z :=
  match f with
  | c :: r => if is_digit c then read_width r (w * 10 + (c - 48)) else (w, f)
  | [] => (w, f)
  end.

(** stdio.cpp:1015-1033: whether the format had '*', the width, the rest of the format *)
Definition flags (f : list Z) : res (Z * list Z) :=
  match f with
  | c :: r =>
      if c =? 42 then Ok (0, r)
      else if (c =? 39) || (c =? 109) then Abort
      else Ok (read_width f 0)
  | [] => Ok (0, f)
  end.

(** stdio.cpp:1036-1084 *)
Definition modifier (f : list Z) : ty * list Z :=
  match f with
  | c :: r =>
      if c =? 104 then match r with c1 :: r1 => if c1 =? 104 then (TChar, r1) else (TShort, r) | [] => (TShort, r) end
      else if c =? 108 then match r with c1 :: r1 => if c1 =? 108 then (TLong, r1) else (TLong, r) | [] => (TLong, r) end
      else if (c =? 106) || (c =? 76) || (c =? 113) || (c =? 116) || (c =? 122) then (TLong, r)
      else (TInt, f)
  | [] => (TInt, f)
  end.

(** stdio.cpp:1092-1670: the conversion at the head of [f]; outcome and the rest of the format.  [wide]: the
    modifier was a single l *)
Definition convert (f : list Z) (dest wide : bool) (width : Z) (t : ty) (l : list Z) (n : Z) : res (outcome * list Z) :=
  match f with
  | [] => UB
  | c :: r =>
      if (c =? 100) || (c =? 117) || (c =? 105) then Ok (conv_int c dest t l n, r)
      else if c =? 111 then Ok (conv_oct dest t l n, r)
      else if (c =? 120) || (c =? 88) then Ok (conv_hex dest width t l n, r)
      else if c =? 115 then if wide then Abort else o <- conv_str dest width l n ;; Ok (o, r)
      else if c =? 99 then if wide then Abort else o <- conv_chr dest width l n ;; Ok (o, r)
      else if c =? 91 then if wide then Abort else conv_set r dest width (Some l) n
      else if c =? 110 then Ok (Next (if dest then Some (store_int t n) else None) (Some l) n, r)
      else if (c =? 97) || (c =? 65) || ((101 <=? c) && (c <=? 103)) || ((69 <=? c) && (c <=? 71)) ||
              (c =? 112) || (c =? 98) then Abort
      else Ok (Next None (Some l) n, r)
  end.

Definition is_conv (c : Z) : bool := negb ((c =? 99) || (c =? 91) || (c =? 110)).

(** stdio.cpp:938-1696: the value returned and what was stored *)
Fixpoint scan (fuel : nat) (f : list Z) (l : list Z) (n count : Z) (out : list stored) : res (Z * list stored) :=
  match fuel with
  | O => Fuel
  | S g =>
      match f with
      | [] => Ok (count, out)
      | c :: r =>
          if is_space c then
            let '(r, _) := skip_space r 0 in
            let '(l, n) := skip_space l n in
            scan g r l n count out
          else
            let pct := match r with c1 :: _ => c1 =? 37 | [] => false end in
            if negb (c =? 37) || pct then
              let r := if c =? 37 then tl r else r in
              match l with
              | [] => Ok ((if count =? 0 then -1 else count), out)
              | b :: l => if b =? c then scan g r l (n + 1) count out else Ok (count, out)
              end
            else
              let dest := match r with c1 :: _ => negb (c1 =? 42) | [] => true end in
              '(width, r) <- flags r ;;
              let '(t, r1) := modifier r in
              let wide := match r with c1 :: c2 :: _ => (c1 =? 108) && negb (c2 =? 108) | _ => false end in
              let '(l, n) := match r1 with
                             | c1 :: _ => if is_conv c1 then skip_space l n else (l, n)
                             | [] => skip_space l n
                             end in
              '(o, r2) <- convert r1 dest wide width t l n ;;
              match o with
              | NoMatch => Ok (count, out)
              | Eof => Ok ((if count =? 0 then -1 else count), out)
              | Next s (Some l) n =>
                  let out := match s with Some x => out ++ [x] | None => out end in
                  let counted := dest && negb (match r1 with c1 :: _ => c1 =? 110 | [] => false end) in
                  scan g r2 l n (if counted then count + 1 else count) out
              | Next _ None _ => UB
              end
      end
  end.

(** stdio.cpp:1847-1866 *)
Definition sscanf (input format : list Z) : res (Z * list stored) :=
  scan (S (length format)) format input 0 0 [].
