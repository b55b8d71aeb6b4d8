(** Model of fnmatch, options/posix/musl-generic-regex/fnmatch.c, and of mbtowc,
    options/ansi/generic/stdlib.cpp:457-501.

    Memory holds bytes 0..255; comparing a char with 128U is comparing this byte, whether char is
    signed or not.  size_t values are integers in [0, 2^64).  The tables of the active locale
    (towupper, towlower, iswctype of wctype) are a parameter.  The static conversion state of
    mbtowc is taken to be initial when fnmatch is called; a call that leaves it otherwise also
    leaves the wide character unwritten, which fnmatch then reads: outcome UB. *)
From Verif Require Export Base Utf8_Model.
Open Scope Z_scope.

Record locale := Loc { up : Z -> Z; low : Z -> Z; cls : list Z -> Z -> bool }.

(** posix/include/fnmatch.h:12-24: the five flags *)
Record flags := Fl { f_path : bool; f_noesc : bool; f_period : bool; f_lead : bool; f_fold : bool }.

Definition NOMATCH : Z := 1.
Definition usz (x : Z) : Z := x mod 2 ^ 64.

(** fnmatch.c:27-31 *)
Definition END : Z := 0.
Definition UNMATCHABLE : Z := -2.
Definition BRACKET : Z := -3.
Definition QUESTION : Z := -4.
Definition STAR : Z := -5.

(** stdlib.cpp:457-501: return value and the wide character *)
Definition mbtowc (m : mem) (p n : Z) : res (Z * Z) :=
  b <- load m p ;;
  if b =? 0 then Ok (0, 0)
  else if n =? 0 then Ok (-1, 0)
  else
    '(e, it, _, w, _) <- decode_wtranscode 5 m p (p + Z.min n 4) (upd (fun _ => None) 0 0) 0 1 mb_init ;;
    match e with
    | InExh | OutExh => wc <- load w 0 ;; Ok (it - p, wc)
    | InUnder | NullTerm => UB
    | Illegal => Ok (-1, 0)
    | OutOver => Abort
    end.

(** fnmatch.c:33-51: result and *step *)
Definition str_next (m : mem) (p n : Z) : res (Z * Z) :=
  if n =? 0 then Ok (0, 0)
  else
    b <- load m p ;;
    if 128 <=? b then
      '(k, wc) <- mbtowc m p n ;;
      if k <? 0 then Ok (-1, 1) else Ok (wc, k)
    else Ok (b, 1).

(** pat[k], or 0 if k is not less than the limit *)
Definition peek (m : mem) (p n k : Z) : res Z := if k <? n then load m (p + k) else Ok 0.

Definition is_z (c : Z) : bool := (c =? 58) || (c =? 46) || (c =? 61).

(** fnmatch.c:75 *)
Fixpoint scan_class (fuel : nat) (m : mem) (p n z k : Z) : res Z :=
  match fuel with
  | O => Fuel
  | S g =>
      c <- peek m p n k ;;
      if c =? 0 then Ok k
      else b <- load m (p + k - 1) ;;
           if (b =? z) && (c =? 93) then Ok k else scan_class g m p n z (k + 1)
  end.

(** fnmatch.c:70-78 *)
Fixpoint scan (fuel : nat) (m : mem) (p n k : Z) : res Z :=
  match fuel with
  | O => Fuel
  | S g =>
      c <- peek m p n k ;;
      if (c =? 0) || (c =? 93) then Ok k
      else
        c1 <- peek m p n (k + 1) ;;
        if (c =? 91) && is_z c1 then
          c2 <- peek m p n (k + 2) ;;
          k' <- scan_class fuel m p n c1 (if c2 =? 0 then k + 2 else k + 3) ;;
          c3 <- peek m p n k' ;;
          if c3 =? 0 then Ok k' else scan g m p n (k' + 1)
        else scan g m p n (k + 1)
  end.

(** fnmatch.c:66-84: the index of the closing bracket, if there is one *)
Definition scan_bracket (fuel : nat) (m : mem) (p n : Z) : res (option Z) :=
  c <- peek m p n 1 ;;
  let k := if (c =? 94) || (c =? 33) then 2 else 1 in
  c <- peek m p n k ;;
  k <- scan fuel m p n (if c =? 93 then k + 1 else k) ;;
  c <- peek m p n k ;;
  Ok (if c =? 0 then None else Some k).

(** fnmatch.c:91-102 *)
Definition pat_char (m : mem) (p n esc : Z) : res (Z * Z) :=
  b <- load m p ;;
  if 128 <=? b then
    '(k, wc) <- mbtowc m p n ;;
    if k <? 0 then Ok (UNMATCHABLE, 0) else Ok (wc, k + esc)
  else Ok (b, 1 + esc).

(** fnmatch.c:53-103: result and *step *)
Definition pat_next (fuel : nat) (f : flags) (m : mem) (p n : Z) : res (Z * Z) :=
  if n =? 0 then Ok (END, 0)
  else
    b <- load m p ;;
    if b =? 0 then Ok (END, 0)
    else
      esc <- (if b =? 92 then b1 <- load m (p + 1) ;; Ok (negb (b1 =? 0) && negb (f_noesc f))
              else Ok false) ;;
      if esc then pat_char m (p + 1) n 1
      else if b =? 91 then
        k <- scan_bracket fuel m p n ;;
        Ok match k with Some k => (BRACKET, k + 1) | None => (91, 1) end
      else if b =? 42 then Ok (STAR, 1)
      else if b =? 63 then Ok (QUESTION, 1)
      else pat_char m p n 0.

(** fnmatch.c:105-109 *)
Definition casefold (lc : locale) (k : Z) : Z := let c := up lc k in if c =? k then low lc k else c.

(** fnmatch.c:144 *)
Fixpoint class_end (fuel : nat) (m : mem) (z p : Z) : res Z :=
  match fuel with
  | O => Fuel
  | S g =>
      a <- load m (p - 1) ;;
      b <- load m p ;;
      if (a =? z) && (b =? 93) then Ok p else class_end g m z (p + 1)
  end.

Fixpoint read (n : nat) (m : mem) (p : Z) : res (list Z) :=
  match n with
  | O => Ok []
  | S k => b <- load m p ;; r <- read k m (p + 1) ;; Ok (b :: r)
  end.

(** fnmatch.c:128-164; [wc] is the last single character *)
Fixpoint bracket_loop (fuel : nat) (lc : locale) (m : mem) (inv : bool) (k kf wc p : Z) : res bool :=
  match fuel with
  | O => Fuel
  | S g =>
      b <- load m p ;;
      if b =? 93 then Ok inv
      else
        b1 <- (if (b =? 45) || (b =? 91) then load m (p + 1) else Ok 0) ;;
        if (b =? 45) && negb (b1 =? 93) then
          '(l, wc2) <- mbtowc m (p + 1) 4 ;;
          if l <? 0 then Ok false
          else if (wc <=? wc2) && (((k - wc) mod 2 ^ 32 <=? wc2 - wc) || ((kf - wc) mod 2 ^ 32 <=? wc2 - wc))
          then Ok (negb inv)
          else bracket_loop g lc m inv k kf wc (p + (l - 1) + 1)
        else if (b =? 91) && is_z b1 then
          q <- class_end fuel m b1 (p + 3) ;;
          let len := q - 1 - (p + 2) in
          if (b1 =? 58) && (len <? 16) then
            name <- read (Z.to_nat len) m (p + 2) ;;
            if cls lc name k || cls lc name kf then Ok (negb inv)
            else bracket_loop g lc m inv k kf wc (q + 1)
          else bracket_loop g lc m inv k kf wc (q + 1)
        else
          '(l, c) <- (if b <? 128 then Ok (1, b) else mbtowc m p 4) ;;
          if l <? 0 then Ok false
          else if (c =? k) || (c =? kf) then Ok (negb inv)
          else bracket_loop g lc m inv k kf c (p + (l - 1) + 1)
  end.

(** fnmatch.c:111-165 *)
Definition match_bracket (fuel : nat) (lc : locale) (m : mem) (p k kf : Z) : res bool :=
  b <- load m (p + 1) ;;
  let inv := (b =? 94) || (b =? 33) in
  let p := if inv then p + 2 else p + 1 in
  b <- load m p ;;
  if ((b =? 93) || (b =? 45)) && (k =? b) then Ok (negb inv)
  else
    let p := if (b =? 93) || (b =? 45) then p + 1 else p in
    wc <- load m (p - 1) ;;
    bracket_loop fuel lc m inv k kf wc p.

(** fnmatch.c:193-199 and the two other places like it: does the pattern character [c] at [p] accept [k]? *)
Definition accepts (fuel : nat) (f : flags) (lc : locale) (m : mem) (c p k : Z) : res bool :=
  let kf := if f_fold f then casefold lc k else k in
  if c =? BRACKET then match_bracket fuel lc m p k kf
  else Ok ((c =? QUESTION) || (k =? c) || (kf =? c)).

(** the outcome of a part of fnmatch_internal: it returns, or goes on *)
Inductive next (A : Type) := Return (r : Z) | Go (x : A).
Arguments Return {A}. Arguments Go {A}.

(** fnmatch.c:178-207 *)
Fixpoint head (fuel : nat) (f : flags) (lc : locale) (mm : mem) (pat m str n : Z)
  : res (next (Z * Z * Z * Z)) :=
  match fuel with
  | O => Fuel
  | S g =>
      '(c, pinc) <- pat_next fuel f mm pat m ;;
      if c =? UNMATCHABLE then Ok (Return NOMATCH)
      else if c =? STAR then Ok (Go (pat + 1, usz (m - 1), str, n))
      else
        '(k, sinc) <- str_next mm str n ;;
        if k <=? 0 then Ok (Return (if c =? END then 0 else NOMATCH))
        else
          ok <- accepts fuel f lc mm c pat k ;;
          if ok then head g f lc mm (pat + pinc) (usz (m - pinc)) (str + sinc) (usz (n - sinc))
          else Ok (Return NOMATCH)
  end.

(** strnlen, internal/generic/strings.cpp:26-31 *)
Fixpoint strnlen (fuel : nat) (m : mem) (s n len : Z) : res Z :=
  match fuel with
  | O => Fuel
  | S g =>
      if len <? n then c <- load m (s + len) ;; if c =? 0 then Ok len else strnlen g m s n (len + 1)
      else Ok len
  end.

(** fnmatch.c:214-226: [ptail] and [tailcnt] *)
Fixpoint last_star (fuel : nat) (f : flags) (m : mem) (p endpat ptail cnt : Z) : res (next (Z * Z)) :=
  match fuel with
  | O => Fuel
  | S g =>
      if p <? endpat then
        '(c, pinc) <- pat_next fuel f m p (endpat - p) ;;
        if c =? UNMATCHABLE then Ok (Return NOMATCH)
        else if c =? STAR then last_star g f m (p + pinc) endpat (p + 1) 0
        else last_star g f m (p + pinc) endpat ptail (cnt + 1)
      else Ok (Go (ptail, cnt))
  end.

(** fnmatch.c:241 *)
Fixpoint back_char (fuel : nat) (m : mem) (str s : Z) : res Z :=
  match fuel with
  | O => Fuel
  | S g =>
      b <- load m (s - 1) ;;
      if ((b - 128) mod 2 ^ 32 <? 64) && (str <? s - 1) then back_char g m str (s - 1) else Ok (s - 1)
  end.

(** fnmatch.c:239-242: [s] and what is left of [tailcnt] *)
Fixpoint back (fuel : nat) (m : mem) (str s cnt : Z) : res (Z * Z) :=
  match fuel with
  | O => Fuel
  | S g =>
      if (str <? s) && negb (cnt =? 0) then
        b <- load m (s - 1) ;;
        s' <- (if b <? 128 then Ok (s - 1) else back_char fuel m str s) ;;
        back g m str s' (cnt - 1)
      else Ok (s, cnt)
  end.

(** fnmatch.c:247-263: do the tails match? *)
Fixpoint tails (fuel : nat) (f : flags) (lc : locale) (m : mem) (p endpat s endstr : Z) : res bool :=
  match fuel with
  | O => Fuel
  | S g =>
      '(c, pinc) <- pat_next fuel f m p (usz (endpat - p)) ;;
      '(k, sinc) <- str_next m s (usz (endstr - s)) ;;
      if k <=? 0 then Ok (c =? END)
      else
        ok <- accepts fuel f lc m c p k ;;
        if ok then tails g f lc m (p + pinc) endpat (s + sinc) endstr else Ok false
  end.

(** fnmatch.c:273-294: one attempt to match a component; [None]: it does not match here *)
Fixpoint component (fuel : nat) (f : flags) (lc : locale) (m : mem) (p endpat s endstr : Z)
  : res (next (option (Z * Z))) :=
  match fuel with
  | O => Fuel
  | S g =>
      '(c, pinc) <- pat_next fuel f m p (usz (endpat - p)) ;;
      if c =? STAR then Ok (Go (Some (p + pinc, s)))
      else
        '(k, sinc) <- str_next m s (usz (endstr - s)) ;;
        if k =? 0 then Ok (Return NOMATCH)
        else
          ok <- accepts fuel f lc m c p k ;;
          if ok then component g f lc m (p + pinc) endpat (s + sinc) endstr else Ok (Go None)
  end.

(** fnmatch.c:300 *)
Fixpoint skip_bad (fuel : nat) (m : mem) (str endstr : Z) : res Z :=
  match fuel with
  | O => Fuel
  | S g =>
      '(k, _) <- str_next m str (usz (endstr - str)) ;;
      if k <? 0 then skip_bad g m (str + 1) endstr else Ok str
  end.

(** fnmatch.c:270-301 *)
Fixpoint sea (fuel : nat) (f : flags) (lc : locale) (m : mem) (pat endpat str endstr : Z) : res Z :=
  match fuel with
  | O => Fuel
  | S g =>
      if pat <? endpat then
        r <- component fuel f lc m pat endpat str endstr ;;
        match r with
        | Return x => Ok x
        | Go (Some (p, s)) => sea g f lc m p endpat s endstr
        | Go None =>
            '(k, sinc) <- str_next m str (usz (endstr - str)) ;;
            if 0 <? k then sea g f lc m pat endpat (str + sinc) endstr
            else str' <- skip_bad fuel m (str + 1) endstr ;; sea g f lc m pat endpat str' endstr
        end
      else Ok 0
  end.

(** fnmatch.c:167-304 *)
Definition internal (fuel : nat) (f : flags) (lc : locale) (mm : mem) (pat m str n : Z) : res Z :=
  hidden <- (if f_period f then
               s0 <- load mm str ;; p0 <- load mm pat ;; Ok ((s0 =? 46) && negb (p0 =? 46))
             else Ok false) ;;
  if hidden then Ok NOMATCH
  else
    r <- head fuel f lc mm pat m str n ;;
    match r with
    | Return x => Ok x
    | Go (pat, m, str, n) =>
        m <- strnlen fuel mm pat m 0 ;;
        let endpat := pat + m in
        r <- last_star fuel f mm pat endpat pat 0 ;;
        match r with
        | Return x => Ok x
        | Go (ptail, cnt) =>
            n <- strnlen fuel mm str n 0 ;;
            let endstr := str + n in
            if n <? cnt then Ok NOMATCH
            else
              '(stail, cnt) <- back fuel mm str endstr cnt ;;
              if negb (cnt =? 0) then Ok NOMATCH
              else
                ok <- tails fuel f lc mm ptail endpat stail endstr ;;
                if ok then sea fuel f lc mm pat ptail str stail else Ok NOMATCH
        end
    end.

(** fnmatch.c:312 *)
Fixpoint find_slash (fuel : nat) (m : mem) (s : Z) : res Z :=
  match fuel with
  | O => Fuel
  | S g => c <- load m s ;; if (c =? 0) || (c =? 47) then Ok s else find_slash g m (s + 1)
  end.

(** fnmatch.c:313: [p], [c] and [inc] at the end of a component of the pattern *)
Fixpoint pat_slash (fuel : nat) (f : flags) (m : mem) (p : Z) : res (Z * Z * Z) :=
  match fuel with
  | O => Fuel
  | S g =>
      '(c, inc) <- pat_next fuel f m p (usz (-1)) ;;
      if (c =? END) || (c =? 47) then Ok (p, c, inc) else pat_slash g f m (p + inc)
  end.

(** fnmatch.c:311-321 *)
Fixpoint path (fuel : nat) (f : flags) (lc : locale) (m : mem) (pat str : Z) : res Z :=
  match fuel with
  | O => Fuel
  | S g =>
      s <- find_slash fuel m str ;;
      '(p, c, inc) <- pat_slash fuel f m pat ;;
      b <- load m s ;;
      if negb (c =? b) && ((b =? 0) || negb (f_lead f)) then Ok NOMATCH
      else
        r <- internal fuel f lc m pat (usz (p - pat)) str (usz (s - str)) ;;
        if negb (r =? 0) then Ok NOMATCH
        else if c =? 0 then Ok 0
        else path g f lc m (p + inc) (s + 1)
  end.

(** fnmatch.c:322-328 *)
Fixpoint leading (fuel : nat) (f : flags) (lc : locale) (m : mem) (pat str s : Z) : res Z :=
  match fuel with
  | O => Fuel
  | S g =>
      b <- load m s ;;
      if b =? 0 then internal fuel f lc m pat (usz (-1)) str (usz (-1))
      else if b =? 47 then
        r <- internal fuel f lc m pat (usz (-1)) str (usz (s - str)) ;;
        if r =? 0 then Ok 0 else leading g f lc m pat str (s + 1)
      else leading g f lc m pat str (s + 1)
  end.

(** fnmatch.c:306-330 *)
Definition fnmatch (fuel : nat) (f : flags) (lc : locale) (m : mem) (pat str : Z) : res Z :=
  if f_path f then path fuel f lc m pat str
  else if f_lead f then leading fuel f lc m pat str str
  else internal fuel f lc m pat (usz (-1)) str (usz (-1)).
