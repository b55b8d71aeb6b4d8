(** Model of the wide string functions, options/ansi/generic/string.cpp:286-480.

    The memory has one cell for each wchar_t, and pointers count wchar_t.  wchar_t is int, as on x86 and RISC-V: values are
    signed numbers of 32 bits.  NULL is [None].  Not modelled: wmemcpy and wmemmove (they call memcpy and memmove, C01 and
    C02, with n * sizeof(wchar_t)), wcscoll and wcsxfrm.  Loops without a length bound take fuel. *)
From Verif Require Import Base.
Open Scope Z_scope.

(** wcslen, string.cpp:466-470 *)
Fixpoint wcslen_loop (fuel : nat) (m : mem) (s : Z) (n : nat) : res nat :=
  match fuel with
  | O => Fuel
  | S f => c <- load m s ;; if c =? 0 then Ok n else wcslen_loop f m (s + 1) (S n)
  end.
Definition wcslen (fuel : nat) (m : mem) (s : Z) : res nat := wcslen_loop fuel m s 0.

(** wmemset, string.cpp:472-477 *)
Fixpoint wmemset (n : nat) (m : mem) (d c : Z) : res mem :=
  match n with
  | O => Ok m
  | S n => m <- store m d c ;; wmemset n m (d + 1) c
  end.

(** wcscpy, string.cpp:286-290 *)
Fixpoint wcscpy (fuel : nat) (m : mem) (d s : Z) : res mem :=
  match fuel with
  | O => Fuel
  | S f => c <- load m s ;;
           m <- store m d c ;;
           if c =? 0 then Ok m else wcscpy f m (d + 1) (s + 1)
  end.

(** wcsncpy, string.cpp:292-298 *)
Fixpoint wcsncpy (n : nat) (m : mem) (d s : Z) : res mem :=
  match n with
  | O => wmemset 0 m d 0
  | S n' => c <- load m s ;;
            if c =? 0 then wmemset n m d 0
            else m <- store m d c ;; wcsncpy n' m (d + 1) (s + 1)
  end.

(** wcscat, string.cpp:310-313 *)
Definition wcscat (fuel : nat) (m : mem) (d s : Z) : res mem :=
  n <- wcslen fuel m d ;; wcscpy fuel m (d + Z.of_nat n) s.

(** the loop of wcsncat, string.cpp:320-323: the source is read before the count is tested *)
Fixpoint wncat_loop (k : nat) (m : mem) (d s : Z) : res (mem * Z) :=
  c <- load m s ;;
  if c =? 0 then Ok (m, d)
  else match k with
       | O => Ok (m, d)
       | S k => m <- store m d c ;; wncat_loop k m (d + 1) (s + 1)
       end.
(** wcsncat, string.cpp:315-326 *)
Definition wcsncat (fuel : nat) (m : mem) (d s : Z) (n : nat) : res mem :=
  l <- wcslen fuel m d ;;
  '(m, d) <- wncat_loop n m (d + Z.of_nat l) s ;;
  store m d 0.

(** wcscmp, string.cpp:328-331; the difference is an int *)
Fixpoint wcscmp (fuel : nat) (m : mem) (l r : Z) : res Z :=
  match fuel with
  | O => Fuel
  | S f => a <- load m l ;;
           b <- load m r ;;
           if (a =? b) && negb (a =? 0) && negb (b =? 0) then wcscmp f m (l + 1) (r + 1)
           else if (-2147483648 <=? a - b) && (a - b <=? 2147483647) then Ok (a - b) else UB
  end.

(** wcsncmp, string.cpp:338-341 *)
Fixpoint wcsncmp (n : nat) (m : mem) (l r : Z) : res Z :=
  match n with
  | O => Ok 0
  | S n => a <- load m l ;;
           b <- load m r ;;
           if (a =? b) && negb (a =? 0) && negb (b =? 0) then wcsncmp n m (l + 1) (r + 1)
           else Ok (if a <? b then -1 else if a >? b then 1 else 0)
  end.

(** wmemcmp, string.cpp:363-373 *)
Fixpoint wmemcmp (n : nat) (m : mem) (a b : Z) : res Z :=
  match n with
  | O => Ok 0
  | S n => x <- load m a ;;
           y <- load m b ;;
           if x <? y then Ok (-1) else if x >? y then Ok 1 else wmemcmp n m (a + 1) (b + 1)
  end.

(** wcschr, string.cpp:375-380 *)
Fixpoint wcschr_loop (fuel : nat) (m : mem) (s c : Z) : res (option Z) :=
  match fuel with
  | O => Fuel
  | S f => x <- load m s ;;
           if negb (x =? 0) && negb (x =? c) then wcschr_loop f m (s + 1) c
           else Ok (if x =? 0 then None else Some s)
  end.
Definition wcschr (fuel : nat) (m : mem) (s c : Z) : res (option Z) :=
  if c =? 0 then n <- wcslen fuel m s ;; Ok (Some (s + Z.of_nat n)) else wcschr_loop fuel m s c.

(** for ( *i && !wcschr(set, *i)) or its opposite, string.cpp:391-393, 414-418; [g]: fuel for wcschr *)
Fixpoint wspan_loop (want : bool) (g fuel : nat) (m : mem) (i set : Z) : res Z :=
  match fuel with
  | O => Fuel
  | S f => x <- load m i ;;
           if x =? 0 then Ok i
           else r <- wcschr g m set x ;;
                if Bool.eqb (match r with Some _ => true | None => false end) want then wspan_loop want g f m (i + 1) set
                else Ok i
  end.

(** wcscspn, string.cpp:382-394 *)
Definition wcscspn (fuel : nat) (m : mem) (ws reject : Z) : res nat :=
  r0 <- load m reject ;;
  if r0 =? 0 then wcslen fuel m ws
  else
    r1 <- load m (reject + 1) ;;
    if r1 =? 0 then
      a <- wcschr fuel m ws r0 ;;
      match a with Some q => Ok (Z.to_nat (q - ws)) | None => wcslen fuel m ws end
    else i <- wspan_loop false fuel fuel m ws reject ;; Ok (Z.to_nat (i - ws)).

(** wcspbrk, string.cpp:396-404 *)
Fixpoint wcspbrk (g fuel : nat) (m : mem) (ws accept : Z) : res (option Z) :=
  match fuel with
  | O => Fuel
  | S f => x <- load m ws ;;
           if x =? 0 then Ok None
           else r <- wcschr g m accept x ;;
                match r with Some _ => Ok (Some ws) | None => wcspbrk g f m (ws + 1) accept end
  end.

(** the loop of wcsrchr, string.cpp:406-410, from the last cell; [k] = p + 1 - s.  That p finally points before the
    string is not counted as undefined *)
Fixpoint wcsrchr_loop (k : nat) (m : mem) (s c : Z) : res (option Z) :=
  match k with
  | O => Ok None
  | S k => x <- load m (s + Z.of_nat k) ;;
           if x =? c then Ok (Some (s + Z.of_nat k)) else wcsrchr_loop k m s c
  end.
Definition wcsrchr (fuel : nat) (m : mem) (s c : Z) : res (option Z) :=
  n <- wcslen fuel m s ;; wcsrchr_loop (S n) m s c.

(** wcsspn, string.cpp:412-419 *)
Definition wcsspn (fuel : nat) (m : mem) (ws accept : Z) : res nat :=
  i <- wspan_loop true fuel fuel m ws accept ;; Ok (Z.to_nat (i - ws)).

(** the inner loop of wcsstr, string.cpp:424-430 *)
Fixpoint wmatch (fuel : nat) (m : mem) (h n : Z) : res bool :=
  match fuel with
  | O => Fuel
  | S f => y <- load m n ;;
           if y =? 0 then Ok true
           else x <- load m h ;; if x =? y then wmatch f m (h + 1) (n + 1) else Ok false
  end.
(** wcsstr, string.cpp:421-437 *)
Fixpoint wcsstr (g fuel : nat) (m : mem) (h n : Z) : res (option Z) :=
  match fuel with
  | O => Fuel
  | S f => x <- load m h ;;
           if x =? 0 then Ok None
           else found <- wmatch g m h n ;;
                if (found : bool) then Ok (Some h) else wcsstr g f m (h + 1) n
  end.

(** wcstok, string.cpp:439-456.  [saved]: *ptr.  Returns the memory, *ptr and the result *)
Definition wcstok (fuel : nat) (m : mem) (ws : option Z) (delim : Z) (saved : option Z)
  : res (mem * option Z * option Z) :=
  match (match ws with Some p => Some p | None => saved end) with
  | None => Ok (m, saved, None)
  | Some ws =>
      n <- wcsspn fuel m ws delim ;;
      let ws := ws + Z.of_nat n in
      x <- load m ws ;;
      if x =? 0 then Ok (m, None, None)
      else
        k <- wcscspn fuel m ws delim ;;
        let p := ws + Z.of_nat k in
        y <- load m p ;;
        if y =? 0 then Ok (m, None, Some ws)
        else m <- store m p 0 ;; Ok (m, Some (p + 1), Some ws)
  end.

(** wmemchr, string.cpp:458-464 *)
Fixpoint wmemchr (n : nat) (m : mem) (s c : Z) : res (option Z) :=
  match n with
  | O => Ok None
  | S n => x <- load m s ;; if x =? c then Ok (Some s) else wmemchr n m (s + 1) c
  end.
