(** Model of the case-insensitive and version comparisons and the remaining POSIX/GNU string functions:
    options/posix/generic/strings.cpp (ffs_generic, strcasecmp, strcasecmp_l), options/internal/generic/strings.cpp
    (mlibc::strncasecmp), options/posix/generic/posix_string.cpp (strdup, strndup, strcasestr, memccpy),
    options/glibc/generic/string.cpp (basename, strverscmp).
    Memory holds char values as 0..255.  Loops that stop at a null byte take fuel. *)
From Verif Require Import Base Mem_Model Str_Model Ctype_Model.
Open Scope Z_scope.

(** a char passed to a function taking an int *)
Definition schar (c : Z) : Z := if c <? 128 then c else c - 256.

(** the loop of strcasecmp, posix/generic/strings.cpp:79-91; [low] converts one char, the result is stored in an
    unsigned char *)
Fixpoint casecmp_loop (low : Z -> res Z) (fuel : nat) (m : mem) (a b : Z) (i : nat) : res Z :=
  match fuel with
  | O => Fuel
  | S f =>
    ca <- load m (a + Z.of_nat i) ;; la <- low (schar ca) ;; let x := la mod 256 in
    cb <- load m (b + Z.of_nat i) ;; lb <- low (schar cb) ;; let y := lb mod 256 in
    if (x =? 0) && (y =? 0) then Ok 0
    else if x <? y then Ok (-1)
    else if x >? y then Ok 1
    else casecmp_loop low f m a b (S i)
  end.

(** strcasecmp, posix/generic/strings.cpp:75-92, in the active locale [l] *)
Definition strcasecmp (l : locale) (fuel : nat) (m : mem) (a b : Z) : res Z :=
  if a =? b then Ok 0 else casecmp_loop (tolower l) fuel m a b 0.

(** the loop of mlibc::strncasecmp, internal/generic/strings.cpp:12-23; [k] = size - i *)
Fixpoint ncasecmp_loop (low : Z -> res Z) (k : nat) (m : mem) (a b : Z) (i : nat) : res Z :=
  match k with
  | O => Ok 0
  | S k' =>
    ca <- load m (a + Z.of_nat i) ;; la <- low (schar ca) ;; let x := la mod 256 in
    cb <- load m (b + Z.of_nat i) ;; lb <- low (schar cb) ;; let y := lb mod 256 in
    if (x =? 0) && (y =? 0) then Ok 0
    else if x <? y then Ok (-1)
    else if x >? y then Ok 1
    else ncasecmp_loop low k' m a b (S i)
  end.

(** mlibc::strncasecmp, internal/generic/strings.cpp:8-24; strncasecmp passes the active locale
    (posix/generic/strings.cpp:113-115) *)
Definition strncasecmp (l : locale) (m : mem) (a b : Z) (size : nat) : res Z :=
  if (a =? b) || Nat.eqb size 0 then Ok 0 else ncasecmp_loop (tolower_l (l_ascii l) l) size m a b 0.

(** strcasestr, posix_string.cpp:125-135 *)
Fixpoint casestr_loop (l : locale) (fuel : nat) (m : mem) (p pattern : Z) (plen : nat) : res (option Z) :=
  match fuel with
  | O => Fuel
  | S f =>
    c <- load m p ;;
    if c =? 0 then Ok None
    else r <- strncasecmp l m p pattern plen ;;
         if r =? 0 then Ok (Some p) else casestr_loop l f m (p + 1) pattern plen
  end.
Definition strcasestr (l : locale) (fuel : nat) (m : mem) (s pattern : Z) : res (option Z) :=
  plen <- strlen fuel m pattern ;; casestr_loop l fuel m s pattern plen.

(** isdigit(c) of an unsigned char *)
Definition isdig (l : locale) (c : Z) : res bool := isclass l Digit c.

(** strverscmp, the search for the maximal matching prefix, glibc/generic/string.cpp:44-52.
    [None]: the strings are equal; else i, dp and z *)
Fixpoint vers_prefix (lo : locale) (fuel : nat) (m : mem) (l r : Z) (i dp : nat) (z : bool) : res (option (nat * nat * bool)) :=
  match fuel with
  | O => Fuel
  | S f =>
    x <- load m (l + Z.of_nat i) ;;
    y <- load m (r + Z.of_nat i) ;;
    if x =? y then
      if x =? 0 then Ok None
      else
        d <- isdig lo x ;;
        if negb (d : bool) then vers_prefix lo f m l r (S i) (S i) true
        else if negb (x =? 48) then vers_prefix lo f m l r (S i) dp false
        else vers_prefix lo f m l r (S i) dp z
    else Ok (Some (i, dp, z))
  end.

(** the comparison of the lengths of the digit strings, string.cpp:57-62; [None]: same length *)
Fixpoint vers_longer (lo : locale) (fuel : nat) (m : mem) (l r : Z) (j : nat) : res (option Z) :=
  match fuel with
  | O => Fuel
  | S f =>
    x <- load m (l + Z.of_nat j) ;;
    dx <- isdig lo x ;;
    y <- load m (r + Z.of_nat j) ;;
    dy <- isdig lo y ;;
    if (dx : bool) then
      if negb (dy : bool) then Ok (Some 1) else vers_longer lo f m l r (S j)
    else if (dy : bool) then Ok (Some (-1)) else Ok None
  end.

(** strverscmp, glibc/generic/string.cpp:36-70 *)
Definition strverscmp (lo : locale) (fuel : nat) (m : mem) (l r : Z) : res Z :=
  p <- vers_prefix lo fuel m l r 0 0 true ;;
  match p with
  | None => Ok 0
  | Some (i, dp, z) =>
    x <- load m (l + Z.of_nat i) ;;
    y <- load m (r + Z.of_nat i) ;;
    ld <- load m (l + Z.of_nat dp) ;;
    rd <- (if negb (ld =? 48) then load m (r + Z.of_nat dp) else Ok 0) ;;
    if negb (ld =? 48) && negb (rd =? 48) then
      o <- vers_longer lo fuel m l r i ;;
      match o with Some v => Ok v | None => Ok (x - y) end
    else
      dx <- isdig lo x ;;
      dy <- isdig lo y ;;
      if z && Nat.ltb dp i && ((dx : bool) || (dy : bool)) then Ok ((x - 48) mod 256 - (y - 48) mod 256)
      else Ok (x - y)
  end.

(** memccpy, posix_string.cpp:137-153; [k] = n - i *)
Fixpoint memccpy_loop (k : nat) (m : mem) (d s target : Z) : res (mem * option Z) :=
  match k with
  | O => Ok (m, None)
  | S k' =>
    c <- load m s ;;
    m1 <- store m d c ;;
    if c =? target then Ok (m1, Some (d + 1))
    else memccpy_loop k' m1 (d + 1) (s + 1) target
  end.
Definition memccpy (m : mem) (dest src c : Z) (n : nat) : res (mem * option Z) :=
  memccpy_loop n m dest src (c mod 256).

(** strdup and strndup, posix_string.cpp:18-43.  [alloc] is malloc: the block and the memory after the call, or [None].
    The last component of the result tells whether errno was set to ENOMEM; a null result is [None]. *)
Definition dup_bytes (alloc : nat -> mem -> option (Z * mem)) (m : mem) (string : Z) (num_bytes : nat)
  : res (mem * option Z * bool) :=
  match alloc (num_bytes + 1)%nat m with
  | None => Ok (m, None, true)
  | Some (p, m1) =>
    '(m2, _) <- memcpy m1 p string num_bytes ;;
    m3 <- store m2 (p + Z.of_nat num_bytes) 0 ;;
    Ok (m3, Some p, false)
  end.
Definition strdup (alloc : nat -> mem -> option (Z * mem)) (fuel : nat) (m : mem) (string : Z) :=
  num_bytes <- strlen fuel m string ;; dup_bytes alloc m string num_bytes.
Definition strndup (alloc : nat -> mem -> option (Z * mem)) (m : mem) (string : Z) (max_size : nat) :=
  num_bytes <- strnlen m string max_size ;; dup_bytes alloc m string num_bytes.

(** __mlibc_gnu_basename_c, glibc/generic/string.cpp:14-20 *)
Definition gnu_basename (fuel : nat) (m : mem) (path : Z) : res Z :=
  r <- strrchr fuel m path 47 ;;
  match r with None => Ok path | Some p => Ok (p + 1) end.

(** ffs_generic, posix/generic/strings.cpp:20-27: i & (1 << b) for b = 0, 1, ...; [w] is the width of T, the argument
    a two's complement number of that width *)
Fixpoint ffs_loop (k : nat) (i : Z) (b : Z) : Z :=
  match k with
  | O => 0
  | S k' => if negb (Z.land i (Z.shiftl 1 b) =? 0) then b + 1 else ffs_loop k' i (b + 1)
  end.
Definition ffs_generic (w : nat) (i : Z) : Z := ffs_loop w i 0.
