(** Model of the string functions of options/ansi/generic/string.cpp, options/internal/generic/{essential,strings}.cpp
    and options/posix/generic/posix_string.cpp on byte memory.
    Pointers are [Z], NULL results are [None], sizes and indices are [nat] (size_t never wraps for real objects).
    "char" values are represented by their unsigned byte value; equality tests on char are the same on that
    representation.  Loops without a length bound take fuel. *)
From Verif Require Import Base Mem_Model.
Open Scope Z_scope.

(** strlen, internal/generic/essential.cpp:210-215 *)
Fixpoint strlen_loop (fuel : nat) (m : mem) (s : Z) (i : nat) : res nat :=
  match fuel with
  | O => Fuel
  | S f => c <- load m (s + Z.of_nat i) ;;
           if c =? 0 then Ok i else strlen_loop f m s (S i)
  end.
Definition strlen (fuel : nat) (m : mem) (s : Z) : res nat := strlen_loop fuel m s 0.

(** strnlen, internal/generic/strings.cpp:26-31 and posix/generic/posix_string.cpp:55-60
    (while(len < n && s[len]) ++len); [k] = n - len *)
Fixpoint strnlen_loop (k : nat) (m : mem) (s : Z) (len : nat) : res nat :=
  match k with
  | O => Ok len
  | S k' => c <- load m (s + Z.of_nat len) ;;
            if c =? 0 then Ok len else strnlen_loop k' m s (S len)
  end.
Definition strnlen (m : mem) (s : Z) (n : nat) : res nat := strnlen_loop n m s 0.

(** strcpy, ansi/generic/string.cpp:21-28 *)
Fixpoint strcpy_loop (fuel : nat) (m : mem) (d s : Z) : res mem :=
  match fuel with
  | O => Fuel
  | S f => c <- load m s ;;
           if c =? 0 then store m d 0
           else m1 <- store m d c ;; strcpy_loop f m1 (d + 1) (s + 1)
  end.
Definition strcpy (fuel : nat) (m : mem) (dest src : Z) : res (mem * Z) :=
  m1 <- strcpy_loop fuel m dest src ;; Ok (m1, dest).

(** while( *src_bytes && i < max_size) {...}, ansi/generic/string.cpp:33-36 and 53-56: note that *src_bytes is
    read before i is compared.  [k] = max_size - i.  Returns memory, dest_bytes and max_size - i *)
Fixpoint ncopy_loop (k : nat) (m : mem) (d s : Z) : res (mem * Z * nat) :=
  c <- load m s ;;
  if c =? 0 then Ok (m, d, k)
  else match k with
       | O => Ok (m, d, O)
       | S k' => m1 <- store m d c ;; ncopy_loop k' m1 (d + 1) (s + 1)
       end.

(** while(i < max_size) *(dest_bytes++) = 0, ansi/generic/string.cpp:37-40 *)
Fixpoint zero_loop (k : nat) (m : mem) (d : Z) : res mem :=
  match k with
  | O => Ok m
  | S k' => m1 <- store m d 0 ;; zero_loop k' m1 (d + 1)
  end.

(** strncpy, ansi/generic/string.cpp:29-42 *)
Definition strncpy (m : mem) (dest src : Z) (max_size : nat) : res (mem * Z) :=
  '(m1, d, k) <- ncopy_loop max_size m dest src ;;
  m2 <- zero_loop k m1 d ;; Ok (m2, dest).

(** strcat, ansi/generic/string.cpp:44-47 *)
Definition strcat (fuel : nat) (m : mem) (dest src : Z) : res (mem * Z) :=
  n <- strlen fuel m dest ;;
  '(m1, _) <- strcpy fuel m (dest + Z.of_nat n) src ;; Ok (m1, dest).

(** strncat, ansi/generic/string.cpp:48-59 *)
Definition strncat (fuel : nat) (m : mem) (dest src : Z) (max_size : nat) : res (mem * Z) :=
  n <- strlen fuel m dest ;;
  '(m1, d, _) <- ncopy_loop max_size m (dest + Z.of_nat n) src ;;
  m2 <- store m1 d 0 ;; Ok (m2, dest).

(** stpcpy, posix/generic/posix_string.cpp:45-49 *)
Definition stpcpy (fuel : nat) (m : mem) (dest src : Z) : res (mem * Z) :=
  n <- strlen fuel m src ;;
  '(m1, _) <- memcpy m dest src (n + 1) ;; Ok (m1, dest + Z.of_nat n).

(** stpncpy, internal/generic/strings.cpp:53-66 *)
Definition stpncpy (fuel : nat) (m : mem) (dest src : Z) (n : nat) : res (mem * Z) :=
  srcLen <- strlen fuel m src ;;
  let nulls := if (srcLen <=? n)%nat then (n - srcLen)%nat else O in
  let copied := if (srcLen <=? n)%nat then srcLen else n in
  '(m1, _) <- memcpy m dest src copied ;;
  '(m2, _) <- memset m1 (dest + Z.of_nat srcLen) 0 nulls ;;
  Ok (m2, dest + Z.of_nat n - Z.of_nat nulls).

(** while (--left > 0) if (( *dst++ = *src++) == 0) break;  internal/generic/strings.cpp:39-41;
    [k] is the value of left after the decrement.  Returns memory, dst, src, left *)
Fixpoint strlcpy_loop (k : nat) (m : mem) (d s : Z) : res (mem * Z * Z * nat) :=
  match k with
  | O => Ok (m, d, s, O)
  | S k' => c <- load m s ;;
            m1 <- store m d c ;;
            if c =? 0 then Ok (m1, d + 1, s + 1, k)
            else strlcpy_loop k' m1 (d + 1) (s + 1)
  end.

(** while ( *src++);  internal/generic/strings.cpp:47; returns the final src *)
Fixpoint skip_to_nul (fuel : nat) (m : mem) (s : Z) : res Z :=
  match fuel with
  | O => Fuel
  | S f => c <- load m s ;; if c =? 0 then Ok (s + 1) else skip_to_nul f m (s + 1)
  end.

(** strlcpy, internal/generic/strings.cpp:33-51; the result is src - s - 1 *)
Definition strlcpy (fuel : nat) (m : mem) (dest src : Z) (n : nat) : res (mem * Z) :=
  '(m1, d1, s1, lft) <- match n with
                         | O => Ok (m, dest, src, O)
                         | S k => strlcpy_loop k m dest src
                         end ;;
  if (lft =? 0)%nat then
    m2 <- (if (n =? 0)%nat then Ok m1 else store m1 d1 0) ;;
    s2 <- skip_to_nul fuel m2 s1 ;;
    Ok (m2, s2 - src - 1)
  else Ok (m1, s1 - src - 1).

(** strlcat, posix/generic/posix_string.cpp:197-203 *)
Definition strlcat (fuel : nat) (m : mem) (dest src : Z) (n : nat) : res (mem * Z) :=
  l <- strnlen m dest n ;;
  if (l =? n)%nat then
    k <- strlen fuel m src ;; Ok (m, Z.of_nat l + Z.of_nat k)
  else
    '(m1, r) <- strlcpy fuel m (dest + Z.of_nat l) src (n - l) ;;
    Ok (m1, Z.of_nat l + r).

(** memcmp, ansi/generic/string.cpp:61-71; [k] = size - i *)
Fixpoint memcmp_loop (k : nat) (m : mem) (a b : Z) (i : nat) : res Z :=
  match k with
  | O => Ok 0
  | S k' => x <- load m (a + Z.of_nat i) ;;
            y <- load m (b + Z.of_nat i) ;;
            if x <? y then Ok (-1) else if x >? y then Ok 1 else memcmp_loop k' m a b (S i)
  end.
Definition memcmp (m : mem) (a b : Z) (size : nat) : res Z := memcmp_loop size m a b 0.

(** strcmp (__mlibc_strcmp_default), ansi/generic/string.cpp:74-88 *)
Fixpoint strcmp_loop (fuel : nat) (m : mem) (a b : Z) (i : nat) : res Z :=
  match fuel with
  | O => Fuel
  | S f => x <- load m (a + Z.of_nat i) ;;
           y <- load m (b + Z.of_nat i) ;;
           if (x =? 0) && (y =? 0) then Ok 0
           else if x <? y then Ok (-1)
           else if x >? y then Ok 1
           else strcmp_loop f m a b (S i)
  end.
Definition strcmp (fuel : nat) (m : mem) (a b : Z) : res Z := strcmp_loop fuel m a b 0.

(** strncmp, ansi/generic/string.cpp:99-115; [k] = max_size - i *)
Fixpoint strncmp_loop (k : nat) (m : mem) (a b : Z) (i : nat) : res Z :=
  match k with
  | O => Ok 0
  | S k' => x <- load m (a + Z.of_nat i) ;;
            y <- load m (b + Z.of_nat i) ;;
            if (x =? 0) && (y =? 0) then Ok 0
            else if x <? y then Ok (-1)
            else if x >? y then Ok 1
            else strncmp_loop k' m a b (S i)
  end.
Definition strncmp (m : mem) (a b : Z) (n : nat) : res Z := strncmp_loop n m a b 0.

(** memchr, ansi/generic/string.cpp:137-143; [k] = size - i *)
Fixpoint memchr_loop (k : nat) (m : mem) (s c : Z) (i : nat) : res (option Z) :=
  match k with
  | O => Ok None
  | S k' => x <- load m (s + Z.of_nat i) ;;
            if x =? c mod 256 then Ok (Some (s + Z.of_nat i)) else memchr_loop k' m s c (S i)
  end.
Definition memchr (m : mem) (s c : Z) (size : nat) : res (option Z) := memchr_loop size m s c 0.

(** memrchr, posix/generic/posix_string.cpp:156-164: while(n--) if(s[n] == c) return s+n *)
Fixpoint memrchr (m : mem) (s c : Z) (n : nat) : res (option Z) :=
  match n with
  | O => Ok None
  | S k => x <- load m (s + Z.of_nat k) ;;
           if x =? c mod 256 then Ok (Some (s + Z.of_nat k)) else memrchr m s c k
  end.

(** strchr, ansi/generic/string.cpp:144-156 *)
Fixpoint strchr_loop (fuel : nat) (m : mem) (s cc : Z) (i : nat) : res (option Z) :=
  match fuel with
  | O => Fuel
  | S f => x <- load m (s + Z.of_nat i) ;;
           if x =? 0 then (if cc =? 0 then Ok (Some (s + Z.of_nat i)) else Ok None)
           else if x =? cc then Ok (Some (s + Z.of_nat i))
           else strchr_loop f m s cc (S i)
  end.
Definition strchr (fuel : nat) (m : mem) (s c : Z) : res (option Z) := strchr_loop fuel m s (c mod 256) 0.

(** strchrnul, ansi/generic/string.cpp:250-259 *)
Fixpoint strchrnul_loop (fuel : nat) (m : mem) (s cc : Z) (i : nat) : res Z :=
  match fuel with
  | O => Fuel
  | S f => x <- load m (s + Z.of_nat i) ;;
           if x =? 0 then Ok (s + Z.of_nat i)
           else if x =? cc then Ok (s + Z.of_nat i)
           else strchrnul_loop f m s cc (S i)
  end.
Definition strchrnul (fuel : nat) (m : mem) (s c : Z) : res Z := strchrnul_loop fuel m s (c mod 256) 0.

(** the loop of strrchr, ansi/generic/string.cpp:179-182, [k] = length - i *)
Fixpoint strrchr_loop (k : nat) (m : mem) (s cc : Z) : res (option Z) :=
  x <- load m (s + Z.of_nat k) ;;
  if x =? cc then Ok (Some (s + Z.of_nat k))
  else match k with O => Ok None | S k' => strrchr_loop k' m s cc end.
(** strrchr, ansi/generic/string.cpp:174-184 *)
Definition strrchr (fuel : nat) (m : mem) (s c : Z) : res (option Z) :=
  len <- strlen fuel m s ;; strrchr_loop len m s (c mod 256).

(** "strchr(chrs, c)" used as a truth value *)
Definition in_chrs (fuel : nat) (m : mem) (chrs c : Z) : res bool :=
  r <- strchr fuel m chrs c ;; Ok (match r with Some _ => true | None => false end).

(** the fuel of the inner strchr is supplied separately so that it does not shrink with the outer loop *)
Fixpoint span_loop (inv : bool) (cf fuel : nat) (m : mem) (s chrs : Z) (n : nat) : res nat :=
  match fuel with
  | O => Fuel
  | S f => x <- load m (s + Z.of_nat n) ;;
           if x =? 0 then Ok n
           else b <- in_chrs cf m chrs x ;;
                if Bool.eqb b inv then Ok n else span_loop inv cf f m s chrs (S n)
  end.
(** strcspn, ansi/generic/string.cpp:157-164: stops when strchr finds the byte *)
Definition strcspn (fuel : nat) (m : mem) (s chrs : Z) : res nat := span_loop true fuel fuel m s chrs 0.
(** strspn, ansi/generic/string.cpp:185-192: stops when strchr does not find the byte *)
Definition strspn (fuel : nat) (m : mem) (s chrs : Z) : res nat := span_loop false fuel fuel m s chrs 0.

(** strpbrk, ansi/generic/string.cpp:165-173 *)
Fixpoint strpbrk_loop (cf fuel : nat) (m : mem) (s chrs : Z) (n : nat) : res (option Z) :=
  match fuel with
  | O => Fuel
  | S f => x <- load m (s + Z.of_nat n) ;;
           if x =? 0 then Ok None
           else b <- in_chrs cf m chrs x ;;
                if (b : bool) then Ok (Some (s + Z.of_nat n)) else strpbrk_loop cf f m s chrs (S n)
  end.
Definition strpbrk (fuel : nat) (m : mem) (s chrs : Z) : res (option Z) := strpbrk_loop fuel fuel m s chrs 0.

(** inner loop of strstr, ansi/generic/string.cpp:200-205: returns whether pattern[j] is NUL at the end *)
Fixpoint strstr_inner (fuel : nat) (m : mem) (s pattern : Z) (i j : nat) : res bool :=
  match fuel with
  | O => Fuel
  | S f => x <- load m (pattern + Z.of_nat j) ;;
           if x =? 0 then Ok true
           else y <- load m (s + Z.of_nat (i + j)) ;;
                if y =? 0 then Ok false
                else if y =? x then strstr_inner f m s pattern i (S j)
                else Ok false
  end.
(** outer loop of strstr, ansi/generic/string.cpp:199-206 *)
Fixpoint strstr_loop (cf fuel : nat) (m : mem) (s pattern : Z) (i : nat) : res (option Z) :=
  match fuel with
  | O => Fuel
  | S f => x <- load m (s + Z.of_nat i) ;;
           if x =? 0 then Ok None
           else b <- strstr_inner cf m s pattern i 0 ;;
                if (b : bool) then Ok (Some (s + Z.of_nat i)) else strstr_loop cf f m s pattern (S i)
  end.
(** strstr, ansi/generic/string.cpp:193-209 *)
Definition strstr (fuel : nat) (m : mem) (s pattern : Z) : res (option Z) :=
  x <- load m pattern ;;
  if x =? 0 then Ok (Some s) else strstr_loop fuel fuel m s pattern 0.

(** inner loop of memmem, posix/generic/posix_string.cpp:178-183; [k] = needleLen - j; returns "found" *)
Fixpoint memmem_inner (k : nat) (m : mem) (hs nd : Z) (hlen i j : nat) : res bool :=
  match k with
  | O => Ok true
  | S k' => if (hlen <=? i + j)%nat then Ok false
            else x <- load m (hs + Z.of_nat (i + j)) ;;
                 y <- load m (nd + Z.of_nat j) ;;
                 if x =? y then memmem_inner k' m hs nd hlen i (S j) else Ok false
  end.
(** memmem, posix/generic/posix_string.cpp:171-190; [k] = haystackLen - i *)
Fixpoint memmem_loop (k : nat) (m : mem) (hs : Z) (hlen : nat) (nd : Z) (nlen : nat) (i : nat) : res (option Z) :=
  match k with
  | O => Ok None
  | S k' => b <- memmem_inner nlen m hs nd hlen i 0 ;;
            if (b : bool) then Ok (Some (hs + Z.of_nat i)) else memmem_loop k' m hs hlen nd nlen (S i)
  end.
Definition memmem (m : mem) (hs : Z) (hlen : nat) (nd : Z) (nlen : nat) : res (option Z) :=
  memmem_loop hlen m hs hlen nd nlen 0.

(** while( *tok && strchr(del, *tok)) tok++  (want = true), ansi/generic/string.cpp:225-226;
    while( *p && !strchr(del, *p)) p++       (want = false), ansi/generic/string.cpp:231-232 and posix_string.cpp:72-73 *)
Fixpoint skip_loop (want : bool) (cf fuel : nat) (m : mem) (del p : Z) : res Z :=
  match fuel with
  | O => Fuel
  | S f => x <- load m p ;;
           if x =? 0 then Ok p
           else b <- in_chrs cf m del x ;;
                if Bool.eqb b want then skip_loop want cf f m del (p + 1) else Ok p
  end.

(** strtok_r, ansi/generic/string.cpp:210-243.  [s] and the saved pointer are options (None = NULL); the saved
    pointer is a value of the state rather than a location in memory.  Returns memory, saved pointer, result *)
Definition strtok_r (fuel : nat) (m : mem) (s : option Z) (del : Z) (saved : option Z)
  : res (mem * option Z * option Z) :=
  match (match s with Some p => Some p | None => saved end) with
  | None => Ok (m, saved, None)
  | Some start =>
    tok <- skip_loop true fuel fuel m del start ;;
    p <- skip_loop false fuel fuel m del tok ;;
    x <- load m p ;;
    '(m1, saved1) <- (if x =? 0 then Ok (m, None)
                      else m1 <- store m p 0 ;; Ok (m1, Some (p + 1))) ;;
    Ok (m1, saved1, if p =? tok then None else Some tok)
  end.

(** strsep, posix/generic/posix_string.cpp:62-82.  [sp] is *m *)
Definition strsep (fuel : nat) (m : mem) (sp : option Z) (del : Z) : res (mem * option Z * option Z) :=
  match sp with
  | None => Ok (m, None, None)
  | Some tok =>
    p <- skip_loop false fuel fuel m del tok ;;
    x <- load m p ;;
    if x =? 0 then Ok (m, None, Some tok)
    else m1 <- store m p 0 ;; Ok (m1, Some (p + 1), Some tok)
  end.
