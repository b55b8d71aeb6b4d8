(** Model of inet_aton, inet_ntoa, inet_ntop and inet_pton, options/posix/generic/arpa-inet.cpp:62-394.
    An IPv4 address is its four octets in memory (network) order, so that htonl/ntohl disappear; an IPv6 address is its
    eight 16-bit groups, each two octets in network order, so that htons disappears.  char classification is that of
    the C locale.  strtol and strtoul are the models of C12, snprintf that of C41 with the formatter appending the
    characters of the decimal or hexadecimal number one by one. *)
From Verif Require Import Base Strtol_Model Snprintf_Model.
Open Scope Z_scope.

Definition c_isspace (c : Z) : bool := (c =? 32) || ((9 <=? c) && (c <=? 13)).
Definition strtol (fuel : nat) (m : mem) (p base : Z) := string_to_integer c_isspace 64 true fuel m p base.
Definition strtoul (fuel : nat) (m : mem) (p base : Z) := string_to_integer c_isspace 64 false fuel m p base.

(** the characters printf produces for %u, %d (base 10) and %x (base 16) of a non-negative number (the formatter is in
    frigg, not in the repository) *)
Definition digit_char (d : Z) : Z := if d <? 10 then 48 + d else 87 + d.
Fixpoint number (fuel : nat) (base n : Z) : list Z :=
  match fuel with
  | O => []
  | S f => if n <? base then [digit_char n] else number f base (n / base) ++ [digit_char (n mod base)]
  end.
Definition num (base n : Z) : list Z := number 64 base n.
Definition dotted (a b c d : Z) : list Z := num 10 a ++ 46 :: num 10 b ++ 46 :: num 10 c ++ 46 :: num 10 d.

(** ** inet_aton, arpa-inet.cpp:73-140; the four octets, or None where 0 is returned.  [string] is the start of the text *)
Fixpoint aton_loop (k : nat) (fuel : nat) (m : mem) (string s : Z) (parts : list Z) : res (option (list Z)) :=
  match k with
  | O => Fuel
  | S k' =>
    c <- load m s ;;
    if c_isspace c then Ok None else
    '(val, e, _) <- strtoul fuel m s 0 ;;
    if s =? e then Ok None else
    minus <- (if s >? string then x <- load m (s - 1) ;; Ok (x =? 45) else Ok false) ;;
    if (minus : bool) then Ok None else
    if (4 <=? length parts)%nat then Ok None else
    let parts := parts ++ [val] in
    ce <- load m e ;;
    if ce =? 46 then
      cn <- load m (e + 1) ;;
      if cn =? 0 then Ok None else aton_loop k' fuel m string (e + 1) parts
    else if ce =? 0 then Ok (Some parts)
    else Ok None
  end.
Definition octets (a : Z) : list Z := [(a / 16777216) mod 256; (a / 65536) mod 256; (a / 256) mod 256; a mod 256].
Definition inet_aton (fuel : nat) (m : mem) (string : Z) : res (option (list Z)) :=
  r <- aton_loop 6 fuel m string string [] ;;
  match r with
  | None => Ok None
  | Some [a] => if a >? 4294967295 then Ok None else Ok (Some (octets a))
  | Some [a; b] => if (a >? 255) || (b >? 16777215) then Ok None else Ok (Some (octets (a * 16777216 + b)))
  | Some [a; b; c] => if (a >? 255) || (b >? 255) || (c >? 65535) then Ok None else Ok (Some (octets (a * 16777216 + b * 65536 + c)))
  | Some [a; b; c; d] => if (a >? 255) || (b >? 255) || (c >? 255) || (d >? 255) then Ok None
                         else Ok (Some (octets (a * 16777216 + b * 65536 + c * 256 + d)))
  | Some _ => Abort
  end.

(** inet_ntoa, arpa-inet.cpp:62-71: into a 16 byte buffer at [buf] *)
Definition inet_ntoa (m : mem) (buf : Z) (a b c d : Z) : res mem :=
  '(m1, _) <- vsnprintf m buf 16 (map PChar (dotted a b c d)) ;; Ok m1.

(** ** inet_ntop(AF_INET), arpa-inet.cpp:148-162; false is a null pointer with ENOSPC *)
Definition inet_ntop4 (m : mem) (a b c d : Z) (dst : Z) (size : nat) : res (mem * bool) :=
  '(m1, written) <- vsnprintf m dst size (map PChar (dotted a b c d)) ;;
  Ok (m1, (written <? size)%nat).

(** inet_pton(AF_INET), arpa-inet.cpp:250-268: the octets, or None where 0 is returned *)
Fixpoint pton4_loop (k : nat) (fuel : nat) (m : mem) (src : Z) (array : list Z) : res (option (list Z)) :=
  match k with
  | O => Ok (Some array)
  | S k' =>
    c <- load m src ;;
    if negb (is_digit c) then Ok None else
    '(value, e, _) <- strtol fuel m src 10 ;;
    if (value >? 255) || (e - src >? 3) then Ok None else
    ce <- load m e ;;
    if negb (ce =? 0) && negb (ce =? 46) then Ok None
    else pton4_loop k' fuel m (e + 1) (array ++ [value mod 256])
  end.
Definition inet_pton4 (fuel : nat) (m : mem) (src : Z) : res (option (list Z)) := pton4_loop 4 fuel m src [].

(** ** inet_ntop(AF_INET6), arpa-inet.cpp:163-238 *)
(** the search for the longest block of zero groups, 182-201: (max_zeroes_off, max_zeroes_len) *)
Fixpoint zero_run (gs : list bool) (i cur_off cur_len max_off max_len : nat) : nat * nat :=
  match gs with
  | [] => (max_off, max_len)
  | z :: gs' =>
    if z then
      let cur_len := S cur_len in
      if (max_len <? cur_len)%nat && (1 <? cur_len)%nat then zero_run gs' (S i) cur_off cur_len cur_off cur_len
      else zero_run gs' (S i) cur_off cur_len max_off max_len
    else zero_run gs' (S i) (S i) 0 max_off max_len
  end.

(** the output loop, 203-233; the new offset, or None for ENOSPC *)
Fixpoint print6 (fuel : nat) (m : mem) (gs : list Z) (dst : Z) (size : nat) (zo zl : nat) (i off : nat) : res (mem * option nat) :=
  match fuel with
  | O => Fuel
  | S f =>
    if (i <? 8)%nat then
      if (i =? zo)%nat && (2 <=? zl)%nat then
        '(m, off) <- (if (off <? size)%nat then m1 <- store m (dst + Z.of_nat off) 58 ;; Ok (m1, S off) else Ok (m, off)) ;;
        '(m, off) <- (if (off <? size)%nat then m1 <- store m (dst + Z.of_nat off) 58 ;; Ok (m1, S off) else Ok (m, off)) ;;
        print6 f m gs dst size zo zl (i + zl) off
      else
        colon <- (if (0 <? off)%nat then c <- load m (dst + Z.of_nat off - 1) ;; Ok (negb (c =? 58)) else Ok false) ;;
        '(m, off) <- (if (colon : bool) && (off <? size)%nat then m1 <- store m (dst + Z.of_nat off) 58 ;; Ok (m1, S off) else Ok (m, off)) ;;
        '(m, ret) <- vsnprintf m (dst + Z.of_nat off) (size - off) (map PChar (num 16 (nth i gs 0))) ;;
        if (size - off <=? ret)%nat then Ok (m, None)
        else print6 f m gs dst size zo zl (S i) (off + ret)
    else Ok (m, Some off)
  end.

Definition v4mapped (gs : list Z) : bool :=
  match gs with
  | [a; b; c; d; e; f; _; _] => (a =? 0) && (b =? 0) && (c =? 0) && (d =? 0) && (e =? 0) && (f =? 65535)
  | _ => false
  end.
Definition ffff : list Z := [58; 58; 102; 102; 102; 102; 58].   (* "::ffff:" *)
Definition inet_ntop6 (m : mem) (gs : list Z) (dst : Z) (size : nat) : res (mem * bool) :=
  if v4mapped gs then
    let g := nth 6 gs 0 in let h := nth 7 gs 0 in
    '(m1, n) <- vsnprintf m dst size (map PChar (ffff ++ dotted (g / 256) (g mod 256) (h / 256) (h mod 256))) ;;
    Ok (m1, (n <? size)%nat)
  else
    let '(zo, zl) := zero_run (map (fun g => g =? 0) gs) 0 0 0 0 0 in
    '(m1, r) <- print6 9 m gs dst size zo zl 0 0 ;;
    match r with
    | None => Ok (m1, false)
    | Some off => m2 <- store m1 (dst + Z.of_nat off) 0 ;; Ok (m2, true)
    end.

(** ** inet_pton(AF_INET6), arpa-inet.cpp:269-387 *)
Fixpoint set_nth (l : list Z) (i : nat) (x : Z) : list Z :=
  match l, i with
  | [], _ => []
  | _ :: l', O => x :: l'
  | y :: l', S i' => y :: set_nth l' i' x
  end.

(** one octet of a trailing dotted quad, 297-306 and the three repetitions: the octet and the position of the
    following character; [value] is the hexadecimal value of the first octet's text, [dot] whether a '.' must follow *)
Definition octet6 (fuel : nat) (m : mem) (src value : Z) (dot : bool) : res (option (Z * Z)) :=
  c <- load m src ;;
  if negb (is_digit c) then Ok None else
  '(v, e, _) <- strtol fuel m src 10 ;;
  ce <- load m e ;;
  if (dot && negb (ce =? 46)) || (v >? 255) || (src =? e) then Ok None else
  if (e - src >? 3) || ((c =? 48) && negb (value =? 0)) then Ok None
  else Ok (Some (v, e)).

(** the loop, 287-356; [k] = 8 - i; [e] is the variable end.  Result: i, end, array, doubleColonOffset *)
Fixpoint pton6_loop (k : nat) (fuel : nat) (m : mem) (i : nat) (src e : Z) (arr : list Z) (dco : option nat)
  : res (option (nat * Z * list Z * option nat)) :=
  match k with
  | O => Ok (Some (i, e, arr, dco))
  | S k' =>
    '(value, e, _) <- strtol fuel m src 16 ;;
    if (value >? 65535) || (e - src >? 4) then Ok None else
    c <- load m e ;;
    if negb ((c =? 0) || (c =? 58) || (c =? 46)) then Ok None else
    if (c =? 46) && ((0 <? i)%nat && (nth 0 arr 0 / 256 =? 0)) && (i <? 7)%nat then
      r0 <- octet6 fuel m src value true ;;
      match r0 with None => Ok None | Some (v0, e0) =>
      r1 <- octet6 fuel m (e0 + 1) value true ;;
      match r1 with None => Ok None | Some (v1, e1) =>
      let arr := set_nth arr i (v0 * 256 + v1) in
      r2 <- octet6 fuel m (e1 + 1) value true ;;
      match r2 with None => Ok None | Some (v2, e2) =>
      r3 <- octet6 fuel m (e2 + 1) value false ;;
      match r3 with None => Ok None | Some (v3, e3) =>
      Ok (Some (S i, e3, set_nth arr (S i) (v2 * 256 + v3), dco))
      end end end end
    else
      c1 <- (if c =? 58 then load m (e + 1) else Ok 0) ;;
      if (c =? 58) && (c1 =? 58) then
        match dco with
        | Some _ => Ok None
        | None => pton6_loop k' fuel m (S i) (e + 2) e (set_nth arr i (value mod 65536)) (Some (S i))
        end
      else if c =? 58 then pton6_loop k' fuel m (S i) (e + 1) e (set_nth arr i (value mod 65536)) dco
      else if c =? 0 then Ok (Some (i, e, set_nth arr i (value mod 65536), dco))
      else Ok None
  end.

(** the eight groups, or None where 0 is returned *)
Definition inet_pton6 (fuel : nat) (m : mem) (src : Z) : res (option (list Z)) :=
  c <- load m src ;;
  if negb (is_xdigit c) && negb (c =? 58) then Ok None else
  r <- pton6_loop 8 fuel m 0 src 0 (repeat 0 8) None ;;
  match r with
  | None => Ok None
  | Some (i, e, arr, dco) =>
    ce <- load m e ;;
    if negb (ce =? 0) then Ok None else
    match dco with
    | None => if (i <? 7)%nat then Ok None else Ok (Some arr)
    | Some d =>
      let suffix := (i + 1 - d)%nat in
      if (8 <=? d + suffix)%nat then Ok None
      else Ok (Some (firstn d arr ++ repeat 0 (8 - d - suffix) ++ firstn suffix (skipn d arr)))
    end
  end.
