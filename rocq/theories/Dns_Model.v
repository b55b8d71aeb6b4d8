(** Model of the DNS client behind getaddrinfo, gethostbyname and getnameinfo, options/posix/generic/lookup.cpp.
    A datagram received is the list of its bytes (0..255); the buffer behind it holds indeterminate bytes: reading there is [UB].
    The sockets, the clock and the service table are not modelled: what arrives before the time-out is a list of datagrams. *)
From Verif Require Import Base.
Open Scope Z_scope.

Inductive family := Unspec | Inet | Inet6.
Definition inet_ok (f : family) : bool := match f with Inet6 => false | _ => true end.
Definition inet6_ok (f : family) : bool := match f with Inet => false | _ => true end.

Definition get (msg : list Z) (i : Z) : res Z := match nth_error msg (Z.to_nat i) with Some b => Ok b | None => UB end.
Fixpoint slice (msg : list Z) (i : Z) (n : nat) : res (list Z) :=
  match n with O => Ok [] | S k => b <- get msg i ;; r <- slice msg (i + 1) k ;; Ok (b :: r) end.

(** read_dns_name, lookup.cpp:51-75: the text and where it stops.  The loop over labels and the recursion at a pointer are one
    recursion here. *)
Fixpoint read_name (fuel : nat) (msg : list Z) (it : Z) : res (list Z * Z) :=
  match fuel with
  | O => Fuel
  | S k =>
      code <- get msg it ;;
      if 192 <=? code then
        lo <- get msg (it + 1) ;;
        '(r, _) <- read_name k msg ((code - 192) * 256 + lo) ;;
        Ok (r, it + 2)
      else if code <? 64 then
        if code =? 0 then Ok ([], it + 1)
        else
          lab <- slice msg (it + 1) (Z.to_nat code) ;;
          next <- get msg (it + 1 + code) ;;
          '(r, q) <- read_name k msg (it + 1 + code) ;;
          Ok (lab ++ (if next =? 0 then [] else [46]) ++ r, q)
      else Ok ([], it + 1)
  end.

(** lookup.cpp:92-100: the labels of the name *)
Fixpoint split (cur name : list Z) : list (list Z) :=
  match name with
  | [] => [cur]
  | c :: r => if c =? 46 then cur :: split [] r else split (cur ++ [c]) r
  end.
Definition encode (labels : list (list Z)) : list Z := concat (map (fun l => (Z.of_nat (length l)) mod 256 :: l) labels).
(** lookup.cpp:79-89: identification 123, recursion desired, one question *)
Definition header : list Z := [0; 123; 1; 0; 0; 1; 0; 0; 0; 0; 0; 0].
(** lookup_name_dns, lookup.cpp:77-112 *)
Definition request (name : list Z) (f : family) : list Z :=
  header ++ encode (match name with [] => [] | _ => split [] name end) ++ [0] ++ [0; match f with Inet6 => 28 | _ => 1 end] ++ [0; 1].
(** lookup_addr_dns, lookup.cpp:240-288; [text] is what inet_ntop gives; ".in-addr.arpa" *)
Definition addr_request (text : list Z) : list Z :=
  header ++ encode (split [] (text ++ [46;105;110;45;97;100;100;114;46;97;114;112;97])) ++ [0] ++ [0; 12] ++ [0; 1].

(** the number in two bytes *)
Definition get16 (msg : list Z) (i : Z) : res Z := a <- get msg i ;; b <- get msg (i + 1) ;; Ok (a * 256 + b).

(** lookup.cpp:179-184 *)
Fixpoint questions (n fuel : nat) (msg : list Z) (it : Z) : res Z :=
  match n with O => Ok it | S k => '(_, it) <- read_name fuel msg it ;; questions k fuel msg (it + 4) end.

Record found := { addrs : list (list Z * bool * list Z);   (** name, whether it is an IPv6 address, its bytes *)
                  aliases : list (list Z); canon : list Z }.
(** the body of the loop, lookup.cpp:186-227; buffer.addr has 16 bytes *)
Definition answer (fuel : nat) (msg : list Z) (f : family) (it : Z) (s : found) : res (Z * found) :=
  '(name, it) <- read_name fuel msg it ;;
  ty <- get16 msg it ;;
  _ <- get16 msg (it + 2) ;;
  len <- get16 msg (it + 8) ;;
  let it := it + 10 in
  if ty =? 1 then
    if negb (inet_ok f) then Ok (it + len, s)
    else if 16 <? len then UB
    else a <- slice msg it (Z.to_nat len) ;; Ok (it + len, {| addrs := addrs s ++ [(name, false, a)]; aliases := aliases s; canon := canon s |})
  else if ty =? 28 then
    if negb (inet6_ok f) then Ok (it + len, s)
    else if 16 <? len then UB
    else a <- slice msg it (Z.to_nat len) ;; Ok (it + len, {| addrs := addrs s ++ [(name, true, a)]; aliases := aliases s; canon := canon s |})
  else if ty =? 5 then
    '(c, it) <- read_name fuel msg it ;; Ok (it, {| addrs := addrs s; aliases := aliases s ++ [name]; canon := c |})
  else Ok (it + len, s).
Fixpoint answers (n fuel : nat) (msg : list Z) (f : family) (it : Z) (s : found) : res found :=
  match n with O => Ok s | S k => '(it, s) <- answer fuel msg f it s ;; answers k fuel msg f it s end.

Inductive outcome := Found (s : found) | Failed | NoName | Again.
(** the loop of lookup_name_dns, lookup.cpp:160-236, over the datagrams that arrive in time *)
Fixpoint lookup_name (fuel : nat) (f : family) (got : list (list Z)) (num_ans : Z) (s : found) : res outcome :=
  match got with
  | [] => Ok Again
  | msg :: got' =>
      if (length msg <? 12)%nat then lookup_name fuel f got' num_ans s
      else
        id <- get16 msg 0 ;;
        if negb (id =? 123) then Ok Failed
        else
          flags <- get16 msg 2 ;;
          if flags mod 16 =? 3 then Ok NoName
          else
            nq <- get16 msg 4 ;;
            na <- get16 msg 6 ;;
            it <- questions (Z.to_nat nq) fuel msg 12 ;;
            s <- answers (Z.to_nat na) fuel msg f it s ;;
            if 1 <=? num_ans + na then Ok (Found s) else lookup_name fuel f got' (num_ans + na) s
  end.

(** lookup_addr_dns, lookup.cpp:337-392: the name with its null byte, if there is room for [size] bytes.
    After an answer of another type the loop over the answers ends and the next datagram is awaited. *)
Inductive addr_outcome := Name (n : list Z) | Overflow | AFailed | AAgain.
Fixpoint lookup_addr (fuel : nat) (size : Z) (got : list (list Z)) : res addr_outcome :=
  match got with
  | [] => Ok AAgain
  | msg :: got' =>
      if (length msg <? 12)%nat then lookup_addr fuel size got'
      else
        id <- get16 msg 0 ;;
        if negb (id =? 123) then Ok AFailed
        else
          nq <- get16 msg 4 ;;
          na <- get16 msg 6 ;;
          it <- questions (Z.to_nat nq) fuel msg 12 ;;
          if na =? 0 then lookup_addr fuel size got'
          else
            '(_, it) <- read_name fuel msg it ;;
            ty <- get16 msg it ;;
            _ <- get16 msg (it + 2) ;;
            _ <- get16 msg (it + 8) ;;
            if ty =? 12 then
              '(n, _) <- read_name fuel msg (it + 10) ;;
              if size <=? Z.of_nat (length n) then Ok Overflow else Ok (Name (n ++ [0]))
            else lookup_addr fuel size got'
  end.

(** lookup_name_null, lookup.cpp:518-561, on a little-endian machine: INADDR_LOOPBACK is 0x7f000001 and is copied as it is *)
Definition lookup_null (passive : bool) (f : family) : list (bool * list Z) :=
  (if inet_ok f then [(false, if passive then [0;0;0;0] else [1;0;0;127])] else []) ++
  (if inet6_ok f then [(true, repeat 0 15 ++ [if passive then 0 else 1])] else []).
