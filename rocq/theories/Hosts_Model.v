(** Model of the lookups in /etc/hosts and /etc/services, options/posix/generic/lookup.cpp:399-516 and services.cpp.
    A file is the list of its bytes (none is 0).  The line buffer is the list of its 128 bytes; what it holds at first is arbitrary.
    A read behind the buffer is [UB].  fopen is assumed to succeed; the stream is modelled in Stdio_*.v.  Character classes are those of
    the C locale.  strstr, strchr and strncmp are used as specified in StrSearch_*.v and Str_*.v. *)
From Verif Require Import Base.
Open Scope Z_scope.

Definition is_space (c : Z) : bool := (c =? 32) || ((9 <=? c) && (c <=? 13)).
Definition is_digit (c : Z) : bool := (48 <=? c) && (c <=? 57).
Definition is_alpha (c : Z) : bool := ((65 <=? c) && (c <=? 90)) || ((97 <=? c) && (c <=? 122)).

(** fgets(line, 128, file): at most [room] bytes, up to a newline *)
Fixpoint fgets (room : nat) (file : list Z) : list Z * list Z :=
  match room, file with
  | S k, c :: r => if c =? 10 then ([c], r) else let '(l, r') := fgets k r in (c :: l, r')
  | _, _ => ([], file)
  end.
(** the line and its null byte overwrite the beginning of the buffer *)
Definition over (l buf : list Z) : list Z := l ++ 0 :: skipn (S (length l)) buf.

Definition cstr (buf : list Z) : list Z := (fix go b := match b with c :: r => if c =? 0 then [] else c :: go r | [] => [] end) buf.
(** lookup.cpp:417-420, services.cpp:52-55 and 116-119: the comment becomes a newline and a null byte *)
Fixpoint strip (buf : list Z) : list Z :=
  match buf with
  | c :: r => if c =? 0 then buf else if c =? 35 then over [10] buf else c :: strip r
  | [] => []
  end.

Fixpoint prefix (p t : list Z) : bool :=
  match p, t with [] , _ => true | a :: p', b :: t' => (a =? b) && prefix p' t' | _, _ => false end.
(** the character behind the name; the null byte at the end *)
Definition after (n : nat) (t : list Z) : Z := match skipn n t with c :: _ => c | [] => 0 end.
(** lookup.cpp:422-423 on the text behind its first byte; [sp]: whether the byte before is white space *)
Fixpoint search (sp : bool) (name t : list Z) : bool :=
  (prefix name t && sp && is_space (after (length name) t)) ||
  match t with [] => false | c :: r => search (is_space c) name r end.
Definition listed (name t : list Z) : bool := match t with [] => false | c :: r => search (is_space c) name r end.

(** scans over the buffer from a position on *)
Fixpoint skip_sp (t : list Z) : res (list Z) :=
  match t with [] => UB | c :: r => if (c =? 0) || negb (is_space c) then Ok t else skip_sp r end.
Fixpoint word (t : list Z) : res (list Z * list Z) :=
  match t with [] => UB | c :: r => if (c =? 0) || is_space c then Ok ([], t) else '(w, t') <- word r ;; Ok (c :: w, t') end.
(** the scans that do not look for the null byte *)
Fixpoint word0 (t : list Z) : res (list Z * list Z) :=
  match t with [] => UB | c :: r => if is_space c then Ok ([], t) else '(w, t') <- word0 r ;; Ok (c :: w, t') end.
Fixpoint skip_sp0 (t : list Z) : res (list Z) :=
  match t with [] => UB | c :: r => if is_space c then skip_sp0 r else Ok t end.

(** lookup.cpp:453-461, the loop over the aliases *)
Fixpoint alias_loop (fuel : nat) (t : list Z) (acc : list (list Z)) : res (list (list Z)) :=
  match fuel with
  | O => Fuel
  | S k =>
      match t with
      | _ :: c :: _ => if c =? 0 then Ok acc else t1 <- skip_sp t ;; '(w, t2) <- word t1 ;; alias_loop k t2 (acc ++ [w])
      | _ => UB
      end
  end.

Inductive family := Unspec | Inet | Inet6.
Record hosts := { addrs : list (list Z * bool * list Z);   (** first name, whether it is an IPv6 address, its bytes *)
                  aliases : list (list Z); canon : list Z }.

Section Pton.
(** inet_pton, modelled in Inet_Model.v *)
Variables pton4 pton6 : list Z -> option (list Z).
(** lookup.cpp:432-440 *)
Definition parse (f : family) (a : list Z) : option (bool * list Z) :=
  match (match f with Inet6 => None | _ => pton4 a end) with
  | Some b => Some (false, b)
  | None => match (match f with Inet => None | _ => pton6 a end) with Some b => Some (true, b) | None => None end
  end.
(** one line, lookup.cpp:415-462; [buf] after fgets; the white space behind the address becomes a null byte *)
Definition host_line (fuel : nat) (name : list Z) (f : family) (buf : list Z) (s : hosts) : res (list Z * hosts) :=
  let buf := strip buf in
  if listed name (cstr buf) then
    '(a, t) <- word0 buf ;;
    let buf := a ++ 0 :: tl t in
    match parse f a with
    | None => Ok (buf, s)
    | Some (six, b) =>
        t <- skip_sp (tl t) ;;
        '(w, t) <- word t ;;
        al <- alias_loop fuel t (aliases s) ;;
        Ok (buf, {| addrs := addrs s ++ [(w, six, b)]; aliases := al; canon := w |})
    end
  else Ok (buf, s).
(** lookup_name_hosts, lookup.cpp:399-466; [n] bounds the number of lines (the length of the file is enough) *)
Fixpoint lookup_name (n fuel : nat) (name : list Z) (f : family) (buf file : list Z) (s : hosts) : res hosts :=
  match n with
  | O => Fuel
  | S k =>
      match file with
      | [] => Ok s
      | _ => let '(l, r) := fgets 127 file in '(buf, s) <- host_line fuel name f (over l buf) s ;; lookup_name k fuel name f buf r s
      end
  end.
End Pton.

(** lookup_addr_hosts, lookup.cpp:468-516; [addr] is the text of the address, [size] the room for the name.
    [Some None] is EAI_OVERFLOW *)
Fixpoint lookup_addr (n : nat) (addr : list Z) (size : Z) (buf file : list Z) : res (option (option (list Z))) :=
  match n with
  | O => Fuel
  | S k =>
      match file with
      | [] => Ok None
      | _ =>
          let '(l, r) := fgets 127 file in
          let buf := strip (over l buf) in
          if prefix addr (cstr buf) then
            t <- skip_sp0 (skipn (length addr + 1) buf) ;;
            '(w, _) <- word0 t ;;
            Ok (Some (if size <=? Z.of_nat (length w) then None else Some (w ++ [0])))
          else lookup_addr k addr size buf r
      end
  end.

(** ** Services *)
Inductive proto := Any | Tcp | Udp.
(** parse_rest, services.cpp:15-35: the protocol found *)
Definition rest_proto (t : list Z) (p : proto) : option proto :=
  if prefix [47;117;100;112] t then match p with Tcp => None | _ => Some Udp end
  else if prefix [47;116;99;112] t then match p with Udp => None | _ => Some Tcp end
  else None.
Fixpoint digits (v : Z) (t : list Z) : Z * list Z :=
  match t with c :: r => if is_digit c then digits (10 * v + (c - 48)) r else (v, t) | [] => (v, t) end.
Fixpoint skip_spaces (t : list Z) : list Z := match t with c :: r => if is_space c then skip_spaces r else t | [] => [] end.
(** strtoul(t, &end, 10) (C05) stored in an int; [None] if no number is there, end is [t] then *)
Definition to_int (v : Z) : Z := let u := v mod 4294967296 in if 2147483648 <=? u then u - 4294967296 else u.
Definition strtoul (t : list Z) : option (Z * list Z) :=
  let s := skip_spaces t in
  let '(neg, s) := match s with c :: r => if c =? 45 then (true, r) else if c =? 43 then (false, r) else (false, s) | [] => (false, s) end in
  match s with
  | c :: _ => if is_digit c then let '(v, e) := digits 0 s in
      Some (to_int (if 18446744073709551615 <? v then 18446744073709551615 else if neg then - v else v), e) else None
  | [] => None
  end.
(** services.cpp:121-128: the name may start the line or end the text *)
Fixpoint search_serv (sp : bool) (name t : list Z) : bool :=
  (prefix name t && sp && ((after (length name) t =? 0) || is_space (after (length name) t))) ||
  match t with [] => false | c :: r => search_serv (is_space c) name r end.
Fixpoint first_word (t : list Z) : list Z := match t with c :: r => if is_space c then t else first_word r | [] => [] end.
(** lookup_serv_file_name, services.cpp:113-149: port and protocol *)
Definition serv_line (name : list Z) (p : proto) (t : list Z) : option (Z * proto) :=
  if search_serv true name t then
    match strtoul (first_word t) with
    | Some (port, e) => if 65535 <? port then None else match rest_proto e p with Some q => Some (port, q) | None => None end
    | None => None
    end
  else None.
Fixpoint serv_by_name (n : nat) (name : list Z) (p : proto) (buf file : list Z) : res (list (Z * proto)) :=
  match n with
  | O => Fuel
  | S k =>
      match file with
      | [] => Ok []
      | _ =>
          let '(l, r) := fgets 127 file in
          let buf := strip (over l buf) in
          out <- serv_by_name k name p buf r ;;
          Ok (match serv_line name p (cstr buf) with Some x => x :: out | None => out end)
      end
  end.
(** lookup_serv_by_name, services.cpp:166-218, for a socket type of 0 or one that the protocol agrees with:
    a number is a port for each protocol *)
Definition by_name (n : nat) (name : list Z) (numeric : bool) (p : proto) (buf file : list Z) : res (option (list (Z * proto))) :=
  match name with
  | [] => Ok None
  | _ =>
      match (match strtoul name with Some (v, []) => Some v | _ => None end) with
      | Some v => let v := v mod 4294967296 in Ok (Some ((match p with Udp => [] | _ => [(v, Tcp)] end) ++ (match p with Tcp => [] | _ => [(v, Udp)] end)))
      | None => if numeric then Ok None else out <- serv_by_name n name p buf file ;; Ok (Some out)
      end
  end.

(** services.cpp:57-73: how many bytes that are no white space are before the port, and what is behind it.
    The scan works on the text up to the null byte; a step behind it is [UB] *)
Fixpoint skip_alpha (t : list Z) : list Z :=
  match t with c :: r => if is_alpha c then skip_alpha r else t | [] => [] end.
(** how many of the first [n] bytes are no white space *)
Fixpoint count (t : list Z) (n : nat) : Z :=
  match n with O => 0 | S m => match t with c :: r => (if is_space c then 0 else 1) + count r m | [] => 0 end end.
Fixpoint port_scan (fuel : nat) (port : Z) (line t : list Z) : res (option (Z * list Z)) :=
  match fuel with
  | O => Fuel
  | S f =>
      match t with
      | [] => Ok None
      | _ =>
          let p := skip_alpha t in
          let '(v, e) := match strtoul p with Some (v, e) => (v, e) | None => (0, p) end in
          if negb (v =? port) || (65535 <? v) then match e with [] => UB | _ :: e' => port_scan f port line e' end
          else Ok (Some (count line (length line - length p), e))
      end
  end.
(** lookup_serv_file_port, services.cpp:46-90: the name and the protocol *)
Definition port_line (fuel : nat) (port : Z) (p : proto) (t : list Z) : res (option (list Z * proto)) :=
  r <- port_scan fuel port t t ;;
  Ok (match r with
      | Some (n, e) => if n =? 0 then None else match rest_proto e p with Some q => Some (firstn (Z.to_nat n) t, q) | None => None end
      | None => None
      end).
Fixpoint serv_by_port (n fuel : nat) (port : Z) (p : proto) (buf file : list Z) : res (list (list Z * proto)) :=
  match n with
  | O => Fuel
  | S k =>
      match file with
      | [] => Ok []
      | _ =>
          let '(l, r) := fgets 127 file in
          let buf := strip (over l buf) in
          x <- port_line fuel port p (cstr buf) ;;
          out <- serv_by_port k fuel port p buf r ;;
          Ok (match x with Some y => y :: out | None => out end)
      end
  end.
