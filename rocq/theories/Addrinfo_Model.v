(** Model of getaddrinfo, getnameinfo and gethostbyname, options/posix/generic/netdb.cpp:219-500, with lookup_serv_by_name
    (services.cpp:157-216), lookup_name_ip (lookup.cpp:563-621) and lookup_name_null (Dns_Model.v).
    The Linux ABI: AF_UNSPEC 0, AF_INET 2, AF_INET6 10, SOCK_STREAM 1, SOCK_DGRAM 2, IPPROTO_TCP 6, IPPROTO_UDP 17.
    Parameters: the conversions inet_pton and inet_ntop (Inet_Model.v), the searches in /etc/hosts and /etc/services (Hosts_Model.v), the
    DNS client (Dns_Model.v) and the InetConfigured sysdep.  Allocation is assumed to succeed. *)
From Verif Require Import Base Hosts_Model.
From Verif Require Inet_Model Dns_Model.
Open Scope Z_scope.

(** posix/include/netdb.h:12-51 *)
Definition AI_PASSIVE := 1.       Definition AI_CANONNAME := 2.   Definition AI_NUMERICHOST := 4.  Definition AI_V4MAPPED := 8.
Definition AI_ALL := 16.          Definition AI_ADDRCONFIG := 32. Definition AI_NUMERICSERV := 64.
Definition NI_NUMERICHOST := 2.   Definition NI_NAMEREQD := 4.    Definition NI_DGRAM := 16.       Definition NI_NUMERICSERV := 2.
Definition EAI_BADFLAGS := 2.     Definition EAI_FAMILY := 4.     Definition EAI_MEMORY := 5.      Definition EAI_NONAME := 6.
Definition EAI_SERVICE := 7.      Definition EAI_SYSTEM := 9.     Definition EAI_OVERFLOW := 10.
Definition has (flags bit : Z) : bool := negb (Z.land flags bit =? 0).

Record hints := Hints { h_flags : Z; h_family : Z; h_socktype : Z; h_protocol : Z }.
Record service := Serv { s_port : Z; s_protocol : Z; s_socktype : Z }.
Definition address : Type := bool * list Z.   (** whether it is an IPv6 address, its bytes *)
(** one element of the array; [next] is the index of the element that ai_next points to *)
Record entry := Entry { e_family : Z; e_socktype : Z; e_protocol : Z; e_flags : Z; e_addrlen : Z; e_port : Z; e_addr : list Z;
                        e_canon : option (list Z); e_next : option nat }.
Definition zero : entry := Entry 0 0 0 0 0 0 [] None None.
Definition array : Type := nat -> option entry.   (** [None] behind the end *)
Definition aupd (a : array) (i : nat) (e : entry) : array := fun j => if Nat.eqb i j then Some e else a j.
Inductive result := Fail (code errno : Z) | Done (out : array).   (** on success *res is the address of element 0 *)
Inductive found := Error (code : Z) | Found (l : list address).

Section Net.
Variables pton4 pton6 : list Z -> option (list Z).
Variable ntop : bool -> list Z -> list Z.
(** InetConfigured: not there, an error, or which versions are configured *)
Variable configured : option (Z + bool * bool).
(** lookup_serv_file_name: an error code, or the matching lines *)
Variable serv_file : list Z -> Z -> Z + list service.
(** lookup_name_hosts and lookup_name_dns: the result and the canonical name *)
Variable hosts_file : list Z -> family -> found * list Z.
Variable dns : list Z -> family -> list Z -> found * list Z.

(** services.cpp:157-216 *)
Definition lookup_serv (name : option (list Z)) (proto socktype flags : Z) : Z + list service :=
  let go proto :=
    match name with
    | Some [] => inl EAI_SERVICE
    | _ =>
        match (match name with None => Some 0 | Some n => match strtoul n with Some (v, []) => Some (v mod 4294967296) | _ => None end end) with
        | Some port => inr ((if proto =? 17 then [] else [Serv port 6 1]) ++ (if proto =? 6 then [] else [Serv port 17 2]))
        | None => if has flags AI_NUMERICSERV then inl EAI_NONAME else match name with Some n => serv_file n proto | None => inr [] end
        end
    end in
  if socktype =? 1 then if proto =? 0 then go 6 else if proto =? 6 then go proto else inl EAI_SERVICE
  else if socktype =? 2 then if proto =? 0 then go 17 else if proto =? 17 then go proto else inl EAI_SERVICE
  else if socktype =? 0 then go proto
  else match name with Some _ => inl EAI_SERVICE | None => inr [Serv 0 proto socktype] end.

(** lookup_name_null, lookup.cpp:518-561 *)
Definition lookup_null (passive : bool) (f : family) : list address :=
  Dns_Model.lookup_null passive (match f with Unspec => Dns_Model.Unspec | Inet => Dns_Model.Inet | Inet6 => Dns_Model.Inet6 end).
Definition fam (f : Z) : family := if f =? 2 then Inet else if f =? 10 then Inet6 else Unspec.

(** netdb.cpp:262-281: the addresses, or an error code, and the canonical name *)
Definition addresses (node : option (list Z)) (f flags : Z) : (Z + list address) * list Z :=
  match node with
  | Some n =>
      let '(r, c) :=
        match parse pton4 pton6 (fam f) n with
        | Some a => (Found [a], [])
        | None =>
            if has flags AI_NUMERICHOST then (Error EAI_NONAME, [])
            else match hosts_file n (fam f) with
                 | (Found (a :: l), c) => (Found (a :: l), c)
                 | (_, c) => dns n (fam f) c
                 end
        end in
      (match r with Error e => inl e | Found [] => inl EAI_NONAME | Found l => inr l end, c)
  | None => (if has flags AI_NUMERICHOST then inl EAI_NONAME else inr (lookup_null (has flags AI_PASSIVE) (fam f)), [])
  end.

(** the loops, netdb.cpp:289-326.  htons keeps the low 16 bits; the port is given as the number the peer reads *)
Definition put (out : array) (k : nat) (e : entry) : res array := match out k with Some _ => Ok (aupd out k e) | None => UB end.
Definition set_next (out : array) (k : nat) (n : option nat) : res array :=
  match out k with
  | Some e => Ok (aupd out k (Entry (e_family e) (e_socktype e) (e_protocol e) (e_flags e) (e_addrlen e) (e_port e) (e_addr e) (e_canon e) n))
  | None => UB
  end.
Definition element (flags : Z) (canon : option (list Z)) (a : address) (s : service) : entry :=
  Entry (if fst a then 10 else 2) (s_socktype s) (s_protocol s) flags (if fst a then 28 else 16) (s_port s mod 65536) (snd a) canon None.
Fixpoint inner (flags : Z) (canon : option (list Z)) (a : address) (ss : list service) (k : nat) (out : array) : res (nat * array) :=
  match ss with
  | [] => Ok (k, out)
  | s :: ss =>
      out <- put out k (element flags (if Nat.eqb k 0 then canon else None) a s) ;;
      out <- match k with S k' => set_next out k' (Some k) | O => Ok out end ;;
      inner flags canon a ss (S k) out
  end.
Fixpoint outer (flags : Z) (canon : option (list Z)) (l : list address) (ss : list service) (k : nat) (out : array) : res array :=
  match l with
  | [] => Ok out
  | a :: l => '(k, out) <- inner flags canon a ss k out ;; outer flags canon l ss k out
  end.
(** netdb.cpp:283-333 *)
Definition build (node : option (list Z)) (flags : Z) (ss : list service) (l : list address) (canon : list Z) : res array :=
  let n := (length ss * length l)%nat in
  let c := match node with
           | Some nm => if has flags AI_CANONNAME then match canon with [] => Some nm | _ => Some canon end else None
           | None => None end in
  (* an empty node name stays without canonical name *)
  let c := match c with Some [] => None | _ => c end in
  out <- outer flags c l ss 0 (fun i => if Nat.ltb i n then Some zero else None) ;;
  match n with S m => set_next out m None | O => Ok out end.

(** netdb.cpp:219-335 *)
Definition getaddrinfo (node service : option (list Z)) (h : option hints) : res result :=
  match node, service with
  | None, None => Ok (Fail EAI_NONAME 0)
  | _, _ =>
      let '(Hints flags f socktype protocol) := match h with Some h => h | None => Hints (AI_V4MAPPED + AI_ADDRCONFIG) 0 0 0 end in
      if negb (Z.land flags 127 =? flags) then Ok (Fail EAI_BADFLAGS 0)
      else if has flags AI_CANONNAME && match node with None => true | Some _ => false end then Ok (Fail EAI_BADFLAGS 0)
      else if negb ((f =? 2) || (f =? 10) || (f =? 0)) then Ok (Fail EAI_FAMILY 0)
      else
        match (if has flags AI_ADDRCONFIG then
                 match configured with
                 | None => inl (Fail EAI_SYSTEM 38)
                 | Some (inl e) => inl (Fail EAI_SYSTEM e)
                 | Some (inr (v4, v6)) =>
                     if negb v4 && negb v6 then inl (Fail EAI_NONAME 0) else inr (if Bool.eqb v4 v6 then f else if v4 then 2 else 10)
                 end
               else inr f) with
        | inl r => Ok r
        | inr f =>
            match lookup_serv service protocol socktype flags with
            | inl e => Ok (Fail e 0)
            | inr ss =>
                match addresses node f flags with
                | (inl e, _) => Ok (Fail e 0)
                | (inr l, canon) => out <- build node flags ss l canon ;; Ok (Done out)
                end
            end
        end
  end.

(** what the caller does: follow ai_next *)
Fixpoint walk (fuel : nat) (out : array) (i : nat) : res (list entry) :=
  match fuel with
  | O => Fuel
  | S k => match out i with
           | None => UB
           | Some e => match e_next e with None => Ok [e] | Some j => l <- walk k out j ;; Ok (e :: l) end
           end
  end.

(** gethostbyname, netdb.cpp:437-505: name, aliases, family, addresses.  The aliases come with the search results. *)
Record hostent := Hostent { ho_name : list Z; ho_inet6 : bool; ho_addrs : list (list Z) }.
Definition gethostbyname (name : list Z) : option hostent :=
  let '(r, c) :=
    match parse pton4 pton6 Inet name with
    | Some a => (Found [a], [])
    | None => match hosts_file name Unspec with (Found (a :: l), c) => (Found (a :: l), c) | (_, c) => dns name Unspec c end
    end in
  match r with
  | Found (a :: l) =>
      Some (Hostent (match c with [] => name | _ => c end) (fst a) (map snd (filter (fun b : address => Bool.eqb (fst b) (fst a)) (a :: l))))
  | _ => None
  end.

(** getnameinfo, netdb.cpp:341-424; the texts stored in host and serv.
    [addr_hosts], [addr_dns]: 0, a negative error or the name stored; [port_name]: getservbyport, [true] for udp *)
Inductive reverse := RNone | RError (code : Z) | RName (n : list Z).
Variable addr_hosts addr_dns : bool -> list Z -> Z -> reverse.
Variable port_name : Z -> bool -> option (list Z).
Definition digits_of (n : Z) : list Z := Inet_Model.num 10 n.
Definition host_part (a : address) (host_len flags : Z) : Z + list Z :=
  let r := if has flags NI_NUMERICHOST then RNone
           else match addr_hosts (fst a) (snd a) host_len with RNone => addr_dns (fst a) (snd a) host_len | r => r end in
  match r with
  | RNone => if has flags NI_NAMEREQD then inl EAI_NONAME
             else let t := ntop (fst a) (snd a) in if host_len <=? Z.of_nat (length t) then inl EAI_OVERFLOW else inr t
  | RError e => inl e
  | RName n => inr n
  end.
Definition serv_part (port serv_len flags : Z) : Z + list Z :=
  let t := match (if has flags NI_NUMERICSERV then None else port_name port (has flags NI_DGRAM)) with
           | None => digits_of port
           | Some n => n
           end in
  if serv_len <? Z.of_nat (length t) + 1 then inl EAI_MEMORY else inr t.
(** [None]: the buffer is null or has length 0; [addr_len]: the length passed *)
Definition getnameinfo (family : Z) (a : list Z) (port addr_len : Z) (host_len serv_len : option Z) (flags : Z) : Z + (option (list Z) * option (list Z)) :=
  if negb ((family =? 2) || (family =? 10)) then inl EAI_FAMILY
  else if addr_len <? (if family =? 2 then 16 else 28) then inl EAI_FAMILY
  else
    match (match host_len with None => inr None | Some n => match host_part (family =? 10, a) n flags with inl e => inl e | inr t => inr (Some t) end end) with
    | inl e => inl e
    | inr h =>
        match (match serv_len with None => inr None | Some n => match serv_part port n flags with inl e => inl e | inr t => inr (Some t) end end) with
        | inl e => inl e
        | inr s => inr (h, s)
        end
    end.
End Net.
