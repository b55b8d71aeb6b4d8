(** What getaddrinfo, getnameinfo and gethostbyname should give (POSIX, RFC 3493). *)
From Verif Require Import Base Hosts_Model Hosts_Spec Addrinfo_Model.
Open Scope Z_scope.

(** the hints that are accepted *)
Definition acceptable (node : option (list Z)) (h : hints) : Prop :=
  0 <= h_flags h < 128 /\ (has (h_flags h) AI_CANONNAME = true -> node <> None) /\ (h_family h = 0 \/ h_family h = 2 \/ h_family h = 10).
(** AI_ADDRCONFIG rules no family out *)
Definition unrestricted (configured : option (Z + bool * bool)) (h : hints) : Prop :=
  has (h_flags h) AI_ADDRCONFIG = false \/ configured = Some (inr (true, true)).

(** ** Services: protocol and socket type of the transports that agree with the hints *)
Definition transports (h : hints) : list (Z * Z) :=
  filter (fun t => ((h_protocol h =? 0) || (fst t =? h_protocol h)) && ((h_socktype h =? 0) || (snd t =? h_socktype h))) [(6, 1); (17, 2)].
Inductive offers (serv_file : list Z -> Z -> Z + list service) (h : hints) : option (list Z) -> list service -> Prop :=
| o_none : offers serv_file h None (map (fun t => Serv 0 (fst t) (snd t)) (transports h))
| o_port ds v : decimal ds v -> 0 <= v <= 65535 -> offers serv_file h (Some ds) (map (fun t => Serv v (fst t) (snd t)) (transports h))
| o_name n p ss : n <> [] -> strtoul n = None -> has (h_flags h) AI_NUMERICSERV = false ->
    (p = match transports h with [(q, _)] => q | _ => 0 end) -> serv_file n p = inr ss -> offers serv_file h (Some n) ss.
(** the hints name TCP, UDP or nothing, and are consistent *)
Definition known (h : hints) : Prop := In (h_protocol h) [0; 6; 17] /\ In (h_socktype h) [0; 1; 2] /\ transports h <> [].

(** ** Addresses *)
Definition wants (h : hints) : family := if h_family h =? 2 then Inet else if h_family h =? 10 then Inet6 else Unspec.
Definition numeric (pton4 pton6 : list Z -> option (list Z)) (f : family) (n : list Z) (a : address) : Prop :=
  (f <> Inet6 /\ exists b, pton4 n = Some b /\ a = (false, b)) \/ (f <> Inet /\ (f = Unspec -> pton4 n = None) /\ exists b, pton6 n = Some b /\ a = (true, b)).
Definition nothing (r : found) : Prop := match r with Found (_ :: _) => False | _ => True end.
Inductive resolves pton4 pton6 (hosts_file : list Z -> family -> found * list Z) (dns : list Z -> family -> list Z -> found * list Z) (h : hints) :
  option (list Z) -> list address -> list Z -> Prop :=
| r_numeric n a : numeric pton4 pton6 (wants h) n a -> resolves pton4 pton6 hosts_file dns h (Some n) [a] []
| r_hosts n l c : (forall a, ~ numeric pton4 pton6 (wants h) n a) -> has (h_flags h) AI_NUMERICHOST = false ->
    hosts_file n (wants h) = (Found l, c) -> l <> [] -> resolves pton4 pton6 hosts_file dns h (Some n) l c
| r_dns n r c l c' : (forall a, ~ numeric pton4 pton6 (wants h) n a) -> has (h_flags h) AI_NUMERICHOST = false ->
    hosts_file n (wants h) = (r, c) -> nothing r -> dns n (wants h) c = (Found l, c') -> l <> [] -> resolves pton4 pton6 hosts_file dns h (Some n) l c'
| r_any : has (h_flags h) AI_PASSIVE = true -> has (h_flags h) AI_NUMERICHOST = false ->
    resolves pton4 pton6 hosts_file dns h None
      ((match wants h with Inet6 => [] | _ => [(false, [0;0;0;0])] end) ++ (match wants h with Inet => [] | _ => [(true, repeat 0 16)] end)) []
| r_loopback6 : wants h = Inet6 -> has (h_flags h) AI_PASSIVE = false -> has (h_flags h) AI_NUMERICHOST = false ->
    resolves pton4 pton6 hosts_file dns h None [(true, repeat 0 15 ++ [1])] [].

(** ** The list: one element for each address and service *)
Definition shows (flags : Z) (e : entry) (x : address * service) : Prop :=
  e_family e = (if fst (fst x) then 10 else 2) /\ e_addr e = snd (fst x) /\ e_port e = s_port (snd x) /\ e_protocol e = s_protocol (snd x) /\
  e_socktype e = s_socktype (snd x) /\ e_flags e = flags /\ e_addrlen e = (if fst (fst x) then 28 else 16).
Definition canonical (node : option (list Z)) (flags : Z) (canon : list Z) (es : list entry) : Prop :=
  match es with
  | [] => True
  | e :: r => e_canon e = (if has flags AI_CANONNAME then match canon with [] => node | _ => Some canon end else None) /\ Forall (fun e => e_canon e = None) r
  end.
