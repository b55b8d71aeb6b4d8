(** The files /etc/hosts and /etc/services. *)
From Verif Require Import Base.
Open Scope Z_scope.

Definition white (c : Z) : Prop := c = 32 \/ 9 <= c <= 13.
(** a word: no white space, no comment sign, no null byte *)
Definition plain (w : list Z) : Prop := forall c, In c w -> ~ white c /\ c <> 35 /\ c <> 0.
Definition is_word (w : list Z) : Prop := w <> [] /\ plain w.
(** blanks between words: white space other than newline *)
Definition blanks (s : list Z) : Prop := forall c, In c s -> white c /\ c <> 10.

(** a line: its first word, the other words with the blanks before them, blanks at the end, a comment *)
Record line := { head : list Z; rest : list (list Z * list Z); trail : list Z; comment : list Z }.
Definition text (e : line) : list Z := head e ++ concat (map (fun sw => fst sw ++ snd sw) (rest e)) ++ trail e ++ comment e ++ [10].
Definition line_ok (e : line) : Prop :=
  plain (head e) /\ (rest e <> [] -> head e <> []) /\
  (forall s w, In (s, w) (rest e) -> blanks s /\ s <> [] /\ is_word w) /\ blanks (trail e) /\
  (comment e = [] \/ exists c, comment e = 35 :: c /\ ~ In 10 c /\ ~ In 0 c) /\
  (length (text e) <= 127)%nat.
Definition words (e : line) : list (list Z) := map snd (rest e).
Definition file (es : list line) : list Z := concat (map text es).

(** The names of the host at an address are the words behind it.  What is found for [name]: for every line that lists it, with an address
    that [address] accepts, that address with the first name; the other names; the first name of the last such line. *)
Section Hosts.
Variable address : list Z -> option (bool * list Z).
Inductive hosts_found (name : list Z) : list line -> list (list Z * bool * list Z) -> list (list Z) -> list Z -> Prop :=
| hf_end : hosts_found name [] [] [] []
| hf_found es e first others six b addrs aliases canon : hosts_found name es addrs aliases canon ->
    words e = first :: others -> In name (words e) -> address (head e) = Some (six, b) ->
    hosts_found name (es ++ [e]) (addrs ++ [(first, six, b)]) (aliases ++ others) first
| hf_other es e addrs aliases canon : hosts_found name es addrs aliases canon -> ~ (In name (words e) /\ address (head e) <> None) ->
    hosts_found name (es ++ [e]) addrs aliases canon.
End Hosts.

(** a decimal number *)
Inductive decimal : list Z -> Z -> Prop :=
| d_one d : 0 <= d <= 9 -> decimal [48 + d] d
| d_more l v d : decimal l v -> 0 <= d <= 9 -> decimal (l ++ [48 + d]) (10 * v + d).
Inductive transport := TCP | UDP.
Definition transport_name (t : transport) : list Z := match t with TCP => [116;99;112] | UDP => [117;100;112] end.
(** a line of the service file: name, port/protocol, aliases *)
Definition service (e : line) (name : list Z) (port : Z) (t : transport) (als : list (list Z)) : Prop := exists ds,
  head e = name /\ name <> [] /\ words e = (ds ++ [47] ++ transport_name t) :: als /\ decimal ds port /\ 0 <= port <= 65535 /\
  ~ In 47 name /\ Forall (fun a => ~ In 47 a) als.

(** what is found for a service name with the protocols [want] *)
Inductive services_found (want : transport -> Prop) (name : list Z) : list line -> list (Z * transport) -> Prop :=
| sf_end : services_found want name [] []
| sf_found e es n port t als out : service e n port t als -> In name (n :: als) -> want t -> services_found want name es out ->
    services_found want name (e :: es) ((port, t) :: out)
| sf_other e es n port t als out : service e n port t als -> ~ (In name (n :: als) /\ want t) -> services_found want name es out ->
    services_found want name (e :: es) out
| sf_blank e es out : head e = [] -> services_found want name es out -> services_found want name (e :: es) out.
(** and for a port *)
Inductive ports_found (want : transport -> Prop) (port : Z) : list line -> list (list Z * transport) -> Prop :=
| pf_end : ports_found want port [] []
| pf_found e es n t als out : service e n port t als -> want t -> ports_found want port es out -> ports_found want port (e :: es) ((n, t) :: out)
| pf_other e es n p t als out : service e n p t als -> ~ (p = port /\ want t) -> ports_found want port es out -> ports_found want port (e :: es) out
| pf_blank e es out : head e = [] -> ports_found want port es out -> ports_found want port (e :: es) out.
