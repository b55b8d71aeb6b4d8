(** C84: the host and service files. *)
From Verif Require Import Base Hosts_Model Hosts_Spec Hosts_Proof.
Open Scope Z_scope.

Definition nothing : hosts := {| addrs := []; aliases := []; canon := [] |}.
(** a line "first word blank word blank word..." *)
Definition simple (l : list (list Z)) : line := {| head := hd [] l; rest := map (fun w => ([32], w)) (tl l); trail := []; comment := [] |}.
Ltac plain_tac := let c := fresh in let I := fresh in intros c I; cbn in I; unfold white; lia.
Ltac line_tac := split; [plain_tac|]; split; [intros _; discriminate|]; split;
  [let s := fresh in let w := fresh in let I := fresh in intros s w I; cbn in I; repeat destruct I as [I|I]; try contradiction; injection I as <- <-; (split; [plain_tac|]; split; [discriminate|]; split; [discriminate|plain_tac])|];
  split; [plain_tac|]; split; [left; reflexivity|cbn; lia].

(** Host names: a file of well-formed lines of at most 127 bytes, with or without comments; no line that lists the name has blanks at its
    end.  The addresses of all lines that list the name, in order; the first name of the line; the other names. *)
Theorem C84_host_name_partial : forall pton4 pton6 name f es buf, is_word name -> Forall line_ok es -> Forall (fun e => In name (words e) -> trail e = []) es -> length buf = 128%nat ->
  exists r, (forall n fuel, (length es < n)%nat -> (127 <= fuel)%nat -> lookup_name pton4 pton6 n fuel name f buf (file es) nothing = Ok r) /\
    hosts_found (fun a => match (match f with Inet6 => None | _ => pton4 a end) with
                          | Some b => Some (false, b)
                          | None => match (match f with Inet => None | _ => pton6 a end) with Some b => Some (true, b) | None => None end
                          end) name es (addrs r) (aliases r) (canon r).
Proof.
  intros pton4 pton6 name f es buf W OK TR LB. exists (fold_left (fun s e => accept pton4 pton6 name f e s) es nothing). split; [intros n fuel N F; apply lookup_name_ok; assumption|]. apply found_fold.
Qed.
(** "1 a b" and "2 c" *)
Definition two : list line := [simple [[49];[97];[98]]; simple [[50];[99]]].
Example C84_host_name_instance : is_word [98] /\ Forall line_ok two /\ Forall (fun e => In [98] (words e) -> trail e = []) two /\
  lookup_name (fun a => Some a) (fun _ => None) 3 127 [98] Inet (repeat 7 128) (file two) nothing = Ok {| addrs := [([97], false, [49])]; aliases := [[98]]; canon := [97] |}.
Proof.
  split; [split; [discriminate|plain_tac]|]. split; [constructor; [|constructor; [|constructor]]; line_tac|]. split; [repeat constructor; reflexivity|reflexivity].
Qed.

(** Addresses: the first name on the first line whose first word is the text of the address, if no earlier line has an address that
    begins with that text. *)
Theorem C84_host_addr_partial : forall addr size es e es' buf, is_word addr -> Forall line_ok es -> line_ok e -> length buf = 128%nat ->
  Forall (fun x => forall t, head x <> addr ++ t) es -> head e = addr -> words e <> [] ->
  forall n, (length es < n)%nat -> lookup_addr n addr size buf (file (es ++ e :: es')) = Ok (Some (if Z.of_nat (length (hd [] (words e))) + 1 <=? size then Some (hd [] (words e) ++ [0]) else None)).
Proof.
  intros addr size es e es' buf W OK H LB PF HD NE n N. apply lookup_addr_ok; auto.
  - eapply Forall_impl; [|exact PF]. cbn. intros x X. destruct (prefix addr (head x)) eqn:E; [|reflexivity]. apply prefix_iff in E as (r & E). exfalso. exact (X r E).
  - unfold words in NE. intros E. rewrite E in NE. apply NE. reflexivity.
Qed.
Theorem C84_host_addr_none : forall addr size es buf, is_word addr -> Forall line_ok es -> length buf = 128%nat ->
  Forall (fun x => forall t, head x <> addr ++ t) es -> forall n, (length es < n)%nat -> lookup_addr n addr size buf (file es) = Ok None.
Proof.
  intros addr size es buf W OK LB PF n N. apply lookup_addr_none; auto. eapply Forall_impl; [|exact PF]. cbn. intros x X. destruct (prefix addr (head x)) eqn:E; [|reflexivity]. apply prefix_iff in E as (r & E). exfalso. exact (X r E).
Qed.
Example C84_host_addr_instance : lookup_addr 3 [50] 2 (repeat 7 128) (file two) = Ok (Some (Some [99; 0])) /\ lookup_addr 3 [50] 1 (repeat 7 128) (file two) = Ok (Some None) /\ lookup_addr 3 [51] 2 (repeat 7 128) (file two) = Ok None.
Proof. repeat split. Qed.

(** Services by name: the port and protocol of every line that has the name as its first word or as an alias and a wanted protocol. *)
Theorem C84_service_name : forall name p es out buf, is_word name -> ~ In 47 name -> Forall line_ok es -> length buf = 128%nat ->
  services_found (fun t => match p, t with Tcp, UDP => False | Udp, TCP => False | _, _ => True end) name es out ->
  forall n, (length es < n)%nat -> serv_by_name n name p buf (file es) = Ok (map (fun x => (fst x, match snd x with TCP => Tcp | UDP => Udp end)) out).
Proof.
  intros name p es out buf W SL OK LB H n N. apply (services_ok name p es out); auto. clear - H.
  induction H as [|e es n port t als out SV I WT _ IH|e es n port t als out SV NI _ IH|e es out HE _ IH]; [constructor|eapply sf_found; eauto|eapply sf_other; eauto|apply sf_blank; auto].
  - destruct p, t; cbn; auto; contradiction. - intros [I WW]. apply NI. split; [exact I|]. destruct p, t; cbn in *; auto; discriminate.
Qed.
(** "web 80/tcp w" *)
Definition svc : list line := [simple [[119;101;98];[56;48;47;116;99;112];[119]]].
Example C84_service_sample : Forall line_ok svc /\ service (simple [[119;101;98];[56;48;47;116;99;112];[119]]) [119;101;98] 80 TCP [[119]] /\
  services_found (fun _ => True) [119] svc [(80, TCP)] /\ ports_found (fun _ => True) 80 svc [([119;101;98], TCP)].
Proof.
  assert (SV : service (simple [[119;101;98];[56;48;47;116;99;112];[119]]) [119;101;98] 80 TCP [[119]]).
  { exists [56;48]. split; [reflexivity|]. split; [discriminate|]. split; [reflexivity|]. split; [apply (d_more [56] 8 0); [apply (d_one 8); lia|lia]|]. split; [lia|]. split; [cbn; lia|]. constructor; [cbn; lia|constructor]. }
  split; [constructor; [line_tac|constructor]|]. split; [exact SV|]. split.
  - eapply sf_found; [exact SV|right; left; reflexivity|exact I|constructor]. - eapply pf_found; [exact SV|exact I|constructor].
Qed.
Example C84_service_instance : serv_by_name 2 [119] Any (repeat 7 128) (file svc) = Ok [(80, Tcp)] /\ serv_by_name 2 [119] Udp (repeat 7 128) (file svc) = Ok [] /\ serv_by_port 2 130 80 Any (repeat 7 128) (file svc) = Ok [([119;101;98], Tcp)].
Proof. repeat split. Qed.
(** A decimal number as the service: the port, for each wanted protocol; nothing is looked up. *)
Theorem C84_service_number : forall n numeric p ds v buf f, decimal ds v -> 0 <= v <= 65535 ->
  by_name n ds numeric p buf f = Ok (Some ((match p with Udp => [] | _ => [(v, Tcp)] end) ++ (match p with Tcp => [] | _ => [(v, Udp)] end))).
Proof.
  intros n numeric p ds v buf f D V. destruct (decimal_digits ds v D) as [(d & r & E & DD) G]. specialize (G []). rewrite app_nil_r in G. cbn [digits] in G. assert (ST : strtoul ds = Some (v, [])).
  { unfold strtoul. assert (D1 : is_space d = false /\ (d =? 45) = false /\ (d =? 43) = false) by (unfold is_digit in DD; unfold is_space; lia). destruct D1 as (D1 & D2 & D3). rewrite E in *. cbn [skip_spaces]. rewrite D1, D2, D3, DD, G. replace (18446744073709551615 <? v) with false by lia.
    unfold to_int. rewrite Z.mod_small by lia. replace (2147483648 <=? v) with false by lia. reflexivity. }
  unfold by_name. rewrite ST. rewrite Z.mod_small by lia. rewrite E. reflexivity.
Qed.

(** Services by port, if the names of the services consist of letters. *)
Theorem C84_service_port_partial : forall port p es out buf, Forall line_ok es -> Forall (fun e => forall c, In c (head e) -> 65 <= c <= 90 \/ 97 <= c <= 122) es -> length buf = 128%nat ->
  ports_found (fun t => match p, t with Tcp, UDP => False | Udp, TCP => False | _, _ => True end) port es out ->
  forall n fuel, (length es < n)%nat -> (130 <= fuel)%nat -> serv_by_port n fuel port p buf (file es) = Ok (map (fun x => (fst x, match snd x with TCP => Tcp | UDP => Udp end)) out).
Proof.
  intros port p es out buf OK AL LB H n fuel N FU. apply (ports_ok port p es out); auto. clear - H.
  induction H as [|e es n t als out SV WT _ IH|e es n pt t als out SV NI _ IH|e es out HE _ IH]; [constructor|eapply pf_found; eauto|eapply pf_other; eauto|apply pf_blank; auto].
  - destruct p, t; cbn; auto; contradiction. - intros [I WW]. apply NI. split; [exact I|]. destruct p, t; cbn in *; auto; discriminate.
Qed.

(** What the lookups do wrong.  A comment of at least two bytes behind a blank, on a line that lists the name ("1 a #xy"): the loop
    over the aliases never ends.  A blank before the newline ("1 a \n"): an empty alias, and what is behind the null byte decides what
    happens then.  The last line without a newline: the name on it is not found.  A longer address ("1.1.1.10 a" for 1.1.1.1): the name of
    the other host.  A line of more than 127 bytes: the rest is taken as a line of its own.  A service whose name has a number equal to
    the port ("x80 80/tcp"): not found by its port. *)
Lemma alias_stuck x t fuel : x <> 0 -> forall acc, alias_loop fuel (0 :: x :: t) acc = Fuel.
Proof. intros X. induction fuel as [|fuel IH]; intros acc; [reflexivity|]. cbn [alias_loop]. replace (x =? 0) with false by lia. cbn [skip_sp Z.eqb orb bind word app]. apply IH. Qed.
Theorem C84_comment_refuted : forall pton4 pton6 buf b, pton4 [49] = Some b -> forall fuel, lookup_name pton4 pton6 3 fuel [97] Inet buf [49;32;97;32;35;120;121;10] nothing = Fuel.
Proof.
  intros pton4 pton6 buf b P fuel. cbn [lookup_name]. assert (EF : fgets 127 [49;32;97;32;35;120;121;10] = ([49;32;97;32;35;120;121;10], [])) by reflexivity. rewrite EF.
  assert (HL : host_line pton4 pton6 fuel [97] Inet (over [49;32;97;32;35;120;121;10] buf) nothing = Fuel).
  { unfold host_line. set (k := skipn (S (length [49;32;97;32;35;120;121;10])) buf). change (strip (over [49;32;97;32;35;120;121;10] buf)) with ([49;32;97;32;10;0;121;10;0] ++ k).
    change (listed [97] (cstr ([49;32;97;32;10;0;121;10;0] ++ k))) with true. cbv iota. change (word0 ([49;32;97;32;10;0;121;10;0] ++ k)) with (@Ok (list Z * list Z) ([49], [32;97;32;10;0;121;10;0] ++ k)). cbn [bind]. unfold parse. rewrite P.
    change (skip_sp (tl ([32;97;32;10;0;121;10;0] ++ k))) with (@Ok (list Z) ([97;32;10;0;121;10;0] ++ k)). cbn [bind]. change (word ([97;32;10;0;121;10;0] ++ k)) with (@Ok (list Z * list Z) ([97], [32;10;0;121;10;0] ++ k)). cbn [bind].
    destruct fuel as [|fuel]; [reflexivity|]. change (alias_loop (S fuel) ([32;10;0;121;10;0] ++ k) (aliases nothing)) with (alias_loop fuel (0 :: 121 :: 10 :: 0 :: k) [[]]). rewrite alias_stuck by lia. reflexivity. }
  rewrite HL. reflexivity.
Qed.
Theorem C84_lookup_refuted :
  lookup_name (fun a => Some a) (fun _ => None) 3 9 [97] Inet (repeat 0 128) [49;32;97;32;10] nothing = Ok {| addrs := [([97], false, [49])]; aliases := [[]]; canon := [97] |} /\
  (forall fuel, lookup_name (fun a => Some a) (fun _ => None) 3 fuel [97] Inet (repeat 7 128) [49;32;97;32;10] nothing = Fuel) /\
  lookup_name (fun a => Some a) (fun _ => None) 3 9 [97] Inet (repeat 7 128) [49;32;97] nothing = Ok nothing /\
  lookup_addr 3 [49;46;49;46;49;46;49] 9 (repeat 7 128) [49;46;49;46;49;46;49;48;32;97;10] = Ok (Some (Some [97; 0])) /\
  lookup_name (fun a => Some a) (fun _ => None) 3 9 [97] Inet (repeat 7 128) ([50] ++ [32] ++ repeat 98 125 ++ [49;32;97;10]) nothing = Ok {| addrs := [([97], false, [49])]; aliases := []; canon := [97] |} /\
  serv_by_port 3 130 80 Any (repeat 7 128) [120;56;48;32;56;48;47;116;99;112;10] = Ok [].
Proof.
  split; [reflexivity|]. split; [|split; [reflexivity|]; split; [reflexivity|]; split; reflexivity].
  intros fuel. cbn [lookup_name]. assert (EF : fgets 127 [49;32;97;32;10] = ([49;32;97;32;10], [])) by reflexivity. rewrite EF.
  assert (HL : host_line (fun a => Some a) (fun _ => None) fuel [97] Inet (over [49;32;97;32;10] (repeat 7 128)) nothing = Fuel).
  { change (over [49;32;97;32;10] (repeat 7 128)) with ([49;32;97;32;10;0] ++ 7 :: repeat 7 121). generalize (repeat 7 121) as k. intros k. unfold host_line. change (strip ([49;32;97;32;10;0] ++ 7 :: k)) with ([49;32;97;32;10;0] ++ 7 :: k).
    change (listed [97] (cstr ([49;32;97;32;10;0] ++ 7 :: k))) with true. cbv iota. change (word0 ([49;32;97;32;10;0] ++ 7 :: k)) with (@Ok (list Z * list Z) ([49], [32;97;32;10;0] ++ 7 :: k)). cbn [bind]. cbn [parse].
    change (skip_sp (tl ([32;97;32;10;0] ++ 7 :: k))) with (@Ok (list Z) ([97;32;10;0] ++ 7 :: k)). cbn [bind]. change (word ([97;32;10;0] ++ 7 :: k)) with (@Ok (list Z * list Z) ([97], [32;10;0] ++ 7 :: k)). cbn [bind].
    destruct fuel as [|fuel]; [reflexivity|]. change (alias_loop (S fuel) ([32;10;0] ++ 7 :: k) (aliases nothing)) with (alias_loop fuel (0 :: 7 :: k) [[]]). rewrite alias_stuck by lia. reflexivity. }
  rewrite HL. reflexivity.
Qed.

Print Assumptions C84_host_name_partial.
Print Assumptions C84_host_addr_partial.
Print Assumptions C84_host_addr_none.
Print Assumptions C84_service_name.
Print Assumptions C84_service_number.
Print Assumptions C84_service_port_partial.
Print Assumptions C84_comment_refuted.
Print Assumptions C84_lookup_refuted.
