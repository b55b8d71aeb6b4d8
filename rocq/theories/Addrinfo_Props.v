(** C97: getaddrinfo, getnameinfo and gethostbyname. *)
From Verif Require Import Base Hosts_Model Hosts_Spec Users_Model Users_Proof Addrinfo_Model Addrinfo_Spec Addrinfo_Proof.
Open Scope Z_scope.

(** getaddrinfo gives one element for each address of the node and each service, addresses first, linked in order and ended by a null pointer;
    the first has the canonical name if that was asked for.
    Missing: AI_ADDRCONFIG with one version of IP only, unknown services, the loopback address, other protocols and ports beyond 65535, see below. *)
Theorem C97_result_partial : forall pton4 pton6 configured serv_file hosts_file dns node service h ss l canon,
  acceptable node h -> unrestricted configured h -> known h -> (node <> None \/ service <> None) -> node <> Some [] ->
  offers serv_file h service ss -> ss <> [] -> Forall (fun s => 0 <= s_port s <= 65535) ss -> resolves pton4 pton6 hosts_file dns h node l canon ->
  exists out es, getaddrinfo pton4 pton6 configured serv_file hosts_file dns node service (Some h) = Ok (Done out) /\
    walk (length l * length ss) out 0 = Ok es /\ Forall2 (shows (h_flags h)) es (list_prod l ss) /\ canonical node (h_flags h) canon es.
Proof.
  intros p4 p6 cfg sf hf dns node service h ss l canon A U K NN NE O SN SP R. rewrite (gai_enter p4 p6 cfg sf hf dns node service h A U NN), (offers_ok sf h service ss K O), (resolves_ok _ _ _ _ _ _ _ _ R).
  destruct (result_ok node (h_flags h) ss l canon SN (resolves_ne _ _ _ _ _ _ _ _ R) SP (proj1 (proj2 A)) NE) as (out & es & B & W & F & C). exists out, es. rewrite B. cbn [bind]. auto.
Qed.
Print Assumptions C97_result_partial.
(** Every element has the family asked for, if the databases give addresses of that family only (C83, C84). *)
Theorem C97_family_partial : forall pton4 pton6 configured serv_file hosts_file dns node service h ss l canon out es,
  acceptable node h -> unrestricted configured h -> known h -> (node <> None \/ service <> None) -> node <> Some [] ->
  offers serv_file h service ss -> ss <> [] -> Forall (fun s => 0 <= s_port s <= 65535) ss -> resolves pton4 pton6 hosts_file dns h node l canon ->
  (forall n f l c, hosts_file n f = (Found l, c) -> Forall (fun a => match f with Unspec => True | Inet => fst a = false | Inet6 => fst a = true end) l) ->
  (forall n f c l c', dns n f c = (Found l, c') -> Forall (fun a => match f with Unspec => True | Inet => fst a = false | Inet6 => fst a = true end) l) ->
  getaddrinfo pton4 pton6 configured serv_file hosts_file dns node service (Some h) = Ok (Done out) -> walk (length l * length ss) out 0 = Ok es ->
  h_family h <> 0 -> Forall (fun e => e_family e = h_family h) es.
Proof.
  intros p4 p6 cfg sf hf dns node service h ss l canon out es A U K NN NE O SN SP R HF DF G W F0.
  destruct (C97_result_partial p4 p6 cfg sf hf dns node service h ss l canon A U K NN NE O SN SP R) as (out' & es' & G' & W' & F & _). rewrite G in G'. injection G' as <-. rewrite W in W'. injection W' as <-.
  assert (FL : Forall (fun a : address => (if fst a then 10 else 2) = h_family h) l).
  { assert (WF : match wants h with Unspec => False | Inet => h_family h = 2 | Inet6 => h_family h = 10 end). { unfold wants. destruct A as (_ & _ & A). destruct (Z.eqb_spec (h_family h) 2); [assumption|]. destruct (Z.eqb_spec (h_family h) 10); [assumption|]. lia. }
    assert (X : Forall (fun a => match wants h with Unspec => True | Inet => fst a = false | Inet6 => fst a = true end) l).
    { destruct R; [|eapply HF; eassumption|eapply DF; eassumption|destruct (wants h); repeat constructor|destruct (wants h); try congruence; repeat constructor].
      constructor; [|constructor]. destruct H as [(N & b & _ & ->)|(N & _ & b & _ & ->)]; destruct (wants h); cbn; first [exact I|congruence]. }
    revert X. apply Forall_impl. intros a X. destruct (wants h); [contradiction|rewrite X; auto|rewrite X; auto]. }
  clear -F FL. remember (list_prod l ss) as p eqn:E. assert (FP : Forall (fun x : address * service => (if fst (fst x) then 10 else 2) = h_family h) p).
  { subst p. apply Forall_forall. intros [a s] I. apply in_prod_iff in I. rewrite Forall_forall in FL. exact (FL a (proj1 I)). }
  clear E FL. induction F as [|e x es' p' S0 F IH]; constructor; inversion FP; subst; [|auto]. destruct S0 as (S0 & _). congruence.
Qed.
Print Assumptions C97_family_partial.
(** The failures that POSIX lists. *)
Theorem C97_errors : forall pton4 pton6 configured serv_file hosts_file dns node service h,
  let gai node service h := getaddrinfo pton4 pton6 configured serv_file hosts_file dns node service (Some h) in
  gai None None h = Ok (Fail EAI_NONAME 0) /\
  ((node <> None \/ service <> None) -> (Z.land (h_flags h) 127 <> h_flags h \/ (has (h_flags h) AI_CANONNAME = true /\ node = None)) -> gai node service h = Ok (Fail EAI_BADFLAGS 0)) /\
  ((node <> None \/ service <> None) -> 0 <= h_flags h < 128 -> (has (h_flags h) AI_CANONNAME = true -> node <> None) -> ~ In (h_family h) [0; 2; 10] -> gai node service h = Ok (Fail EAI_FAMILY 0)) /\
  (forall n ss, acceptable (Some n) h -> unrestricted configured h -> known h -> offers serv_file h service ss -> has (h_flags h) AI_NUMERICHOST = true ->
    (forall a, ~ numeric pton4 pton6 (wants h) n a) -> gai (Some n) service h = Ok (Fail EAI_NONAME 0)) /\
  (forall n ss, acceptable (Some n) h -> unrestricted configured h -> known h -> offers serv_file h service ss ->
    (forall a, ~ numeric pton4 pton6 (wants h) n a) -> nothing (fst (hosts_file n (wants h))) -> (forall c, fst (dns n (wants h) c) = Found []) -> gai (Some n) service h = Ok (Fail EAI_NONAME 0)).
Proof.
  intros p4 p6 cfg sf hf dns node service h gai. unfold gai. split; [reflexivity|]. split; [|split; [|split]].
  - intros NN B. destruct h as [flags f st pr]. cbn [h_flags] in *. unfold getaddrinfo. destruct (Z.eqb_spec (Z.land flags 127) flags) as [E|E]; cbn [negb].
    + destruct B as [B|[B ->]]; [congruence|]. rewrite B. cbn [andb]. destruct service; [reflexivity|destruct NN; congruence].
    + destruct node, service; try reflexivity. destruct NN; congruence.
  - intros NN R C F. destruct h as [flags f st pr]. cbn [h_flags h_family] in *. unfold getaddrinfo.
    assert (L : Z.land flags 127 = flags). { change 127 with (Z.ones 7). rewrite Z.land_ones by lia. apply Z.mod_small. change (2 ^ 7) with 128. lia. } rewrite L, Z.eqb_refl. cbn [negb].
    assert (C' : has flags AI_CANONNAME && match node with None => true | Some _ => false end = false) by (destruct (has flags AI_CANONNAME); [|reflexivity]; destruct node; [reflexivity|elim (C eq_refl); reflexivity]). rewrite C'.
    cbn [In] in F. assert (F' : negb ((f =? 2) || (f =? 10) || (f =? 0)) = true) by lia. rewrite F'. destruct node, service; try reflexivity. destruct NN; congruence.
  - intros n ss A U K O NH NN. rewrite (gai_enter p4 p6 cfg sf hf dns (Some n) service h A U) by (left; discriminate). rewrite (offers_ok sf h service ss K O). unfold addresses. rewrite fam_wants, (parse_none _ _ _ _ NN), NH. reflexivity.
  - intros n ss A U K O NN HN DN. rewrite (gai_enter p4 p6 cfg sf hf dns (Some n) service h A U) by (left; discriminate). rewrite (offers_ok sf h service ss K O). unfold addresses. rewrite fam_wants, (parse_none _ _ _ _ NN). destruct (has (h_flags h) AI_NUMERICHOST); [reflexivity|].
    destruct (hf n (wants h)) as [r c] eqn:E. cbn [fst] in HN. specialize (DN c). destruct r as [e|[|a r]]; cbn in HN; try contradiction; (destruct (dns n (wants h) c) as [r' c']; cbn [fst] in DN; subst r'; reflexivity).
Qed.
Print Assumptions C97_errors.
(** Services that cannot be: an empty name, a socket type that contradicts the protocol, a name where a number is required; and addresses that getnameinfo refuses. *)
Theorem C97_refused : forall pton4 pton6 configured serv_file hosts_file dns node h, acceptable node h -> unrestricted configured h ->
  let gai service := getaddrinfo pton4 pton6 configured serv_file hosts_file dns node (Some service) (Some h) in
  (known h -> gai [] = Ok (Fail EAI_SERVICE 0)) /\
  (forall n, In (h_protocol h) [6; 17] -> In (h_socktype h) [1; 2] -> transports h = [] -> gai n = Ok (Fail EAI_SERVICE 0)) /\
  (forall n, known h -> n <> [] -> strtoul n = None -> has (h_flags h) AI_NUMERICSERV = true -> gai n = Ok (Fail EAI_NONAME 0)) /\
  (forall ntop addr_hosts addr_dns port_name family a port addr_len host serv flags, ~ In family [2; 10] \/ (family = 2 /\ addr_len < 16) \/ (family = 10 /\ addr_len < 28) ->
    getnameinfo ntop addr_hosts addr_dns port_name family a port addr_len host serv flags = inl EAI_FAMILY).
Proof.
  intros p4 p6 cfg sf hf dns node h A U gai. unfold gai. rewrite (gai_enter p4 p6 cfg sf hf dns node (Some []) h A U) by (right; discriminate). split; [|split; [|split]].
  - intro K. unfold lookup_serv. pose proof (known_cases h K) as KC. repeat destruct KC as [KC|KC]; injection KC as -> ->; reflexivity.
  - intros n P T E. rewrite (gai_enter p4 p6 cfg sf hf dns node (Some n) h A U) by (right; discriminate). unfold transports in E. unfold lookup_serv. cbn [In] in P, T. destruct P as [P|[P|[]]], T as [T|[T|[]]]; rewrite <- P, <- T in *; try discriminate E; reflexivity.
  - intros n K N S0 F. rewrite (gai_enter p4 p6 cfg sf hf dns node (Some n) h A U) by (right; discriminate). unfold lookup_serv. rewrite S0, F. destruct n as [|x n]; [congruence|]. pose proof (known_cases h K) as KC. repeat destruct KC as [KC|KC]; injection KC as -> ->; reflexivity.
  - intros ntop ah ad pn family a port al host serv flags [N|[[-> L]|[-> L]]]; unfold getnameinfo.
    + cbn [In] in N. replace (negb ((family =? 2) || (family =? 10))) with true by lia. reflexivity.
    + cbn. replace (al <? 16) with true by lia. reflexivity.
    + cbn. replace (al <? 28) with true by lia. reflexivity.
Qed.
Print Assumptions C97_refused.
(** A numeric address asks no database: the outcome is the same whatever they hold. *)
Theorem C97_numeric : forall pton4 pton6 configured serv_file hosts_file dns hosts_file' dns' n a service h, acceptable (Some n) h -> unrestricted configured h ->
  (numeric pton4 pton6 (wants h) n a \/ has (h_flags h) AI_NUMERICHOST = true) ->
  getaddrinfo pton4 pton6 configured serv_file hosts_file dns (Some n) service (Some h) = getaddrinfo pton4 pton6 configured serv_file hosts_file' dns' (Some n) service (Some h).
Proof.
  intros p4 p6 cfg sf hf dns hf' dns' n a service h A U X. rewrite !(gai_enter p4 p6 cfg sf _ _ (Some n) service h A U) by (left; discriminate). unfold addresses. rewrite fam_wants.
  destruct X as [N|N]; [apply parse_some in N; rewrite N; reflexivity|]. rewrite N. reflexivity.
Qed.
Print Assumptions C97_numeric.

(** gethostbyname: the canonical name and the addresses of one family, that of the first address found. *)
Theorem C97_hostent : forall pton4 pton6 hosts_file dns name,
  (forall b, pton4 name = Some b -> gethostbyname pton4 pton6 hosts_file dns name = Some (Hostent name false [b])) /\
  (forall a l c, pton4 name = None -> (hosts_file name Unspec = (Found (a :: l), c) \/ (nothing (fst (hosts_file name Unspec)) /\ dns name Unspec (snd (hosts_file name Unspec)) = (Found (a :: l), c))) ->
     gethostbyname pton4 pton6 hosts_file dns name = Some (Hostent (match c with [] => name | _ => c end) (fst a) (map snd (filter (fun b => Bool.eqb (fst b) (fst a)) (a :: l))))) /\
  (pton4 name = None -> nothing (fst (hosts_file name Unspec)) -> (forall c, nothing (fst (dns name Unspec c))) -> gethostbyname pton4 pton6 hosts_file dns name = None).
Proof.
  intros p4 p6 hf dns name. unfold gethostbyname, parse. split; [|split].
  - intros b E. rewrite E. reflexivity.
  - intros a l c E [H|[N D]]; rewrite E.
    + rewrite H. reflexivity.
    + destruct (hf name Unspec) as [r c0]. cbn [fst snd] in *. destruct r as [e|[|x r]]; cbn in N; try contradiction; rewrite D; reflexivity.
  - intros E N D. rewrite E. destruct (hf name Unspec) as [r c0]. cbn [fst] in N. specialize (D c0). destruct (dns name Unspec c0) as [r' c']. cbn [fst] in D. destruct r as [e|[|x r]]; cbn in N; try contradiction; (destruct r' as [e'|[|x' r']]; cbn in D; try contradiction; reflexivity).
Qed.
Print Assumptions C97_hostent.

(** getnameinfo: the name if one is found, else the numeric form; a text is stored only if it fits with its null byte.
    Missing: that NI_NUMERICHOST and NI_NUMERICSERV can be given separately, and that the numeric form is given when the search fails with an error. *)
Theorem C97_nameinfo_partial : forall ntop addr_hosts addr_dns port_name family a port host_len serv_len flags, family = 2 \/ family = 10 -> 0 <= port <= 65535 ->
  let gni := getnameinfo ntop addr_hosts addr_dns port_name family a port (if family =? 2 then 16 else 28) (Some host_len) (Some serv_len) in
  let numhost := ntop (family =? 10) a in
  (Z.of_nat (length numhost) < host_len -> 5 < serv_len -> has flags NI_NAMEREQD = false -> has flags NI_NUMERICHOST = true ->
    exists ds, decimal ds port /\ gni flags = inr (Some numhost, Some ds)) /\
  (forall n s, has flags NI_NUMERICHOST = false -> addr_hosts (family =? 10) a host_len = RName n -> port_name port (has flags NI_DGRAM) = Some s -> Z.of_nat (length s) < serv_len ->
    gni flags = inr (Some n, Some s)) /\
  (forall n s, has flags NI_NUMERICHOST = false -> addr_hosts (family =? 10) a host_len = RNone -> addr_dns (family =? 10) a host_len = RName n -> port_name port (has flags NI_DGRAM) = Some s -> Z.of_nat (length s) < serv_len ->
    gni flags = inr (Some n, Some s)) /\
  (forall s, has flags NI_NUMERICHOST = false -> addr_hosts (family =? 10) a host_len = RNone -> addr_dns (family =? 10) a host_len = RNone -> port_name port (has flags NI_DGRAM) = Some s -> Z.of_nat (length s) < serv_len ->
    Z.of_nat (length numhost) < host_len -> gni flags = (if has flags NI_NAMEREQD then inl EAI_NONAME else inr (Some numhost, Some s))) /\
  (forall h s, gni flags = inr (h, s) -> exists th ts, h = Some th /\ s = Some ts /\ Z.of_nat (length ts) < serv_len /\
     ((exists t, addr_hosts (family =? 10) a host_len = RName t /\ th = t) \/ (exists t, addr_dns (family =? 10) a host_len = RName t /\ th = t) \/ (th = numhost /\ Z.of_nat (length th) < host_len))).
Proof.
  intros ntop ah ad pn family a port hl sl flags F P gni numhost. unfold gni, getnameinfo.
  assert (F1 : negb ((family =? 2) || (family =? 10)) = false) by lia. rewrite F1. rewrite Z.ltb_irrefl. unfold host_part, serv_part. cbn [fst snd]. fold numhost.
  change NI_NUMERICSERV with NI_NUMERICHOST.
  split; [|split; [|split; [|split]]].
  - intros L S0 R N. rewrite N, R. replace (hl <=? Z.of_nat (length numhost)) with false by lia.
    assert (D : decimal (digits_of port) port) by (unfold digits_of, Inet_Model.num; apply number_decimal; [change (Z.of_nat 64) with 64; lia|lia]).
    pose proof (number_len 64 5 port) as DL. fold (Inet_Model.num 10 port) in DL. fold (digits_of port) in DL. change (10 ^ Z.of_nat 5) with 100000 in DL.
    replace (sl <? Z.of_nat (length (digits_of port)) + 1) with false by lia. eauto.
  - intros n s N E1 E2 L. rewrite N, E1, E2. replace (sl <? Z.of_nat (length s) + 1) with false by lia. reflexivity.
  - intros n s N E1 E2 E3 L. rewrite N, E1, E2, E3. replace (sl <? Z.of_nat (length s) + 1) with false by lia. reflexivity.
  - intros s N E1 E2 E3 L L2. rewrite N, E1, E2, E3. replace (sl <? Z.of_nat (length s) + 1) with false by lia. replace (hl <=? Z.of_nat (length numhost)) with false by lia. destruct (has flags NI_NAMEREQD); reflexivity.
  - intros h s. set (t := match (if has flags NI_NUMERICHOST then None else pn port (has flags NI_DGRAM)) with None => digits_of port | Some n => n end).
    set (r := if has flags NI_NUMERICHOST then RNone else _). intro G.
    assert (X : exists th, h = Some th /\ ((exists t, r = RName t /\ th = t) \/ (th = numhost /\ Z.of_nat (length th) < hl)) /\ s = Some t /\ Z.of_nat (length t) < sl).
    { destruct r as [|e|n] eqn:E.
      - destruct (has flags NI_NAMEREQD); [discriminate|]. destruct (Z.leb_spec hl (Z.of_nat (length numhost))); [discriminate|]. destruct (Z.ltb_spec sl (Z.of_nat (length t) + 1)); [discriminate|]. injection G as <- <-. eexists. split; [reflexivity|]. split; [right; auto|]. split; [reflexivity|lia].
      - discriminate.
      - destruct (Z.ltb_spec sl (Z.of_nat (length t) + 1)); [discriminate|]. injection G as <- <-. eexists. split; [reflexivity|]. split; [left; eauto|]. split; [reflexivity|lia]. }
    destruct X as (th & -> & D & -> & L). exists th, t. repeat split; auto. destruct D as [(n & E & ->)|D]; [|auto]. unfold r in E. destruct (has flags NI_NUMERICHOST); [discriminate|]. destruct (ah (family =? 10) a hl) eqn:E1; try discriminate; [right; left|left]; eauto.
Qed.
Print Assumptions C97_nameinfo_partial.

(** Refuted: with AI_ADDRCONFIG (also when there are no hints) on a machine that has IPv4 only, asking for IPv6 gives IPv4 addresses. *)
Theorem C97_addrconfig_refuted : forall pton4 pton6 serv_file hosts_file dns n b, pton4 n = Some b ->
  exists out e, getaddrinfo pton4 pton6 (Some (inr (true, false))) serv_file hosts_file dns (Some n) None (Some (Hints AI_ADDRCONFIG 10 1 0)) = Ok (Done out) /\
    walk 1 out 0 = Ok [e] /\ e_family e = 2 /\ e_addr e = b.
Proof.
  intros p4 p6 sf hf dns n b E. unfold getaddrinfo. cbn -[build walk]. unfold parse. rewrite E. cbn. do 2 eexists. split; [reflexivity|]. cbn. split; [reflexivity|]. split; reflexivity.
Qed.
Print Assumptions C97_addrconfig_refuted.
(** Refuted: for a service that /etc/services does not list, getaddrinfo reports success, but the result is not even one element: reading it is undefined. *)
Theorem C97_service_refuted : forall pton4 pton6 configured serv_file hosts_file dns node n h l c, n <> [] -> strtoul n = None -> serv_file n 6 = inr [] ->
  h = Hints 0 0 1 0 -> resolves pton4 pton6 hosts_file dns h (Some node) l c ->
  exists out, getaddrinfo pton4 pton6 configured serv_file hosts_file dns (Some node) (Some n) (Some h) = Ok (Done out) /\ forall fuel, (0 < fuel)%nat -> walk fuel out 0 = UB.
Proof.
  intros p4 p6 cfg sf hf dns node n h l c N S0 E -> R.
  assert (A : acceptable (Some node) (Hints 0 0 1 0)) by (repeat split; cbn; try lia; discriminate).
  rewrite (gai_enter p4 p6 cfg sf hf dns (Some node) (Some n) _ A) by (try (left; reflexivity); left; discriminate).
  assert (L : lookup_serv sf (Some n) 0 1 0 = inr []) by (unfold lookup_serv; rewrite S0; destruct n; [congruence|]; cbn; exact E). cbn [h_protocol h_socktype h_flags]. rewrite L.
  pose proof (resolves_ok _ _ _ _ _ _ _ _ R) as RA. cbn [h_family h_flags] in RA |- *. rewrite RA. unfold build. cbn [length Nat.mul].
  assert (X : forall l k out, outer 0 None l [] k out = Ok out) by (clear; induction l; intros; cbn; [reflexivity|apply IHl]).
  cbn [has]. change (has 0 AI_CANONNAME) with false. cbv iota. rewrite X. cbn [bind]. eexists. split; [reflexivity|]. intros [|fuel] F; [lia|]. reflexivity.
Qed.
Print Assumptions C97_service_refuted.
(** Refuted: without a node the loopback address of IPv4 comes out as 1.0.0.127. *)
Theorem C97_loopback_refuted : forall pton4 pton6 configured serv_file hosts_file dns,
  exists out e, getaddrinfo pton4 pton6 configured serv_file hosts_file dns None (Some [56;48]) (Some (Hints 0 2 1 0)) = Ok (Done out) /\
    walk 1 out 0 = Ok [e] /\ e_addr e = [1;0;0;127] /\ e_port e = 80.
Proof. intros. do 2 eexists. split; [reflexivity|]. split; [reflexivity|]. split; reflexivity. Qed.
Print Assumptions C97_loopback_refuted.
(** Refuted: the service "65616" is accepted and becomes port 80; the protocol SCTP gives TCP and UDP. *)
Theorem C97_port_refuted : forall pton4 pton6 configured serv_file hosts_file dns,
  exists out e, getaddrinfo pton4 pton6 configured serv_file hosts_file dns None (Some [54;53;54;49;54]) (Some (Hints AI_PASSIVE 2 1 0)) = Ok (Done out) /\
    walk 1 out 0 = Ok [e] /\ e_port e = 80.
Proof. intros. do 2 eexists. split; [reflexivity|]. split; reflexivity. Qed.
Print Assumptions C97_port_refuted.
Theorem C97_protocol_refuted : forall pton4 pton6 configured serv_file hosts_file dns,
  exists out e e', getaddrinfo pton4 pton6 configured serv_file hosts_file dns None (Some [56;48]) (Some (Hints AI_PASSIVE 2 0 132)) = Ok (Done out) /\
    walk 2 out 0 = Ok [e; e'] /\ e_protocol e = 6 /\ e_protocol e' = 17.
Proof. intros. do 3 eexists. split; [reflexivity|]. split; [reflexivity|]. split; reflexivity. Qed.
Print Assumptions C97_protocol_refuted.
(** Refuted: NI_NUMERICHOST and NI_NUMERICSERV are the same bit, so asking for a numeric service alone gives a numeric host too, and an error of
    the search, such as no answer from the DNS server, becomes the result although NI_NAMEREQD was not given. *)
Theorem C97_numericserv_refuted : forall ntop addr_hosts addr_dns port_name a port n, length a = 4%nat -> addr_hosts false a 100 = RName n -> Z.of_nat (length (ntop false a)) < 100 ->
  exists s, getnameinfo ntop addr_hosts addr_dns port_name 2 a port 16 (Some 100) None NI_NUMERICSERV = inr (Some (ntop false a), s).
Proof. intros ntop ah ad pn a port n L H LN. exists None. unfold getnameinfo, host_part. cbn -[Z.of_nat length Z.leb]. replace (100 <=? Z.of_nat (length (ntop false a))) with false by lia. reflexivity. Qed.
Print Assumptions C97_numericserv_refuted.
Theorem C97_offline_refuted : forall ntop addr_hosts addr_dns port_name a port e, addr_hosts false a 100 = RNone -> addr_dns false a 100 = RError e ->
  getnameinfo ntop addr_hosts addr_dns port_name 2 a port 16 (Some 100) None 0 = inl e.
Proof. intros ntop ah ad pn a port e H D. unfold getnameinfo, host_part. cbn. rewrite H, D. reflexivity. Qed.
Print Assumptions C97_offline_refuted.

(** Non-vacuity: "1" resolved by /etc/hosts to an IPv4 and an IPv6 address, port 80, TCP and UDP *)
Example C97_case : let h := Hints AI_CANONNAME 0 0 0 in
  let hf := fun (_ : list Z) (_ : family) => (Found [(false, [10;0;0;1]); (true, repeat 1 16)], [97]) in let dns := fun (_ : list Z) (_ : family) (c : list Z) => (Error 1, c) in let sf := fun (_ : list Z) (_ : Z) => inl 7 : Z + list service in
  let p := fun _ : list Z => None : option (list Z) in
  acceptable (Some [98]) h /\ unrestricted None h /\ known h /\ offers sf h (Some [56;48]) [Serv 80 6 1; Serv 80 17 2] /\
  resolves p p hf dns h (Some [98]) [(false, [10;0;0;1]); (true, repeat 1 16)] [97] /\
  match getaddrinfo p p None sf hf dns (Some [98]) (Some [56;48]) (Some h) with
  | Ok (Done out) => match walk 4 out 0 with Ok es => map (fun e => (e_family e, e_port e, e_protocol e, e_canon e)) es = [(2, 80, 6, Some [97]); (2, 80, 17, None); (10, 80, 6, None); (10, 80, 17, None)] | _ => False end
  | _ => False end.
Proof.
  cbv zeta. split; [repeat split; cbn; try lia; discriminate|]. split; [left; reflexivity|]. split; [repeat split; cbn; auto; discriminate|]. split.
  - apply (o_port _ (Hints AI_CANONNAME 0 0 0) [56;48] 80); [|lia]. apply (d_more [56] 8 0); [|lia]. apply (d_one 8). lia.
  - split; [|vm_compute; reflexivity]. apply r_hosts; try reflexivity; try discriminate. intros a [(_ & b & E & _)|(_ & _ & b & E & _)]; discriminate.
Qed.
