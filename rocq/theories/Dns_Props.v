(** C83: the DNS client. *)
From Verif Require Import Base Dns_Model Dns_Spec Dns_Proof.
Open Scope Z_scope.

Definition nothing : found := {| addrs := []; aliases := []; canon := [] |}.

(** The query for a host name with labels of 1 to 63 bytes is a header (identification 123, recursion desired, one question), the name
    as RFC 1035 encodes it, the type A or AAAA and the class IN. *)
Theorem C83_query : forall ls f, ls <> [] -> Forall (fun l => 1 <= Z.of_nat (length l) <= 63 /\ ~ In 46 l) ls ->
  exists q, name_at (request (dotted ls) f) 12 ls q /\ bytes_in (request (dotted ls) f) 0 [0; 123; 1; 0; 0; 1; 0; 0; 0; 0; 0; 0] /\
    bytes_in (request (dotted ls) f) q [0; match f with Inet6 => 28 | _ => 1 end; 0; 1] /\ Z.of_nat (length (request (dotted ls) f)) = q + 4.
Proof.
  intros ls f NE F. assert (F1 : Forall (fun l => 1 <= Z.of_nat (length l) <= 63) ls) by (eapply Forall_impl; [|exact F]; cbn; tauto).
  assert (F2 : Forall (fun l => ~ In 46 l) ls) by (eapply Forall_impl; [|exact F]; cbn; tauto).
  set (t := match f with Inet6 => 28 | _ => 1 end). assert (R : request (dotted ls) f = header ++ encode ls ++ [0] ++ [0; t; 0; 1]).
  { unfold request. fold t. destruct (dotted ls) as [|c w] eqn:E.
    - exfalso. destruct ls as [|l [|l2 ls]]; [congruence| |]; inversion F1; subst; destruct l; cbn in *; try lia; discriminate.
    - rewrite <- E, split_dotted by assumption. reflexivity. }
  rewrite R. exists (Z.of_nat (length header + length (encode ls) + 1)). split; [exact (encode_name ls F1 header [0; t; 0; 1])|]. split; [|split].
  - exact (bytes_at_end [] header (encode ls ++ [0] ++ [0; t; 0; 1])).
  - replace (header ++ encode ls ++ [0] ++ [0; t; 0; 1]) with ((header ++ encode ls ++ [0]) ++ [0; t; 0; 1] ++ []) by (rewrite <- !app_assoc; reflexivity).
    replace (length header + length (encode ls) + 1)%nat with (length (header ++ encode ls ++ [0])) by (rewrite !app_length; cbn [length]; lia). apply bytes_at_end.
  - rewrite !app_length. cbn [length]. lia.
Qed.
Example C83_query_instance : request [119;119;119;46;99;111;109] Inet = [0;123; 1;0; 0;1; 0;0; 0;0; 0;0; 3;119;119;119; 3;99;111;109; 0; 0;1; 0;1].
Proof. reflexivity. Qed.

(** A name in a message, with or without compression, is read as its labels with dots between them, and reading continues behind it. *)
Theorem C83_name : forall msg p ls q, name_at msg p ls q -> exists h, forall fuel, (h <= fuel)%nat -> read_name fuel msg p = Ok (dotted ls, q).
Proof. exact read_ok. Qed.

(** A well-formed reply with at least one answer, after any number of datagrams too short for a header: the addresses of the wanted
    families in the order of the answers, with the names that own them; the aliases; the canonical name. *)
Theorem C83_reply_partial : forall f short msg later flags rs, Forall (fun m => (length m < 12)%nat) short ->
  reply msg 123 flags rs -> flags mod 16 <> 3 -> rs <> [] ->
  exists h, forall fuel, (h <= fuel)%nat -> lookup_name fuel f (short ++ msg :: later) 0 nothing =
    Ok (Found {| addrs := addresses (match f with Inet6 => false | _ => true end) (match f with Inet => false | _ => true end) rs;
                 aliases := renamed rs; canon := canonical [] rs |}).
Proof.
  intros f short msg later flags rs S0 R FL NE. destruct (reply_head _ _ _ _ R) as (L & G0 & G2 & nq & p & G4 & G6 & Q & RS).
  destruct (questions_ok _ _ _ _ Q) as [h1 H1]. destruct (answers_ok msg f p rs RS) as [h2 H2]. exists (Nat.max h1 h2). intros fuel F.
  rewrite shorts_ok by exact S0. cbn [lookup_name]. rewrite L, G0. cbn [bind]. change (negb (123 =? 123)) with false. cbv iota. rewrite G2. cbn [bind]. replace (flags mod 16 =? 3) with false by lia.
  rewrite G4. cbn [bind]. rewrite G6. cbn [bind]. rewrite H1 by lia. cbn [bind]. rewrite Nat2Z.id, H2 by lia. cbn [bind]. replace (1 <=? 0 + Z.of_nat (length rs)) with true by (destruct rs; [congruence|cbn; lia]). reflexivity.
Qed.
(** [www.com] is an alias of [x.www.com], which has the address 1.2.3.4; the names are compressed *)
Definition sample : list Z := [0;123; 129;128; 0;1; 0;2; 0;0; 0;0; 3;119;119;119; 3;99;111;109; 0; 0;1; 0;1;
  192;12; 0;5; 0;1; 0;0;0;60; 0;4; 1;120; 192;12;
  192;37; 0;1; 0;1; 0;0;0;60; 0;4; 1;2;3;4].
Lemma in_ok msg i l : (0 <=? i) = true -> firstn (length l) (skipn (Z.to_nat i) msg) = l -> bytes_in msg i l.
Proof.
  intros I E. split; [lia|]. intros k b H. rewrite <- E in H. rewrite <- (firstn_skipn (Z.to_nat i) msg) at 1.
  assert (LL : (k < length (firstn (length l) (skipn (Z.to_nat i) msg)))%nat) by (apply nth_error_Some; congruence).
  rewrite firstn_length in LL. rewrite skipn_length in LL. rewrite nth_error_app2; rewrite firstn_length_le by lia; [|lia].
  replace (Z.to_nat i + k - Z.to_nat i)%nat with k by lia. rewrite <- (firstn_skipn (length l) (skipn (Z.to_nat i) msg)). rewrite nth_error_app1; [exact H|rewrite firstn_length, skipn_length; lia].
Qed.
Example C83_reply_sample : let www := [[119;119;119];[99;111;109]] in reply sample 123 33152 [Cname www ([120] :: www); A ([120] :: www) [1;2;3;4]].
Proof.
  intros www. assert (W : name_at sample 12 www 21).
  { apply (n_label _ 12 [119;119;119]); [cbn; lia|apply in_ok; reflexivity|]. apply (n_label _ 16 [99;111;109]); [cbn; lia|apply in_ok; reflexivity|]. apply (n_root _ 20). apply in_ok; reflexivity. }
  assert (P : name_at sample 25 www 27) by (apply (n_pointer _ 25 0 12 www 21); [lia|lia|apply in_ok; reflexivity|discriminate|exact W]).
  assert (T : name_at sample 37 ([120] :: www) 41).
  { apply (n_label _ 37 [120]); [cbn; lia|apply in_ok; reflexivity|]. apply (n_pointer _ 39 0 12 www 21); [lia|lia|apply in_ok; reflexivity|discriminate|exact W]. }
  assert (P2 : name_at sample 41 ([120] :: www) 43) by (apply (n_pointer _ 41 0 37 _ 41); [lia|lia|apply in_ok; reflexivity|discriminate|exact T]).
  exists 1, [0;0;0;0], 25. split; [lia|]. split; [lia|]. split; [cbn; lia|]. split; [reflexivity|]. split; [apply in_ok; reflexivity|]. split.
  - apply (q_cons _ 0 12 www 21 25 [0;1;0;1] W); [reflexivity|apply in_ok; reflexivity|]. apply q_end.
  - apply (rs_cons _ 25 _ _ 41).
    + apply (r_cname _ 25 www _ 37 4); [|lia|exact T]. exists 27, [0;1], [0;0;0;60]. split; [exact P|]. split; [reflexivity|]. split; [reflexivity|]. split; [apply in_ok; reflexivity|]. split; [reflexivity|]. repeat constructor; lia.
    + apply (rs_cons _ 41 _ _ 57); [|apply rs_end]. apply (r_a _ 41 _ _ 53); [|reflexivity|apply in_ok; reflexivity]. exists 43, [0;1], [0;0;0;60]. split; [exact P2|]. split; [reflexivity|]. split; [reflexivity|]. split; [apply in_ok; reflexivity|]. split; [reflexivity|]. repeat constructor; lia.
Qed.
Example C83_reply_instance : lookup_name 9 Inet [[1;2]; sample] 0 nothing =
  Ok (Found {| addrs := [([120;46;119;119;119;46;99;111;109], false, [1;2;3;4])]; aliases := [[119;119;119;46;99;111;109]]; canon := [120;46;119;119;119;46;99;111;109] |}).
Proof. reflexivity. Qed.

(** The other outcomes: the name does not exist; a reply to another query; no reply in time. *)
Theorem C83_no_name : forall fuel f short msg later flags rs, Forall (fun m => (length m < 12)%nat) short ->
  reply msg 123 flags rs -> flags mod 16 = 3 -> lookup_name fuel f (short ++ msg :: later) 0 nothing = Ok NoName.
Proof.
  intros fuel f short msg later flags rs S0 R FL. destruct (reply_head _ _ _ _ R) as (L & G0 & G2 & _). rewrite shorts_ok by exact S0. cbn [lookup_name]. rewrite L, G0. cbn [bind]. change (negb (123 =? 123)) with false. cbv iota. rewrite G2. cbn [bind]. rewrite FL. reflexivity.
Qed.
Theorem C83_foreign : forall fuel f size short msg later id flags rs, Forall (fun m => (length m < 12)%nat) short ->
  reply msg id flags rs -> id <> 123 -> lookup_name fuel f (short ++ msg :: later) 0 nothing = Ok Failed /\ lookup_addr fuel size (short ++ msg :: later) = Ok AFailed.
Proof.
  intros fuel f size short msg later id flags rs S0 R ID. destruct (reply_head _ _ _ _ R) as (L & G0 & _). rewrite shorts_ok, shorts_addr by exact S0. cbn [lookup_name lookup_addr]. rewrite L, G0. cbn [bind]. replace (id =? 123) with false by lia. split; reflexivity.
Qed.
Theorem C83_silence : forall fuel f size short, Forall (fun m => (length m < 12)%nat) short ->
  lookup_name fuel f short 0 nothing = Ok Again /\ lookup_addr fuel size short = Ok AAgain.
Proof. intros fuel f size short S0. rewrite <- (app_nil_r short), shorts_ok, shorts_addr by exact S0. split; reflexivity. Qed.
Example C83_no_name_instance : lookup_name 9 Inet [[0;123;129;131;0;0;0;0;0;0;0;0]] 0 nothing = Ok NoName /\ lookup_name 9 Inet [[0;124;129;131;0;0;0;0;0;0;0;0]] 0 nothing = Ok Failed.
Proof. split; reflexivity. Qed.

(** A reply to a reverse query whose first answer is a name: the name and a null byte, if there is room for them. *)
Theorem C83_reverse_partial : forall size short msg later flags owner target rs, Forall (fun m => (length m < 12)%nat) short ->
  reply msg 123 flags (Ptr owner target :: rs) ->
  exists h, forall fuel, (h <= fuel)%nat -> lookup_addr fuel size (short ++ msg :: later) =
    Ok (if Z.of_nat (length (dotted target)) + 1 <=? size then Name (dotted target ++ [0]) else Overflow).
Proof.
  intros size short msg later flags owner target rs S0 R. destruct (reply_head _ _ _ _ R) as (L & G0 & G2 & nq & p & G4 & G6 & Q & RS).
  destruct (questions_ok _ _ _ _ Q) as [h1 H1]. inversion RS as [|p0 r0 rs0 q RA _]; subst. inversion RA as [| | |p1 ow tg d len H LB N|]; subst.
  destruct (head_ok _ _ _ _ _ _ H) as [h2 H2]. destruct (read_ok _ _ _ _ N) as [h3 H3]. exists (Nat.max h1 (Nat.max h2 h3)). intros fuel F.
  rewrite shorts_addr by exact S0. cbn [lookup_addr]. rewrite L, G0. cbn [bind]. change (negb (123 =? 123)) with false. cbv iota. rewrite G4. cbn [bind]. rewrite G6. cbn [bind]. rewrite H1 by lia. cbn [bind].
  replace (Z.of_nat (length (Ptr owner target :: rs)) =? 0) with false by (cbn [length]; lia). destruct (H2 fuel ltac:(lia)) as (qq & c & R1 & G1 & GC & G3 & ->). rewrite R1. cbn [bind]. rewrite G1. cbn [bind]. rewrite GC. cbn [bind]. rewrite G3. cbn [bind].
  change (12 =? 12) with true. cbv iota. rewrite H3 by lia. cbn [bind]. destruct (size <=? Z.of_nat (length (dotted target))) eqn:E.
  - replace (Z.of_nat (length (dotted target)) + 1 <=? size) with false by lia. reflexivity.
  - replace (Z.of_nat (length (dotted target)) + 1 <=? size) with true by lia. reflexivity.
Qed.
Definition ptr_sample : list Z := [0;123; 129;128; 0;0; 0;1; 0;0; 0;0; 1;120; 0; 0;12; 0;1; 0;0;0;60; 0;5; 3;119;119;119; 0].
Example C83_reverse_instance : lookup_addr 9 4 [ptr_sample] = Ok (Name [119;119;119;0]) /\ lookup_addr 9 3 [ptr_sample] = Ok Overflow.
Proof. split; reflexivity. Qed.
Example C83_reverse_sample : reply ptr_sample 123 33152 [Ptr [[120]] [[119;119;119]]].
Proof.
  exists 0, [0;0;0;0], 12. split; [lia|]. split; [lia|]. split; [cbn; lia|]. split; [reflexivity|]. split; [apply in_ok; reflexivity|]. split; [apply q_end|].
  apply (rs_cons _ 12 _ _ 30); [|apply rs_end]. apply (r_ptr _ 12 _ _ 25 5); [|lia|].
  - exists 15, [0;1], [0;0;0;60]. split; [|split; [reflexivity|]; split; [reflexivity|]; split; [apply in_ok; reflexivity|]; split; [reflexivity|]; repeat constructor; lia].
    apply (n_label _ 12 [120]); [cbn; lia|apply in_ok; reflexivity|]. apply (n_root _ 14). apply in_ok; reflexivity.
  - apply (n_label _ 25 [119;119;119]); [cbn; lia|apply in_ok; reflexivity|]. apply (n_root _ 29). apply in_ok; reflexivity.
Qed.

(** Replies that are not well-formed.  A name that points to itself: the client never returns (it recurses until the stack is exhausted).
    An address record with more than 16 bytes: the buffer for the address is overrun.  A count without records: it reads past the datagram. *)
Definition ptr_head : list Z := [0;123; 129;128; 0;0; 0;1; 0;0; 0;0].
Theorem C83_hostile_refuted :
  (exists msg, forall fuel f, lookup_name fuel f [msg] 0 nothing = Fuel) /\
  (forall data, (16 < length data)%nat -> Z.of_nat (length data) < 65536 -> lookup_name 2 Inet [ptr_head ++ [0; 0;1; 0;1; 0;0;0;60] ++ two_bytes (Z.of_nat (length data)) ++ data] 0 nothing = UB) /\
  lookup_name 2 Inet [ptr_head] 0 nothing = UB.
Proof.
  split; [|split; [|reflexivity]].
  - exists (ptr_head ++ [192; 12]). intros fuel f. assert (R : forall k, read_name k (ptr_head ++ [192; 12]) 12 = Fuel).
    { induction k as [|k IH]; [reflexivity|]. cbn [read_name]. change (get (ptr_head ++ [192; 12]) 12) with (@Ok Z 192). cbn [bind]. change (192 <=? 192) with true. cbv iota.
      change (get (ptr_head ++ [192; 12]) (12 + 1)) with (@Ok Z 12). cbn [bind]. change ((192 - 192) * 256 + 12) with 12. rewrite IH. reflexivity. }
    assert (AN : answer fuel (ptr_head ++ [192; 12]) f 12 nothing = Fuel) by (unfold answer; rewrite R; reflexivity). clear R.
    cbn [lookup_name]. change ((length (ptr_head ++ [192; 12]%Z) <? 12)%nat) with false. cbv iota. change (get16 (ptr_head ++ [192; 12]) 0) with (@Ok Z 123). cbn [bind]. change (negb (123 =? 123)) with false. cbv iota.
    change (get16 (ptr_head ++ [192; 12]) 2) with (@Ok Z 33152). cbn [bind]. change (33152 mod 16 =? 3) with false. cbv iota. change (get16 (ptr_head ++ [192; 12]) 4) with (@Ok Z 0). cbn [bind].
    change (get16 (ptr_head ++ [192; 12]) 6) with (@Ok Z 1). cbn [bind]. change (Z.to_nat 0) with 0%nat. change (Z.to_nat 1) with 1%nat. cbn [questions bind answers]. rewrite AN. reflexivity.
  - intros data L1 L2. set (msg := ptr_head ++ [0; 0;1; 0;1; 0;0;0;60] ++ two_bytes (Z.of_nat (length data)) ++ data). set (a := Z.of_nat (length data) / 256). set (b := Z.of_nat (length data) mod 256).
    assert (E : (16 <? a * 256 + b) = true) by (unfold a, b; pose proof (Z.div_mod (Z.of_nat (length data)) 256); lia).
    assert (AN : answer 2 msg Inet 12 nothing = UB).
    { unfold answer. change (read_name 2 msg 12) with (@Ok (list Z * Z) ([], 13)). cbn [bind]. change (get16 msg 13) with (@Ok Z 1). cbn [bind]. change (get16 msg (13 + 2)) with (@Ok Z 1). cbn [bind].
      change (get16 msg (13 + 8)) with (@Ok Z (a * 256 + b)). cbn [bind]. change (1 =? 1) with true. cbn [inet_ok negb]. rewrite E. reflexivity. }
    cbn [lookup_name]. change ((length msg <? 12)%nat) with false. cbv iota. change (get16 msg 0) with (@Ok Z 123). cbn [bind]. change (negb (123 =? 123)) with false. cbv iota.
    change (get16 msg 2) with (@Ok Z 33152). cbn [bind]. change (33152 mod 16 =? 3) with false. cbv iota. change (get16 msg 4) with (@Ok Z 0). cbn [bind].
    change (get16 msg 6) with (@Ok Z 1). cbn [bind]. change (Z.to_nat 0) with 0%nat. change (Z.to_nat 1) with 1%nat. cbn [questions bind answers]. rewrite AN. reflexivity.
Qed.

(** What the client does differently from the specification.  A trailing dot gives a query with a byte too many.  A label of 64 bytes
    gives a length byte that RFC 1035 reserves.  The address in a reverse query is not reversed (1.2.3.4.in-addr.arpa).  A reply
    without answers is ignored until the time-out; so is a reverse reply whose first record is no name.  A pointer to the root gives
    a dot at the end.  The loop-back address has its bytes reversed. *)
Theorem C83_client_refuted :
  (forall f, request [97; 46] f = header ++ [1; 97; 0; 0; 0; match f with Inet6 => 28 | _ => 1 end; 0; 1]) /\
  (forall l, length l = 64%nat -> ~ In 46 l -> request l Inet = header ++ [64] ++ l ++ [0; 0; 1; 0; 1]) /\
  addr_request [49;46;50;46;51;46;52] = header ++ [1;49; 1;50; 1;51; 1;52; 7;105;110;45;97;100;100;114; 4;97;114;112;97; 0; 0;12; 0;1] /\
  (forall fuel f, lookup_name fuel f [[0;123; 129;128; 0;0; 0;0; 0;0; 0;0]] 0 nothing = Ok Again) /\
  lookup_addr 3 100 [[0;123; 129;128; 0;0; 0;2; 0;0; 0;0; 0; 0;5; 0;1; 0;0;0;60; 0;1; 0; 1;120; 0; 0;12; 0;1; 0;0;0;60; 0;5; 3;119;119;119; 0]] = Ok AAgain /\
  read_name 3 [1;97;192;4;0] 0 = Ok ([97;46], 4) /\
  lookup_null false Inet = [(false, [1;0;0;127])].
Proof.
  split; [destruct f; reflexivity|]. split; [|split; [reflexivity|]; split; [intros fuel f; reflexivity|]; split; [reflexivity|]; split; reflexivity].
  intros l L NI. unfold request. destruct l as [|c l]; [discriminate L|]. rewrite (split_last (c :: l) [] NI). unfold encode. cbn [map concat app]. rewrite app_nil_r. change ([] ++ c :: l) with (c :: l). rewrite L. reflexivity.
Qed.

Print Assumptions C83_query.
Print Assumptions C83_name.
Print Assumptions C83_reply_partial.
Print Assumptions C83_no_name.
Print Assumptions C83_foreign.
Print Assumptions C83_silence.
Print Assumptions C83_reverse_partial.
Print Assumptions C83_hostile_refuted.
Print Assumptions C83_client_refuted.
