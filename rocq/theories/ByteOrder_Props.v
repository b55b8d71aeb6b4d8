(** C42: byte order conversions. *)
From Verif Require Import Base ByteOrder_Model ByteOrder_Spec ByteOrder_Proof Check.
Open Scope Z_scope.

(** The object htonl(x) in memory has the bytes of [x] in network order, whatever the byte order of
    the machine. *)
Theorem C42_htonl_network_order : forall little x, in_memory little 4 (htonl little x) = big_endian 4 x.
Proof. intros [] x; cbn [in_memory htonl]; [rewrite bswap32_bytes; apply rev_involutive|reflexivity]. Qed.
Theorem C42_htons_network_order : forall little x, in_memory little 2 (htons little x) = big_endian 2 x.
Proof. intros [] x; cbn [in_memory htons]; [rewrite bswap16_bytes; apply rev_involutive|reflexivity]. Qed.
(** ntohl and ntohs give the number whose bytes in network order are those of the object. *)
Theorem C42_ntohl_network_order : forall little x, big_endian 4 (ntohl little x) = in_memory little 4 x.
Proof. intros [] x; cbn [in_memory ntohl]; [apply bswap32_bytes|reflexivity]. Qed.
Theorem C42_ntohs_network_order : forall little x, big_endian 2 (ntohs little x) = in_memory little 2 x.
Proof. intros [] x; cbn [in_memory ntohs]; [apply bswap16_bytes|reflexivity]. Qed.
(** They are inverse to each other, and their results are in range. *)
Theorem C42_inverse : forall little x,
  (0 <= x < 2 ^ 32 -> ntohl little (htonl little x) = x /\ htonl little (ntohl little x) = x /\ 0 <= htonl little x < 2 ^ 32) /\
  (0 <= x < 2 ^ 16 -> ntohs little (htons little x) = x /\ htons little (ntohs little x) = x /\ 0 <= htons little x < 2 ^ 16).
Proof.
  intros [] x; cbn [htonl ntohl htons ntohs]; split; intros H; auto.
  - split; [|split]; [apply bswap32_twice, H|apply bswap32_twice, H|apply bswap32_range].
  - split; [|split]; [apply bswap16_twice, H|apply bswap16_twice, H|apply bswap16_range].
Qed.
(** The byte swaps (also bswap_16, 32, 64 and htobe64 etc.) reverse the bytes and are involutions. *)
Theorem C42_swap_reverses : forall x,
  big_endian 2 (bswap16 x) = rev (big_endian 2 x) /\ big_endian 4 (bswap32 x) = rev (big_endian 4 x) /\
  big_endian 8 (bswap64 x) = rev (big_endian 8 x).
Proof. intros x. auto using bswap16_bytes, bswap32_bytes, bswap64_bytes. Qed.
Theorem C42_swap_involution : forall x,
  (0 <= x < 2 ^ 16 -> bswap16 (bswap16 x) = x) /\ (0 <= x < 2 ^ 32 -> bswap32 (bswap32 x) = x) /\
  (0 <= x < 2 ^ 64 -> bswap64 (bswap64 x) = x).
Proof. intros x. auto using bswap16_twice, bswap32_twice, bswap64_twice. Qed.
(** be_to_host: the number whose big-endian object this is. *)
Theorem C42_be_to_host : forall little x,
  big_endian 2 (be_to_host16 little x) = in_memory little 2 x /\ big_endian 4 (be_to_host32 little x) = in_memory little 4 x /\
  big_endian 8 (be_to_host64 little x) = in_memory little 8 x.
Proof. intros [] x; cbn [in_memory be_to_host16 be_to_host32 be_to_host64]; auto using bswap16_bytes, bswap32_bytes, bswap64_bytes. Qed.
(** ns_put16 and ns_put32 store the low bytes of their argument in network order and nothing else;
    ns_get16 and ns_get32 read them back. *)
Theorem C42_ns_put16 : forall m s cp, mapped m cp 2 ->
  exists m', ns_put16 m s cp = Ok m' /\ bytes_at m' cp (big_endian 2 s) /\ same_outside m m' cp 2 /\
    ns_get16 m' cp = Ok (s mod 2 ^ 16).
Proof.
  intros m s cp M. destruct (put16_spec m s cp M) as (m' & E & B & O). exists m'. repeat (split; [assumption|]).
  apply get16_spec; [apply Z.mod_pos_bound; reflexivity|].
  change (2 ^ 16) with (256 ^ Z.of_nat 2). rewrite big_endian_mod. exact B.
Qed.
Theorem C42_ns_put32 : forall m l cp, mapped m cp 4 ->
  exists m', ns_put32 m l cp = Ok m' /\ bytes_at m' cp (big_endian 4 l) /\ same_outside m m' cp 4 /\
    ns_get32 m' cp = Ok (l mod 2 ^ 32).
Proof.
  intros m l cp M. destruct (put32_spec m l cp M) as (m' & E & B & O). exists m'. repeat (split; [assumption|]).
  apply get32_spec; [apply Z.mod_pos_bound; reflexivity|].
  change (2 ^ 32) with (256 ^ Z.of_nat 4). rewrite big_endian_mod. exact B.
Qed.
Theorem C42_ns_get : forall m cp x,
  (0 <= x < 2 ^ 16 -> bytes_at m cp (big_endian 2 x) -> ns_get16 m cp = Ok x) /\
  (0 <= x < 2 ^ 32 -> bytes_at m cp (big_endian 4 x) -> ns_get32 m cp = Ok x).
Proof. intros m cp x. split; [apply get16_spec|apply get32_spec]. Qed.

(** Non-vacuity *)
Example C42_example : in_memory true 4 (htonl true 3232235777) = [192; 168; 1; 1] /\ htons true 8080 = 36895.
Proof. split; reflexivity. Qed.
Example C42_example_mem : mapped (mem_of 100 [1; 2; 3; 4]) 100 4 /\ ns_get32 (mem_of 100 [255; 2; 3; 4]) 100 = Ok 4278321924.
Proof. split; [chk|reflexivity]. Qed.

Print Assumptions C42_htonl_network_order.
Print Assumptions C42_htons_network_order.
Print Assumptions C42_ntohl_network_order.
Print Assumptions C42_ntohs_network_order.
Print Assumptions C42_inverse.
Print Assumptions C42_swap_reverses.
Print Assumptions C42_swap_involution.
Print Assumptions C42_be_to_host.
Print Assumptions C42_ns_put16.
Print Assumptions C42_ns_put32.
Print Assumptions C42_ns_get.
