(** Property theorems C01-C03: memcpy, mempcpy, memmove, memset. *)
From Verif Require Import Base Mem_Model Mem_Proof.
Open Scope Z_scope.

(** C01: memcpy copies exactly the [length l] bytes, for disjoint ranges, and changes nothing else. *)
Theorem C01_memcpy : forall m d s l,
  bytes_at m s l -> mapped m d (length l) -> disjoint d (length l) s (length l) ->
  exists m', memcpy m d s (length l) = Ok (m', d) /\ bytes_at m' d l /\ same_outside m m' d (length l).
Proof. exact memcpy_ok. Qed.
Print Assumptions C01_memcpy.

Theorem C01_mempcpy : forall m d s l,
  bytes_at m s l -> mapped m d (length l) -> disjoint d (length l) s (length l) ->
  exists m', mempcpy m d s (length l) = Ok (m', d + Z.of_nat (length l)) /\ bytes_at m' d l /\
             same_outside m m' d (length l).
Proof. exact mempcpy_ok. Qed.
Print Assumptions C01_mempcpy.

(** a case that meets the hypotheses: 107 bytes (64+32+8+2+1) copied upwards *)
Example C01_hyps :
  let l := map (fun i => Z.of_nat (i * 7 mod 256)) (seq 0 107) in
  let m := mem_of 1000 (l ++ repeat 0 107 ++ []) in
  bytes_at m 1000 l /\ mapped m 1107 (length l) /\ disjoint 1107 (length l) 1000 (length l).
Proof.
  cbv zeta. split; [|split].
  - apply (mem_of_bytes_sub 1000 [] _ _). reflexivity.
  - apply mem_of_mapped; [lia|]. rewrite !app_length, repeat_length, map_length, seq_length. cbn [length]. lia.
  - rewrite map_length, seq_length. right. lia.
Qed.

(** C02: memmove leaves the old source bytes at the destination, for every overlap. *)
Theorem C02_memmove : forall m d s l,
  bytes_at m s l -> mapped m d (length l) ->
  exists m', memmove m d s (length l) = Ok (m', d) /\ bytes_at m' d l /\ same_outside m m' d (length l).
Proof. exact memmove_ok. Qed.
Print Assumptions C02_memmove.

(** overlapping in both directions *)
Example C02_hyps :
  let l := map (fun i => Z.of_nat (i * 7 mod 256)) (seq 0 107) in
  let m := mem_of 1000 (repeat 0 3 ++ l ++ repeat 0 5) in
  bytes_at m 1003 l /\ mapped m 1000 (length l) /\ mapped m 1008 (length l) /\
  ~ disjoint 1000 (length l) 1003 (length l) /\ ~ disjoint 1008 (length l) 1003 (length l).
Proof.
  cbv zeta. rewrite map_length, seq_length. repeat split.
  - apply mem_of_bytes_sub. reflexivity.
  - apply mem_of_mapped; [lia|]. rewrite !app_length, !repeat_length, map_length, seq_length. lia.
  - apply mem_of_mapped; [lia|]. rewrite !app_length, !repeat_length, map_length, seq_length. lia.
  - unfold disjoint. lia.
  - unfold disjoint. lia.
Qed.

(** C03: memset *)
Theorem C03_memset : forall m d val n,
  mapped m d n ->
  exists m', memset m d val n = Ok (m', d) /\ bytes_at m' d (repeat (val mod 256) n) /\ same_outside m m' d n.
Proof. exact memset_ok. Qed.
Print Assumptions C03_memset.

(** misaligned, 101 bytes *)
Example C03_hyps : mapped (mem_of 1000 (repeat 7 110)) 1003 101.
Proof. apply mem_of_mapped; [lia|]. rewrite repeat_length. lia. Qed.
