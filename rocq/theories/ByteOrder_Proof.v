(** Proofs about the byte order functions. *)
From Verif Require Import Base Mem_Proof ByteOrder_Model ByteOrder_Spec.
Open Scope Z_scope.

Lemma shl_add a n b : 0 <= n -> 0 <= b < 2 ^ n -> Z.lor (Z.shiftl a n) b = a * 2 ^ n + b.
Proof.
  intros Hn Hb. rewrite Z.shiftl_mul_pow2 by lia. symmetry. rewrite <- Z.lxor_lor.
  - apply Z.add_nocarry_lxor. rewrite <- (Z.shiftl_mul_pow2 a n) by lia.
    apply Z.bits_inj'. intros i Hi. rewrite Z.land_spec, Z.bits_0.
    destruct (Z.lt_ge_cases i n) as [L|L].
    + rewrite Z.shiftl_spec_low by lia. reflexivity.
    + rewrite andb_false_iff. right. rewrite <- (Z.mod_small b (2 ^ n)) by lia. apply Z.mod_pow2_bits_high. lia.
  - rewrite <- (Z.shiftl_mul_pow2 a n) by lia. apply Z.bits_inj'. intros i Hi. rewrite Z.land_spec, Z.bits_0.
    destruct (Z.lt_ge_cases i n) as [L|L].
    + rewrite Z.shiftl_spec_low by lia. reflexivity.
    + rewrite andb_false_iff. right. rewrite <- (Z.mod_small b (2 ^ n)) by lia. apply Z.mod_pow2_bits_high. lia.
Qed.
Lemma byte_eq k x : 0 <= k -> byte k x = (x / 2 ^ (8 * k)) mod 256.
Proof. intros. unfold byte. rewrite Z.shiftr_div_pow2 by lia. change 255 with (Z.ones 8). rewrite Z.land_ones by lia. reflexivity. Qed.
Lemma byte_range k x : 0 <= byte k x < 256.
Proof. unfold byte. change 255 with (Z.ones 8). rewrite Z.land_ones by lia. apply Z.mod_pos_bound. reflexivity. Qed.

Lemma bswap16_eq x : bswap16 x = byte 0 x * 256 + byte 1 x.
Proof. unfold bswap16. apply shl_add; [lia|apply (byte_range 1)]. Qed.
Lemma bswap32_eq x : bswap32 x = byte 0 x * 2 ^ 24 + byte 1 x * 2 ^ 16 + byte 2 x * 2 ^ 8 + byte 3 x.
Proof.
  unfold bswap32. pose proof (byte_range 1 x). pose proof (byte_range 2 x). pose proof (byte_range 3 x).
  rewrite (shl_add (byte 2 x) 8) by lia. rewrite (shl_add (byte 1 x) 16) by lia. rewrite (shl_add (byte 0 x) 24) by lia. ring.
Qed.
Lemma bswap32_range x : 0 <= bswap32 x < 2 ^ 32.
Proof. rewrite bswap32_eq. pose proof (byte_range 0 x). pose proof (byte_range 1 x). pose proof (byte_range 2 x). pose proof (byte_range 3 x). lia. Qed.
Lemma bswap16_range x : 0 <= bswap16 x < 2 ^ 16.
Proof. rewrite bswap16_eq. pose proof (byte_range 0 x). pose proof (byte_range 1 x). lia. Qed.
Lemma bswap64_eq x : bswap64 x = bswap32 (x mod 2 ^ 32) * 2 ^ 32 + bswap32 (x / 2 ^ 32).
Proof.
  unfold bswap64. rewrite shl_add by (try apply bswap32_range; lia). rewrite Z.shiftr_div_pow2 by lia.
  replace (2 ^ 32 - 1) with (Z.ones 32) by reflexivity. rewrite Z.land_ones by lia. reflexivity.
Qed.

(** the bytes of a number given by its bytes *)
Ltac bytes4 x := rewrite !byte_eq in * by lia; change (2 ^ (8 * 0)) with 1 in *; change (2 ^ (8 * 1)) with 256 in *;
  change (2 ^ (8 * 2)) with 65536 in *; change (2 ^ (8 * 3)) with 16777216 in *; change (2^24) with 16777216 in *;
  change (2^16) with 65536 in *; change (2^8) with 256 in *.
Lemma be16 a b : 0 <= a < 256 -> 0 <= b < 256 -> big_endian 2 (a * 256 + b) = [a; b].
Proof.
  intros A B. cbn [big_endian app]. rewrite Z.div_add_l, (Z.div_small b) by lia. rewrite Z.add_0_r, (Z.mod_small a) by lia.
  rewrite Z.add_comm, Z.mod_add, Z.mod_small by lia. reflexivity.
Qed.
Lemma be_snoc n a b : 0 <= b < 256 -> big_endian (S n) (a * 256 + b) = big_endian n a ++ [b].
Proof.
  intros B. cbn [big_endian]. rewrite Z.div_add_l, (Z.div_small b) by lia. rewrite Z.add_0_r.
  rewrite (Z.add_comm (a * 256)), Z.mod_add, Z.mod_small by lia. reflexivity.
Qed.
Lemma be32 a b c d : 0 <= a < 256 -> 0 <= b < 256 -> 0 <= c < 256 -> 0 <= d < 256 ->
  big_endian 4 (a * 2 ^ 24 + b * 2 ^ 16 + c * 2 ^ 8 + d) = [a; b; c; d].
Proof.
  intros A B C D. replace (a * 2 ^ 24 + b * 2 ^ 16 + c * 2 ^ 8 + d) with (((a * 256 + b) * 256 + c) * 256 + d) by ring.
  rewrite !be_snoc by assumption. cbn [big_endian app]. rewrite Z.mod_small by lia. reflexivity.
Qed.
Lemma big_endian_add n : forall m x, big_endian (n + m) x = big_endian n (x / 256 ^ Z.of_nat m) ++ big_endian m x.
Proof.
  intros m. revert n. induction m as [|m IH]; intros n x.
  - rewrite Nat.add_0_r, Z.div_1_r, app_nil_r. reflexivity.
  - rewrite Nat.add_succ_r. cbn [big_endian]. rewrite IH. rewrite Z.div_div by lia.
    replace (256 * 256 ^ Z.of_nat m) with (256 ^ Z.of_nat (S m)) by (rewrite Nat2Z.inj_succ, Z.pow_succ_r by lia; ring).
    rewrite app_assoc. reflexivity.
Qed.
Lemma big_endian_mod n : forall x, big_endian n (x mod 256 ^ Z.of_nat n) = big_endian n x.
Proof.
  induction n as [|n IH]; intros x; [reflexivity|]. cbn [big_endian].
  replace (256 ^ Z.of_nat (S n)) with (256 * 256 ^ Z.of_nat n) by (rewrite Nat2Z.inj_succ, Z.pow_succ_r by lia; ring).
  rewrite Z.rem_mul_r by lia. rewrite (Z.mul_comm 256 (_ mod _)), Z.div_add, (Z.div_small (x mod 256)) by (try apply Z.mod_pos_bound; lia).
  rewrite Z.add_0_l, IH, Z.mod_add, Z.mod_mod by lia. reflexivity.
Qed.
(** a number is determined by its bytes *)
Lemma big_endian_inj n : forall x y, 0 <= x < 256 ^ Z.of_nat n -> 0 <= y < 256 ^ Z.of_nat n -> big_endian n x = big_endian n y -> x = y.
Proof.
  induction n as [|n IH]; intros x y X Y H; [cbn in *; lia|].
  rewrite Nat2Z.inj_succ, Z.pow_succ_r in X, Y by lia. cbn [big_endian] in H. apply app_inj_tail in H as [H1 H2].
  apply IH in H1.
  - rewrite (Z.div_mod x 256), (Z.div_mod y 256) by lia. congruence.
  - split; [apply Z.div_pos; lia|apply Z.div_lt_upper_bound; lia].
  - split; [apply Z.div_pos; lia|apply Z.div_lt_upper_bound; lia].
Qed.
Lemma big_endian_bytes2 x : big_endian 2 x = [byte 1 x; byte 0 x].
Proof. cbn [big_endian app]. bytes4 x. rewrite Z.div_1_r. reflexivity. Qed.
Lemma big_endian_bytes4 x : big_endian 4 x = [byte 3 x; byte 2 x; byte 1 x; byte 0 x].
Proof. cbn [big_endian app]. bytes4 x. rewrite !Z.div_div, Z.div_1_r by lia. reflexivity. Qed.

Lemma bswap16_bytes x : big_endian 2 (bswap16 x) = rev (big_endian 2 x).
Proof. rewrite bswap16_eq, be16 by apply byte_range. rewrite big_endian_bytes2. reflexivity. Qed.
Lemma bswap32_bytes x : big_endian 4 (bswap32 x) = rev (big_endian 4 x).
Proof. rewrite bswap32_eq, be32 by apply byte_range. rewrite big_endian_bytes4. reflexivity. Qed.
Lemma bswap64_bytes x : big_endian 8 (bswap64 x) = rev (big_endian 8 x).
Proof.
  rewrite bswap64_eq. change 8%nat with (4 + 4)%nat. rewrite !big_endian_add, rev_app_distr.
  change (256 ^ Z.of_nat 4) with (2 ^ 32). rewrite Z.div_add_l, (Z.div_small (bswap32 _) (2 ^ 32)) by (try apply bswap32_range; lia).
  rewrite Z.add_0_r, bswap32_bytes. f_equal.
  - f_equal. change (2 ^ 32) with (256 ^ Z.of_nat 4). apply big_endian_mod.
  - rewrite <- big_endian_mod. change (256 ^ Z.of_nat 4) with (2 ^ 32). rewrite Z.add_comm, Z.mod_add, Z.mod_small by (try apply bswap32_range; lia).
    apply bswap32_bytes.
Qed.
Lemma bswap64_range x : 0 <= bswap64 x < 2 ^ 64.
Proof. rewrite bswap64_eq. pose proof (bswap32_range (x mod 2 ^ 32)). pose proof (bswap32_range (x / 2 ^ 32)). lia. Qed.
Lemma bswap16_twice x : 0 <= x < 2 ^ 16 -> bswap16 (bswap16 x) = x.
Proof.
  intros H. apply (big_endian_inj 2); [apply bswap16_range|exact H|]. rewrite !bswap16_bytes. apply rev_involutive.
Qed.
Lemma bswap32_twice x : 0 <= x < 2 ^ 32 -> bswap32 (bswap32 x) = x.
Proof.
  intros H. apply (big_endian_inj 4); [apply bswap32_range|exact H|]. rewrite !bswap32_bytes. apply rev_involutive.
Qed.
Lemma bswap64_twice x : 0 <= x < 2 ^ 64 -> bswap64 (bswap64 x) = x.
Proof.
  intros H. apply (big_endian_inj 8); [apply bswap64_range|exact H|]. rewrite !bswap64_bytes. apply rev_involutive.
Qed.

(** memory *)
Lemma store_ok m p v : m p <> None -> store m p v = Ok (upd m p v).
Proof. unfold store. destruct (m p); congruence. Qed.
Lemma upd_mapped m p v q : m q <> None -> upd m p v q <> None.
Proof. unfold upd. destruct (q =? p); [discriminate|auto]. Qed.
Lemma u8_shift l k : 0 <= k -> u8 (Z.shiftr l k) = (l / 2 ^ k) mod 256.
Proof. intros. unfold u8. rewrite Z.shiftr_div_pow2 by lia. reflexivity. Qed.
Ltac upds := repeat (rewrite store_ok by (repeat apply upd_mapped; assumption); cbn [bind]).
Ltac at_ix := unfold upd; repeat match goal with |- context [?a =? ?b] => destruct (Z.eqb_spec a b); try lia end.
Lemma put16_spec m s cp : mapped m cp 2 ->
  exists m', ns_put16 m s cp = Ok m' /\ bytes_at m' cp (big_endian 2 s) /\ same_outside m m' cp 2.
Proof.
  intros M. pose proof (M 0%nat ltac:(lia)) as M0. pose proof (M 1%nat ltac:(lia)) as M1.
  change (Z.of_nat 0) with 0 in M0. change (Z.of_nat 1) with 1 in M1. rewrite Z.add_0_r in M0.
  unfold ns_put16. upds. eexists. split; [reflexivity|].
  split.
  - intros i Hi. cbn [big_endian app length] in *. rewrite u8_shift by lia.
    destruct i as [|[|i]]; [| |lia]; cbn [nth_error]; at_ix; reflexivity.
  - intros a Ha. at_ix. reflexivity.
Qed.
Lemma put32_spec m l cp : mapped m cp 4 ->
  exists m', ns_put32 m l cp = Ok m' /\ bytes_at m' cp (big_endian 4 l) /\ same_outside m m' cp 4.
Proof.
  intros M. pose proof (M 0%nat ltac:(lia)) as M0. pose proof (M 1%nat ltac:(lia)) as M1.
  pose proof (M 2%nat ltac:(lia)) as M2. pose proof (M 3%nat ltac:(lia)) as M3.
  change (Z.of_nat 0) with 0 in M0. change (Z.of_nat 1) with 1 in M1. change (Z.of_nat 2) with 2 in M2. change (Z.of_nat 3) with 3 in M3.
  rewrite Z.add_0_r in M0.
  unfold ns_put32. upds. eexists. split; [reflexivity|]. split.
  - intros i Hi. cbn [big_endian app length] in *. rewrite !u8_shift by lia. rewrite !Z.div_div by lia.
    destruct i as [|[|[|[|i]]]]; [| | | |lia]; cbn [nth_error]; at_ix; reflexivity.
  - intros a Ha. at_ix. reflexivity.
Qed.
Lemma get16_spec m cp x : 0 <= x < 2 ^ 16 -> bytes_at m cp (big_endian 2 x) -> ns_get16 m cp = Ok x.
Proof.
  intros X B. pose proof (B 0%nat ltac:(cbn; lia)) as B0. pose proof (B 1%nat ltac:(cbn; lia)) as B1.
  change (Z.of_nat 0) with 0 in B0. change (Z.of_nat 1) with 1 in B1. rewrite Z.add_0_r in B0.
  cbn [big_endian app nth_error] in B0, B1. unfold ns_get16, load. rewrite B0, B1. cbn [bind].
  pose proof (Z.mod_pos_bound x 256 eq_refl).
  rewrite shl_add by lia. f_equal. rewrite (Z.mod_small (x / 256)) by (split; [apply Z.div_pos; lia|apply Z.div_lt_upper_bound; lia]).
  pose proof (Z.div_mod x 256 ltac:(lia)). lia.
Qed.
Lemma get32_spec m cp x : 0 <= x < 2 ^ 32 -> bytes_at m cp (big_endian 4 x) -> ns_get32 m cp = Ok x.
Proof.
  intros X B. pose proof (B 0%nat ltac:(cbn; lia)) as B0. pose proof (B 1%nat ltac:(cbn; lia)) as B1.
  pose proof (B 2%nat ltac:(cbn; lia)) as B2. pose proof (B 3%nat ltac:(cbn; lia)) as B3.
  change (Z.of_nat 0) with 0 in B0. change (Z.of_nat 1) with 1 in B1. change (Z.of_nat 2) with 2 in B2. change (Z.of_nat 3) with 3 in B3.
  rewrite Z.add_0_r in B0. rewrite big_endian_bytes4 in *. cbn [nth_error] in *.
  unfold ns_get32, load. rewrite B0, B1, B2, B3. cbn [bind]. f_equal.
  transitivity (bswap32 (bswap32 x)); [|apply bswap32_twice, X].
  rewrite (bswap32_eq (bswap32 x)). pose proof (byte_range 0 x). pose proof (byte_range 1 x). pose proof (byte_range 2 x). pose proof (byte_range 3 x).
  assert (E : [byte 3 (bswap32 x); byte 2 (bswap32 x); byte 1 (bswap32 x); byte 0 (bswap32 x)] = [byte 0 x; byte 1 x; byte 2 x; byte 3 x]).
  { rewrite <- big_endian_bytes4, bswap32_bytes, big_endian_bytes4. reflexivity. }
  injection E as -> -> -> ->.
  rewrite <- !Z.lor_assoc. rewrite (shl_add (byte 1 x) 8) by lia. rewrite (shl_add (byte 2 x) 16) by lia. rewrite (shl_add (byte 3 x) 24) by lia. ring.
Qed.
