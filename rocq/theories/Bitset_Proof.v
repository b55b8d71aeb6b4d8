(** Lemmas about signal and processor sets. *)
From Verif Require Import Base Bitset_Model Bitset_Spec.
Open Scope Z_scope.

Lemma set_len l : forall i x, length (set_nth l i x) = length l.
Proof. induction l as [|a l IH]; intros [|i] x; cbn; auto. Qed.
Lemma nth_set l : forall i x j, (i < length l)%nat -> nth j (set_nth l i x) 0 = if (j =? i)%nat then x else nth j l 0.
Proof.
  induction l as [|a l IH]; intros i x j L; [cbn in L; lia|]. destruct i as [|i], j as [|j]; cbn [set_nth nth]; try reflexivity. rewrite IH by (cbn in L; lia). reflexivity.
Qed.
Lemma one_bit b k : 0 <= b -> Z.testbit (Z.shiftl 1 b) k = (k =? b).
Proof. intros B. rewrite Z.shiftl_1_l, Z.pow2_bits_eqb by lia. rewrite Z.eqb_sym. reflexivity. Qed.
Lemma land_bit a b : 0 <= b -> (Z.land a (Z.shiftl 1 b) =? 0) = negb (Z.testbit a b).
Proof.
  intros B. destruct (Z.testbit a b) eqn:T.
  - apply Z.eqb_neq. intros E. assert (X : Z.testbit (Z.land a (Z.shiftl 1 b)) b = true) by (rewrite Z.land_spec, T, one_bit, Z.eqb_refl by lia; reflexivity). rewrite E, Z.bits_0 in X. discriminate.
  - apply Z.eqb_eq. apply Z.bits_inj'. intros k K. rewrite Z.land_spec, one_bit, Z.bits_0 by lia. destruct (k =? b) eqn:E; [|apply andb_false_r]. apply Z.eqb_eq in E. subst. rewrite T. reflexivity.
Qed.
Lemma ones_bit b k : 0 <= b < 64 -> 0 <= k < 64 -> Z.testbit (2 ^ 64 - 1 - Z.shiftl 1 b) k = negb (k =? b).
Proof.
  intros B K. replace (2 ^ 64 - 1 - Z.shiftl 1 b) with (Z.ldiff (Z.ones 64) (Z.shiftl 1 b)).
  - rewrite Z.ldiff_spec, one_bit by lia. rewrite Z.ones_spec_low by lia. reflexivity.
  - rewrite <- Z.sub_nocarry_ldiff; [rewrite Z.ones_equiv; lia|]. apply Z.bits_inj'. intros i I. rewrite Z.ldiff_spec, one_bit, Z.bits_0 by lia. destruct (i =? b) eqn:E; [|reflexivity]. apply Z.eqb_eq in E. subst. rewrite Z.ones_spec_low by lia. reflexivity.
Qed.
(** membership by bits *)
Definition bit_of (w : Z) (l : list Z) (x : Z) : bool := Z.testbit (nth (Z.to_nat (x / w)) l 0) (x mod w).
Lemma bit_set w l x y v : 0 < w -> 0 <= x < w * Z.of_nat (length l) -> 0 <= y ->
  (forall k, 0 <= k < w -> k <> x mod w -> Z.testbit v k = Z.testbit (nth (Z.to_nat (x / w)) l 0) k) ->
  bit_of w (set_nth l (Z.to_nat (x / w)) v) y = if y =? x then Z.testbit v (x mod w) else bit_of w l y.
Proof.
  intros W X Y H. assert (XQ : 0 <= x / w < Z.of_nat (length l)) by (split; [apply Z.div_pos; lia|apply Z.div_lt_upper_bound; lia]). assert (YQ : 0 <= y / w) by (apply Z.div_pos; lia).
  unfold bit_of. rewrite nth_set by lia. destruct (y =? x) eqn:E.
  - apply Z.eqb_eq in E. subst. rewrite Nat.eqb_refl. reflexivity.
  - destruct (Z.to_nat (y / w) =? Z.to_nat (x / w))%nat eqn:Q; [|reflexivity]. apply Nat.eqb_eq in Q. assert (QZ : y / w = x / w) by lia. rewrite H; [rewrite QZ; reflexivity|apply Z.mod_pos_bound; lia|].
    intros M. apply Z.eqb_neq in E. apply E. rewrite (Z.div_mod y w), (Z.div_mod x w), QZ, M by lia. reflexivity.
Qed.
Lemma nth_rep (v : Z) n i : (i < n)%nat -> nth i (repeat v n) 0 = v.
Proof. revert i. induction n as [|n IH]; intros [|i] L; try lia; cbn; [reflexivity|]. apply IH. lia. Qed.

(** ** Signal sets *)
Definition sig_run (o : op) (set : list Z) : list Z :=
  match o with Empty => sigemptyset set | Fill => sigfillset set | Add x => fst (sigaddset set x) | Del x => fst (sigdelset set x) end.
Lemma sig_len o set : length (sig_run o set) = length set.
Proof.
  destruct o; cbn [sig_run]; [apply repeat_length|apply repeat_length| |]; [unfold sigaddset|unfold sigdelset]; (destruct (sig_ok _ _); cbn [fst]; [apply set_len|reflexivity]).
Qed.
Lemma sig_ok_iff set s : sig_ok set (s - 1) = true <-> 1 <= s <= 64 * Z.of_nat (length set).
Proof. unfold sig_ok. lia. Qed.
Lemma member_bit set s : 1 <= s <= 64 * Z.of_nat (length set) -> sigismember set s = if bit_of 64 set (s - 1) then 1 else 0.
Proof.
  intros H. unfold sigismember. rewrite (proj2 (sig_ok_iff set s) H). rewrite land_bit by (apply Z.mod_pos_bound; lia). unfold bit_of. destruct (Z.testbit _ _); reflexivity.
Qed.
Lemma sig_step o set x : 1 <= x <= 64 * Z.of_nat (length set) -> bit_of 64 (sig_run o set) (x - 1) = effect 1 (64 * Z.of_nat (length set)) o (fun y => bit_of 64 set (y - 1)) x.
Proof.
  intros X. assert (Q : 0 <= (x - 1) / 64 < Z.of_nat (length set)) by (split; [apply Z.div_pos; lia|apply Z.div_lt_upper_bound; lia]). pose proof (Z.mod_pos_bound (x - 1) 64) as M. destruct o as [| |a|a]; cbn [sig_run effect].
  - unfold sigemptyset, bit_of. rewrite nth_rep by lia. apply Z.bits_0.
  - unfold sigfillset, bit_of. rewrite nth_rep by lia. replace (2 ^ 64 - 1) with (Z.ones 64) by reflexivity. rewrite Z.ones_spec_low by lia. lia.
  - unfold sigaddset. destruct (sig_ok set (a - 1)) eqn:E.
    + apply sig_ok_iff in E. cbn [fst]. pose proof (Z.mod_pos_bound (a - 1) 64) as MA. rewrite (bit_set 64); [|lia|lia|lia|].
      * replace (x - 1 =? a - 1) with (x =? a) by lia. replace ((x =? a) && (1 <=? a) && (a <=? 64 * Z.of_nat (length set))) with (x =? a) by lia. destruct (x =? a); [|reflexivity]. rewrite Z.lor_spec, one_bit, Z.eqb_refl by lia. apply orb_true_r.
      * intros k K N. rewrite Z.lor_spec, one_bit by lia. replace (k =? (a - 1) mod 64) with false by lia. apply orb_false_r.
    + cbn [fst]. assert (NE : ~ 1 <= a <= 64 * Z.of_nat (length set)) by (rewrite <- sig_ok_iff; congruence). replace ((x =? a) && (1 <=? a) && (a <=? 64 * Z.of_nat (length set))) with false by lia. reflexivity.
  - unfold sigdelset. destruct (sig_ok set (a - 1)) eqn:E.
    + apply sig_ok_iff in E. cbn [fst]. pose proof (Z.mod_pos_bound (a - 1) 64) as MA. rewrite (bit_set 64); [|lia|lia|lia|].
      * replace (x - 1 =? a - 1) with (x =? a) by lia. destruct (x =? a); [|reflexivity]. rewrite Z.land_spec, ones_bit, Z.eqb_refl by lia. apply andb_false_r.
      * intros k K N. rewrite Z.land_spec, ones_bit by lia. replace (k =? (a - 1) mod 64) with false by lia. apply andb_true_r.
    + cbn [fst]. assert (NE : ~ 1 <= a <= 64 * Z.of_nat (length set)) by (rewrite <- sig_ok_iff; congruence). replace (x =? a) with false by lia. reflexivity.
Qed.
Lemma effect_ext lo hi o s t : (forall x, lo <= x <= hi -> s x = t x) -> forall x, lo <= x <= hi -> effect lo hi o s x = effect lo hi o t x.
Proof. intros H x X. destruct o; cbn [effect]; auto; [destruct ((x =? x0) && (lo <=? x0) && (x0 <=? hi))|destruct (x =? x0)]; auto. Qed.
Lemma after_ext lo hi os : forall s t, (forall x, lo <= x <= hi -> s x = t x) -> forall x, lo <= x <= hi -> after lo hi os s x = after lo hi os t x.
Proof. induction os as [|o os IH]; intros s t H x X; cbn; [auto|]. apply (IH _ _ (effect_ext lo hi o s t H) x X). Qed.
Lemma sig_hist os : forall set x, 1 <= x <= 64 * Z.of_nat (length set) -> bit_of 64 (fold_left (fun s o => sig_run o s) os set) (x - 1) = after 1 (64 * Z.of_nat (length set)) os (fun y => bit_of 64 set (y - 1)) x.
Proof.
  induction os as [|o os IH]; intros set x X; [reflexivity|]. cbn [fold_left]. rewrite IH by (rewrite sig_len; exact X). rewrite sig_len. unfold after. cbn [fold_left]. apply (after_ext 1 (64 * Z.of_nat (length set)) os); [|exact X]. intros y Y. apply sig_step. exact Y.
Qed.
Lemma sig_hist_len os : forall set, length (fold_left (fun s o => sig_run o s) os set) = length set.
Proof. induction os as [|o os IH]; intros set; [reflexivity|]. cbn. rewrite IH. apply sig_len. Qed.
Lemma zero_bits w x : 0 <= x < 2 ^ w -> 0 <= w -> (forall k, 0 <= k < w -> Z.testbit x k = false) -> x = 0.
Proof.
  intros X W H. apply Z.bits_inj'. intros k K. rewrite Z.bits_0. destruct (Z_lt_ge_dec k w); [apply H; lia|]. rewrite <- (Z.mod_small x (2 ^ w)) by lia. apply Z.mod_pow2_bits_high. lia.
Qed.
Lemma empty_iff set : Forall (fun w => 0 <= w < 2 ^ 64) set -> sigisemptyset set = true <-> forall x, 1 <= x <= 64 * Z.of_nat (length set) -> bit_of 64 set (x - 1) = false.
Proof.
  intros F. unfold sigisemptyset. rewrite forallb_forall. split.
  - intros H x X. unfold bit_of. set (i := Z.to_nat ((x - 1) / 64)). assert (L : (i < length set)%nat) by (unfold i; assert ((x - 1) / 64 < Z.of_nat (length set)) by (apply Z.div_lt_upper_bound; lia); lia).
    specialize (H (nth i set 0) (nth_In set 0 L)). apply Z.eqb_eq in H. rewrite H. apply Z.bits_0.
  - intros H w I. apply Z.eqb_eq. destruct (In_nth set w 0 I) as (i & L & E). rewrite Forall_forall in F. apply (zero_bits 64 w (F w I)); [lia|]. intros k K. specialize (H (64 * Z.of_nat i + k + 1) ltac:(lia)). unfold bit_of in H.
    replace (64 * Z.of_nat i + k + 1 - 1) with (k + Z.of_nat i * 64) in H by lia. rewrite Z.div_add, Z.mod_add in H by lia. rewrite Z.div_small, Z.mod_small in H by lia. replace (Z.to_nat (0 + Z.of_nat i)) with i in H by lia. rewrite E in H. exact H.
Qed.

(** ** Processor sets *)
Lemma cpu_isset_bit set c : 0 <= c < 8 * Z.of_nat (length set) -> exists v, cpu_isset c set = Ok v /\ (v = 0 <-> bit_of 8 set c = false).
Proof.
  intros C. unfold cpu_isset. replace (8 * Z.of_nat (length set) <=? c) with false by lia. replace (c <? 0) with false by lia. eexists. split; [reflexivity|]. rewrite <- Z.eqb_eq, land_bit by (apply Z.mod_pos_bound; lia). unfold bit_of. destruct (Z.testbit _ _); cbn; split; congruence.
Qed.
Lemma cpu_set_step set a : 0 <= a -> exists set', cpu_set a set = Ok set' /\ length set' = length set /\ forall x, 0 <= x < 8 * Z.of_nat (length set) -> bit_of 8 set' x = if x =? a then true else bit_of 8 set x.
Proof.
  intros A. unfold cpu_set. destruct (8 * Z.of_nat (length set) <=? a) eqn:E.
  - exists set. split; [reflexivity|]. split; [reflexivity|]. intros x X. replace (x =? a) with false by lia. reflexivity.
  - replace (a <? 0) with false by lia. eexists. split; [reflexivity|]. split; [apply set_len|]. intros x X. pose proof (Z.mod_pos_bound a 8) as MA. rewrite (bit_set 8); [|lia|lia|lia|].
    + destruct (x =? a); [|reflexivity]. change 256 with (2 ^ 8). rewrite Z.mod_pow2_bits_low by lia. rewrite Z.lor_spec, one_bit, Z.eqb_refl by lia. apply orb_true_r.
    + intros k K N. change 256 with (2 ^ 8). rewrite Z.mod_pow2_bits_low by lia. rewrite Z.lor_spec, one_bit by lia. replace (k =? a mod 8) with false by lia. apply orb_false_r.
Qed.
Lemma cpu_clear_step set a : 0 <= a -> exists set', cpu_clear a set = Ok set' /\ length set' = length set /\ forall x, 0 <= x < 8 * Z.of_nat (length set) -> bit_of 8 set' x = if x =? a then false else bit_of 8 set x.
Proof.
  intros A. unfold cpu_clear. destruct (8 * Z.of_nat (length set) <=? a) eqn:E.
  - exists set. split; [reflexivity|]. split; [reflexivity|]. intros x X. replace (x =? a) with false by lia. reflexivity.
  - replace (a <? 0) with false by lia. eexists. split; [reflexivity|]. split; [apply set_len|]. intros x X. pose proof (Z.mod_pos_bound a 8) as MA. rewrite (bit_set 8); [|lia|lia|lia|].
    + destruct (x =? a); [|reflexivity]. change 256 with (2 ^ 8). rewrite Z.mod_pow2_bits_low by lia. rewrite Z.land_spec, Z.lnot_spec, one_bit, Z.eqb_refl by lia. apply andb_false_r.
    + intros k K N. change 256 with (2 ^ 8). rewrite Z.mod_pow2_bits_low by lia. rewrite Z.land_spec, Z.lnot_spec, one_bit by lia. replace (k =? a mod 8) with false by lia. apply andb_true_r.
Qed.
Lemma size_ext s t n : forall lo, (forall x, lo <= x < lo + Z.of_nat n -> s x = t x) -> size s lo n = size t lo n.
Proof. induction n as [|n IH]; intros lo H; [reflexivity|]. cbn [size]. rewrite H by lia. rewrite IH; [reflexivity|]. intros x X. apply H. lia. Qed.
Lemma size_app s n m : forall lo, size s lo (n + m) = size s lo n + size s (lo + Z.of_nat n) m.
Proof. induction n as [|n IH]; intros lo; [cbn [size Nat.add]; rewrite Z.add_0_r; reflexivity|]. cbn [size Nat.add]. rewrite IH. replace (lo + 1 + Z.of_nat n) with (lo + Z.of_nat (S n)) by lia. lia. Qed.
Lemma size_shift s n : forall lo d, size (fun x => s (x + d)) lo n = size s (lo + d) n.
Proof. induction n as [|n IH]; intros lo d; [reflexivity|]. cbn [size]. rewrite IH. replace (lo + 1 + d) with (lo + d + 1) by lia. reflexivity. Qed.
Lemma bits_size b n : forall k, 0 <= k -> bits b k n = size (fun x => Z.testbit b x) k n.
Proof. induction n as [|n IH]; intros k K; [reflexivity|]. cbn [bits size]. rewrite IH by lia. rewrite Z.land_comm, land_bit by lia. destruct (Z.testbit b k); reflexivity. Qed.
Lemma count_size set : cpu_count set = size (bit_of 8 set) 0 (8 * length set).
Proof.
  induction set as [|b r IH]; [reflexivity|]. cbn [cpu_count length]. replace (8 * S (length r))%nat with (8 + 8 * length r)%nat by lia. rewrite size_app, bits_size, IH by lia. apply f_equal2.
  - apply size_ext. intros x X. unfold bit_of. rewrite Z.div_small, Z.mod_small by lia. reflexivity.
  - rewrite <- (size_shift (bit_of 8 (b :: r)) (8 * length r) 0 (Z.of_nat 8)). apply size_ext. intros x X. unfold bit_of. change (Z.of_nat 8) with (1 * 8). rewrite Z.div_add, Z.mod_add by lia. assert (0 <= x / 8) by (apply Z.div_pos; lia). replace (Z.to_nat (x / 8 + 1)) with (S (Z.to_nat (x / 8))) by lia. reflexivity.
Qed.
Lemma alloc_ok n : 0 <= n -> n <= 8 * cpu_alloc_size n < n + 64 /\ cpu_alloc_size n mod 8 = 0.
Proof.
  intros N. unfold cpu_alloc_size. pose proof (Z.div_mod n 64). pose proof (Z.mod_pos_bound n 64). split; [|rewrite Z.mul_comm; apply Z.mod_mul; lia].
  destruct (Z.eq_dec (n mod 64) 0) as [E|E]; [rewrite E; change ((0 + 64 - 1) / 64) with 0; lia|]. replace ((n mod 64 + 64 - 1) / 64) with 1 by (apply (Z.div_unique _ _ _ (n mod 64 - 1)); lia). lia.
Qed.
