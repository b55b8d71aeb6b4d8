From Verif Require Import Base Fdset_Model Fdset_Spec.
Open Scope Z_scope.

Lemma int64_ok x : fits x -> int64 x = Ok x.
Proof. unfold fits, int64, in64. intros F. destruct (Z.leb_spec (-9223372036854775808) x); [|lia]. destruct (Z.leb_spec x 9223372036854775807); [reflexivity|lia]. Qed.
Lemma carry_ok : forall fuel s u, (Z.to_nat u < fuel)%nat -> 0 <= u -> fits u -> fits s -> fits (s + u / 1000000) -> carry fuel s u = Ok (tv (s + u / 1000000) (u mod 1000000)).
Proof.
  induction fuel as [|fuel IH]; intros s u F U0 U S D; [lia|]. cbn [carry]. unfold fits in *. destruct (Z.ltb_spec 999999 u).
  - assert (Q : u / 1000000 = (u - 1000000) / 1000000 + 1). { replace u with (u - 1000000 + 1 * 1000000) at 1 by lia. rewrite Z.div_add by lia. reflexivity. }
    assert (M : u mod 1000000 = (u - 1000000) mod 1000000). { replace u with (u - 1000000 + 1 * 1000000) at 1 by lia. now rewrite Z.mod_add by lia. }
    assert (P : 0 <= (u - 1000000) / 1000000) by (apply Z.div_pos; lia).
    rewrite int64_ok by (unfold fits; lia). cbn [bind]. rewrite int64_ok by (unfold fits; lia). cbn [bind]. rewrite IH by (unfold fits; lia). rewrite Q, M. f_equal. f_equal. lia.
  - rewrite Z.div_small, Z.mod_small by lia. now rewrite Z.add_0_r.
Qed.
Lemma borrow_ok : forall fuel s u, (Z.to_nat (- u) < fuel)%nat -> u <= 999999 -> fits u -> fits s -> fits (s + u / 1000000) -> borrow fuel s u = Ok (tv (s + u / 1000000) (u mod 1000000)).
Proof.
  induction fuel as [|fuel IH]; intros s u F U0 U S D; [lia|]. cbn [borrow]. unfold fits in *. destruct (Z.ltb_spec u 0).
  - assert (Q : (u + 1 * 1000000) / 1000000 = u / 1000000 + 1) by (apply Z.div_add; lia).
    assert (M : (u + 1 * 1000000) mod 1000000 = u mod 1000000) by (apply Z.mod_add; lia). rewrite Z.mul_1_l in Q, M.
    assert (P : u / 1000000 < 0) by (apply Z.div_lt_upper_bound; lia).
    rewrite int64_ok by (unfold fits; lia). cbn [bind]. rewrite int64_ok by (unfold fits; lia). cbn [bind]. rewrite IH by (unfold fits; lia). rewrite Q, M. f_equal. f_equal. lia.
  - rewrite Z.div_small, Z.mod_small by lia. now rewrite Z.add_0_r.
Qed.
Lemma parts s u : micros (tv (s + u / 1000000) (u mod 1000000)) = s * 1000000 + u /\ normal (tv (s + u / 1000000) (u mod 1000000)).
Proof. unfold micros, normal. cbn [sec usec]. pose proof (Z.div_mod u 1000000). pose proof (Z.mod_pos_bound u 1000000). lia. Qed.

Lemma add_ok a b : normal a -> normal b -> fits (sec a + sec b) -> fits ((micros a + micros b) / 1000000) ->
  exists r, timeradd a b = Ok r /\ micros r = micros a + micros b /\ normal r.
Proof.
  intros A B S D. unfold normal in A, B. assert (E : (micros a + micros b) / 1000000 = sec a + sec b + (usec a + usec b) / 1000000).
  { unfold micros. replace (sec a * 1000000 + usec a + (sec b * 1000000 + usec b)) with (usec a + usec b + (sec a + sec b) * 1000000) by lia. rewrite Z.div_add by lia. lia. }
  rewrite E in D. eexists. split; [unfold timeradd; rewrite int64_ok by exact S; cbn [bind]; rewrite int64_ok by (unfold fits; lia); cbn [bind]; apply carry_ok; auto; unfold fits; lia|].
  destruct (parts (sec a + sec b) (usec a + usec b)) as [P Q]. split; [|exact Q]. rewrite P. unfold micros. lia.
Qed.
Lemma sub_ok a b : normal a -> normal b -> fits (sec a - sec b) -> fits ((micros a - micros b) / 1000000) ->
  exists r, timersub a b = Ok r /\ micros r = micros a - micros b /\ normal r.
Proof.
  intros A B S D. unfold normal in A, B. assert (E : (micros a - micros b) / 1000000 = sec a - sec b + (usec a - usec b) / 1000000).
  { unfold micros. replace (sec a * 1000000 + usec a - (sec b * 1000000 + usec b)) with (usec a - usec b + (sec a - sec b) * 1000000) by lia. rewrite Z.div_add by lia. lia. }
  rewrite E in D. eexists. split; [unfold timersub; rewrite int64_ok by exact S; cbn [bind]; rewrite int64_ok by (unfold fits; lia); cbn [bind]; apply borrow_ok; auto; unfold fits; lia|].
  destruct (parts (sec a - sec b) (usec a - usec b)) as [P Q]. split; [|exact Q]. rewrite P. unfold micros. lia.
Qed.

Lemma inverse_ok a b : normal a -> normal b -> fits (sec a - 1) -> fits (sec a) -> fits (sec a - sec b) -> fits ((micros a - micros b) / 1000000) ->
  exists r, timersub a b = Ok r /\ timeradd r b = Ok a.
Proof.
  intros A B S1 S0 S D. destruct (sub_ok a b A B S D) as [r [E [M N]]]. exists r. split; [exact E|].
  assert (X : micros r + micros b = micros a) by lia. destruct (add_ok r b N B) as [r' [E' [M' N']]].
  - clear - A B N X S1 S0. unfold fits, normal, micros in *. lia.
  - rewrite X. replace (micros a / 1000000) with (sec a); [exact S0|]. unfold micros. rewrite Z.add_comm, Z.div_add by lia. unfold normal in A. rewrite Z.div_small by lia. reflexivity.
  - rewrite E'. f_equal. rewrite X in M'. clear - A N' M'. destruct a as [s u], r' as [s' u']. unfold normal, micros in *. cbn [sec usec] in *. f_equal; lia.
Qed.

(** sets *)
Lemma mask_ok n : 0 <= n < 64 -> FD_MASK n = 2 ^ n.
Proof.
  intros N. unfold FD_MASK. rewrite Z.shiftl_1_l. apply Z.mod_small. split; [apply Z.pow_nonneg; lia|]. change 18446744073709551616 with (2 ^ 64). apply Z.pow_lt_mono_r; lia.
Qed.
Lemma low_bits fd : 0 <= fd -> Z.land fd (NFDBITS - 1) = fd mod 64.
Proof. intros F. change (NFDBITS - 1) with (Z.ones 6). rewrite Z.land_ones by lia. reflexivity. Qed.
Lemma bit_test w n : 0 <= n -> (Z.land w (2 ^ n) =? 0) = negb (Z.testbit w n).
Proof.
  intros N. destruct (Z.testbit w n) eqn:T; cbn [negb].
  - apply Z.eqb_neq. intros E. assert (X : Z.testbit (Z.land w (2 ^ n)) n = true) by now rewrite Z.land_spec, T, Z.pow2_bits_true. rewrite E, Z.bits_0 in X. discriminate.
  - apply Z.eqb_eq. apply Z.bits_inj'. intros k K. rewrite Z.land_spec, Z.bits_0, Z.pow2_bits_eqb by lia. destruct (Z.eqb_spec n k) as [<-|]; [now rewrite T|apply andb_false_r].
Qed.
Lemma put_length s : forall i w, length (put s i w) = length s.
Proof. induction s as [|x s IH]; intros [|i] w; cbn [put length]; auto. Qed.
Lemma put_nth s : forall i j w, (i < length s)%nat -> nth j (put s i w) 0 = if Nat.eqb j i then w else nth j s 0.
Proof.
  induction s as [|x s IH]; intros i j w L; cbn [length] in L; [lia|]. destruct i as [|i], j as [|j]; cbn [put nth Nat.eqb]; try reflexivity. apply IH. lia.
Qed.
Definition bit (s : fdset) (fd : Z) : bool := Z.testbit (get s (fd / 64)) (fd mod 64).
Lemma in_set_ok fd : 0 <= fd < 1024 -> in_set fd = true.
Proof. intros F. unfold in_set, FD_SETSIZE. destruct (Z.leb_spec 0 fd); [|lia]. destruct (Z.ltb_spec fd 1024); [reflexivity|lia]. Qed.
Lemma isset_ok fd s : 0 <= fd < 1024 -> FD_ISSET fd s = Ok (if bit s fd then 1 else 0).
Proof.
  intros F. unfold FD_ISSET. rewrite in_set_ok by exact F. rewrite low_bits by lia. pose proof (Z.mod_pos_bound fd 64). rewrite mask_ok by lia. change NFDBITS with 64. rewrite bit_test by lia. rewrite negb_involutive. reflexivity.
Qed.
Lemma word_bound fd : 0 <= fd < 1024 -> 0 <= fd / 64 < 16.
Proof. intros F. split; [apply Z.div_pos; lia|apply Z.div_lt_upper_bound; lia]. Qed.
Lemma same_word fd x : 0 <= fd -> 0 <= x -> Nat.eqb (Z.to_nat (x / 64)) (Z.to_nat (fd / 64)) = (x / 64 =? fd / 64).
Proof. intros F X. pose proof (Z.div_pos fd 64). pose proof (Z.div_pos x 64). destruct (Z.eqb_spec (x / 64) (fd / 64)) as [->|]; [apply Nat.eqb_refl|]. apply Nat.eqb_neq. lia. Qed.
Lemma set_ok fd s : 0 <= fd < 1024 -> length s = 16%nat -> exists s', FD_SET fd s = Ok s' /\ length s' = 16%nat /\ forall x, 0 <= x < 1024 -> bit s' x = (x =? fd) || bit s x.
Proof.
  intros F L. unfold FD_SET. rewrite in_set_ok by exact F. rewrite low_bits by lia. pose proof (Z.mod_pos_bound fd 64). rewrite mask_ok by lia. change NFDBITS with 64. eexists. split; [reflexivity|]. split; [now rewrite put_length|].
  intros x X. unfold bit, get at 1. rewrite put_nth by (rewrite L; pose proof (word_bound fd F); lia). rewrite same_word by lia. pose proof (Z.mod_pos_bound x 64).
  destruct (Z.eqb_spec (x / 64) (fd / 64)) as [E|E].
  - rewrite Z.lor_spec, Z.pow2_bits_eqb by lia. rewrite E. rewrite orb_comm. f_equal. pose proof (Z.div_mod x 64). pose proof (Z.div_mod fd 64). destruct (Z.eqb_spec (fd mod 64) (x mod 64)), (Z.eqb_spec x fd); try reflexivity; [lia|subst; lia].
  - destruct (Z.eqb_spec x fd); [subst; lia|]. reflexivity.
Qed.
Lemma clr_ok fd s : 0 <= fd < 1024 -> length s = 16%nat -> exists s', FD_CLR fd s = Ok s' /\ length s' = 16%nat /\ forall x, 0 <= x < 1024 -> bit s' x = negb (x =? fd) && bit s x.
Proof.
  intros F L. unfold FD_CLR. rewrite in_set_ok by exact F. rewrite low_bits by lia. pose proof (Z.mod_pos_bound fd 64). rewrite mask_ok by lia. change NFDBITS with 64. eexists. split; [reflexivity|]. split; [now rewrite put_length|].
  intros x X. unfold bit, get at 1. rewrite put_nth by (rewrite L; pose proof (word_bound fd F); lia). rewrite same_word by lia. pose proof (Z.mod_pos_bound x 64).
  destruct (Z.eqb_spec (x / 64) (fd / 64)) as [E|E].
  - change 18446744073709551616 with (2 ^ 64). rewrite Z.land_spec, Z.mod_pow2_bits_low, Z.lnot_spec, Z.pow2_bits_eqb by lia. rewrite E. rewrite andb_comm. f_equal. f_equal. pose proof (Z.div_mod x 64). pose proof (Z.div_mod fd 64). destruct (Z.eqb_spec (fd mod 64) (x mod 64)), (Z.eqb_spec x fd); try reflexivity; [lia|subst; lia].
  - destruct (Z.eqb_spec x fd); [subst; lia|]. reflexivity.
Qed.
Lemma zero_ok x : 0 <= x < 1024 -> bit FD_ZERO x = false.
Proof. intros X. unfold bit, get, FD_ZERO. rewrite nth_repeat. apply Z.bits_0. Qed.

Lemma history_ok l : Forall valid l -> forall s m, length s = 16%nat -> (forall x, 0 <= x < 1024 -> (bit s x = true <-> m x)) ->
  exists s', calls s l = Ok s' /\ length s' = 16%nat /\ forall x, 0 <= x < 1024 -> (bit s' x = true <-> fold_left member_step l m x).
Proof.
  induction 1 as [|o l V F IH]; intros s m L M; [exists s; auto|]. unfold calls. cbn [fold_left]. assert (X : exists s1, step (Ok s) o = Ok s1 /\ length s1 = 16%nat /\ forall x, 0 <= x < 1024 -> (bit s1 x = true <-> member_step m o x)).
  { destruct o as [|fd|fd]; cbn [step bind member_step valid] in *.
    - exists FD_ZERO. split; [reflexivity|]. split; [reflexivity|]. intros x X. rewrite zero_ok by exact X. split; [discriminate|intros []].
    - destruct (set_ok fd s V L) as [s1 [E [L1 B]]]. exists s1. split; [exact E|]. split; [exact L1|]. intros x X. rewrite B, orb_true_iff, Z.eqb_eq, M by exact X. reflexivity.
    - destruct (clr_ok fd s V L) as [s1 [E [L1 B]]]. exists s1. split; [exact E|]. split; [exact L1|]. intros x X. rewrite B, andb_true_iff, negb_true_iff, Z.eqb_neq, M by exact X. reflexivity. }
  destruct X as [s1 [E [L1 B]]]. destruct (IH s1 (member_step m o) L1 B) as [s' R]. exists s'. unfold calls in R. rewrite <- E in R. exact R.
Qed.
Lemma members_ok l fd : Forall valid l -> 0 <= fd < 1024 -> exists s, calls FD_ZERO l = Ok s /\ (members l fd -> FD_ISSET fd s = Ok 1) /\ (~ members l fd -> FD_ISSET fd s = Ok 0).
Proof.
  intros V F. destruct (history_ok l V FD_ZERO (fun _ => False)) as [s [E [L B]]]; [reflexivity|intros x X; rewrite zero_ok by exact X; split; [discriminate|intros []]|].
  exists s. split; [exact E|]. rewrite isset_ok by exact F. specialize (B fd F). unfold members. split; intros M; destruct (bit s fd); auto; exfalso; [apply B in M; discriminate|apply M, B; reflexivity].
Qed.
Lemma range_ok fd s : ~ 0 <= fd < 1024 -> FD_SET fd s = Abort /\ FD_CLR fd s = Abort /\ FD_ISSET fd s = Abort.
Proof.
  intros N. assert (E : in_set fd = false). { unfold in_set, FD_SETSIZE. destruct (Z.leb_spec 0 fd); [|reflexivity]. destruct (Z.ltb_spec fd 1024); [lia|reflexivity]. }
  unfold FD_SET, FD_CLR, FD_ISSET. rewrite E. auto.
Qed.
