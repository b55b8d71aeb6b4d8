(** C102: spin locks. *)
From Verif Require Import Base Spin_Model Spin_Spec Spin_Proof.
Open Scope Z_scope.

(** At most one thread holds the lock. *)
Theorem C102_exclusion : forall s t u, reachable s -> t <> 0 -> u <> 0 -> holds t (trace s) = true -> holds u (trace s) = true -> t = u.
Proof. intros s t u R T U H1 H2. apply reachable_inv in R. rewrite <- (holds_own s t), <- (holds_own s u); auto. Qed.
Print Assumptions C102_exclusion.

(** lock returns 0 to a thread that does not hold the lock and EDEADLK to the holder; trylock 0 or EBUSY, 0 never to the holder; unlock 0 to
    the holder and EPERM to all others. *)
Theorem C102_results : forall s later t o v before, reachable s -> trace s = later ++ Ret t o v :: before ->
  match o with
  | Lock => v = if holds t before then EDEADLK else 0
  | Trylock => v = EBUSY \/ v = 0 /\ holds t before = false
  | Unlock => v = if held_at_unlock t before then 0 else EPERM
  end.
Proof.
  intros s later t o v before R E. apply reachable_inv in R. destruct R as (_ & _ & G). pose proof (all_good_in _ G _ _ _ E) as X. cbn in X.
  destruct o; [destruct X as [[-> ->]|[-> ->]]; auto|destruct X as [[-> H]| ->]; auto|destruct X as [[-> ->]|[-> ->]]; auto].
Qed.
Print Assumptions C102_results.

(** Where no other thread is in a call and none holds the lock, lock and trylock get it at once. *)
Theorem C102_free : forall s t, reachable s -> t <> 0 -> (forall u, u <> t -> at_ s u = Idle) -> (forall u, u <> 0 -> holds u (trace s) = false) ->
  (at_ s t = LockTry \/ at_ s t = LockSpin -> exists n, (n <= 3)%nat /\ trace (alone n t s) = Ret t Lock 0 :: trace s) /\
  (at_ s t = TryTry -> trace (alone 2 t s) = Ret t Trylock 0 :: trace s).
Proof.
  intros s t R NZ O H. apply reachable_inv in R. split.
  - intros [P|P]; assert (W : word s = 0) by (eapply free_word; eauto).
    + exists 2%nat. split; [lia|]. cbn. rewrite P. cbn. rewrite W. cbn. rewrite put_same. reflexivity.
    + exists 3%nat. split; [lia|]. cbn. rewrite P. cbn. rewrite W. cbn. rewrite put_same. cbn. rewrite put_same. reflexivity.
  - intros P. assert (W : word s = 0) by (eapply free_word; eauto). cbn. rewrite P. cbn. rewrite W. cbn. rewrite put_same. reflexivity.
Qed.
Print Assumptions C102_free.

(** trylock and unlock return after at most three steps of their own, whatever the others do. *)
Theorem C102_wait_free : forall s t o l, at_ s t = Idle -> o <> Lock -> (3 <= moves t l)%nat ->
  exists r new, trace (run ((t, Begin o) :: l) s) = new ++ Call t o :: trace s /\ In (Ret t o r) new.
Proof.
  intros s t o l A N M. cbn [run step]. rewrite A. set (s1 := St (word s) (put (at_ s) t (enter o)) (Call t o :: trace s)).
  assert (P : at_ s1 t = enter o) by (cbn; apply put_same).
  destruct (ranked t l s1) as (r & new & E & X); [rewrite P; destruct o; cbn; lia || congruence|rewrite P; destruct o; cbn; lia || congruence|].
  exists r, new. rewrite E. split; auto. rewrite P in X. destruct o; auto. congruence.
Qed.
Print Assumptions C102_wait_free.

(** Non-vacuity: thread 1 locks, locks again; thread 2 is busy, may not unlock, spins; thread 1 unlocks, 2 gets it after a failure of the weak
    compare-exchange. *)
Definition m : action := Move false.
Definition story : list (Z * action) :=
  [(1, Begin Lock); (1, m); (1, m); (2, Begin Trylock); (2, m); (1, Begin Lock); (2, m); (1, m); (1, m); (2, Begin Unlock); (2, m); (2, m);
   (2, Begin Lock); (2, m); (2, m); (1, Begin Unlock); (1, m); (2, m); (1, m); (2, m); (2, Move true); (1, m); (2, m); (2, m); (2, m)].
Example C102_story : reachable (run story init) /\ holds 2 (trace (run story init)) = true /\ holds 1 (trace (run story init)) = false /\
  rev (trace (run story init)) = [Call 1 Lock; Ret 1 Lock 0; Call 2 Trylock; Call 1 Lock; Ret 2 Trylock EBUSY; Ret 1 Lock EDEADLK; Call 2 Unlock; Ret 2 Unlock EPERM;
     Call 2 Lock; Call 1 Unlock; Ret 1 Unlock 0; Ret 2 Lock 0].
Proof.
  split; [|vm_compute; auto]. exists story. split; auto. intros t a H. unfold story in H. cbn in H.
  repeat (destruct H as [H|H]; [injection H as <- _; discriminate|]). destruct H.
Qed.
