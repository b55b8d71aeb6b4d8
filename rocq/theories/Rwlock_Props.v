(** C37, C55: read-write locks. *)
From Verif Require Import Rwlock_Model Rwlock_Spec Rwlock_Proof.
Open Scope Z_scope.

(** C37: whatever the number of threads, their calls and the schedule, a thread that holds the
    lock for writing is the only one that holds it: nobody (not even itself) has a read lock and
    nobody else has it for writing. *)
Theorem C37_writer_alone : forall s t,
  reachable s -> holds_write s t ->
  (forall u, ~ holds_read s u) /\ (forall u, holds_write s u -> u = t).
Proof.
  intros s t R H. pose proof (reachable_inv _ R) as I. unfold holds_write, holds_read in *. split.
  - intros u Hu. assert (Z0 : rc s = 0) by (apply (i_wr _ I t); unfold writes; rewrite H; reflexivity).
    pose proof (rc_zero _ _ u (i_rc _ I) Z0) as C. destruct (i_t _ I u) as (E & _). lia.
  - intros u Hu. assert (O : forall v, wr (threads s v) = true -> owns (threads s v) = true)
      by (intros v Hv; unfold owns; rewrite Hv; reflexivity).
    destruct (m_owner _ _ t (i_m _ I) (O t H)) as (a & b & _ & U). exact (U u (O u Hu)).
Qed.

(** While it does, nobody else is between taking and getting the lock, or between giving it back
    and having given it back, either. *)
Theorem C37_writer_alone_inside : forall s t,
  reachable s -> holds_write s t ->
  (forall u, has_mutex s u -> u = t) /\ (forall u, ~ counts_as_reader s u).
Proof.
  intros s t R H. pose proof (reachable_inv _ R) as I. unfold holds_write in H. split.
  - intros u Hu. apply owns_has in Hu.
    assert (O : owns (threads s t) = true) by (unfold owns; rewrite H; reflexivity).
    destruct (m_owner _ _ t (i_m _ I) O) as (a & b & _ & U). exact (U u Hu).
  - intros u Hu. assert (Z0 : rc s = 0) by (apply (i_wr _ I t); unfold writes; rewrite H; reflexivity).
    pose proof (rc_zero _ _ u (i_rc _ I) Z0) as C. unfold counts_as_reader in Hu. lia.
Qed.

(** No assertion of the code fails. *)
Theorem C37_no_abort : forall s t, reachable s -> at_ (threads s t) <> Dead.
Proof.
  intros s t R H. pose proof (i_t _ (reachable_inv _ R) t) as T. unfold tinv in T. rewrite H in T. tauto.
Qed.

(** The words of a lock that nobody holds, takes or gives back are 0 again: it can be destroyed,
    and the next caller finds it free. *)
Theorem C37_free : forall s,
  reachable s -> (forall t, ~ has_mutex s t) -> (forall t, ~ counts_as_reader s t) -> m s = 0 /\ rc s = 0.
Proof.
  intros s R M C. pose proof (reachable_inv _ R) as I. split.
  - destruct (i_m _ I) as [[E _]|(o & a & b & O & _)]; [exact E|]. apply owns_has in O. elim (M o O).
  - destruct (i_rc _ I) as (L & b & E & Hl & Hb & Hc). destruct L as [|t L].
    + destruct b; [elim (Hb eq_refl); reflexivity|exact E].
    + elim (C t). unfold counts_as_reader. rewrite <- Hc. cbn [count_occ].
      destruct (Z.eq_dec t t); [lia|congruence].
Qed.

(** Readers share: whoever asks for a read lock while nobody has the mutex gets it by running
    alone for four steps, no matter how many readers there are (fewer than 2^31 - 1). *)
Theorem C37_readers_share : forall s t,
  reachable s -> (forall u, ~ has_mutex s u) -> idle s t ->
  Z.land (rc s) rc_count_mask < rc_count_mask ->
  exists s', run (guarded client_rule step)
      [(t, CallLock {| excl := false; how := Block |}); (t, Run); (t, Run); (t, Run); (t, Run)] s = Some s' /\
    idle s' t /\ result (threads s' t) = 0 /\
    reads (threads s' t) = S (reads (threads s t)) /\
    forall u, u <> t -> threads s' u = threads s u.
Proof.
  intros s t R M Id Bd. pose proof (reachable_inv _ R) as I.
  assert (M0 : m s = 0).
  { destruct (i_m _ I) as [[E _]|(o & a & b & O & _)]; [exact E|]. apply owns_has in O. elim (M o O). }
  unfold idle in *. apply Z.ltb_lt in Bd.
  eexists. split.
  { cbn [run]. unfold guarded at 1, client_rule at 1. rewrite Id. cbn [negb].
    unfold step at 1. rewrite Id. unfold go, put, to. cbn [m rc threads at_ wr reads result counted how excl].
    unfold guarded at 1, client_rule at 1. cbn [m rc threads]. rewrite setf_same. cbn [at_].
    unfold step at 1. cbn [m rc threads]. rewrite setf_same. cbn [at_].
    unfold go, put, to. cbn [m rc threads]. rewrite setf_same. cbn [m rc threads at_ wr reads result counted].
    unfold guarded at 1, client_rule at 1. cbn [m rc threads]. rewrite setf_same. cbn [at_].
    unfold step at 1. cbn [m rc threads]. rewrite setf_same. cbn [at_].
    unfold m_turn. rewrite M0. cbn [Z.eqb negb m]. unfold put, to. cbn [m rc threads excl].
    rewrite setf_same. cbn [at_ wr reads result counted].
    unfold guarded at 1, client_rule at 1. cbn [m rc threads]. rewrite setf_same. cbn [at_]. rewrite Bd.
    unfold step at 1. cbn [m rc threads]. rewrite setf_same. cbn [at_].
    unfold put, to. cbn [m rc threads wr reads result counted].
    unfold guarded at 1, client_rule at 1. cbn [m rc threads]. rewrite setf_same. cbn [at_].
    unfold step at 1. cbn [m rc threads]. rewrite setf_same. cbn [at_].
    unfold desired. cbn [excl]. change (Z.land 1 mutex_waiters_bit =? 0) with true. cbn [negb].
    unfold put, to, finish, granted. cbn [m rc threads Z.eqb excl].
    cbn [at_ wr reads result counted]. reflexivity. }
  cbn [threads]. rewrite setf_same. cbn [at_ result reads]. repeat split.
  intros u N. rewrite !setf_other by exact N. reflexivity.
Qed.

(** A writer gets a lock that nobody holds, takes or gives back, in three steps. *)
Theorem C37_writer_gets_free_lock : forall s t,
  reachable s -> (forall u, ~ has_mutex s u) -> (forall u, ~ counts_as_reader s u) -> idle s t ->
  exists s', run (guarded client_rule step)
      [(t, CallLock {| excl := true; how := Block |}); (t, Run); (t, Run); (t, Run)] s = Some s' /\
    idle s' t /\ result (threads s' t) = 0 /\ holds_write s' t /\
    forall u, u <> t -> threads s' u = threads s u.
Proof.
  intros s t R M C Id. destruct (C37_free s R M C) as [M0 C0].
  unfold idle, holds_write in *.
  eexists. split.
  { cbn [run]. unfold guarded at 1, client_rule at 1. rewrite Id. cbn [negb].
    unfold step at 1. rewrite Id. unfold go, put, to. cbn [m rc threads at_ wr reads result counted how excl].
    unfold guarded at 1, client_rule at 1. cbn [m rc threads]. rewrite setf_same. cbn [at_].
    unfold step at 1. cbn [m rc threads]. rewrite setf_same. cbn [at_].
    unfold go, put, to. cbn [m rc threads]. rewrite setf_same. cbn [m rc threads at_ wr reads result counted].
    unfold guarded at 1, client_rule at 1. cbn [m rc threads]. rewrite setf_same. cbn [at_].
    unfold step at 1. cbn [m rc threads]. rewrite setf_same. cbn [at_].
    unfold m_turn. rewrite M0. cbn [Z.eqb negb m]. unfold put, to. cbn [m rc threads excl].
    rewrite setf_same. cbn [at_ wr reads result counted].
    unfold guarded at 1, client_rule at 1. cbn [m rc threads]. rewrite setf_same. cbn [at_].
    unfold step at 1. cbn [m rc threads]. rewrite setf_same. cbn [at_].
    unfold rc_test. cbn [m rc threads]. rewrite C0, setf_same. cbn [Z.eqb].
    unfold put, to, finish, granted. cbn [m rc threads Z.eqb excl].
    cbn [at_ wr reads result counted]. reflexivity. }
  cbn [threads]. rewrite setf_same. cbn [at_ result wr]. repeat split.
  - apply orb_true_r.
  - intros u N. rewrite !setf_other by exact N. reflexivity.
Qed.

(** Between its calls a thread counts in the lock's reader count exactly for the read locks it
    holds: every read lock was counted when it was granted and taken out when it was returned. *)
Theorem C37_books_balance : forall s t, reachable s -> idle s t ->
  counted (threads s t) = reads (threads s t).
Proof.
  intros s t R Id. destruct (i_t _ (reachable_inv _ R) t) as (E & _). unfold idle in Id.
  unfold extra in E. rewrite Id in E. lia.
Qed.

(** C55: while a thread sleeps until the mutex is released, somebody has the mutex and the waiters
    bit is set, or somebody is about to wake all sleepers. *)
Theorem C55_no_lost_wakeup : forall s t,
  reachable s -> sleeps_mutex s t ->
  (exists u, wakes_mutex s u) \/ (Z.land (m s) mutex_waiters_bit <> 0 /\ exists u, has_mutex s u).
Proof.
  intros s t R (k & e & H). pose proof (reachable_inv _ R) as I.
  destruct (i_ms _ I t ltac:(unfold msleeps; rewrite H; reflexivity)) as [B|[u Hu]].
  - right. split; [apply Z.eqb_neq; exact B|].
    destruct (i_m _ I) as [[E _]|(o & a & b & O & _)]; [rewrite E in B; discriminate B|].
    exists o. apply owns_has, O.
  - left. exists u. unfold wakes_mutex. unfold mwakes in Hu. destruct (at_ (threads s u)); try discriminate; exact Logic.I.
Qed.

(** While a writer sleeps until the readers are gone, there is a reader and the waiters bit is
    set, or somebody is about to wake the writer. *)
Theorem C55_writer_no_lost_wakeup : forall s t,
  reachable s -> sleeps_readers s t ->
  (exists u, wakes_writer s u) \/ (Z.land (rc s) rc_waiters_bit <> 0 /\ exists u, counts_as_reader s u).
Proof.
  intros s t R (k & e & H). pose proof (reachable_inv _ R) as I.
  destruct (i_rs _ I t ltac:(unfold rsleeps; rewrite H; reflexivity)) as [B|[u Hu]].
  - right. split; [apply Z.eqb_neq; exact B|].
    destruct (i_rc _ I) as (L & b & E & Hl & Hb & Hc). destruct L as [|o L].
    + destruct b; [elim (Hb eq_refl); reflexivity|]. rewrite E in B. discriminate B.
    + exists o. unfold counts_as_reader. rewrite <- Hc. cbn [count_occ].
      destruct (Z.eq_dec o o); [lia|congruence].
  - left. exists u. unfold wakes_writer. unfold rwakes in Hu. destruct (at_ (threads s u)); try discriminate; reflexivity.
Qed.

(** The wake-ups leave nobody asleep. *)
Theorem C55_wake_wakes : forall s u s',
  wakes_mutex s u -> step u Run s = Some s' -> forall t, ~ sleeps_mutex s' t.
Proof.
  intros s u s' W H t (k & e & Ht). unfold wakes_mutex, step in *.
  assert (X : exists (f : thread -> thread) x, s' = {| m := m s; rc := rc s; threads := setf (wake_with wake_m (threads s)) u (f x) |} /\
              forall k e, at_ (f x) <> MSleep k e).
  { destruct (at_ (threads s u)) eqn:E; try contradiction; injection H as <-.
    - exists (finish k0 r), (threads s u). split; [reflexivity|]. intros k1 e1. unfold finish, granted, refused, to.
      destruct (r =? 0); [discriminate|]. destruct (how k0); try discriminate. destruct (r =? EBUSY); discriminate.
    - exists (fun x => unlocked x (counted x)), (threads s u). split; [reflexivity|]. discriminate. }
  destruct X as (f & x & -> & N). cbn [threads] in Ht. unfold wake_with in Ht.
  destruct (Z.eq_dec t u) as [->|D].
  - rewrite setf_same in Ht. exact (N _ _ Ht).
  - rewrite setf_other in Ht by exact D. unfold wake_m, to in Ht.
    destruct (at_ (threads s t)) eqn:E; cbn in Ht; congruence.
Qed.
Theorem C55_writer_wake_wakes : forall s u s',
  wakes_writer s u -> step u Run s = Some s' -> forall t, ~ sleeps_readers s' t.
Proof.
  intros s u s' W H t (k & e & Ht). unfold wakes_writer, step in *. rewrite W in H. injection H as <-.
  cbn [threads] in Ht. unfold wake_with in Ht.
  destruct (Z.eq_dec t u) as [->|D].
  - rewrite setf_same in Ht. discriminate Ht.
  - rewrite setf_other in Ht by exact D. unfold wake_rc, to in Ht.
    destruct (at_ (threads s t)) eqn:E; cbn in Ht; congruence.
Qed.

(** A thread in a call that is not asleep can always take its next step. *)
Theorem C55_never_stuck : forall s t,
  reachable s -> ~ idle s t -> ~ sleeps_mutex s t -> ~ sleeps_readers s t ->
  exists s', step t Run s = Some s'.
Proof.
  intros s t R Id Ms Rs. pose proof (C37_no_abort s t R) as D. unfold idle, sleeps_mutex, sleeps_readers in *.
  unfold step, try_failed, m_turn, rc_turn, rc_test, unlock_turn, go, put.
  destruct (at_ (threads s t)) eqn:E; try congruence; try (eexists; reflexivity);
    try (elim Ms; eauto; fail); try (elim Rs; eauto; fail);
    repeat match goal with |- context [if ?c then _ else _] => destruct c end; eexists; reflexivity.
Qed.

(** Once the readers are gone and the mutex is the writer's, a woken writer gets the lock at its
    next step. *)
Theorem C55_writer_proceeds : forall s t k,
  reachable s -> at_ (threads s t) = RcLoad k -> (forall u, ~ counts_as_reader s u) ->
  exists s', step t Run s = Some s' /\ idle s' t /\ result (threads s' t) = 0 /\ holds_write s' t.
Proof.
  intros s t k R E C. pose proof (reachable_inv _ R) as I.
  assert (Z0 : rc s = 0).
  { destruct (i_rc _ I) as (L & b & Er & Hl & Hb & Hc). destruct L as [|o L].
    - destruct b; [elim (Hb eq_refl); reflexivity|exact Er].
    - elim (C o). unfold counts_as_reader. rewrite <- Hc. cbn [count_occ].
      destruct (Z.eq_dec o o); [lia|congruence]. }
  pose proof (i_t _ I t) as T. unfold tinv in T. rewrite E in T. destruct T as (_ & _ & Ek & _).
  unfold step. rewrite E. unfold rc_test. rewrite Z0. cbn [Z.eqb]. unfold put. eexists. split; [reflexivity|].
  unfold idle, holds_write. cbn [threads]. rewrite setf_same. unfold granted. cbn [at_ result wr].
  rewrite Ek. repeat split. apply orb_true_r.
Qed.

(** A try call is refused only if somebody has the mutex (holds the lock for writing or is inside
    a call), or, for a writer, if there is a reader. *)
Theorem C55_try_refused : forall s t k s',
  reachable s -> (at_ (threads s t) = TLoad k \/ at_ (threads s t) = TCas k) ->
  step t Run s = Some s' -> idle s' t -> exists u, has_mutex s u.
Proof.
  intros s t k s' R Ht H Id. pose proof (reachable_inv _ R) as I.
  destruct (i_m _ I) as [[E _]|(o & a & b & O & _)]; [|exists o; apply owns_has, O].
  exfalso. unfold idle in Id. unfold step in H.
  destruct Ht as [Ht|Ht]; rewrite Ht, E in H; cbn [Z.eqb] in H.
  - apply go_Some in H. subst s'. cbn [threads] in Id. rewrite setf_same in Id. discriminate Id.
  - apply put_Some in H. subst s'. cbn [threads] in Id. rewrite setf_same in Id. cbn in Id.
    destruct (excl k); discriminate Id.
Qed.
Theorem C55_trywr_refused : forall s t k s',
  reachable s -> at_ (threads s t) = RcTry k -> step t Run s = Some s' ->
  (holds_write s' t /\ idle s' t) \/
  (at_ (threads s' t) = MRelease k EBUSY /\ exists u, counts_as_reader s u).
Proof.
  intros s t k s' R Ht H. pose proof (reachable_inv _ R) as I. unfold step in H. rewrite Ht in H.
  pose proof (i_t _ I t) as T. unfold tinv in T. rewrite Ht in T. destruct T as (_ & _ & Ek & _).
  destruct (Z.eqb_spec (rc s) 0) as [Z0|N].
  - left. apply put_Some in H. subst s'. unfold holds_write, idle. cbn [threads]. rewrite setf_same.
    unfold granted. cbn [wr at_]. rewrite Ek. split; [apply orb_true_r|reflexivity].
  - right. apply go_Some in H. subst s'. cbn [threads]. rewrite setf_same. split; [reflexivity|].
    destruct (i_rc _ I) as (L & b & Er & Hl & Hb & Hc). destruct L as [|o L].
    + destruct b; [elim (Hb eq_refl); reflexivity|]. elim N. exact Er.
    + exists o. unfold counts_as_reader. rewrite <- Hc. cbn [count_occ].
      destruct (Z.eq_dec o o); [lia|congruence].
Qed.

(** Defect: a timed read lock fails with EAGAIN, long before its deadline, merely because another
    reader is inside rdlock at the moment; nobody has or wants the lock for writing. *)
Theorem C55_timed_read_refuted : exists s,
  run (guarded client_rule step)
    [(1, CallLock {| excl := false; how := Block |}); (1, Run); (1, Run);
     (2, CallLock {| excl := false; how := Timed |}); (2, Run)] init = Some s /\
  idle s 2 /\ result (threads s 2) = EAGAIN /\ ~ holds_read s 2.
Proof.
  destruct (run (guarded client_rule step) _ init) as [s|] eqn:E; [|vm_compute in E; discriminate].
  exists s. split; [reflexivity|]. vm_compute in E. injection E as <-.
  split; [reflexivity|]. split; [reflexivity|]. intros H. vm_compute in H. inversion H.
Qed.

(** Defect: tryrdlock fails with EBUSY although the lock is held for reading only and nobody
    waits for it, because a trywrlock that is about to fail has the mutex for a moment. *)
Theorem C55_try_read_refuted : exists s,
  run (guarded client_rule step)
    [(1, CallLock {| excl := false; how := Block |}); (1, Run); (1, Run); (1, Run); (1, Run);
     (2, CallLock {| excl := true; how := Try |}); (2, Run); (2, Run);
     (3, CallLock {| excl := false; how := Try |}); (3, Run); (2, Run); (2, Run)] init = Some s /\
  holds_read s 1 /\ idle s 2 /\ result (threads s 2) = EBUSY /\ idle s 3 /\ result (threads s 3) = EBUSY.
Proof.
  destruct (run (guarded client_rule step) _ init) as [s|] eqn:E; [|vm_compute in E; discriminate].
  exists s. split; [reflexivity|]. vm_compute in E. injection E as <-.
  split; [vm_compute; constructor|]. repeat split; reflexivity.
Qed.

(** ** Non-vacuity *)
Definition rd := {| excl := false; how := Block |}.
Definition wrt := {| excl := true; how := Block |}.

(** what the examples look at: the threads 1 to 4 *)
Definition view (s : state) : list (pc * bool * nat) :=
  map (fun t => (at_ (threads s t), wr (threads s t), reads (threads s t))) [1; 2; 3; 4].

(** readers 1 and 2 hold the lock, writer 3 sleeps until they are gone, reader 4 until the mutex
    is released *)
Definition busy : list (Z * act) :=
  [(1, CallLock rd); (1, Run); (1, Run); (1, Run); (1, Run);
   (2, CallLock rd); (2, Run); (2, Run); (2, Run); (2, Run);
   (3, CallLock wrt); (3, Run); (3, Run); (3, Run); (3, Run); (3, Run);
   (4, CallLock rd); (4, Run); (4, Run); (4, Run)].

Example busy_state : exists s, run (guarded client_rule step) busy init = Some s /\
  holds_read s 1 /\ holds_read s 2 /\ sleeps_readers s 3 /\ sleeps_mutex s 4.
Proof.
  assert (X : option_map view (run (guarded client_rule step) busy init) =
    Some [(Ready, false, 1%nat); (Ready, false, 1%nat); (RcSleep wrt 2, false, 0%nat);
          (MSleep rd 1073741825, false, 0%nat)]) by (vm_compute; reflexivity).
  destruct (run (guarded client_rule step) busy init) as [s|] eqn:E; [|discriminate].
  exists s. split; [reflexivity|]. cbn [option_map] in X. unfold view in X. cbn [map] in X.
  injection X as X1 X2 X3 X4 X5 X6 X7 X8 X9 X10 X11 X12.
  unfold holds_read, sleeps_readers, sleeps_mutex.
  rewrite X3, X6, X7, X10. repeat split; eauto.
Qed.

(** both readers unlock, the second wakes the writer, who gets the lock *)
Definition busy_writer : list (Z * act) :=
  busy ++ [(1, CallUnlock); (1, Run); (1, Run); (2, CallUnlock); (2, Run); (2, Run); (2, Run); (3, Run)].
Example busy_on : exists s, run (guarded client_rule step) busy_writer init = Some s /\
  holds_write s 3 /\ sleeps_mutex s 4.
Proof.
  assert (X : option_map view (run (guarded client_rule step) busy_writer init) =
    Some [(Ready, false, 0%nat); (Ready, false, 0%nat); (Ready, true, 0%nat);
          (MSleep rd 1073741825, false, 0%nat)]) by (vm_compute; reflexivity).
  destruct (run (guarded client_rule step) busy_writer init) as [s|] eqn:E; [|discriminate].
  exists s. split; [reflexivity|]. cbn [option_map] in X. unfold view in X. cbn [map] in X.
  injection X as X1 X2 X3 X4 X5 X6 X7 X8 X9 X10 X11 X12.
  unfold holds_write, sleeps_mutex. rewrite X8, X10. eauto.
Qed.

(** the writer unlocks and wakes reader 4, who gets the lock *)
Example busy_end : exists s, run (guarded client_rule step) (busy_writer ++
    [(3, CallUnlock); (3, Run); (3, Run); (3, Run); (4, Run); (4, Run); (4, Run)]) init = Some s /\
  holds_read s 4 /\ idle s 3 /\ idle s 4 /\ ~ holds_write s 3.
Proof.
  set (l := busy_writer ++ _).
  assert (X : option_map view (run (guarded client_rule step) l init) =
    Some [(Ready, false, 0%nat); (Ready, false, 0%nat); (Ready, false, 0%nat);
          (Ready, false, 1%nat)]) by (vm_compute; reflexivity).
  destruct (run (guarded client_rule step) l init) as [s|] eqn:E; [|discriminate].
  exists s. split; [reflexivity|]. cbn [option_map] in X. unfold view in X. cbn [map] in X.
  injection X as X1 X2 X3 X4 X5 X6 X7 X8 X9 X10 X11 X12.
  unfold holds_write, holds_read, idle. rewrite X7, X8, X10, X12. repeat split; auto; discriminate.
Qed.

Print Assumptions C37_writer_alone.
Print Assumptions C37_writer_alone_inside.
Print Assumptions C37_no_abort.
Print Assumptions C37_free.
Print Assumptions C37_readers_share.
Print Assumptions C37_writer_gets_free_lock.
Print Assumptions C37_books_balance.
Print Assumptions C55_no_lost_wakeup.
Print Assumptions C55_writer_no_lost_wakeup.
Print Assumptions C55_wake_wakes.
Print Assumptions C55_writer_wake_wakes.
Print Assumptions C55_never_stuck.
Print Assumptions C55_writer_proceeds.
Print Assumptions C55_try_refused.
Print Assumptions C55_trywr_refused.
Print Assumptions C55_timed_read_refuted.
Print Assumptions C55_try_read_refuted.
