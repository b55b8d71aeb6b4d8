(** C31, C32: the internal lock. *)
From Verif Require Import Lock_Model Lock_Spec Lock_Proof.
Open Scope Z_scope.

(** C31: whatever the number of threads and the schedule, two different threads never hold the
    lock at the same time; [rec] says which of the two lock types it is. *)
Theorem C31_mutual_exclusion : forall rec s t u,
  reachable rec s -> holds s t -> holds s u -> t = u.
Proof.
  intros rec s t u R Ht Hu. exact (inv_unique rec s t u (reachable_inv _ _ R) (or_introl Ht) (or_introl Hu)).
Qed.

(** Nobody holds the lock while another thread is still taking it or giving it back either. *)
Theorem C31_exclusion_inside : forall rec s t u,
  reachable rec s -> holds s t -> acquiring_or_releasing s u -> t = u.
Proof.
  intros rec s t u R Ht Hu. exact (inv_unique rec s t u (reachable_inv _ _ R) (or_introl Ht) (or_intror Hu)).
Qed.

(** No assertion of the lock fails, with two exceptions: a thread that locks a non-recursive
    lock it holds is stopped by the deadlock detection, and a thread that calls try_lock() on a
    recursive lock it holds runs into an assertion. *)
Theorem C31_no_abort : forall rec s t d,
  reachable rec s -> at_ (threads s t) = Dead d ->
  holds s t /\ ((rec = false /\ d = DeadlockPanic) \/ (rec = true /\ d = TryEnsure)).
Proof.
  intros rec s t d R H. pose proof (i_thread _ _ (reachable_inv _ _ R) t) as T.
  unfold tinv in T. rewrite H in T. destruct T as (_ & _ & T). unfold holds.
  destruct d; try contradiction; destruct T as [A B]; auto.
Qed.

(** The second exception is real: try_lock() on a recursive lock by its holder should succeed
    (the code's own comment says so), but it ends the process. *)
Theorem C31_recursive_try_refuted : exists s,
  reachable true s /\ holds s 7 /\ at_ (threads s 7) = Dead TryEnsure.
Proof.
  destruct (run (guarded client_rule (step true))
    [(7, CallLock); (7, Run); (7, Run); (7, CallTryLock); (7, Run); (7, Run)] init) as [s|] eqn:E;
    [|vm_compute in E; discriminate].
  exists s. split; [eexists; exact E|]. vm_compute in E. injection E as <-.
  split; vm_compute; reflexivity.
Qed.

(** A recursive lock is given back by the last of the matching unlock() calls and not before:
    while its holder's depth is positive the lock word names the holder, and when nobody holds,
    takes or returns it, the word is 0, so that the next lock() takes it. *)
Theorem C31_word : forall rec s, reachable rec s ->
  (forall t, holds s t -> Z.land (word s) ownerMask = t) /\
  ((forall t, ~ holds s t /\ ~ acquiring_or_releasing s t) -> word s = 0).
Proof.
  intros rec s R. pose proof (reachable_inv _ _ R) as I. split.
  - intros t H. destruct (i_own _ _ I t (or_introl H)) as (V & (b & E) & _).
    rewrite E. apply enc_owner; exact V.
  - intros H. destruct (i_free _ _ I) as [[E _]|[o [O|O]]]; [exact E| |].
    + destruct (H o) as [A _]. contradiction.
    + destruct (H o) as [_ A]. contradiction.
Qed.

(** C32: while a thread sleeps in lock(), either some thread is about to wake all sleepers, or
    another thread has the lock and the waiters bit is set. *)
Theorem C32_no_lost_wakeup : forall rec s t,
  reachable rec s -> sleeping s t ->
  (exists u, about_to_wake s u) \/
  (waiters_bit_set s /\ exists u, u <> t /\ (holds s u \/ acquiring_or_releasing s u)).
Proof.
  intros rec s t R H. pose proof (reachable_inv _ _ R) as I.
  destruct (i_sleep _ _ I t H) as [B|B]; [right|left; exact B].
  split; [exact (testbit_land _ B)|].
  destruct (inv_word _ _ I) as [(E & _)|(o & b & V & O & E & _)].
  - rewrite E in B. elim B; reflexivity.
  - exists o. split; [|exact O]. intros ->.
    pose proof (i_thread _ _ I t) as T. unfold tinv in T. red in H. rewrite H in T.
    destruct O as [O|O]; [lia|rewrite H in O; contradiction].
Qed.

(** The thread that gives the lock back while another one sleeps does wake it: after the
    exchange a wake-up is due, and the wake-up leaves nobody asleep. *)
Theorem C32_release_wakes : forall rec s t u s',
  reachable rec s -> sleeping s t -> at_ (threads s u) = UnlockXchg ->
  step rec u Run s = Some s' -> exists v, about_to_wake s' v.
Proof.
  intros rec s t u s' R Hs Hu H. pose proof (reachable_inv _ _ R) as I.
  unfold step in H. destruct (valid_tid u) eqn:V; [|discriminate]. cbn [negb] in H.
  rewrite Hu in H. unfold about_to_wake.
  destruct (i_sleep _ _ I t Hs) as [B|(v & Hv)].
  - assert (O : own (threads s u)) by (right; rewrite Hu; exact Logic.I).
    destruct (i_own _ _ I u O) as (_ & (b & Eb) & _). rewrite Eb in *.
    rewrite enc_owner, enc_bit in H by exact V. rewrite enc_bit in B by exact V.
    rewrite Z.eqb_refl in H. destruct b; [|elim B; reflexivity]. cbn in H.
    injection H as <-. exists u. cbn. rewrite setf_same. reflexivity.
  - exists v. assert (N : v <> u) by (intros ->; congruence).
    destruct (Z.land (word s) ownerMask =? u); [destruct (negb (Z.land (word s) waitersBit =? 0))|];
      unfold go, ret in H; injection H as <-; cbn; rewrite setf_other by exact N; exact Hv.
Qed.

Theorem C32_wake_wakes_all : forall rec s u s' t,
  about_to_wake s u -> step rec u Run s = Some s' -> ~ sleeping s' t.
Proof.
  intros rec s u s' t Hu H. unfold step in H. destruct (negb (valid_tid u)); [discriminate|].
  red in Hu. rewrite Hu in H. injection H as <-. unfold sleeping, wake_with. cbn.
  apply wake_sleep.
Qed.

(** The wake-up and the exchange are always possible. *)
Theorem C32_release_possible : forall rec s u,
  reachable rec s -> at_ (threads s u) = UnlockXchg \/ (at_ (threads s u) = UnlockWake /\ valid_tid u = true) ->
  exists s', step rec u Run s = Some s'.
Proof.
  intros rec s u R H. pose proof (reachable_inv _ _ R) as I. unfold step. destruct H as [H|[H V]].
  - assert (O : own (threads s u)) by (right; rewrite H; exact Logic.I).
    destruct (i_own _ _ I u O) as (V & (b & Eb) & _). rewrite V, H, Eb. cbn [negb].
    rewrite enc_owner by exact V. rewrite Z.eqb_refl.
    destruct (negb (Z.land (enc u b) waitersBit =? 0)); eexists; reflexivity.
  - rewrite V, H. eexists; reflexivity.
Qed.

(** ** Non-vacuity *)

(** thread 5 holds the lock, thread 9 has set the waiters bit and sleeps, thread 11 spins *)
Definition contended : list (Z * act) :=
  [(5, CallLock); (5, Run); (9, CallLock); (9, Run); (9, Run); (9, Run);
   (11, CallLock); (11, Run)].

Example contended_state : exists s,
  run (guarded client_rule (step false)) contended init = Some s /\
  holds s 5 /\ sleeping s 9 /\ waiters_bit_set s /\ at_ (threads s 11) = LockLoop (word s).
Proof.
  destruct (run (guarded client_rule (step false)) contended init) as [s|] eqn:E;
    [|vm_compute in E; discriminate].
  exists s. split; [reflexivity|]. vm_compute in E. injection E as <-.
  repeat split; vm_compute; reflexivity.
Qed.

(** it goes on: 5 unlocks, 11 steals the lock before the wake-up, 9 wakes and sleeps again *)
Example contended_on : exists s,
  run (guarded client_rule (step false))
    (contended ++ [(5, CallUnlock); (5, Run); (11, Run); (11, Run); (5, Run);
                   (9, Run); (9, Run); (9, Run)]) init = Some s /\
  holds s 11 /\ sleeping s 9.
Proof.
  destruct (run (guarded client_rule (step false)) _ init) as [s|] eqn:E;
    [|vm_compute in E; discriminate].
  exists s. split; [reflexivity|]. vm_compute in E. injection E as <-.
  repeat split; vm_compute; reflexivity.
Qed.

(** a recursive lock taken twice by thread 5 and returned once is still held *)
Example nested : exists s,
  run (guarded client_rule (step true))
    [(5, CallLock); (5, Run); (5, Run); (5, CallLock); (5, Run); (5, Run); (5, CallUnlock); (5, Run)] init = Some s /\
  holds s 5 /\ recursion s = 1 /\ word s = 5.
Proof.
  destruct (run (guarded client_rule (step true)) _ init) as [s|] eqn:E;
    [|vm_compute in E; discriminate].
  exists s. split; [reflexivity|]. vm_compute in E. injection E as <-.
  repeat split; vm_compute; reflexivity.
Qed.

Print Assumptions C31_mutual_exclusion.
Print Assumptions C31_exclusion_inside.
Print Assumptions C31_no_abort.
Print Assumptions C31_recursive_try_refuted.
Print Assumptions C31_word.
Print Assumptions C32_no_lost_wakeup.
Print Assumptions C32_release_wakes.
Print Assumptions C32_wake_wakes_all.
Print Assumptions C32_release_possible.
