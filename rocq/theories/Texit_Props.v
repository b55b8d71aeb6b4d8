(** The end of a thread: handlers, joining, detaching and cancellation (C69). *)
From Verif Require Import Texit_Model Texit_Spec Texit_Proof Tcancel_Proof Treach_Proof.
Open Scope Z_scope.

(** *** Handlers and destructors *)

(** Cleanup handlers and thread_local destructors are removed and run strictly in reverse order of
    registration, each at most once, whatever the thread, its handlers and other threads do. *)
Theorem C69_lifo : forall m j s, reachable m j s -> exists c d, outstanding (log s) = Some (c, d).
Proof. exact lifo. Qed.

(** When the end of a thread is published, exactly the destructors and handlers registered when it
    began to end have been run since: first the thread_local destructors, then the cleanup
    handlers, each most recent first. *)
Theorem C69_handlers : forall m j s l1 l2 k v l3, reachable m j s ->
  log s = l1 ++ EDid :: l2 ++ EExit k v :: l3 -> existsb registers l2 = false ->
  exists c d, outstanding l3 = Some (c, d) /\ runs l2 = map Dtor d ++ map Handler c.
Proof. exact handlers. Qed.

(** A thread begins to end at most once. *)
Theorem C69_exit_once : forall m j s l1 k v l2 k' v' r, reachable m j s ->
  log s = l1 ++ EExit k v :: l2 ++ EExit k' v' :: r -> False.
Proof. exact exit_once. Qed.

(** A thread_local destructor registered by a cleanup handler is never run. *)
Theorem C69_late_destructor_refuted : exists s, reachable false true s /\
  tp s = TDead /\ In EDid (log s) /\ outstanding (log s) = Some ([], [9]).
Proof.
  destruct (run step [(0, ARun); (0, UPush 7); (0, UReturn 5); (0, ARun); (0, ARun); (0, ARun);
    (0, ARun); (0, UAtexit 9); (0, UHRet); (0, ARun); (0, UKeysDone); (0, ARun); (0, ARun);
    (0, ARun)] (init false true)) as [s|] eqn:E; [|vm_compute in E; discriminate].
  exists s. split; [eexists; exact E|]. vm_compute in E. injection E as <-. cbn. auto.
Qed.

(** *** Joining *)

(** pthread_join returns only after the end of the thread was published, and with the value with
    which the thread began to end. *)
Theorem C69_join : forall m j s l1 t v r, reachable m j s -> log s = l1 ++ EJoinRet t v :: r ->
  exists a b k c, r = a ++ EDid :: b ++ EExit k v :: c.
Proof. exact join_value. Qed.

(** After its end is published the thread does nothing any more but disappear. *)
Theorem C69_after : forall m j s l1 r, reachable m j s -> log s = l1 ++ EDid :: r ->
  forallb external l1 = true.
Proof. exact after_did. Qed.

(** When a thread whose end was published is gone, nobody sleeps waiting for it, and whoever is
    still joining it returns by its own steps. *)
Theorem C69_joiners_return : forall m j s t, reachable m j s -> In EDid (log s) -> t <> 0 ->
  (tp s = TDead -> loc s t <> LSleep) /\
  (loc s t = LLoop \/ loc s t = LWait \/ loc s t = LGot ->
   exists n s' v, run step (repeat (t, ARun) n) s = Some s' /\ log s' = EJoinRet t v :: log s).
Proof.
  intros m j s t R D U. split.
  - intros T. exact (not_asleep _ _ _ _ R D T).
  - exact (joiner_returns _ _ _ _ R D U).
Qed.

(** A thread does not go without publishing its end, if what runs inside pthread_exit reaches no
    cancellation point while cancellation is enabled, does not enable it or make it asynchronous,
    and does not end the thread again. *)
Theorem C69_dead_partial : forall m j s, reachable_polite m j s -> tp s = TDead -> In EDid (log s).
Proof. exact polite_dead. Qed.

(** Without that rule this fails: a thread cancelled in pthread_testcancel whose cleanup handler
    reaches a cancellation point disappears without publishing its end, and no pthread_join on it
    ever returns. *)
Theorem C69_dead_refuted : exists s, reachable false true s /\ tp s = TDead /\ loc s 1 = LSleep /\
  cancelled (log s) /\
  forall sched s' t v, run step sched s = Some s' -> ~ In (EJoinRet t v) (log s').
Proof.
  destruct (run step [(0, ARun); (0, UPush 7); (1, OJoin); (1, ARun); (1, ARun); (1, ARun);
    (2, OCancel); (2, ARun); (2, ARun); (0, UTest); (0, ARun); (0, ARun); (0, ARun); (0, ARun);
    (0, UTest); (0, ARun)] (init false true)) as [s|] eqn:E; [|vm_compute in E; discriminate].
  assert (R : reachable false true s) by (eexists; exact E).
  exists s. split; [exact R|]. vm_compute in E.
  assert (T : tp s = TDead) by (injection E as <-; reflexivity).
  assert (N : ~ In EDid (log s)).
  { injection E as <-. cbn. intros Q. repeat destruct Q as [Q|Q]; try discriminate. exact Q. }
  split; [exact T|]. split; [injection E as <-; reflexivity|].
  split; [injection E as <-; exists 2; cbn; auto 20|].
  intros sched s' t v H. exact (dead_forever _ _ _ _ _ _ _ R T N H).
Qed.

(** *** Detaching *)

(** A thread is detached at most once, and afterwards pthread_join on it fails. *)
Theorem C69_detach : forall m j s l1 t r, reachable m j s -> log s = l1 ++ EDetach t :: r ->
  (forall u, ~ In (EDetach u) r) /\
  forall u, u <> 0 -> loc s u = LIdle ->
    exists s', step u OJoin s = Some s' /\ log s' = EJoinErr u :: log s.
Proof.
  intros m j s l1 t r R L. split.
  - intros u. exact (detach_once _ _ _ _ _ u _ R L).
  - intros u U I. refine (detached_join _ _ _ t u R _ U I).
    rewrite L. apply in_or_app. right. left. reflexivity.
Qed.

(** *** Cancellation *)

(** A thread is cancelled only if pthread_cancel was called on it, never while it has cancellation
    disabled, and its value is then PTHREAD_CANCELED. *)
Theorem C69_only_when : forall m j s l1 v r, reachable m j s ->
  log s = l1 ++ EExit Cancelled v :: r -> v = CANCELED /\ requested r /\ disabled r = false.
Proof. exact only_when. Qed.

(** Once pthread_cancel has returned, a thread that has cancellation enabled and reaches a
    cancellation point - pthread_testcancel or a cancellable system call - ends there. *)
Theorem C69_point : forall m j s, reachable m j s -> lvl s = Main -> tp s = TRun -> sg s = None ->
  cancelled (log s) -> enabled (log s) = true ->
  (exists s', run step ((0, UTest) :: repeat (0, ARun) 2) s = Some s' /\
     log s' = EExit Cancelled CANCELED :: log s) /\
  (exists s', run step ((0, USys) :: repeat (0, ARun) 4) s = Some s' /\
     log s' = EExit Cancelled CANCELED :: log s).
Proof.
  intros m j s R V T G C E. split.
  - exact (test_cancels _ _ _ R V T G C E).
  - exact (sys_cancels _ _ _ R V T G C E).
Qed.

(** With asynchronous cancellation the signal is pending, and can be delivered, or being handled,
    or about to be sent; and its delivery ends the thread.  This needs a thread that was created
    while its creator had cancellation enabled. *)
Theorem C69_async_partial : forall j s, reachable false j s -> lvl s = Main -> tp s = TRun ->
  cancelled (log s) -> enabled (log s) = true -> asynchronous (log s) = true ->
  mask s = false /\ (sg s <> None \/ pend s = true \/ exists t, t <> 0 /\ loc s t = LSend) /\
  (pend s = true -> sg s = None ->
   exists s', run step ((0, Deliver) :: repeat (0, ARun) 3) s = Some s' /\
     log s' = EExit Cancelled CANCELED :: log s).
Proof.
  intros j s R V T C E Y. destruct (async_arrives _ _ R V T C E Y) as [A B].
  split; [exact A|]. split; [exact B|]. exact (async_delivery _ _ R V T C E Y).
Qed.

(** A thread created while its creator had cancellation disabled inherits a mask that blocks the
    signal: asynchronous cancellation does not reach it. *)
Theorem C69_async_refuted : exists s, reachable true true s /\ lvl s = Main /\ tp s = TRun /\
  cancelled (log s) /\ enabled (log s) = true /\ asynchronous (log s) = true /\
  sg s = None /\ step 0 Deliver s = None /\ (forall t, loc s t <> LSend).
Proof.
  destruct (run step [(0, ARun); (0, UType true); (0, ARun); (1, OCancel); (1, ARun); (1, ARun)]
    (init true true)) as [s|] eqn:E; [|vm_compute in E; discriminate].
  exists s. split; [eexists; exact E|]. vm_compute in E. injection E as <-. cbn.
  repeat split.
  - exists 1. cbn. auto.
  - intros t. repeat match goal with |- context [match ?x with _ => _ end] => destruct x end; discriminate.
Qed.

(** A thread blocked in a cancellable system call is interrupted and ends, provided the signal did
    not arrive between the load of the cancellation bits and the first label of the system call. *)
Theorem C69_blocked_partial : forall j s, reachable_no_gap false j s -> lvl s = Main ->
  tp s = TKernel -> cancelled (log s) -> enabled (log s) = true ->
  mask s = false /\ (pend s = true \/ exists t, t <> 0 /\ loc s t = LSend) /\
  (pend s = true ->
   exists s', run (guarded no_gap step) ((0, Deliver) :: repeat (0, ARun) 3) s = Some s' /\
     log s' = EExit Cancelled CANCELED :: log s).
Proof.
  intros j s R V T C E. destruct (blocked_arrives _ _ R V T C E) as [A B].
  split; [exact A|]. split; [exact B|]. exact (blocked_delivery _ _ R V T C E).
Qed.

(** If it did, the cancellation is lost: the thread is in the system call, enabled and cancelled,
    and whatever anybody does, including further calls of pthread_cancel, it stays there until the
    system call returns by itself. *)
Theorem C69_blocked_refuted : exists s, reachable false true s /\ lvl s = Main /\ tp s = TKernel /\
  cancelled (log s) /\ enabled (log s) = true /\
  forall sched s', forallb (fun x => negb (kernel_returns (snd x))) sched = true ->
    run step sched s = Some s' -> tp s' = TKernel.
Proof.
  destruct (run step [(0, ARun); (0, USys); (1, OCancel); (1, ARun); (1, ARun); (0, Deliver);
    (0, ARun); (0, ARun)] (init false true)) as [s|] eqn:E; [|vm_compute in E; discriminate].
  assert (R : reachable false true s) by (eexists; exact E).
  exists s. split; [exact R|]. vm_compute in E.
  assert (S : stranded s).
  { injection E as <-. unfold stranded. cbn. repeat split.
    - intros t. repeat match goal with |- context [match ?x with _ => _ end] => destruct x end; discriminate.
    - intros t o. repeat match goal with |- context [match ?x with _ => _ end] => destruct x end; discriminate. }
  assert (Q : lvl s = Main /\ cancelled (log s) /\ enabled (log s) = true).
  { injection E as <-. repeat split. exists 1. cbn. auto. }
  destruct Q as (Q1 & Q2 & Q3). split; [exact Q1|]. split; [exact (proj1 S)|].
  split; [exact Q2|]. split; [exact Q3|].
  intros sched s' K H. exact (stranded_run _ _ _ S K H).
Qed.

(** Cancelling a system call must not lose its effect; but a call that has been carried out is
    still cancelled when the signal arrives at the label after the system call instruction. *)
Theorem C69_effect_refuted : exists s l, reachable false true s /\
  log s = EExit Cancelled CANCELED :: l ++ [EEffect] /\
  (forall b, ~ In (ESysRet b) l).
Proof.
  destruct (run step [(0, ARun); (0, USys); (0, ARun); (0, ARun); (0, KDone); (1, OCancel);
    (1, ARun); (1, ARun); (0, Deliver); (0, ARun); (0, ARun); (0, ARun)] (init false true))
    as [s|] eqn:E; [|vm_compute in E; discriminate].
  exists s, [ECancelRet 1 0; ECancelCall 1]. split; [eexists; exact E|]. vm_compute in E. injection E as <-.
  split; [reflexivity|]. intros b [Q|[Q|[]]]; discriminate.
Qed.

(** *** Non-vacuity *)
Definition demo : list (Z * act) :=
  [(0, ARun); (0, UAtexit 1); (0, UPush 2); (0, UPush 3); (0, UPop); (0, UPush 4); (0, UAtexit 5);
   (1, OJoin); (1, ARun); (1, ARun); (1, ARun); (2, OCancel); (2, ARun); (2, ARun);
   (0, USys); (0, ARun); (0, ARun); (0, ARun); (0, ARun)].

Definition demo_end : list (Z * act) :=
  [(0, ARun); (0, UHRet); (0, ARun); (0, UHRet); (0, ARun); (0, ARun); (0, UHRet); (0, ARun);
   (0, UHRet); (0, ARun); (0, UKeysDone); (0, ARun); (0, ARun); (0, ARun);
   (1, ARun); (1, ARun)].

(** a cancelled thread with two destructors and two handlers, joined *)
Example C69_demo : exists s l1 l2 l3, run step (demo ++ demo_end) (init false true) = Some s /\
  log s = EJoinRet 1 CANCELED :: l1 ++ EDid :: l2 ++ EExit Cancelled CANCELED :: l3 /\
  existsb registers l2 = false /\ requested l3 /\
  runs l2 = [Dtor 5; Dtor 1; Handler 4; Handler 2].
Proof.
  destruct (run step (demo ++ demo_end) (init false true)) as [s|] eqn:E; [|vm_compute in E; discriminate].
  exists s, [EDead], [ERunCln 2; ERunCln 4; ERunTls 1; ERunTls 5],
    [ECancelRet 2 0; ECancelCall 2; EAtexit 5; EPush 4; EPop 3; EPush 3; EPush 2; EAtexit 1].
  split; [reflexivity|]. vm_compute in E. injection E as <-.
  repeat split; try reflexivity. exists 2. cbn. auto.
Qed.

(** a thread that obeys the rule of C69_dead_partial, with a handler and a key destructor *)
Example C69_polite_demo : exists s, reachable_polite false true s /\ tp s = TDead /\
  log s <> [].
Proof.
  destruct (run (guarded polite step) [(0, ARun); (0, UPush 7); (0, UReturn 5); (0, ARun); (0, ARun);
    (0, ARun); (0, ARun); (0, UHRet); (0, ARun); (0, UDtor); (0, UHRet); (0, UKeysDone); (0, ARun);
    (0, ARun); (0, ARun)] (init false true)) as [s|] eqn:E; [|vm_compute in E; discriminate].
  exists s. split; [eexists; exact E|]. vm_compute in E. injection E as <-. split; [reflexivity|discriminate].
Qed.

(** cancelled, enabled and about to test *)
Example C69_point_demo : exists s, reachable false true s /\ lvl s = Main /\ tp s = TRun /\
  sg s = None /\ cancelled (log s) /\ enabled (log s) = true.
Proof.
  destruct (run step [(0, ARun); (0, UState false); (0, ARun); (0, ARun); (1, OCancel); (1, ARun);
    (0, UState true); (0, ARun); (0, ARun)] (init false true)) as [s|] eqn:E; [|vm_compute in E; discriminate].
  exists s. split; [eexists; exact E|]. vm_compute in E. injection E as <-. repeat split.
  exists 1. cbn. auto.
Qed.

(** asynchronous, with the signal pending *)
Example C69_async_demo : exists s, reachable false true s /\ lvl s = Main /\ tp s = TRun /\
  cancelled (log s) /\ enabled (log s) = true /\ asynchronous (log s) = true /\
  pend s = true /\ sg s = None.
Proof.
  destruct (run step [(0, ARun); (0, UType true); (0, ARun); (1, OCancel); (1, ARun); (1, ARun)]
    (init false true)) as [s|] eqn:E; [|vm_compute in E; discriminate].
  exists s. split; [eexists; exact E|]. vm_compute in E. injection E as <-. repeat split.
  exists 1. cbn. auto.
Qed.

(** blocked in a system call, with the signal pending *)
Example C69_blocked_demo : exists s, reachable_no_gap false true s /\ lvl s = Main /\
  tp s = TKernel /\ cancelled (log s) /\ enabled (log s) = true /\ pend s = true.
Proof.
  destruct (run (guarded no_gap step) [(0, ARun); (0, USys); (0, ARun); (0, ARun); (1, OCancel);
    (1, ARun); (1, ARun)] (init false true)) as [s|] eqn:E; [|vm_compute in E; discriminate].
  exists s. split; [eexists; exact E|]. vm_compute in E. injection E as <-. repeat split.
  exists 1. cbn. auto.
Qed.

(** detached, with somebody idle *)
Example C69_detach_demo : exists s, reachable false true s /\ log s = [EDetach 1] /\ loc s 2 = LIdle.
Proof.
  destruct (run step [(0, ARun); (1, ODetach); (1, ARun)] (init false true)) as [s|] eqn:E;
    [|vm_compute in E; discriminate].
  exists s. split; [eexists; exact E|]. vm_compute in E. injection E as <-. split; reflexivity.
Qed.

(** joining a thread whose end is published but which is still there *)
Example C69_joiner_demo : exists s, reachable false true s /\ In EDid (log s) /\ loc s 1 = LWait.
Proof.
  destruct (run step [(0, ARun); (1, OJoin); (1, ARun); (1, ARun); (0, UReturn 5); (0, ARun); (0, ARun);
    (0, ARun); (0, ARun); (0, UKeysDone); (0, ARun); (0, ARun)] (init false true)) as [s|] eqn:E;
    [|vm_compute in E; discriminate].
  exists s. split; [eexists; exact E|]. vm_compute in E. injection E as <-. cbn. auto.
Qed.

Print Assumptions C69_lifo.
Print Assumptions C69_handlers.
Print Assumptions C69_exit_once.
Print Assumptions C69_late_destructor_refuted.
Print Assumptions C69_join.
Print Assumptions C69_after.
Print Assumptions C69_joiners_return.
Print Assumptions C69_dead_partial.
Print Assumptions C69_dead_refuted.
Print Assumptions C69_detach.
Print Assumptions C69_only_when.
Print Assumptions C69_point.
Print Assumptions C69_async_partial.
Print Assumptions C69_async_refuted.
Print Assumptions C69_blocked_partial.
Print Assumptions C69_blocked_refuted.
Print Assumptions C69_effect_refuted.
