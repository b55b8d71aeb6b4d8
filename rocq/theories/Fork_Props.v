(** C100: fork runs the handlers given to pthread_atfork, prepare handlers in reverse order before, parent or child handlers in order after. *)
From Verif Require Import Base Fork_Model Fork_Spec Fork_Proof.
Open Scope Z_scope.

(** After every history of registrations, thread creations and forks (also in the child, whose history goes on), a fork that succeeds runs the
    handlers that the calling thread registered: all of them, each once, in the required order.  Missing: those of other threads. *)
Theorem C100_order_partial : forall id ops t a, succeeds a ->
  exists p q, run (start id) ops = Ok p /\
    fork WithHandlers p t a = Ok (returns a, proper (registered_by t ops []) a, q).
Proof.
  intros id ops t a H. destruct (fork_history id ops) as (p & R & _ & F).
  destruct (F WithHandlers t a) as (q & E & _). exists p, q. split; auto.
  rewrite E. destruct a; [easy| |]; reflexivity.
Qed.
Print Assumptions C100_order_partial.

(** If only one thread registers handlers and that thread forks, these are all handlers. *)
Theorem C100_single_thread : forall id ops t a, only_by t ops -> succeeds a ->
  exists p q, run (start id) ops = Ok p /\
    fork WithHandlers p t a = Ok (returns a, proper (registered ops) a, q).
Proof.
  intros id ops t a O H. destruct (C100_order_partial id ops t a H) as (p & q & R & F).
  exists p, q. split; auto. rewrite F, (only_by_all t ops [] O). reflexivity.
Qed.
Print Assumptions C100_single_thread.

(** _Fork and vfork run no handler and return the same. *)
Theorem C100_plain : forall id ops t a, exists p q, run (start id) ops = Ok p /\
  fork Plain p t a = Ok (returns a, [Kernel], q).
Proof.
  intros id ops t a. destruct (fork_history id ops) as (p & R & _ & F).
  destruct (F Plain t a) as (q & E & _). now exists p, q.
Qed.
Print Assumptions C100_plain.

(** The thread id that mutexes and rwlocks use for their owner is the one the kernel knows, in the parent and in the child, after every history. *)
Theorem C100_tid : forall id ops, exists p, run (start id) ops = Ok p /\
  (forall t, tid (tcbs p t) = kernel_tid t ops id).
Proof. intros id ops. destruct (fork_history id ops) as (p & R & T & _). now exists p. Qed.
Print Assumptions C100_tid.

(** A handler registered by one thread does not run when another thread forks: for every set of handlers, a fork in a thread that was created
    after the registration runs none. *)
Theorem C100_threads_refuted : forall id id' f g h a, succeeds a ->
  exists p q, run (start id) [Register 0 (Triple (Some f) (Some g) (Some h)); Create 1 id'] = Ok p /\
    fork WithHandlers p 1 a = Ok (returns a, [Kernel], q) /\
    proper (registered [Register 0 (Triple (Some f) (Some g) (Some h)); Create 1 id']) a <> [Kernel].
Proof.
  intros id id' f g h a H.
  destruct (C100_order_partial id [Register 0 (Triple (Some f) (Some g) (Some h)); Create 1 id'] 1 a H) as (p & q & R & F).
  exists p, q. split; auto. rewrite F. split; [|easy]. destruct a; [easy| |]; reflexivity.
Qed.
Print Assumptions C100_threads_refuted.

(** If fork fails, the prepare handlers have run but no parent handler runs, so that what the former acquired is not released. *)
Theorem C100_failure_refuted : forall id ops t e, exists p, run (start id) ops = Ok p /\
  fork WithHandlers p t (Fails e) = Ok (-1, Some e, calls (map prepare (rev (registered_by t ops []))) ++ [Kernel], p).
Proof.
  intros id ops t e. destruct (fork_history id ops) as (p & R & _ & F).
  destruct (F WithHandlers t (Fails e)) as (q & E & _). exists p. split; auto.
  rewrite E. cbn. f_equal. f_equal. unfold fork in E. destruct (walk _ _ _ _ _) in E; cbn in E; try discriminate. now injection E.
Qed.
Print Assumptions C100_failure_refuted.

(** three registrations, one with null pointers, a fork into the child, one more registration there; then a fork *)
Definition some_ops : list op :=
  [Register 0 (Triple (Some 11) (Some 12) (Some 13)); Create 1 8; Register 0 (Triple None (Some 22) None);
   Register 0 (Triple (Some 31) None (Some 33)); Fork WithHandlers 0 (InChild 77); Register 0 (Triple (Some 41) (Some 42) (Some 43))].
Example C100_example :
  only_by 0 some_ops /\
  (p <- run (start 5) some_ops ;; '(r, _, tr, q) <- fork WithHandlers p 0 (InParent 99) ;; Ok (r, tr, tid (tcbs q 0), tid (tcbs q 1)))
  = Ok (99, [Call 41; Call 31; Call 11; Kernel; Call 12; Call 22; Call 42], 77, 8)
  /\ (p <- run (start 5) some_ops ;; '(r, _, tr, q) <- fork WithHandlers p 0 (InChild 99) ;; Ok (r, tr, tid (tcbs q 0)))
  = Ok (0, [Call 41; Call 31; Call 11; Kernel; Call 13; Call 33; Call 43], 99)
  /\ proper (registered some_ops) (InParent 99) = [Call 41; Call 31; Call 11; Kernel; Call 12; Call 22; Call 42].
Proof. split; [repeat constructor; discriminate|]. now vm_compute. Qed.
(** a lock taken by prepare stays taken *)
Example C100_failure_example :
  (p <- run (start 5) [Register 0 (Triple (Some 1) (Some 2) (Some 3))] ;; '(r, e, tr, _) <- fork WithHandlers p 0 (Fails 11) ;; Ok (r, e, tr))
  = Ok (-1, Some 11, [Call 1; Kernel]) /\ proper [Triple (Some 1) (Some 2) (Some 3)] (Fails 11) = [Call 1; Kernel; Call 2].
Proof. now vm_compute. Qed.
