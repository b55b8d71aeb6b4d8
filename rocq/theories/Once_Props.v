(** C34: pthread_once. *)
From Verif Require Import Once_Model Once_Proof.
Open Scope Z_scope.

(** C34: under every schedule of any number of threads the function is never entered a second
    time, and once any caller has returned it has been entered and left exactly once. *)
Theorem C34_once : forall s, reachable s ->
  0 <= ended s <= began s /\ began s <= 1 /\
  (forall t, returned s t = true -> began s = 1 /\ ended s = 1).
Proof.
  intros s R. pose proof (reachable_inv s R) as I.
  destruct (i_done _ I) as [(A & B & C & D)|[(A & r & Rr & U & B & C)|(A & B & C & D)]].
  - rewrite B, C. repeat split; try lia; apply (i_ret _ I) in H; rewrite A in H; discriminate.
  - assert (X : 0 <= ended s <= began s /\ began s <= 1).
    { rewrite B, C. destruct Rr as [E|[E|E]]; rewrite E; lia. }
    destruct X as [X1 X2]. split; [exact X1|]. split; [exact X2|].
    intros t H. apply (i_ret _ I) in H. rewrite A in H; discriminate.
  - rewrite B, C. repeat split; lia.
Qed.

(** A thread asleep in pthread_once waits for a function that has not finished, or it is about
    to be woken; the wake-up leaves nobody asleep. *)
Theorem C34_no_lost_wakeup : forall s t, reachable s -> at_ s t = Sleep ->
  (exists u, at_ s u = Before \/ at_ s u = InFunc \/ at_ s u = After) \/ (exists u, at_ s u = Wake).
Proof.
  intros s t R H. pose proof (reachable_inv s R) as I.
  destruct (i_sleep _ I t H) as [A|A]; [left|right; exact A].
  destruct (i_done _ I) as [(B & _)|[(_ & r & Rr & _)|(B & _)]];
    [rewrite A in B; discriminate|exists r; exact Rr|rewrite A in B; discriminate].
Qed.

Theorem C34_wake_wakes_all : forall s u s' t,
  at_ s u = Wake -> step u Run s = Some s' -> at_ s' t <> Sleep.
Proof.
  intros s u s' t P H. unfold step in H. rewrite P in H. injection H as <-. cbn. unfold wake_with.
  destruct (setf (at_ s) u Ready t); discriminate.
Qed.

(** the assertion in the loop never fails *)
Theorem C34_no_abort : forall s t, reachable s -> at_ s t <> Dead.
Proof. intros s t R. exact (i_dead _ (reachable_inv s R) t). Qed.

(** a caller that finds the function done returns without calling it; a caller that comes first
    and is left alone runs it *)
Theorem C34_completes : forall s t, reachable s -> at_ s t = Ready ->
  (forall u, at_ s u <> Before /\ at_ s u <> InFunc /\ at_ s u <> After) ->
  exists sched s', run step sched s = Some s' /\ Forall (fun x => fst x = t) sched /\
    returned s' t = true /\ at_ s' t = Ready.
Proof.
  intros s t R P Q. pose proof (reachable_inv s R) as I.
  destruct (i_done _ I) as [(A & B & C & D)|[(A & r & Rr & U & B & C)|(A & B & C & D)]].
  - exists [(t, Call); (t, Run); (t, Run); (t, Run); (t, Run); (t, Run); (t, Run)].
    eexists. split; [|split; [repeat constructor|]].
    + cbn [run]. unfold step at 1. rewrite P. unfold go at 1.
      unfold step at 1; cbn [at_]; rewrite setf_same. unfold go at 1; cbn [done at_]. rewrite A.
      unfold step at 1; cbn [at_]; rewrite setf_same. cbn [Z.land onceComplete Z.eqb negb done]. unfold go at 1.
      unfold step at 1; cbn [at_]; rewrite setf_same.
      unfold step at 1; cbn [at_]; rewrite setf_same.
      unfold step at 1; cbn [at_]; rewrite setf_same. unfold go at 1.
      unfold step at 1; cbn [at_]; rewrite setf_same. reflexivity.
    + cbn. unfold wake_with. rewrite !setf_same. split; reflexivity.
  - elim (Q r); intros N1 [N2 N3]. destruct Rr as [E|[E|E]]; contradiction.
  - exists [(t, Call); (t, Run); (t, Run)].
    eexists. split; [|split; [repeat constructor|]].
    + cbn [run]. unfold step at 1. rewrite P. unfold go at 1.
      unfold step at 1; cbn [at_]; rewrite setf_same. unfold go at 1; cbn [done at_]. rewrite A.
      unfold step at 1; cbn [at_]; rewrite setf_same. cbn [Z.land onceComplete Z.eqb negb Pos.land]. unfold ret.
      reflexivity.
    + cbn. rewrite !setf_same. split; reflexivity.
Qed.

(** ** Non-vacuity: thread 1 runs the function, 2 sleeps, 3 read 0 before 1 locked and retries,
    and in the end all three have returned *)
Example three : exists s,
  run step [(1, Call); (3, Call); (1, Run); (3, Run); (1, WeakFail); (1, Run); (3, Run); (2, Call);
            (2, Run); (2, Run); (1, Run)] init = Some s /\
  at_ s 1 = InFunc /\ at_ s 2 = Sleep /\ at_ s 3 = Loop onceLocked /\ began s = 1 /\ ended s = 0.
Proof.
  destruct (run step _ init) as [s|] eqn:E; [|vm_compute in E; discriminate].
  exists s. split; [reflexivity|]. vm_compute in E. injection E as <-. repeat split; reflexivity.
Qed.

Example three_done : exists s,
  run step [(1, Call); (3, Call); (1, Run); (3, Run); (1, WeakFail); (1, Run); (3, Run); (2, Call);
            (2, Run); (2, Run); (1, Run); (1, Run); (3, Run); (1, Run); (3, Spurious); (3, Run); (3, Run);
            (1, Run); (2, Run); (2, Run)] init = Some s /\
  returned s 1 = true /\ returned s 2 = true /\ returned s 3 = true /\ began s = 1 /\ ended s = 1.
Proof.
  destruct (run step _ init) as [s|] eqn:E; [|vm_compute in E; discriminate].
  exists s. split; [reflexivity|]. vm_compute in E. injection E as <-. repeat split; reflexivity.
Qed.

Print Assumptions C34_once.
Print Assumptions C34_no_lost_wakeup.
Print Assumptions C34_wake_wakes_all.
Print Assumptions C34_no_abort.
Print Assumptions C34_completes.
