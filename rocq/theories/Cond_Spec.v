(** Specification vocabulary for condition variables. *)
From Verif Require Import Cond_Model.
Open Scope Z_scope.

Definition asleep (s : state) (t : Z) : Prop := exists tm e, at_ s t = WSleep tm e.
(** [t] has released the mutex in a wait that began when the sequence word was [e], and has not
    been woken yet *)
Definition blocked_since (s : state) (t e : Z) : Prop :=
  exists tm, at_ s t = WFutex tm e \/ at_ s t = WSleep tm e.
(** [t] sleeps although a signal or broadcast has been announced since its wait began *)
Definition overdue (s : state) (t : Z) : Prop := exists tm e, at_ s t = WSleep tm e /\ e <> seq s.

(** The system's FutexWake(one) wakes a sleeper if there is one; [chosen s w] says that it may be [w]. *)
Definition wakes_any (s : state) (w : Z) : Prop := asleep s w.
(** ... the one that has slept longest *)
Definition wakes_longest (s : state) (w : Z) : Prop :=
  asleep s w /\ forall u, asleep s u -> since s w <= since s u.

(** An execution: a schedule in which every wake-up of one thread is one the system may do, and in
    which the sequence word does not overflow (2^32 - 1 signals and broadcasts). *)
Inductive reachable (chosen : state -> Z -> Prop) : state -> Prop :=
| reach_init : reachable chosen init
| reach_step : forall s t a s', reachable chosen s -> step t a s = Some s' ->
    (forall w, a = Wake (Some w) -> chosen s w) ->
    (a = Wake None -> forall u, ~ asleep s u) ->
    (a = CallSignal \/ a = CallBroadcast -> seq s < 2 ^ 32 - 1) ->
    reachable chosen s'.
(** ... in which it may overflow *)
Inductive reachable_any (chosen : state -> Z -> Prop) : state -> Prop :=
| any_init : reachable_any chosen init
| any_step : forall s t a s', reachable_any chosen s -> step t a s = Some s' ->
    (forall w, a = Wake (Some w) -> chosen s w) ->
    (a = Wake None -> forall u, ~ asleep s u) ->
    reachable_any chosen s'.
