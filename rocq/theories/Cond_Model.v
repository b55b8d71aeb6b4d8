(** Model of condition variables: thread_cond_signal, thread_cond_broadcast and
    thread_cond_timedwait (options/internal/generic/threads.cpp:421-501; pthread_cond_* and cnd_*
    only call them).  The mutex is modelled by who holds it (see C31-C33 for the real one).
    Simplifications: sequentially consistent memory; one step is one access to the sequence word,
    one futex call or one mutex operation; FutexWait compares and sleeps atomically; a sleeper may
    also wake up for no reason (0), by a signal (EINTR) or, in the timed form, by the timeout
    (ETIMEDOUT); cancellation and the computation of the remaining time are not modelled: a timed
    wait may find at any turn that its deadline has passed or is invalid. *)
From Verif Require Export Conc.
Open Scope Z_scope.

Definition EINVAL : Z := 22.
Definition ETIMEDOUT : Z := 110.

(** the result of FutexWait, or of the deadline computation *)
Inductive outcome := Woken | Again | Intr | Fail (r : Z).

Inductive pc :=
| Ready
| WLoad (tm : bool)                      (* :445 before the load of seq *)
| WUnlock (tm : bool) (e : Z)            (* :449 loop head, seq = e, mutex held *)
| WFutex (tm : bool) (e : Z)             (* :453-470 before FutexWait(seq, e) *)
| WSleep (tm : bool) (e : Z)             (* asleep in it *)
| WLock (tm : bool) (e : Z) (o : outcome)(* :458, :462, :472 before locking the mutex again *)
| WCheck (tm : bool) (e : Z) (o : outcome) (* :484-498 mutex held again *)
| SWake                                  (* :423 signal: before FutexWake(one) *)
| BWake                                  (* :431 broadcast: before FutexWake(all) *)
| Dead.                                  (* an __ensure has failed *)

(** [owner]: holder of the mutex; [result]: of a thread's last wait; [since]: when a sleeper fell
    asleep, [now]: steps so far, [bcast]: the value of [seq] after the last broadcast (recorded for
    the specification, not read by the code) *)
Record state := { seq : Z; owner : option Z; at_ : Z -> pc; result : Z -> Z;
                  since : Z -> Z; now : Z; bcast : Z }.

Definition init : state :=
  {| seq := 0; owner := None; at_ := fun _ => Ready; result := fun _ => 0;
     since := fun _ => 0; now := 0; bcast := 0 |}.

Inductive act := CallLock | CallUnlock | CallWait (tm : bool) | CallSignal | CallBroadcast
  | Run | Wake (w : option Z) | Spurious | Interrupt | Expire | BadTime.

Definition go (s : state) (t : Z) (p : pc) : option state :=
  Some {| seq := seq s; owner := owner s; at_ := setf (at_ s) t p; result := result s;
          since := since s; now := now s + 1; bcast := bcast s |}.
Definition go_owner (s : state) (t : Z) (o : option Z) (p : pc) : option state :=
  Some {| seq := seq s; owner := o; at_ := setf (at_ s) t p; result := result s;
          since := since s; now := now s + 1; bcast := bcast s |}.
Definition sleep (s : state) (t : Z) (p : pc) : option state :=
  Some {| seq := seq s; owner := owner s; at_ := setf (at_ s) t p; result := result s;
          since := setf (since s) t (now s); now := now s + 1; bcast := bcast s |}.
Definition ret (s : state) (t : Z) (r : Z) : option state :=
  Some {| seq := seq s; owner := owner s; at_ := setf (at_ s) t Ready; result := setf (result s) t r;
          since := since s; now := now s + 1; bcast := bcast s |}.
(** :422, :430 seq.fetch_add(1), a uint32_t *)
Definition bump (s : state) (t : Z) (b : bool) : option state :=
  let q := (seq s + 1) mod 2 ^ 32 in
  Some {| seq := q; owner := owner s; at_ := setf (at_ s) t (if b then BWake else SWake); result := result s;
          since := since s; now := now s + 1; bcast := if b then q else bcast s |}.

(** FutexWake ends a sleep with result 0 *)
Definition woken (p : pc) : pc := match p with WSleep tm e => WLock tm e Woken | _ => p end.

(** :484-498 what the wait does once it has the mutex again *)
Definition check (s : state) (t : Z) (tm : bool) (e : Z) (o : outcome) : option state :=
  match o with
  | Woken => if seq s >? e then ret s t 0 else go s t (WUnlock tm e)
  | Again => if seq s >? e then ret s t 0 else go s t Dead
  | Intr => go s t (WUnlock tm e)
  | Fail r => ret s t r
  end.

Definition owns (s : state) (t : Z) : bool := match owner s with Some o => o =? t | None => false end.

Definition step (t : Z) (a : act) (s : state) : option state :=
  match at_ s t, a with
  | Ready, CallLock => match owner s with None => go_owner s t (Some t) Ready | Some _ => None end
  | Ready, CallUnlock => if owns s t then go_owner s t None Ready else None
  | Ready, CallWait tm => if owns s t then go s t (WLoad tm) else None
  | Ready, CallSignal => bump s t false
  | Ready, CallBroadcast => bump s t true
  | WLoad tm, Run => go s t (WUnlock tm (seq s))
  | WUnlock tm e, Run => go_owner s t None (WFutex tm e)
  | WFutex tm e, Run => if seq s =? e then sleep s t (WSleep tm e) else go s t (WLock tm e Again)
  | WFutex tm e, Expire => if tm then go s t (WLock tm e (Fail ETIMEDOUT)) else None
  | WFutex tm e, BadTime => if tm then go s t (WLock tm e (Fail EINVAL)) else None
  | WSleep tm e, Spurious => go s t (WLock tm e Woken)
  | WSleep tm e, Interrupt => go s t (WLock tm e Intr)
  | WSleep tm e, Expire => if tm then go s t (WLock tm e (Fail ETIMEDOUT)) else None
  | WLock tm e o, Run =>
      match owner s with None => go_owner s t (Some t) (WCheck tm e o) | Some _ => None end
  | WCheck tm e o, Run => check s t tm e o
  | SWake, Wake (Some w) =>              (* wakes one sleeper, which one is up to the system *)
      match at_ s w with
      | WSleep tm e =>
          Some {| seq := seq s; owner := owner s;
                  at_ := setf (setf (at_ s) w (woken (at_ s w))) t Ready; result := setf (result s) t 0;
                  since := since s; now := now s + 1; bcast := bcast s |}
      | _ => None
      end
  | SWake, Wake None => ret s t 0        (* there is no sleeper, see Cond_Spec.v *)
  | BWake, Run =>
      Some {| seq := seq s; owner := owner s; at_ := setf (wake_with woken (at_ s)) t Ready;
              result := setf (result s) t 0; since := since s; now := now s + 1; bcast := bcast s |}
  | _, _ => None
  end.
