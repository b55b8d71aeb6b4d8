(** Model of options/posix/generic/semaphore.cpp: sem_init, sem_wait, sem_clockwait/sem_timedwait,
    sem_post, sem_trywait, sem_getvalue.  Simplifications: sequentially consistent memory;
    FutexWait compares and sleeps atomically, FutexWake(all) wakes every sleeper, a sleeper may
    also wake up spuriously (result 0), by a signal (EINTR) or, in the timed form, by the
    timeout; the futex calls return no other errors.  The time computation of the deadline is not
    modelled: a timed wait may find at any turn that its deadline has passed or is invalid. *)
From Verif Require Export Conc.
Open Scope Z_scope.

(** semaphore.cpp:9-10, semaphore.h:13 *)
Definition semaphoreHasWaiters : Z := 2147483648.
Definition semaphoreCountMask : Z := 2147483647.
Definition SEM_VALUE_MAX : Z := 2147483647.

(** errno values (abis/linux/errno.h) *)
Definition EINTR : Z := 4.
Definition EAGAIN : Z := 11.
Definition EINVAL : Z := 22.
Definition EOVERFLOW : Z := 75.
Definition ETIMEDOUT : Z := 110.

Inductive pc :=
| Ready                              (* in no semaphore operation *)
| WaitLoop (timed : bool) (st : Z)   (* semaphore.cpp:36/66 head of the loop of wait/clockwait *)
| WaitFutex (timed : bool) (st : Z)  (* semaphore.cpp:40/89 before FutexWait *)
| WaitSleep (timed : bool) (st : Z)  (* asleep in FutexWait *)
| PostLoad                           (* semaphore.cpp:112 before the load *)
| PostLoop (st : Z)                  (* semaphore.cpp:114 head of the loop of post *)
| PostWake                           (* semaphore.cpp:129 before FutexWake *)
| TryLoad                            (* semaphore.cpp:158 before the load *)
| TryTest (st : Z).                  (* semaphore.cpp:160 after the load *)

(** [word]: __mlibc_count.  [posts], [waits]: how many sem_post and how many sem_wait,
    sem_timedwait and sem_trywait calls have taken effect; [result t]: 0 or the errno value with
    which the last completed call of [t] returned.  These three record what can be observed. *)
Record state := {
  word : Z; at_ : Z -> pc; result : Z -> Z; posts : Z; waits : Z }.

(** semaphore.cpp:12-27 sem_init(sem, 0, initial): None if it fails with EINVAL *)
Definition init (initial : Z) : option state :=
  if initial >? SEM_VALUE_MAX then None
  else Some {| word := initial; at_ := fun _ => Ready; result := fun _ => 0; posts := 0; waits := 0 |}.

(** semaphore.cpp:145-149 sem_getvalue *)
Definition getvalue (s : state) : Z := Z.land (word s) semaphoreCountMask.

(** calls, one atomic step, a weak compare-exchange that fails for no reason, and the ends of a
    sleep: woken for no reason, by a signal, by the timeout; [BadTime]: the deadline is invalid *)
Inductive act :=
  CallWait | CallTimedWait | CallPost | CallTryWait | Run | WeakFail | Spurious | Signal | Expire | BadTime.

Definition go (s : state) (t : Z) (w : Z) (p : pc) : option state :=
  Some {| word := w; at_ := setf (at_ s) t p; result := result s; posts := posts s; waits := waits s |}.

(** return with errno [e] (0: success), having made [dp] posts and [dw] waits take effect *)
Definition ret (s : state) (t : Z) (w : Z) (e dp dw : Z) : option state :=
  Some {| word := w; at_ := setf (at_ s) t Ready; result := setf (result s) t e;
          posts := posts s + dp; waits := waits s + dw |}.

Definition wake (p : pc) : pc :=
  match p with WaitSleep timed st => WaitLoop timed st | _ => p end.

(** semaphore.cpp:36-56 / 66-108 one turn of the loop of sem_wait / sem_clockwait *)
Definition wait_turn (t : Z) (timed : bool) (st : Z) (s : state) : option state :=
  if Z.land st semaphoreCountMask =? 0 then
    if word s =? st then go s t semaphoreHasWaiters (WaitFutex timed st)
    else go s t (word s) (WaitLoop timed (word s))
  else
    let desired := st - 1 in
    if word s =? st then ret s t desired 0 0 1
    else go s t (word s) (WaitLoop timed (word s)).

(** semaphore.cpp:114-127 one turn of the loop of sem_post; the compare-exchange is weak *)
Definition post_turn (t : Z) (st : Z) (weak : bool) (s : state) : option state :=
  let count := Z.land st semaphoreCountMask in
  if count + 1 >? SEM_VALUE_MAX then ret s t (word s) EOVERFLOW 0 0
  else
    let new_state := Z.lor (count + 1) (Z.land st semaphoreHasWaiters) in
    if (word s =? st) && negb weak then
      if negb (Z.land st semaphoreHasWaiters =? 0)
      then Some {| word := new_state; at_ := setf (at_ s) t PostWake; result := result s;
                   posts := posts s + 1; waits := waits s |}
      else ret s t new_state 0 1 0
    else go s t (word s) (PostLoop (word s)).

(** semaphore.cpp:160-168 sem_trywait after the load *)
Definition try_turn (t : Z) (st : Z) (s : state) : option state :=
  if negb (Z.land st semaphoreHasWaiters =? 0) || (st =? 0) then ret s t (word s) EAGAIN 0 0
  else
    let desired := st - 1 in
    if word s =? st then ret s t desired 0 0 1 else go s t (word s) TryLoad.

(** One step of thread [t]. *)
Definition step (t : Z) (a : act) (s : state) : option state :=
  match at_ s t, a with
  | Ready, CallWait => go s t (word s) (WaitLoop false 0)
  | Ready, CallTimedWait => go s t (word s) (WaitLoop true 0)
  | Ready, CallPost => go s t (word s) PostLoad
  | Ready, CallTryWait => go s t (word s) TryLoad
  | WaitLoop timed st, Run => wait_turn t timed st s
  | WaitFutex timed st, Run =>
      if word s =? st then go s t (word s) (WaitSleep timed st)
      else go s t (word s) (WaitLoop timed st)                            (* EAGAIN: continue *)
  | WaitFutex true _, Expire => ret s t (word s) ETIMEDOUT 0 0           (* :84-87 *)
  | WaitFutex true _, BadTime => ret s t (word s) EINVAL 0 0             (* :79-82 *)
  | WaitSleep timed st, Spurious => go s t (word s) (WaitLoop timed st)
  | WaitSleep _ _, Signal => ret s t (word s) EINTR 0 0              (* :43-45 / 93-95 *)
  | WaitSleep true _, Expire => ret s t (word s) ETIMEDOUT 0 0           (* :93-95 *)
  | PostLoad, Run => go s t (word s) (PostLoop (word s))
  | PostLoop st, Run => post_turn t st false s
  | PostLoop st, WeakFail => post_turn t st true s
  | PostWake, Run =>
      Some {| word := word s; at_ := wake_with wake (setf (at_ s) t Ready);
              result := setf (result s) t 0; posts := posts s; waits := waits s |}
  | TryLoad, Run => go s t (word s) (TryTest (word s))
  | TryTest st, Run => try_turn t st s
  | _, _ => None
  end.

(** [s] is reachable from a semaphore initialised with [initial] *)
Definition reachable (initial : Z) (s : state) : Prop :=
  exists s0 sched, init initial = Some s0 /\ run step sched s0 = Some s.
