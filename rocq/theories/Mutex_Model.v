(** Model of options/internal/generic/threads.cpp: thread_mutex_timedlock, thread_mutex_lock,
    thread_mutex_trylock, thread_mutex_unlock, the functions behind pthread_mutex_* and mtx_*.
    Simplifications: sequentially consistent memory; FutexWait compares and sleeps atomically,
    FutexWake(all) wakes every sleeper, a sleeper may wake up spuriously, by a signal (EINTR) or,
    if it has a deadline, by the timeout; the futex calls return no other errors.  The time
    computation of the deadline is not modelled: a timed lock may find at any turn that its
    deadline has passed or is invalid.  Process-shared mutexes are treated like private ones,
    as the code does. *)
From Verif Require Export Conc.
Open Scope Z_scope.

(** threads.cpp:242-248 the three types of thread_mutex_init *)
Inductive mtype := Normal | ErrorCheck | Recursive.

(** errno values (abis/linux/errno.h) *)
Definition EPERM : Z := 1.
Definition EBUSY : Z := 16.
Definition EINVAL : Z := 22.
Definition EDEADLK : Z := 35.
Definition ETIMEDOUT : Z := 110.

(** the places where an __ensure ends the process *)
Inductive site :=
| LockEnsure           (* threads.cpp:275 __ensure(!mutex->__mlibc_recursion) *)
| TryEnsure            (* threads.cpp:341 __ensure(!mutex->__mlibc_recursion) *)
| UnlockEnsureRec      (* threads.cpp:361 __ensure(mutex->__mlibc_recursion) *)
| UnlockEnsureOwner.   (* threads.cpp:380 __ensure((state & mutex_owner_mask) == this_tid) *)

Inductive pc :=
| Ready                                (* in no mutex operation *)
| LockLoop (timed : bool) (expected : Z)  (* threads.cpp:270 top of the loop of timedlock *)
| LockSleep (timed : bool)             (* threads.cpp:303/308 asleep in FutexWait *)
| LockTaken                            (* threads.cpp:275 the exchange has succeeded *)
| TryLoad                              (* threads.cpp:336 trylock before its load *)
| TryTest (expected : Z)               (* threads.cpp:337 trylock after its load *)
| TryTaken                             (* threads.cpp:341 the exchange has succeeded *)
| UnlockDec                            (* threads.cpp:361 unlock before the decrement *)
| UnlockXchg                           (* threads.cpp:368 unlock before the exchange *)
| UnlockWake                           (* threads.cpp:385 unlock before FutexWake *)
| Dead (where_ : site).

(** [depth]: how many lock operations of this thread that returned 0 have not been matched by a
    call of unlock yet; [result]: what its last completed operation returned.  Both record what
    the client has seen; the code does not have them. *)
Record thread := { at_ : pc; depth : Z; result : Z }.

(** thread-types.hpp:79-80 __mlibc_state and __mlibc_recursion *)
Record state := { word : Z; recursion : Z; threads : Z -> thread }.

(** threads.cpp:240 new (mutex) __mlibc_mutex() *)
Definition init : state :=
  {| word := 0; recursion := 0;
     threads := fun _ => {| at_ := Ready; depth := 0; result := 0 |} |}.

(** calls of the client, one atomic step, a wake-up without FutexWake, and the end of a timed
    wait with ETIMEDOUT or, for a deadline that is not a valid time, EINVAL *)
Inductive act := CallLock | CallTimedLock | CallTryLock | CallUnlock | Run | Spurious | Expire | BadTime.

Definition u32 (x : Z) : Z := x mod 4294967296.

Definition go (s : state) (t : Z) (w r : Z) (p : pc) : option state :=
  Some {| word := w; recursion := r;
          threads := setf (threads s) t
            {| at_ := p; depth := depth (threads s t); result := result (threads s t) |} |}.

(** the operation returns [e] to a client that now holds the mutex [d] times *)
Definition ret (s : state) (t : Z) (w r : Z) (d e : Z) : option state :=
  Some {| word := w; recursion := r;
          threads := setf (threads s) t {| at_ := Ready; depth := d; result := e |} |}.

Definition wake (th : thread) : thread :=
  match at_ th with
  | LockSleep timed => {| at_ := LockLoop timed 0; depth := depth th; result := result th |}
  | _ => th
  end.

(** threads.cpp:270-327 one turn of the loop of thread_mutex_timedlock *)
Definition lock_turn (ty : mtype) (t : Z) (timed : bool) (expected : Z) (s : state) : option state :=
  if expected =? 0 then
    if word s =? 0 then go s t (Z.lor t waitersBit) (recursion s) LockTaken
    else go s t (word s) (recursion s) (LockLoop timed (word s))
  else if Z.land expected ownerMask =? t then
    match ty with
    | Recursive => ret s t (word s) (u32 (recursion s + 1)) (depth (threads s t) + 1) 0
    | _ => ret s t (word s) (recursion s) (depth (threads s t)) EDEADLK
    end
  else if negb (Z.land expected waitersBit =? 0) then
    if word s =? expected then go s t (word s) (recursion s) (LockSleep timed)
    else go s t (word s) (recursion s) (LockLoop timed 0)
  else
    let desired := Z.lor expected waitersBit in
    if word s =? expected then go s t desired (recursion s) (LockLoop timed desired)
    else go s t (word s) (recursion s) (LockLoop timed (word s)).

(** threads.cpp:337-356 thread_mutex_trylock after its load *)
Definition try_turn (ty : mtype) (t expected : Z) (s : state) : option state :=
  if expected =? 0 then
    if word s =? 0 then go s t t (recursion s) TryTaken
    else ret s t (word s) (recursion s) (depth (threads s t)) EBUSY
  else if Z.land expected ownerMask =? t then
    match ty with
    | Recursive => ret s t (word s) (u32 (recursion s + 1)) (depth (threads s t) + 1) 0
    | _ => ret s t (word s) (recursion s) (depth (threads s t)) EBUSY
    end
  else ret s t (word s) (recursion s) (depth (threads s t)) EBUSY.

(** threads.cpp:368-389 the second half of thread_mutex_unlock *)
Definition unlock_xchg (ty : mtype) (t : Z) (s : state) : option state :=
  let old := word s in
  let d := depth (threads s t) in
  match ty with
  | ErrorCheck =>
      if negb (Z.land old ownerMask =? t) then ret s t 0 (recursion s) d EPERM
      else if Z.land old ownerMask =? 0 then ret s t 0 (recursion s) d EINVAL
      else if negb (Z.land old waitersBit =? 0) then go s t 0 (recursion s) UnlockWake
      else ret s t 0 (recursion s) d 0
  | _ =>
      if Z.land old ownerMask =? t then
        if negb (Z.land old waitersBit =? 0) then go s t 0 (recursion s) UnlockWake
        else ret s t 0 (recursion s) d 0
      else go s t 0 (recursion s) (Dead UnlockEnsureOwner)
  end.

(** One step of thread [t] on a mutex of type [ty]. *)
Definition step (ty : mtype) (t : Z) (a : act) (s : state) : option state :=
  if negb (valid_tid t) then None else
  let th := threads s t in
  match at_ th, a with
  | Ready, CallLock => go s t (word s) (recursion s) (LockLoop false 0)      (* threads.cpp:331 *)
  | Ready, CallTimedLock => go s t (word s) (recursion s) (LockLoop true 0)
  | Ready, CallTryLock => go s t (word s) (recursion s) TryLoad
  | Ready, CallUnlock =>
      Some {| word := word s; recursion := recursion s;
              threads := setf (threads s) t
                {| at_ := UnlockDec; depth := Z.max 0 (depth th - 1); result := result th |} |}
  | LockLoop timed expected, Run => lock_turn ty t timed expected s
  | LockLoop true expected, Expire =>                           (* threads.cpp:300-301 *)
      if negb (expected =? 0) && negb (Z.land expected ownerMask =? t)
         && negb (Z.land expected waitersBit =? 0)
      then ret s t (word s) (recursion s) (depth th) ETIMEDOUT else None
  | LockLoop true expected, BadTime =>                          (* threads.cpp:297-298 *)
      if negb (expected =? 0) && negb (Z.land expected ownerMask =? t)
         && negb (Z.land expected waitersBit =? 0)
      then ret s t (word s) (recursion s) (depth th) EINVAL else None
  | LockSleep timed, Spurious => go s t (word s) (recursion s) (LockLoop timed 0)
  | LockSleep true, Expire => ret s t (word s) (recursion s) (depth th) ETIMEDOUT (* :305-306 *)
  | LockTaken, Run =>                                           (* threads.cpp:275-277 *)
      if recursion s =? 0 then ret s t (word s) 1 (depth th + 1) 0
      else go s t (word s) (recursion s) (Dead LockEnsure)
  | TryLoad, Run => go s t (word s) (recursion s) (TryTest (word s))
  | TryTest expected, Run => try_turn ty t expected s
  | TryTaken, Run =>                                            (* threads.cpp:341-343 *)
      if recursion s =? 0 then ret s t (word s) 1 (depth th + 1) 0
      else go s t (word s) (recursion s) (Dead TryEnsure)
  | UnlockDec, Run =>                                           (* threads.cpp:361-363 *)
      if recursion s =? 0 then go s t (word s) (recursion s) (Dead UnlockEnsureRec)
      else let r := recursion s - 1 in
           if r =? 0 then go s t (word s) r UnlockXchg
           else ret s t (word s) r (depth th) 0
  | UnlockXchg, Run => unlock_xchg ty t s
  | UnlockWake, Run =>                                          (* threads.cpp:382-389 *)
      Some {| word := word s; recursion := recursion s;
              threads := wake_with wake
                (setf (threads s) t {| at_ := Ready; depth := depth th; result := 0 |}) |}
  | _, _ => None
  end.
