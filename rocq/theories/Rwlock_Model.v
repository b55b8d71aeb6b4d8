(** Model of the read-write locks of options/posix/generic/pthread.cpp:1136-1475
    (pthread_rwlock_rdlock, wrlock, tryrdlock, trywrlock, timedrdlock/clockrdlock,
    timedwrlock/clockwrlock, unlock and the helpers rwlock_m_lock, rwlock_m_trylock,
    rwlock_m_unlock) on the words of struct __mlibc_fair_rwlock
    (options/internal/include/mlibc/thread-types.hpp:177-203).  Simplifications: sequentially
    consistent memory; one step is one access to a shared word or one system call together with
    the local computation that follows it; FutexWait compares and sleeps atomically,
    FutexWake(all) wakes every sleeper, a sleeper may also wake up for no reason or by a signal
    (0 or EINTR: the code treats them alike), in the timed forms also by the timeout; the futex
    calls return no other errors.  The computation of the remaining time is not modelled: a timed
    call may find at any turn that its deadline has passed or is invalid. *)
From Verif Require Export Conc.
Open Scope Z_scope.

(** thread-types.hpp:187-194 *)
Definition mutex_owner_mask : Z := 1073741823.
Definition mutex_waiters_bit : Z := 2147483648.
Definition mutex_excl_bit : Z := 1073741824.
Definition rc_count_mask : Z := 2147483647.
Definition rc_waiters_bit : Z := 2147483648.

(** errno values (abis/linux/errno.h) *)
Definition EAGAIN : Z := 11.
Definition EBUSY : Z := 16.
Definition EINVAL : Z := 22.
Definition ETIMEDOUT : Z := 110.

(** a call of one of the six lock functions: for writing or for reading; blocking, timed or try *)
Inductive mode := Block | Timed | Try.
Record call := { excl : bool; how : mode }.

Inductive pc :=
| Ready                          (* in no call *)
| TLoad (k : call)               (* :1203 rwlock_m_trylock before the load of m *)
| TCas (k : call)                (* :1209 m was 0, before the compare-exchange *)
| MLoad (k : call)               (* :1143 rwlock_m_lock before the load of m *)
| MLoop (k : call) (e : Z)       (* :1144 head of the loop, m_expected = e *)
| MFutex (k : call) (e : Z)      (* :1165 before FutexWait(m, e | mutex_waiters_bit) *)
| MSleep (k : call) (e : Z)      (* asleep in it *)
| RcAdd (k : call)               (* :1401 reader: has m, before rc.fetch_add *)
| RcTry (k : call)               (* :1284 trywrlock: has m, before the load of rc *)
| RcLoad (k : call)              (* :1303 writer: has m, before the load of rc *)
| RcLoop (k : call) (e : Z)      (* :1308 rc_expected = e, not 0 *)
| RcFutex (k : call) (e : Z)     (* :1321 before FutexWait(rc, e | rc_waiters_bit) *)
| RcSleep (k : call) (e : Z)     (* asleep in it *)
| MRelease (k : call) (r : Z)    (* :1229 rwlock_m_unlock before the exchange, result r *)
| MWake (k : call) (r : Z)       (* :1231 before FutexWake(m), result r *)
| ULoad (w : bool)               (* :1441 unlock before the load of rc; [w]: what is held, not used *)
| ULoop (e : Z)                  (* :1448 loop of the read-unlock, rc_expected = e *)
| UWake                          (* :1462 before FutexWake(rc) *)
| URelease                       (* :1229 write-unlock before the exchange *)
| UMWake                         (* :1231 write-unlock before FutexWake(m) *)
| Dead.                          (* an __ensure has failed *)

(** A thread: program point; does it hold the lock for writing; how many read locks does it hold;
    result of its last call.  [counted] (recorded for the proofs): by how much it has raised the
    reader count. *)
Record thread := { at_ : pc; wr : bool; reads : nat; result : Z; counted : nat }.

Record state := { m : Z; rc : Z; threads : Z -> thread }.

(** thread-types.hpp:196-197 *)
Definition init : state :=
  {| m := 0; rc := 0; threads := fun _ => {| at_ := Ready; wr := false; reads := 0; result := 0; counted := 0 |} |}.

Inductive act := CallLock (k : call) | CallUnlock | Run | WeakFail | Spurious | Expire | BadTime.

(** thread [t] becomes [x], the words [m'] and [rc'] *)
Definition put (s : state) (t : Z) (m' rc' : Z) (x : thread) : option state :=
  Some {| m := m'; rc := rc'; threads := setf (threads s) t x |}.
Definition to (x : thread) (p : pc) : thread :=
  {| at_ := p; wr := wr x; reads := reads x; result := result x; counted := counted x |}.
Definition go (s : state) (t : Z) (p : pc) : option state := put s t (m s) (rc s) (to (threads s t) p).

(** the lock call [k] returns 0 *)
Definition granted (k : call) (x : thread) : thread :=
  {| at_ := Ready; wr := wr x || excl k; reads := if excl k then reads x else S (reads x);
     result := 0; counted := counted x |}.
(** the lock call [k] returns the error [r]; a timed call goes on after EBUSY from its try part
    (:1338, :1419) *)
Definition refused (k : call) (r : Z) (x : thread) : thread :=
  match how k with
  | Timed => if r =? EBUSY then to x (MLoad k)
             else {| at_ := Ready; wr := wr x; reads := reads x; result := r; counted := counted x |}
  | _ => {| at_ := Ready; wr := wr x; reads := reads x; result := r; counted := counted x |}
  end.
Definition finish (k : call) (r : Z) (x : thread) : thread :=
  if r =? 0 then granted k x else refused k r x.

(** :1183-1185, :1205-1207 *)
Definition desired (k : call) : Z := if excl k then Z.lor 1 mutex_excl_bit else 1.

(** :1214-1224 rwlock_m_trylock finds m nonzero, [e] *)
Definition try_failed (s : state) (t : Z) (k : call) (e : Z) : option state :=
  if Z.land e mutex_owner_mask =? 0 then go s t Dead
  else
    let r := if negb (excl k) && (Z.land e mutex_excl_bit =? 0) then EAGAIN else EBUSY in
    put s t (m s) (rc s) (refused k r (threads s t)).

(** :1144-1193 one turn of the loop of rwlock_m_lock up to the futex call *)
Definition m_turn (s : state) (t : Z) (k : call) (e : Z) : option state :=
  if negb (e =? 0) then
    if Z.land e mutex_owner_mask =? 0 then go s t Dead
    else if Z.land e mutex_waiters_bit =? 0 then
      if m s =? e then put s t (Z.lor e mutex_waiters_bit) (rc s) (to (threads s t) (MFutex k e))
      else go s t (MLoop k (m s))
    else go s t (MFutex k e)
  else
    if m s =? 0 then put s t (desired k) (rc s) (to (threads s t) (if excl k then RcLoad k else RcAdd k))
    else go s t (MLoop k (m s)).

(** :1304-1306 the writer looks at the reader count just read *)
Definition rc_test (s : state) (t : Z) (k : call) : option state :=
  if rc s =? 0 then put s t (m s) (rc s) (granted k (threads s t)) else go s t (RcLoop k (rc s)).

(** :1308-1318 one turn of the writer's loop up to the futex call *)
Definition rc_turn (s : state) (t : Z) (k : call) (e : Z) : option state :=
  if Z.land e rc_count_mask =? 0 then go s t Dead
  else if Z.land e rc_waiters_bit =? 0 then
    if rc s =? e then put s t (m s) (Z.lor e rc_waiters_bit) (to (threads s t) (RcFutex k e))
    else rc_test s t k
  else go s t (RcFutex k e).

(** unlock returns *)
Definition unlocked (x : thread) (c : nat) : thread :=
  {| at_ := Ready; wr := wr x; reads := reads x; result := 0; counted := c |}.

(** :1448-1471 one turn of the read-unlock; the compare-exchanges are weak *)
Definition unlock_turn (s : state) (t : Z) (e : Z) (weak : bool) : option state :=
  let count := Z.land e rc_count_mask in
  let x := threads s t in
  let swapped := (rc s =? e) && negb weak in
  if count =? 0 then go s t Dead
  else if (count =? 1) && negb (Z.land e rc_waiters_bit =? 0) then
    if swapped then put s t (m s) 0 {| at_ := UWake; wr := wr x; reads := reads x; result := result x;
                                       counted := pred (counted x) |}
    else go s t (ULoop (rc s))
  else
    if swapped then put s t (m s) (Z.lor (Z.land e rc_waiters_bit) (count - 1)) (unlocked x (pred (counted x)))
    else go s t (ULoop (rc s)).

(** threads asleep on m or on rc wake up *)
Definition wake_m (x : thread) : thread :=
  match at_ x with MSleep k _ => to x (MLoop k 0) | _ => x end.
Definition wake_rc (x : thread) : thread :=
  match at_ x with RcSleep k _ => to x (RcLoad k) | _ => x end.

Definition timed (k : call) : bool := match how k with Timed => true | _ => false end.

(** One step of thread [t]. *)
Definition step (t : Z) (a : act) (s : state) : option state :=
  let x := threads s t in
  match at_ x, a with
  | Ready, CallLock k => go s t (match how k with Block => MLoad k | _ => TLoad k end)
  | TLoad k, Run => if m s =? 0 then go s t (TCas k) else try_failed s t k (m s)
  | TCas k, Run =>
      if m s =? 0 then put s t (desired k) (rc s) (to x (if excl k then RcTry k else RcAdd k))
      else try_failed s t k (m s)
  | MLoad k, Run => go s t (MLoop k (m s))
  | MLoop k e, Run => m_turn s t k e
  | MFutex k e, Run =>
      if m s =? Z.lor e mutex_waiters_bit then go s t (MSleep k e) else go s t (MLoop k 0)
  | MFutex k e, Expire => if timed k then put s t (m s) (rc s) (refused k ETIMEDOUT x) else None
  | MFutex k e, BadTime => if timed k then put s t (m s) (rc s) (refused k EINVAL x) else None
  | MSleep k e, Spurious => go s t (MLoop k 0)
  | MSleep k e, Expire => if timed k then put s t (m s) (rc s) (refused k ETIMEDOUT x) else None
  | RcAdd k, Run =>
      put s t (m s) ((rc s + 1) mod 2 ^ 32)
        {| at_ := MRelease k 0; wr := wr x; reads := reads x; result := result x; counted := S (counted x) |}
  | RcTry k, Run =>
      if rc s =? 0 then put s t (m s) (rc s) (granted k x) else go s t (MRelease k EBUSY)
  | RcLoad k, Run => rc_test s t k
  | RcLoop k e, Run => rc_turn s t k e
  | RcFutex k e, Run =>
      if rc s =? Z.lor e rc_waiters_bit then go s t (RcSleep k e) else go s t (RcLoad k)
  | RcFutex k e, Expire => if timed k then go s t (MRelease k ETIMEDOUT) else None
  | RcFutex k e, BadTime => if timed k then go s t (MRelease k EINVAL) else None
  | RcSleep k e, Spurious => go s t (RcLoad k)
  | RcSleep k e, Expire => if timed k then go s t (MRelease k ETIMEDOUT) else None
  | MRelease k r, Run =>
      if Z.land (m s) mutex_waiters_bit =? 0 then put s t 0 (rc s) (finish k r x)
      else put s t 0 (rc s) (to x (MWake k r))
  | MWake k r, Run =>
      Some {| m := m s; rc := rc s; threads := setf (wake_with wake_m (threads s)) t (finish k r x) |}
  | Ready, CallUnlock =>
      put s t (m s) (rc s) {| at_ := ULoad (wr x); wr := false; reads := if wr x then reads x else pred (reads x);
                              result := result x; counted := counted x |}
  | ULoad _, Run => if rc s =? 0 then go s t URelease else go s t (ULoop (rc s))
  | ULoop e, Run => unlock_turn s t e false
  | ULoop e, WeakFail => unlock_turn s t e true
  | UWake, Run =>
      Some {| m := m s; rc := rc s; threads := setf (wake_with wake_rc (threads s)) t (unlocked x (counted x)) |}
  | URelease, Run =>
      if Z.land (m s) mutex_waiters_bit =? 0 then put s t 0 (rc s) (unlocked x (counted x))
      else put s t 0 (rc s) (to x UMWake)
  | UMWake, Run =>
      Some {| m := m s; rc := rc s; threads := setf (wake_with wake_m (threads s)) t (unlocked x (counted x)) |}
  | _, _ => None
  end.
