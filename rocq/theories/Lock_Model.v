(** Model of options/internal/include/mlibc/lock.hpp: FutexLockImpl<Recursive>, the lock used
    inside mlibc (stdio, environment, exit queues, time zone, thread keys).
    Simplifications: sequentially consistent memory; FutexWait compares and sleeps atomically,
    FutexWake(all) wakes every sleeper, and a sleeper may also wake up spuriously or by a signal
    (EINTR); the futex calls return no other errors. *)
From Verif Require Export Conc.
Open Scope Z_scope.

(** the places where an __ensure or the panic logger ends the process *)
Inductive site :=
| DeadlockPanic        (* lock.hpp:47  "FutexLock deadlock detected!" *)
| LockEnsure           (* lock.hpp:36  __ensure(!_recursion) in lock() *)
| TryEnsure            (* lock.hpp:90  __ensure(!_recursion) in try_lock() *)
| UnlockEnsureRec      (* lock.hpp:105 __ensure(_recursion) *)
| UnlockEnsureOwner.   (* lock.hpp:112 __ensure((state & ownerMask) == this_tid()) *)

(** where a thread is *)
Inductive pc :=
| Ready                    (* in no lock operation *)
| LockLoop (expected : Z)  (* lock.hpp:30  top of the loop of lock() *)
| LockSleep                (* lock.hpp:53  asleep in FutexWait *)
| LockTaken                (* lock.hpp:35  lock() has exchanged 0 for its id *)
| TryLoad                  (* lock.hpp:76  try_lock() before its load *)
| TryTest (expected : Z)   (* lock.hpp:78  try_lock() after its load *)
| TryTaken                 (* lock.hpp:82  try_lock() has exchanged 0 for its id *)
| UnlockRec                (* lock.hpp:104 unlock() of a recursive lock *)
| UnlockXchg               (* lock.hpp:111 unlock() before its exchange *)
| UnlockWake               (* lock.hpp:117 unlock() before FutexWake *)
| Dead (where_ : site).    (* the process was ended from this thread *)

(** [depth]: how many of this thread's lock()/try_lock() calls that returned with the lock have
    not been matched by a call of unlock() yet.  It is not part of the code: it records what the
    client has seen. *)
Record thread := { at_ : pc; depth : Z }.

(** lock.hpp:122-123 the two words of the lock *)
Record state := { word : Z; recursion : Z; threads : Z -> thread }.

(** lock.hpp:17 the constructor, no thread in any operation *)
Definition init : state :=
  {| word := 0; recursion := 0; threads := fun _ => {| at_ := Ready; depth := 0 |} |}.

(** the client calls a function, the thread runs on by one atomic step, or it wakes up without
    a FutexWake *)
Inductive act := CallLock | CallTryLock | CallUnlock | Run | Spurious.

Definition u32 (x : Z) : Z := x mod 4294967296.

(** thread [t] goes on at [p], the words of the lock become [w] and [r] *)
Definition go (s : state) (t : Z) (w r : Z) (p : pc) : option state :=
  Some {| word := w; recursion := r;
          threads := setf (threads s) t {| at_ := p; depth := depth (threads s t) |} |}.

(** the same, and the operation returns to a client that now holds the lock [d] times *)
Definition ret (s : state) (t : Z) (w r : Z) (d : Z) : option state :=
  Some {| word := w; recursion := r; threads := setf (threads s) t {| at_ := Ready; depth := d |} |}.

(** lock.hpp:117 FutexWake(&_state, true): every thread asleep goes on at lock.hpp:62, where
    [expected] is 0 again *)
Definition wake (th : thread) : thread :=
  match at_ th with
  | LockSleep => {| at_ := LockLoop 0; depth := depth th |}
  | _ => th
  end.

(** lock.hpp:30-71 one turn of the loop of lock() *)
Definition lock_turn (rec : bool) (t expected : Z) (s : state) : option state :=
  if expected =? 0 then
    if word s =? 0 then
      if rec then go s t t (recursion s) LockTaken
      else ret s t t (recursion s) (depth (threads s t) + 1)
    else go s t (word s) (recursion s) (LockLoop (word s))
  else if Z.land expected ownerMask =? t then
    if rec then ret s t (word s) (u32 (recursion s + 1)) (depth (threads s t) + 1)
    else go s t (word s) (recursion s) (Dead DeadlockPanic)
  else if negb (Z.land expected waitersBit =? 0) then
    if word s =? expected then go s t (word s) (recursion s) LockSleep
    else go s t (word s) (recursion s) (LockLoop 0)
  else
    let desired := Z.lor expected waitersBit in
    if word s =? expected then go s t desired (recursion s) (LockLoop desired)
    else go s t (word s) (recursion s) (LockLoop (word s)).

(** lock.hpp:78-99 try_lock() after its load *)
Definition try_turn (rec : bool) (t expected : Z) (s : state) : option state :=
  if expected =? 0 then
    if word s =? 0 then
      if rec then go s t t (recursion s) TryTaken
      else ret s t t (recursion s) (depth (threads s t) + 1)
    else ret s t (word s) (recursion s) (depth (threads s t))
  else if Z.land expected ownerMask =? t then
    if rec then
      if recursion s =? 0
      then ret s t (word s) (u32 (recursion s + 1)) (depth (threads s t) + 1)
      else go s t (word s) (recursion s) (Dead TryEnsure)
    else ret s t (word s) (recursion s) (depth (threads s t))
  else ret s t (word s) (recursion s) (depth (threads s t)).

(** One step of thread [t].  [rec] is the template parameter Recursive. *)
Definition step (rec : bool) (t : Z) (a : act) (s : state) : option state :=
  if negb (valid_tid t) then None else
  let th := threads s t in
  match at_ th, a with
  | Ready, CallLock => go s t (word s) (recursion s) (LockLoop 0)
  | Ready, CallTryLock => go s t (word s) (recursion s) TryLoad
  | Ready, CallUnlock =>
      Some {| word := word s; recursion := recursion s;
              threads := setf (threads s) t
                {| at_ := if rec then UnlockRec else UnlockXchg; depth := depth th - 1 |} |}
  | LockLoop expected, Run => lock_turn rec t expected s
  | LockSleep, Spurious => go s t (word s) (recursion s) (LockLoop 0)
  | LockTaken, Run =>                                     (* lock.hpp:35-38 *)
      if recursion s =? 0 then ret s t (word s) 1 (depth th + 1)
      else go s t (word s) (recursion s) (Dead LockEnsure)
  | TryLoad, Run => go s t (word s) (recursion s) (TryTest (word s))
  | TryTest expected, Run => try_turn rec t expected s
  | TryTaken, Run => ret s t (word s) 1 (depth th + 1)    (* lock.hpp:82-84 *)
  | UnlockRec, Run =>                                     (* lock.hpp:104-108 *)
      if recursion s =? 0 then go s t (word s) (recursion s) (Dead UnlockEnsureRec)
      else let r := recursion s - 1 in
           if r =? 0 then go s t (word s) r UnlockXchg else ret s t (word s) r (depth th)
  | UnlockXchg, Run =>                                    (* lock.hpp:111-114 *)
      if Z.land (word s) ownerMask =? t then
        if negb (Z.land (word s) waitersBit =? 0)
        then go s t 0 (recursion s) UnlockWake
        else ret s t 0 (recursion s) (depth th)
      else go s t 0 (recursion s) (Dead UnlockEnsureOwner)
  | UnlockWake, Run =>                                    (* lock.hpp:117-118 *)
      Some {| word := word s; recursion := recursion s;
              threads := wake_with wake
                (setf (threads s) t {| at_ := Ready; depth := depth th |}) |}
  | _, _ => None
  end.
