(** Mutual exclusion, ownership and recursion of pthread mutexes, in terms of what clients see. *)
From Verif Require Import Mutex_Model.
Open Scope Z_scope.

(** Rule for clients: a mutex is unlocked by a thread that holds it, and a recursive mutex is
    not nested 2^32 deep. *)
Definition client_rule (s : state) (t : Z) (a : act) : bool :=
  match a with
  | CallUnlock => 0 <? depth (threads s t)
  | CallLock | CallTimedLock | CallTryLock => depth (threads s t) <? 4294967295
  | _ => true
  end.

(** The weaker rule under which POSIX still promises an error for an error-checking mutex:
    any thread may call unlock. *)
Definition loose_rule (s : state) (t : Z) (a : act) : bool :=
  match a with
  | CallUnlock => true
  | CallLock | CallTimedLock | CallTryLock => depth (threads s t) <? 4294967295
  | _ => true
  end.

Definition reachable (ty : mtype) (s : state) : Prop :=
  exists sched, run (guarded client_rule (step ty)) sched init = Some s.

(** [t] has locked the mutex more often than it has unlocked it *)
Definition holds (s : state) (t : Z) : Prop := 0 < depth (threads s t).

Definition acquiring_or_releasing (s : state) (t : Z) : Prop :=
  match at_ (threads s t) with
  | LockTaken | TryTaken | UnlockDec | UnlockXchg => True
  | _ => False
  end.

(** [t] is not inside a mutex operation *)
Definition idle (s : state) (t : Z) : Prop := at_ (threads s t) = Ready.

(** [t] is inside lock, timedlock or trylock *)
Definition locking (s : state) (t : Z) : Prop :=
  match at_ (threads s t) with
  | LockLoop _ _ | LockSleep _ | LockTaken | TryLoad | TryTest _ | TryTaken => True
  | _ => False
  end.

(** [t] is inside lock or timedlock *)
Definition blocking_locking (s : state) (t : Z) : Prop :=
  match at_ (threads s t) with
  | LockLoop _ _ | LockSleep _ | LockTaken => True
  | _ => False
  end.

Definition sleeping (s : state) (t : Z) : Prop := exists timed, at_ (threads s t) = LockSleep timed.
Definition about_to_wake (s : state) (t : Z) : Prop := at_ (threads s t) = UnlockWake.
Definition waiters_bit_set (s : state) : Prop := Z.testbit (word s) 31 = true.
