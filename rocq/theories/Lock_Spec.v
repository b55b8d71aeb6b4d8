(** What "the lock excludes" and "no wake-up is lost" mean, in terms of what clients see. *)
From Verif Require Import Lock_Model.
Open Scope Z_scope.

(** Rule for clients: unlock() is only called by a thread that holds the lock, and a recursive
    lock is not nested 2^32 deep. *)
Definition client_rule (s : state) (t : Z) (a : act) : bool :=
  match a with
  | CallUnlock => 0 <? depth (threads s t)
  | CallLock | CallTryLock => depth (threads s t) <? 4294967295
  | _ => true
  end.

(** [s] can be reached by some schedule of any number of threads that follow the rule *)
Definition reachable (rec : bool) (s : state) : Prop :=
  exists sched, run (guarded client_rule (step rec)) sched init = Some s.

(** [t] is between the return of a successful lock() or try_lock() and the matching unlock() *)
Definition holds (s : state) (t : Z) : Prop := 0 < depth (threads s t).

(** [t] is inside an operation that has taken the lock and not returned yet, or inside an
    unlock() that has not given it back yet *)
Definition acquiring_or_releasing (s : state) (t : Z) : Prop :=
  match at_ (threads s t) with
  | LockTaken | TryTaken | UnlockRec | UnlockXchg => True
  | _ => False
  end.

Definition sleeping (s : state) (t : Z) : Prop := at_ (threads s t) = LockSleep.

(** [t] has released the lock and is about to wake every sleeper *)
Definition about_to_wake (s : state) (t : Z) : Prop := at_ (threads s t) = UnlockWake.

Definition waiters_bit_set (s : state) : Prop := Z.testbit (word s) 31 = true.
