(** Specification vocabulary for read-write locks. *)
From Verif Require Import Rwlock_Model.
Open Scope Z_scope.

Definition holds_write (s : state) (t : Z) : Prop := wr (threads s t) = true.
Definition holds_read (s : state) (t : Z) : Prop := (0 < reads (threads s t))%nat.
Definition idle (s : state) (t : Z) : Prop := at_ (threads s t) = Ready.

(** The clients: a thread unlocks only what it holds; there are never 2^31 - 1 read locks at a
    time (the code does not check for this). *)
Definition client_rule (s : state) (t : Z) (a : act) : bool :=
  match at_ (threads s t), a with
  | Ready, CallUnlock => wr (threads s t) || Nat.ltb 0 (reads (threads s t))
  | RcAdd _, _ => Z.land (rc s) rc_count_mask <? rc_count_mask
  | _, _ => true
  end.

Definition reachable (s : state) : Prop :=
  exists sched, run (guarded client_rule step) sched init = Some s.

(** [t] sleeps in a lock call: until the lock's mutex is released, or until the readers are gone *)
Definition sleeps_mutex (s : state) (t : Z) : Prop := exists k e, at_ (threads s t) = MSleep k e.
Definition sleeps_readers (s : state) (t : Z) : Prop := exists k e, at_ (threads s t) = RcSleep k e.
(** [t] is about to wake those who sleep until the mutex is released *)
Definition wakes_mutex (s : state) (t : Z) : Prop :=
  match at_ (threads s t) with MWake _ _ | UMWake => True | _ => False end.
(** [t] is about to wake a writer who waits for the readers *)
Definition wakes_writer (s : state) (t : Z) : Prop := at_ (threads s t) = UWake.

(** [t] is in a lock call and has got as far as to exclude others from the mutex, or holds the
    lock for writing, or is giving a write lock back *)
Definition has_mutex (s : state) (t : Z) : Prop :=
  wr (threads s t) = true \/
  match at_ (threads s t) with
  | RcAdd _ | RcTry _ | RcLoad _ | RcLoop _ _ | RcFutex _ _ | RcSleep _ _ | MRelease _ _ | ULoad true | URelease => True
  | _ => False
  end.
(** [t] holds a read lock, or has just been counted as a reader, or is giving a read lock back *)
Definition counts_as_reader (s : state) (t : Z) : Prop := (0 < counted (threads s t))%nat.
