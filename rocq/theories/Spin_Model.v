(** Model of spin locks, options/posix/generic/pthread.cpp:1484-1535.  Every access of the lock word is a step of its own; threads take turns in any
    order (a single atomic variable: its accesses have a total order).  Threads are named by their ids.  Not modelled: destroy, process sharing and
    memory other than the lock. *)
From Verif Require Import Base.
Open Scope Z_scope.

Definition EPERM : Z := 1.
Definition EBUSY : Z := 16.
Definition EDEADLK : Z := 35.

Inductive op := Lock | Trylock | Unlock.
Inductive event := Call (t : Z) (o : op) | Ret (t : Z) (o : op) (r : Z).

(** where a thread is *)
Inductive pc :=
| Idle
| LockTry     (** in front of the compare-exchange, :1500 *)
| LockSpin    (** in front of the load, :1507 *)
| TryTry      (** :1520 *)
| UnlockLoad  (** :1530 *)
| UnlockStore (** :1533 *)
| Done (o : op) (r : Z).

Definition enter (o : op) : pc := match o with Lock => LockTry | Trylock => TryTry | Unlock => UnlockLoad end.

(** pthread_spin_lock :1494-1513, pthread_spin_trylock :1515-1526, pthread_spin_unlock :1528-1535: a step of thread [t] inside a call: its place and the word after it.  [weak]: the weak compare-exchange of lock fails although the word is 0 *)
Definition inside (t : Z) (weak : bool) (p : pc) (w : Z) : pc * Z :=
  match p with
  | LockTry =>
      if (w =? 0) && negb weak then (Done Lock 0, t)
      else (* expected is now the word *) if w =? t then (Done Lock EDEADLK, w) else (LockSpin, w)
  | LockSpin => if w =? 0 then (LockTry, w) else (LockSpin, w)
  | TryTry => if w =? 0 then (Done Trylock 0, t) else (Done Trylock EBUSY, w)
  | UnlockLoad => if w =? t then (UnlockStore, w) else (Done Unlock EPERM, w)
  | UnlockStore => (Done Unlock 0, 0)
  | p => (p, w)
  end.

(** the word, the threads, and the calls and returns so far, the last one first *)
Record state := St { word : Z; at_ : Z -> pc; trace : list event }.
Definition put (f : Z -> pc) (t : Z) (p : pc) : Z -> pc := fun x => if x =? t then p else f x.

(** pthread_spin_init :1484-1488 *)
Definition init : state := St 0 (fun _ => Idle) [].

Inductive action := Begin (o : op) | Move (weak : bool).
Definition step (t : Z) (a : action) (s : state) : state :=
  match a, at_ s t with
  | Begin o, Idle => St (word s) (put (at_ s) t (enter o)) (Call t o :: trace s)
  | Begin _, _ => s
  | Move _, Done o r => St (word s) (put (at_ s) t Idle) (Ret t o r :: trace s)
  | Move weak, p => let '(p', w') := inside t weak p (word s) in St w' (put (at_ s) t p') (trace s)
  end.
Fixpoint run (l : list (Z * action)) (s : state) : state :=
  match l with [] => s | (t, a) :: r => run r (step t a s) end.
