(** Model of options/internal/generic/threads.cpp:64-95 thread_once, behind pthread_once and
    call_once.  Simplifications: sequentially consistent memory; FutexWait compares and sleeps
    atomically, FutexWake(all) wakes every sleeper, a sleeper may also wake up spuriously or by a
    signal; the futex calls return no other errors; the function returns and does not call
    pthread_once on the same control itself. *)
From Verif Require Export Conc.
Open Scope Z_scope.

(** thread-types.hpp:220-221 *)
Definition onceComplete : Z := 1.
Definition onceLocked : Z := 2.

Inductive pc :=
| Ready                 (* not in pthread_once *)
| Load                  (* threads.cpp:65 / 91 before the load of __mlibc_done *)
| Loop (expected : Z)   (* threads.cpp:68 head of the loop *)
| Before                (* threads.cpp:71 the exchange 0 -> onceLocked has succeeded *)
| InFunc                (* threads.cpp:76 inside func() *)
| After                 (* threads.cpp:79 func() has returned *)
| Wake                  (* threads.cpp:80 before FutexWake *)
| Sleep                 (* threads.cpp:89 asleep in FutexWait *)
| Dead.                 (* threads.cpp:85 __ensure(expected == onceLocked) failed *)

(** [began], [ended]: how often the function was entered and left so far, over all threads;
    [returned t]: some pthread_once call of thread [t] has returned.  These record what can be
    observed; the code does not have them. *)
Record state := {
  done : Z; at_ : Z -> pc; began : Z; ended : Z; returned : Z -> bool }.

Definition init : state :=
  {| done := 0; at_ := fun _ => Ready; began := 0; ended := 0; returned := fun _ => false |}.

Inductive act := Call | Run | WeakFail | Spurious.

Definition go (s : state) (t : Z) (d : Z) (p : pc) : option state :=
  Some {| done := d; at_ := setf (at_ s) t p; began := began s; ended := ended s;
          returned := returned s |}.

Definition ret (s : state) (t : Z) : option state :=
  Some {| done := done s; at_ := setf (at_ s) t Ready; began := began s; ended := ended s;
          returned := setf (returned s) t true |}.

Definition wake (p : pc) : pc := match p with Sleep => Load | _ => p end.

(** One step of thread [t]. *)
Definition step (t : Z) (a : act) (s : state) : option state :=
  match at_ s t, a with
  | Ready, Call => go s t (done s) Load
  | Load, Run => go s t (done s) (Loop (done s))
  | Loop expected, Run =>
      if negb (Z.land expected onceComplete =? 0) then ret s t           (* :68, :95 *)
      else if expected =? 0 then
        if done s =? 0 then go s t onceLocked Before                     (* :71-74 *)
        else go s t (done s) (Loop (done s))
      else if expected =? onceLocked then                                (* :85 *)
        if done s =? onceLocked then go s t (done s) Sleep               (* :89 *)
        else go s t (done s) Load
      else go s t (done s) Dead
  | Loop expected, WeakFail =>      (* compare_exchange_weak may fail although the values agree *)
      if (expected =? 0) && (done s =? 0) then go s t (done s) (Loop 0) else None
  | Before, Run =>                                                       (* :76 func() is entered *)
      Some {| done := done s; at_ := setf (at_ s) t InFunc; began := began s + 1;
              ended := ended s; returned := returned s |}
  | InFunc, Run =>                                                       (* func() is left *)
      Some {| done := done s; at_ := setf (at_ s) t After; began := began s;
              ended := ended s + 1; returned := returned s |}
  | After, Run => go s t onceComplete Wake                               (* :79 *)
  | Wake, Run =>                                                         (* :80-82 *)
      Some {| done := done s; at_ := wake_with wake (setf (at_ s) t Ready); began := began s;
              ended := ended s; returned := setf (returned s) t true |}
  | Sleep, Spurious => go s t (done s) Load
  | _, _ => None
  end.

Definition reachable (s : state) : Prop := exists sched, run step sched init = Some s.
