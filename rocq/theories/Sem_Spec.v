(** Specification vocabulary for semaphores. *)
From Verif Require Import Sem_Model.
Open Scope Z_scope.

(** [t] sleeps in sem_wait or sem_timedwait *)
Definition sleeping (s : state) (t : Z) : Prop := exists timed st, at_ s t = WaitSleep timed st.

(** [t] has posted and is about to wake all sleepers *)
Definition about_to_wake (s : state) (t : Z) : Prop := at_ s t = PostWake.

Definition idle (s : state) (t : Z) : Prop := at_ s t = Ready.

(** [t] is in sem_wait, sem_timedwait or sem_trywait *)
Definition waiting (s : state) (t : Z) : Prop :=
  match at_ s t with
  | WaitLoop _ _ | WaitFutex _ _ | WaitSleep _ _ | TryLoad | TryTest _ => True
  | _ => False
  end.

(** [t] is in sem_post *)
Definition posting (s : state) (t : Z) : Prop :=
  match at_ s t with PostLoad | PostLoop _ | PostWake => True | _ => False end.
