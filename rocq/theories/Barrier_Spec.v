(** Specification vocabulary for barriers. *)
From Verif Require Import Barrier_Model.
Open Scope Z_scope.

(** reachable by any threads whose ids are valid; a destroyed barrier is not used any more *)
Definition client_rule (s : state) (t : Z) (a : act) : bool :=
  valid_tid t && match a with CallWait | CallDestroy => negb (destroyed s) | _ => true end.

Definition reachable (count : Z) (s : state) : Prop :=
  exists sched, run (guarded client_rule (step count)) sched init = Some s.

(** reachable with calls of pthread_barrier_wait by the threads [users] only *)
Definition users_rule (users : list Z) (s : state) (t : Z) (a : act) : bool :=
  client_rule s t a && match a with CallWait => existsb (Z.eqb t) users | _ => true end.

Definition reachable_by (users : list Z) (count : Z) (s : state) : Prop :=
  exists sched, run (guarded (users_rule users) (step count)) sched init = Some s.

(** The arrivals are numbered 0, 1, 2, ...; generation [g] consists of the arrivals
    [g * count] ... [g * count + count - 1]. *)
Definition generation (count ticket : Z) : Z := ticket / count.
(** all threads of generation [g] have arrived *)
Definition complete (count : Z) (s : state) (g : Z) : Prop := (g + 1) * count <= arrived s.

(** the number of generations the counter word can tell apart *)
Definition max_generations (count : Z) : Z := 2 ^ (32 - Z.log2_up count).

(** [t] has arrived and waits for its generation *)
Definition waits (s : state) (t : Z) : Prop :=
  match at_ s t with LoadSeq _ | WaitSeq _ _ | SleepSeq _ _ => True | _ => False end.
(** [t] sleeps *)
Definition sleeps (s : state) (t : Z) : Prop := exists gen cur, at_ s t = SleepSeq gen cur.
(** [t] was the last of its generation and has yet to release the others *)
Definition releases (s : state) (t : Z) : Prop :=
  match at_ s t with StoreSeq _ | WakeSeq => True | _ => False end.
(** [t] is about to return [r] *)
Definition returning (s : state) (t r : Z) : Prop := at_ s t = Leave r \/ at_ s t = WakeInside r.
Definition idle (s : state) (t : Z) : Prop := at_ s t = Ready.

(** [t] is in pthread_barrier_wait and may still access the words of the barrier *)
Definition accesses (s : state) (t : Z) : Prop :=
  match at_ s t with
  | EnterLoad | Loop _ | StoreSeq _ | WakeSeq | LoadSeq _ | WaitSeq _ _ | SleepSeq _ _ | Leave _ | Undefined => True
  | _ => False
  end.
(** [t] sleeps in pthread_barrier_destroy *)
Definition destroy_sleeps (s : state) (t : Z) : Prop := exists e, at_ s t = DestroySleep e.
