(** What the record of a thread's life should look like.  Records are lists of events, newest
    first. *)
From Verif Require Import Texit_Model.
Open Scope Z_scope.

Definition pop (h : Z) (l : list Z) : option (list Z) :=
  match l with h' :: r => if h =? h' then Some r else None | [] => None end.

(** The cleanup handlers and thread_local destructors that are registered and were neither removed
    nor run, most recent first; [None] if one was removed or run that was not the most recent of
    its sort. *)
Fixpoint outstanding (l : list event) : option (list Z * list Z) :=
  match l with
  | [] => Some ([], [])
  | e :: r =>
      match outstanding r with
      | None => None
      | Some (c, d) =>
          match e with
          | EPush h => Some (h :: c, d)
          | EAtexit h => Some (c, h :: d)
          | EPop h | ERunCln h => option_map (fun c' => (c', d)) (pop h c)
          | ERunTls h => option_map (fun d' => (c, d')) (pop h d)
          | _ => Some (c, d)
          end
      end
  end.

(** a destructor or a cleanup handler *)
Inductive job := Dtor (h : Z) | Handler (h : Z).

(** the jobs run in a record, oldest first *)
Definition runs (l : list event) : list job :=
  flat_map (fun e => match e with ERunTls h => [Dtor h] | ERunCln h => [Handler h] | _ => [] end)
           (rev l).

(** an event by which a handler or destructor is registered or removed *)
Definition registers (e : event) : bool :=
  match e with EPush _ | EPop _ | EAtexit _ => true | _ => false end.

(** an event that is not an action of the thread itself, or its disappearance *)
Definition external (e : event) : bool :=
  match e with
  | EDead | ECancelCall _ | ECancelRet _ _ | EJoinRet _ _ | EJoinErr _ | EDetach _ | EDetachErr _ => true
  | _ => false
  end.

(** cancellation has been disabled by a pthread_setcancelstate that has returned, and no call
    that enables it has begun since *)
Fixpoint disabled (l : list event) : bool :=
  match l with
  | [] => false
  | ESetRet e :: _ => negb e
  | ESetCall true :: _ => false
  | _ :: r => disabled r
  end.

(** cancellation is enabled: it is so from the start and after pthread_setcancelstate has
    returned, unless a call that disables it has begun *)
Fixpoint enabled (l : list event) : bool :=
  match l with
  | [] => true
  | ESetRet e :: _ => e
  | ESetCall false :: _ => false
  | _ :: r => enabled r
  end.

(** the cancellation type last chosen *)
Fixpoint asynchronous (l : list event) : bool :=
  match l with
  | [] => false
  | ETypeRet a :: _ => a
  | _ :: r => asynchronous r
  end.

(** somebody has called pthread_cancel on the thread *)
Definition requested (l : list event) : Prop := exists t, In (ECancelCall t) l.

(** some call of pthread_cancel on the thread has returned 0 *)
Definition cancelled (l : list event) : Prop := exists t, In (ECancelRet t 0) l.
