(** What thread-local storage is for: every thread sees its variables as if it were alone. *)
From Verif Require Import Base Conc Dtv_Model.
Open Scope Z_scope.

(** a program that only accesses variables, run alone on a private memory: the values it sees at its accesses.
    [cur]: the variable it accessed last; [mem]: the variables, initially all with their initialisers *)
Fixpoint private (prog : list action) (cur : Z) (mem : Z -> data) : list (Z * data) :=
  match prog with
  | [] => []
  | Access i :: r => private r i mem
  | Load :: r => (cur, mem cur) :: private r cur mem
  | Write v :: r => private r cur (setf mem cur (Val v))
  | _ :: r => private r cur mem
  end.
(** the actions of thread [t] in a schedule, and what it saw *)
Definition program (t : Z) (sched : list (Z * action)) : list action := map snd (filter (fun x => fst x =? t) sched).
Definition seen (t : Z) (es : list event) : list (Z * data) :=
  map (fun e => (e_index e, e_seen e)) (filter (fun e => e_thread e =? t) es).
