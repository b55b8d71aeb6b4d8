(** Histories of calls on the user database, and the name that was set last. *)
From Verif Require Import Base Utmpx_Model.
Open Scope Z_scope.

Inductive call := Name (f : list Z) (memory : bool) | Rewind (a : answers) | End_ | Get (a : answers).
Definition step (s : st) (c : call) : res st :=
  match c with
  | Name f m => r <- utmpxname s f m ;; Ok (snd r)
  | Rewind a => Ok (setutxent s a)
  | End_ => Ok (endutxent s)
  | Get a => Ok (snd (getutxent s a))
  end.
Fixpoint run (s : st) (h : list call) : res st := match h with [] => Ok s | c :: h => s <- step s c ;; run s h end.
(** the last name of a history, where all names get memory *)
Fixpoint last_name (n : list Z) (h : list call) : list Z := match h with [] => n | Name f _ :: h => last_name f h | _ :: h => last_name n h end.
Definition with_memory (c : call) : Prop := match c with Name _ m => m = true | _ => True end.
(** one block for a path that is not the default, none otherwise *)
Definition blocks (p : path) : list Z := match p with Default => [] | Heap b _ => [b] end.
(** open succeeds *)
Definition opens (a : answers) : Prop := e1 a = 0 \/ (e1 a = EACCES /\ e2 a = 0).
