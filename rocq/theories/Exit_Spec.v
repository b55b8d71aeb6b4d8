(** What exit handlers are supposed to do: a history of registrations and of unloadings, then exit. *)
From Verif Require Import Base Exit_Model.
From Coq Require Export Permutation.
Open Scope Z_scope.

Definition call := (Z * Z * option Z)%type.   (* function, argument, object (None: registered by atexit) *)

Inductive op :=
| Register (c : call)             (* atexit or __cxa_atexit *)
| Finalize (d : Z).               (* __cxa_finalize(d), d not null: the object is unloaded *)

Definition of_object (d : option Z) (c : call) : bool := let '(_, _, x) := c in dso_eqb x d.

(** calls made and handlers still registered, oldest first *)
Fixpoint history (pending : list call) (ops : list op) : list call * list call :=
  match ops with
  | [] => ([], pending)
  | Register c :: ops' => history (pending ++ [c]) ops'
  | Finalize d :: ops' =>
    let '(l, p) := history (filter (fun c => negb (of_object (Some d) c)) pending) ops' in
    (rev (filter (of_object (Some d)) pending) ++ l, p)
  end.

(** the same history on the model *)
Fixpoint run beh moves (q : list handler) (ops : list op) : res (list call * list handler) :=
  match ops with
  | [] => Ok ([], q)
  | Register (f, a, d) :: ops' => run beh moves (cxa_atexit q f a d) ops'
  | Finalize d :: ops' =>
    '(q1, l1) <- cxa_finalize beh moves q (Some d) ;;
    '(l2, q2) <- run beh moves q1 ops' ;; Ok (l1 ++ l2, q2)
  end.

Fixpoint registered (ops : list op) : list call :=
  match ops with [] => [] | Register c :: ops' => c :: registered ops' | _ :: ops' => registered ops' end.
