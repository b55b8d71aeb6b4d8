(** What pthread_atfork promises. *)
From Verif Require Import Base Fork_Model.
Open Scope Z_scope.

(** every registration of the history, in order *)
Fixpoint registered (ops : list op) : list triple :=
  match ops with
  | [] => []
  | Register _ f :: r => f :: registered r
  | _ :: r => registered r
  end.

(** those that thread [t] made itself since it was created *)
Fixpoint registered_by (t : nat) (ops : list op) (sofar : list triple) : list triple :=
  match ops with
  | [] => sofar
  | Create u _ :: r => registered_by t r (if Nat.eqb u t then [] else sofar)
  | Register u f :: r => registered_by t r (if Nat.eqb u t then sofar ++ [f] else sofar)
  | Fork _ _ _ :: r => registered_by t r sofar
  end.

(** the thread id that the kernel knows thread [t] by *)
Fixpoint kernel_tid (t : nat) (ops : list op) (now : Z) : Z :=
  match ops with
  | [] => now
  | Create u id :: r => kernel_tid t r (if Nat.eqb u t then id else now)
  | Fork _ u (InChild id) :: r => kernel_tid t r (if Nat.eqb u t then id else now)
  | _ :: r => kernel_tid t r now
  end.

(** the calls of a list of functions, null pointers left out *)
Fixpoint calls (l : list (option Z)) : list event :=
  match l with
  | [] => []
  | Some f :: r => Call f :: calls r
  | None :: r => calls r
  end.

(** prepare handlers before, last one first; parent or child handlers after, first one first *)
Definition proper (regs : list triple) (a : answer) : list event :=
  calls (map prepare (rev regs)) ++ [Kernel] ++
  match a with
  | InChild _ => calls (map child regs)
  | _ => calls (map parent regs)
  end.

(** what fork returns *)
Definition returns (a : answer) : Z * option Z :=
  match a with
  | Fails e => (-1, Some e)
  | InParent pid => (pid, None)
  | InChild _ => (0, None)
  end.

Definition succeeds (a : answer) : Prop := match a with Fails _ => False | _ => True end.
(** only thread [t] registers, and it was there from the start *)
Definition only_by (t : nat) (ops : list op) : Prop :=
  Forall (fun o => match o with Register u _ => u = t | Create u _ => u <> t | Fork _ _ _ => True end) ops.
