(** Who holds a spin lock, as the callers see it: from the return of a successful lock or trylock to the call of unlock. *)
From Verif Require Import Base Spin_Model.
Open Scope Z_scope.

Fixpoint holds (t : Z) (tr : list event) : bool :=
  match tr with
  | [] => false
  | Ret u Lock 0 :: r | Ret u Trylock 0 :: r => if u =? t then true else holds t r
  | Call u Unlock :: r => if u =? t then false else holds t r
  | _ :: r => holds t r
  end.
(** ... when thread t last called unlock *)
Fixpoint held_at_unlock (t : Z) (tr : list event) : bool :=
  match tr with
  | [] => false
  | Call u Unlock :: r => if u =? t then holds t r else held_at_unlock t r
  | _ :: r => held_at_unlock t r
  end.
(** thread ids are not 0 *)
Definition threads (l : list (Z * action)) : Prop := forall t a, In (t, a) l -> t <> 0.
Definition reachable (s : state) : Prop := exists l, threads l /\ s = run l init.
(** steps of one thread alone, with a compare-exchange that does not fail without reason *)
Fixpoint alone (n : nat) (t : Z) (s : state) : state := match n with O => s | S m => alone m t (step t (Move false) s) end.
(** how many steps thread t makes *)
Fixpoint moves (t : Z) (l : list (Z * action)) : nat :=
  match l with
  | [] => O
  | (u, a) :: r => if u =? t then match a with Move _ => S (moves t r) | Begin _ => moves t r end else moves t r
  end.
