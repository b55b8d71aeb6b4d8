(** Reachability and breadth-first order. *)
From Verif Require Import Base.
Open Scope Z_scope.

(** [y] is [x], or a dependency of it, or a dependency of a dependency, ... *)
Inductive reach (deps : Z -> list Z) : Z -> Z -> Prop :=
| reach_refl x : reach deps x x
| reach_step x d y : In d (deps x) -> reach deps d y -> reach deps x y.
(** the dependencies of dependencies ... of [x], which include [x] only if it is in a cycle *)
Definition needs (deps : Z -> list Z) (x y : Z) : Prop := exists d, In d (deps x) /\ reach deps d y.
(** finitely many objects *)
Definition within (deps : Z -> list Z) (root : Z) (all : list Z) : Prop := forall x, reach deps root x -> In x all.

(** the members of [l] that are not in [seen], each once, in order *)
Fixpoint fresh (seen l : list Z) : list Z :=
  match l with
  | [] => []
  | d :: l' => if in_dec Z.eq_dec d seen then fresh seen l' else d :: fresh (d :: seen) l'
  end.
(** level by level: a level consists of the dependencies of the one before that were not seen yet *)
Fixpoint levels (n : nat) (deps : Z -> list Z) (seen level : list Z) : list Z :=
  match n with
  | O => []
  | S n' => let next := fresh seen (flat_map deps level) in level ++ levels n' deps (rev next ++ seen) next
  end.
