(** What the order of constructors and destructors must be. *)
From Verif Require Import Base Deps_Spec.
Open Scope Z_scope.

(** in [order] [d] comes before [x] *)
Definition before (order : list Z) (d x : Z) : Prop := exists a b c, order = a ++ d :: b ++ x :: c.
(** all the objects of a program: closed under dependencies and under what constructors load *)
Definition universe (deps opens : Z -> list Z) (roots all : list Z) : Prop :=
  incl roots all /\ forall x, In x all -> incl (deps x) all /\ incl (opens x) all.
(** [x] is needed by one of the [roots] *)
Definition needed (deps : Z -> list Z) (roots : list Z) (x : Z) : Prop := exists r, In r roots /\ reach deps r x.
(** ... or by a root that is loaded in the course of it *)
Inductive involved (deps opens : Z -> list Z) (roots : list Z) : Z -> Prop :=
| inv_root r : In r roots -> involved deps opens roots r
| inv_dep x d : involved deps opens roots x -> In d (deps x) -> involved deps opens roots d
| inv_open x d : involved deps opens roots x -> In d (opens x) -> involved deps opens roots d.
Definition no_opens : Z -> list Z := fun _ => [].
