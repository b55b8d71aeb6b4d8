(** Doubly linked queues. *)
From Verif Require Import Base Linear_Model.
Open Scope Z_scope.

Definition first (l : list Z) (d : ptr) : ptr := match l with [] => d | a :: _ => Some a end.
Fixpoint final (l : list Z) (d : ptr) : ptr := match l with [] => d | a :: l' => final l' (Some a) end.

(** the elements [l] in order: each one's q_forw is the next one ([next] for the last one), each one's q_back the
    previous one ([prev] for the first one) *)
Fixpoint links (h : heap) (prev : ptr) (l : list Z) (next : ptr) : Prop :=
  match l with
  | [] => True
  | a :: l' => h a = Some (first l' next, prev) /\ links h (Some a) l' next
  end.
(** a linear queue ends in null links at both ends; in a circular one the last element is followed by the first *)
Definition linear (h : heap) (l : list Z) : Prop := NoDup l /\ links h None l None.
Definition circular (h : heap) (l : list Z) : Prop := NoDup l /\ links h (final l None) l (first l None).
Definition unchanged_except (h h' : heap) (l : list Z) : Prop := forall x, ~ In x l -> h' x = h x.
