(** Arrays in memory and orderings. *)
From Verif Require Import Base.
From Coq Require Export Permutation.
Open Scope Z_scope.

(** the elements [els], each of [size] bytes, are stored consecutively at [base] *)
Definition array_at (m : mem) (base : Z) (size : nat) (els : list (list Z)) : Prop :=
  bytes_at m base (concat els) /\ Forall (fun e => length e = size) els.

(** on the elements of [els], the sign of [c] is a total preorder *)
Definition total_preorder (c : list Z -> list Z -> Z) (els : list (list Z)) : Prop :=
  (forall a b, In a els -> In b els -> c a b <= 0 \/ c b a <= 0) /\
  (forall a b d, In a els -> In b els -> In d els -> c a b <= 0 -> c b d <= 0 -> c a d <= 0).

(** every element is at most every later one *)
Definition sorted_by (c : list Z -> list Z -> Z) (els : list (list Z)) : Prop :=
  forall i j a b, (i < j)%nat -> nth_error els i = Some a -> nth_error els j = Some b -> c a b <= 0.

(** the precondition of bsearch: elements less than the key, then equal ones, then greater ones *)
Definition partitioned (c : list Z -> Z) (els : list (list Z)) (lo hi : nat) : Prop :=
  (lo <= hi <= length els)%nat /\
  forall i e, nth_error els i = Some e ->
    ((i < lo)%nat -> c e > 0) /\ ((lo <= i < hi)%nat -> c e = 0) /\ ((hi <= i)%nat -> c e < 0).
