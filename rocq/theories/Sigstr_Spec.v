(** Decimal numbers. *)
From Verif Require Import Base.
Open Scope Z_scope.
Definition decimal (ds : list Z) : Prop := ds <> [] /\ Forall (fun c => 48 <= c <= 57) ds.
Definition value (ds : list Z) : Z := fold_left (fun a c => 10 * a + (c - 48)) ds 0.
