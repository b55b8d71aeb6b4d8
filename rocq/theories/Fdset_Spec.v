(** What users rely on: times as numbers of microseconds, and sets of descriptors. *)
From Verif Require Import Base Fdset_Model.
Open Scope Z_scope.

Definition micros (t : timeval) : Z := sec t * 1000000 + usec t.
Definition normal (t : timeval) : Prop := 0 <= usec t <= 999999.
Definition fits (x : Z) : Prop := -9223372036854775808 <= x <= 9223372036854775807.

(** calls on a set *)
Inductive op := Zero | Add (fd : Z) | Remove (fd : Z).
Definition valid (o : op) : Prop := match o with Zero => True | Add fd | Remove fd => 0 <= fd < 1024 end.
Definition step (s : res fdset) (o : op) : res fdset :=
  s <- s ;; match o with Zero => Ok FD_ZERO | Add fd => FD_SET fd s | Remove fd => FD_CLR fd s end.
Definition calls (s : fdset) (l : list op) : res fdset := fold_left step l (Ok s).
(** the set as a set of numbers *)
Definition member_step (m : Z -> Prop) (o : op) : Z -> Prop :=
  match o with Zero => fun _ => False | Add fd => fun x => x = fd \/ m x | Remove fd => fun x => x <> fd /\ m x end.
Definition members (l : list op) : Z -> Prop := fold_left member_step l (fun _ => False).
