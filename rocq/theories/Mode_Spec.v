(** The modes of streams: r, w or a, and then any of +, b, e and x. *)
From Verif Require Import Base.
Open Scope Z_scope.

Definition r : Z := 114.
Definition w : Z := 119.
Definition a : Z := 97.
Definition mode_string (c : Z) (s : list Z) : Prop := (c = r \/ c = w \/ c = a) /\ forall x, In x s -> x = 43 \/ x = 98 \/ x = 101 \/ x = 120.
(** the bits of the flags of open: write only 0, read and write 1, create 6, exclusive 7, truncate 9, append 10, close on exec 19 *)
Definition wanted (c : Z) (s : list Z) (b : Z) : Prop :=
  (b = 0 /\ c <> r /\ ~ In 43 s) \/ (b = 1 /\ In 43 s) \/ (b = 6 /\ c <> r) \/ (b = 7 /\ In 120 s) \/ (b = 9 /\ c = w) \/ (b = 10 /\ c = a) \/ (b = 19 /\ In 101 s).
