(** Order and neighbours of floating-point numbers. The value of an infinity (Ieee.v) is beyond those of all finite numbers. *)
From Verif Require Export Ieee Next_Model.
Open Scope Z_scope.

Definition number (f : fmt) (x : Z) : Prop := bits f x /\ nan f x = false.
(** the number following [x] upwards or downwards; a zero has the sign of the number it follows *)
Definition next_up (f : fmt) (x r : Z) : Prop :=
  number f r /\ value f x < value f r /\ (forall z, number f z -> value f x < value f z -> value f r <= value f z) /\
  (value f r = 0 -> sign f r = sign f x).
Definition next_down (f : fmt) (x r : Z) : Prop :=
  number f r /\ value f r < value f x /\ (forall z, number f z -> value f z < value f x -> value f z <= value f r) /\
  (value f r = 0 -> sign f r = sign f x).
(** the order of the numbers, with -0 before +0 *)
Definition ordered (f : fmt) (x y : Z) : Prop :=
  value f x < value f y \/ (value f x = value f y /\ (sign f x = true \/ sign f y = false)).
(** the classes: subnormal are the numbers below 2^mb units, the least normal number *)
Definition class_of (f : fmt) (x : Z) (c : fpclass) : Prop :=
  match c with
  | FP_NAN => nan f x = true
  | FP_INFINITE => inf f x = true
  | FP_ZERO => finite f x /\ value f x = 0
  | FP_SUBNORMAL => finite f x /\ 0 < Z.abs (value f x) < 2 ^ mb f
  | FP_NORMAL => finite f x /\ 2 ^ mb f <= Z.abs (value f x)
  end.
