(** Square roots. *)
From Verif Require Export Ieee.
Open Scope Z_scope.

(** Numbers are integral multiples of the least positive one, 1 being [one f]. So the root of [mag f x] units is that of [mag f x * one f], in units.
    [r] is the number nearest to the root: the root is below the midpoint of [r] and any larger number and above the midpoint of [r] and any smaller
    one. It is never equal to a midpoint. *)
Definition nearest_root (f : fmt) (x r : Z) : Prop :=
  bits f r /\ finite f r /\ sign f r = false /\
  forall b, bits f b -> finite f b ->
    (mag f r < mag f b -> 4 * (mag f x * one f) < (mag f r + mag f b) ^ 2) /\
    (mag f b < mag f r -> (mag f r + mag f b) ^ 2 < 4 * (mag f x * one f)).
