(** Shapes of path names; '/' is byte 47. *)
From Verif Require Import Base.
Open Scope Z_scope.
(** contains no slash / consists of slashes only / ends with a slash *)
Definition noslash (l : list Z) : Prop := ~ In 47 l.
Definition slashes (l : list Z) : Prop := Forall (eq 47) l.
Definition ends_slash (l : list Z) : Prop := exists l', l = l' ++ [47].
