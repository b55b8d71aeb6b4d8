(** Byte order in terms of the bytes of a number. *)
From Verif Require Import Base.
Open Scope Z_scope.

(** the [n] bytes of [x], most significant first: network order *)
Fixpoint big_endian (n : nat) (x : Z) : list Z :=
  match n with O => [] | S k => big_endian k (x / 256) ++ [x mod 256] end.
(** the bytes of an [n]-byte object of value [x] in memory, from the lowest address on *)
Definition in_memory (little : bool) (n : nat) (x : Z) : list Z :=
  if little then rev (big_endian n x) else big_endian n x.
