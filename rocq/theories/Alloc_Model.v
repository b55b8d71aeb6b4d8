(** Model of calloc and aligned_alloc (options/ansi/generic/stdlib.cpp:122-149) and reallocarray
    (options/posix/generic/posix_stdlib.cpp:582-589).  size_t is 0..2^64-1, products wrap.  The allocator is a parameter:
    it maps the memory and the requested number of bytes to the new memory and block, or fails. *)
From Verif Require Import Base Mem_Model.
Open Scope Z_scope.

Definition SIZE_MAX := 18446744073709551615.
Definition wrap (x : Z) := x mod 18446744073709551616.

(** what the caller sees: the pointer (None: a null pointer), the memory, and the error code if errno was set *)
Inductive errno := ENOMEM | EINVAL.
Record result := { ptr : option Z; memory : mem; err : option errno }.

(** calloc, stdlib.cpp:135-149; [malloc m n] *)
Definition calloc (malloc : mem -> Z -> option (mem * Z)) (m : mem) (count size : Z) : res result :=
  if negb (size =? 0) && (count >? SIZE_MAX / size) then Ok {| ptr := None; memory := m; err := Some ENOMEM |}
  else match malloc m (wrap (count * size)) with
       | None => Ok {| ptr := None; memory := m; err := None |}
       | Some (m1, p) => '(m2, _) <- memset m1 p 0 (Z.to_nat (wrap (count * size))) ;; Ok {| ptr := Some p; memory := m2; err := None |}
       end.

(** reallocarray, posix_stdlib.cpp:582-589; -1 / n is computed in size_t.  [realloc m p n] *)
Definition reallocarray (realloc : mem -> Z -> Z -> option (mem * Z)) (m : mem) (p a b : Z) : result :=
  if negb (b =? 0) && (a >? SIZE_MAX / b) then {| ptr := None; memory := m; err := Some ENOMEM |}
  else match realloc m p (wrap (a * b)) with
       | None => {| ptr := None; memory := m; err := None |}
       | Some (m1, q) => {| ptr := Some q; memory := m1; err := None |}
       end.

(** aligned_alloc, stdlib.cpp:122-134; [allocate m size alignment] *)
Definition aligned_alloc (allocate : mem -> Z -> Z -> option (mem * Z)) (m : mem) (alignment size : Z) : result :=
  if negb (Z.land alignment (wrap (alignment - 1)) =? 0) || negb (Z.land size (wrap (alignment - 1)) =? 0)
  then {| ptr := None; memory := m; err := Some EINVAL |}
  else match allocate m size alignment with
       | None => {| ptr := None; memory := m; err := Some ENOMEM |}
       | Some (m1, p) => {| ptr := Some p; memory := m1; err := None |}
       end.
