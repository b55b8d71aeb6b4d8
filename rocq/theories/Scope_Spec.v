(** Which objects are global, in which order, after a history of dlopen calls; which definition a symbol has. *)
From Verif Require Import Base Deps_Spec.
Open Scope Z_scope.

(** an object and its dependencies, breadth-first; [n]: a bound for the number of objects *)
Definition group (n : nat) (deps : Z -> list Z) (root : Z) : list Z := levels (S n) deps [] [root].
(** A call (object, RTLD_GLOBAL, RTLD_NOLOAD) loads the object with its dependencies, unless it is loaded. With RTLD_GLOBAL those become
    global that were not; if it was loaded already, only the object itself. *)
Definition spec_open (n : nat) (deps : Z -> list Z) (call : Z * bool * bool) (st : list Z * list Z) : list Z * list Z :=
  let '(root, g, noload) := call in
  let '(loaded, glob) := st in
  if in_dec Z.eq_dec root loaded then (loaded, if g : bool then glob ++ fresh glob [root] else glob)
  else if noload : bool then st
  else (loaded ++ group n deps root, if g then glob ++ fresh glob (group n deps root) else glob).
Definition spec_opens (n : nat) (deps : Z -> list Z) (hist : list (Z * bool * bool)) (st : list Z * list Z) : list Z * list Z :=
  fold_left (fun st call => spec_open n deps call st) hist st.
(** what is loaded and what is global in a program that has made these calls *)
Definition history (n : nat) (deps : Z -> list Z) (main : Z) (hist : list (Z * bool * bool)) : list Z * list Z :=
  spec_opens n deps ((main, true, false) :: hist) ([], []).
(** symbols are taken from the first object that defines them *)
Definition first_def (def : Z -> bool) (l : list Z) : option Z := find def l.
(** copy relocations and RTLD_NEXT do not look into the program *)
Definition except (main : Z) (def : Z -> bool) (x : Z) : bool := negb (x =? main) && def x.
