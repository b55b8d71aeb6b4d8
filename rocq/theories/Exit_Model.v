(** Model of __cxa_atexit, __cxa_finalize and the handler part of exit (options/lsb/generic/dso_exit.cpp:12-98) and of
    at_quick_exit and quick_exit (options/ansi/generic/stdlib.cpp:190-246).
    atexit(f) is __cxa_atexit with a null dsoHandle (options/ansi/generic/stdlib.cpp, atexit).
    A function or argument is a number; a null pointer is [None].  [beh f a] lists the handlers which the call f(a)
    registers; [moves n k] says whether pushing k handlers on a queue of n reallocates the vector's storage. *)
From Verif Require Import Base.
Open Scope Z_scope.

(** struct ExitHandler, dso_exit.cpp:12-16 *)
Record handler := { fn : option Z; arg : Z; dso : option Z }.

Fixpoint clear_fn (q : list handler) (k : nat) : list handler :=
  match q, k with
  | [], _ => []
  | h :: q', O => {| fn := None; arg := arg h; dso := dso h |} :: q'
  | h :: q', S k' => h :: clear_fn q' k'
  end.

(** __cxa_atexit, dso_exit.cpp:31-38 *)
Definition cxa_atexit (q : list handler) (f a : Z) (d : option Z) : list handler :=
  q ++ [{| fn := Some f; arg := a; dso := d |}].

Definition dso_eqb (a b : option Z) : bool :=
  match a, b with None, None => true | Some x, Some y => x =? y | _, _ => false end.

Section Run.
  Variable beh : Z -> Z -> list handler.
  Variable moves : nat -> nat -> bool.

  (** the loops of __cxa_finalize (dso_exit.cpp:44-53) and __mlibc_do_finalize (79-88); [sel] is the condition on the
      dsoHandle, the result's second component lists the calls made.  "handler" is a reference into the vector: when
      the handler's own registrations moved the storage, the store of nullptr goes to freed memory. *)
  Fixpoint pass (sel : option Z -> bool) (i : nat) (q : list handler) : res (list handler * list (Z * Z * option Z)) :=
    match i with
    | O => Ok (q, [])
    | S k =>
      match nth_error q k with
      | None => UB
      | Some h =>
        match fn h with
        | None => pass sel k q
        | Some f =>
          if sel (dso h) then
            let new := beh f (arg h) in
            if moves (length q) (length new) then UB
            else '(q', log) <- pass sel k (clear_fn (q ++ new) k) ;; Ok (q', (f, arg h, dso h) :: log)
          else pass sel k q
        end
      end
    end.

  (** __cxa_finalize, dso_exit.cpp:42-54 *)
  Definition cxa_finalize (q : list handler) (d : option Z) : res (list handler * list (Z * Z * option Z)) :=
    pass (fun x => match d with None => true | Some _ => dso_eqb x d end) (length q) q.

  (** __dlapi_exit: the fini functions of the loaded objects, each of which calls __cxa_finalize with the object's
      handle (dso_exit.cpp:90-93, rtld/generic/main.cpp:712); the order of the objects is a parameter *)
  Fixpoint run_fini (q : list handler) (objects : list Z) : res (list handler * list (Z * Z * option Z)) :=
    match objects with
    | [] => Ok (q, [])
    | d :: ds => '(q1, l1) <- cxa_finalize q (Some d) ;; '(q2, l2) <- run_fini q1 ds ;; Ok (q2, l1 ++ l2)
    end.

  (** __mlibc_do_finalize, dso_exit.cpp:71-98, without the thread-local destructors and the flushing of streams *)
  Definition do_finalize (q : list handler) (objects : list Z) : res (list handler * list (Z * Z * option Z)) :=
    '(q1, l1) <- pass (fun x => dso_eqb x None) (length q) q ;;
    '(q2, l2) <- run_fini q1 objects ;; Ok (q2, l1 ++ l2).
End Run.

(** at_quick_exit, stdlib.cpp:212-219 *)
Definition at_quick_exit (q : list Z) (f : Z) : list Z := q ++ [f].
(** quick_exit, stdlib.cpp:237-246: pop from the end until empty; the calls, in order.  The functions are assumed not
    to call at_quick_exit themselves (the queue's mutex is held). *)
Fixpoint quick_exit (fuel : nat) (q : list Z) : res (list Z) :=
  match q with
  | [] => Ok []
  | _ => match fuel with
         | O => Fuel
         | S f => let func := last q 0 in l <- quick_exit f (removelast q) ;; Ok (func :: l)
         end
  end.
