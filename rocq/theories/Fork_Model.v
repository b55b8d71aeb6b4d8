(** Model of pthread_atfork (options/posix/generic/pthread.cpp:716-738), of fork, _Fork and vfork (options/posix/generic/unistd.cpp:1265-1348) and
    of pdfork (options/bsd-procdesc/generic/sys-procdesc.cpp:10-46).  A handler is a number that stands for the function; the handlers themselves
    register nothing and call no fork.  The allocator does not fail (it panics).  A state is what one process sees: after a fork that answers in the
    child the history goes on in the child, whose memory is a copy.  What the kernel answers is part of the history. *)
From Verif Require Import Base.
Open Scope Z_scope.

(** the three functions given to pthread_atfork, [None] for a null pointer *)
Record triple := Triple { prepare : option Z; parent : option Z; child : option Z }.
(** Tcb::AtforkHandler, options/internal/include/mlibc/tcb.hpp:106-113; pointers are indices into the heap *)
Record node := Node { fns : triple; next : option nat; prev : option nat }.
(** the fields of Tcb in question, tcb.hpp:82 and 115-116 *)
Record tcb := Tcb { tid : Z; atfork_begin : option nat; atfork_end : option nat }.
Record process := Proc { heap : list node; tcbs : nat -> tcb }.

(** what can be seen of a call: handlers that run, and the moment at which the kernel is asked *)
Inductive event := Call (f : Z) | Kernel.
(** the kernel's answer: an errno, the child's process id in the parent, or that this is the child, and the thread id it has *)
Inductive answer := Fails (e : Z) | InParent (pid : Z) | InChild (tid : Z).
(** fork and pdfork run handlers, _Fork and vfork do not *)
Inductive kind := WithHandlers | Plain.

Definition set {A} (m : nat -> A) (k : nat) (v : A) : nat -> A := fun j => if Nat.eqb j k then v else m j.

Fixpoint upd_node (l : list node) (i : nat) (f : node -> node) : option (list node) :=
  match l, i with
  | [], _ => None
  | n :: r, O => Some (f n :: r)
  | n :: r, S j => match upd_node r j f with Some r' => Some (n :: r') | None => None end
  end.

(** pthread.cpp:716-738 *)
Definition pthread_atfork (p : process) (self : nat) (t : triple) : res process :=
  let c := tcbs p self in
  let hand := length (heap p) in
  h <- match atfork_end c with
       | None => Ok (heap p)
       | Some e => match upd_node (heap p) e (fun n => Node (fns n) (Some hand) (prev n)) with
                   | Some h => Ok h | None => UB end
       end ;;
  Ok (Proc (h ++ [Node t None (atfork_end c)])
           (set (tcbs p) self (Tcb (tid c) (match atfork_begin c with Some b => Some b | None => Some hand end) (Some hand)))).

(** unistd.cpp:1287-1293 and 1304-1314: follow the pointers and call [get] of each handler *)
Fixpoint walk (fuel : nat) (h : list node) (get : triple -> option Z) (step : node -> option nat) (at_ : option nat) : res (list event) :=
  match at_ with
  | None => Ok []
  | Some i =>
      match fuel with
      | O => Fuel
      | S fuel' =>
          match nth_error h i with
          | None => UB
          | Some n =>
              r <- walk fuel' h get step (step n) ;;
              Ok (match get (fns n) with Some f => Call f :: r | None => r end)
          end
      end
  end.

(** unistd.cpp:1281-1317 (fork), :1265-1279 (_Fork), :1319-1348 (vfork); sys-procdesc.cpp:10-46.  The result is the value returned, errno if it
    was set, and the events *)
Definition fork (k : kind) (p : process) (self : nat) (a : answer) : res (Z * option Z * list event * process) :=
  let c := tcbs p self in
  let fuel := length (heap p) in
  before <- match k with WithHandlers => walk fuel (heap p) prepare prev (atfork_end c) | Plain => Ok [] end ;;
  match a with
  | Fails e => Ok (-1, Some e, before ++ [Kernel], p)
  | InParent pid =>
      after <- match k with WithHandlers => walk fuel (heap p) parent next (atfork_begin c) | Plain => Ok [] end ;;
      Ok (pid, None, before ++ [Kernel] ++ after, p)
  | InChild t =>
      let p' := Proc (heap p) (set (tcbs p) self (Tcb t (atfork_begin c) (atfork_end c))) in
      after <- match k with WithHandlers => walk fuel (heap p') child next (atfork_begin (tcbs p' self)) | Plain => Ok [] end ;;
      Ok (0, None, before ++ [Kernel] ++ after, p')
  end.

(** allocateTcb, options/rtld/generic/linker.cpp:1429-1505: the control block of a new thread is zeroed; it gets its id when it starts *)
Definition create (p : process) (t : nat) (id : Z) : process := Proc (heap p) (set (tcbs p) t (Tcb id None None)).

Inductive op := Create (t : nat) (id : Z) | Register (t : nat) (f : triple) | Fork (k : kind) (t : nat) (a : answer).

Fixpoint run (p : process) (ops : list op) : res process :=
  match ops with
  | [] => Ok p
  | o :: r =>
      q <- match o with
           | Create t id => Ok (create p t id)
           | Register t f => pthread_atfork p t f
           | Fork k t a => '(_, _, _, q) <- fork k p t a ;; Ok q
           end ;;
      run q r
  end.

(** the process at its start: one thread, number 0 *)
Definition start (id : Z) : process := Proc [] (fun _ => Tcb id None None).
