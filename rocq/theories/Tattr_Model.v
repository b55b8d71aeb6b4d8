(** Model of the thread attributes with a processor set, a signal mask, a stack and a detach state (options/posix/generic/pthread.cpp:82-164, 264-345;
    options/internal/include/mlibc/thread-types.hpp:19-60; destructor: options/internal/generic/threads.cpp:639-642).
    An object is its fields; next to them the model counts the live blocks that realloc gave to it.  The scheduling attributes are left out.
    The processor set is its bytes, and its size is their number. *)
From Verif Require Import Base.

Definition EINVAL : Z := 22.
Definition ENOMEM : Z := 12.
Definition ERANGE : Z := 34.
Definition SIGCANCEL : Z := 32.
Definition NO_SIGMASK : Z := -1.
Definition STACK_MIN : Z := 16384.
Record attr := mk { cpus : option (list Z); mask : option (Z -> bool); detached : bool; stackaddr : Z; stacksize : Z; guardsize : Z; live : Z }.

(** calls that change an object; the flag of [SetCpus] tells whether realloc succeeds *)
Inductive call :=
| SetCpus (s : option (list Z)) (memory : bool)
| SetMask (m : option (Z -> bool))
| SetDetach (d : Z)
| SetStackSize (n : Z)
| SetStackAddr (p : Z)
| SetStack (p n : Z)
| SetGuard (n : Z).

Definition with_cpus (a : attr) (c : option (list Z)) (l : Z) : attr := mk c (mask a) (detached a) (stackaddr a) (stacksize a) (guardsize a) l.
Definition size_of (c : option (list Z)) : nat := match c with Some s => length s | None => 0 end.
(** pthread_attr_setaffinity_np: pthread.cpp:288-311 *)
Definition setaffinity (a : attr) (s : option (list Z)) (memory : bool) : Z * attr :=
  match s with
  | None => (0%Z, with_cpus a None (live a))
  | Some [] => (0%Z, with_cpus a None (live a))
  | Some s =>
    if Nat.eqb (size_of (cpus a)) (length s) then (0%Z, with_cpus a (Some s) (live a))
    else if memory then (0%Z, with_cpus a (Some s) (match cpus a with None => live a + 1 | Some _ => live a end)%Z)
    else (ENOMEM, a)
  end.
(** the setters: pthread.cpp:102-110, 118-124, 132-136, 145-152, 160-164, 288-311, 328-345 *)
Definition exec (a : attr) (c : call) : Z * attr :=
  match c with
  | SetCpus s memory => setaffinity a s memory
  | SetMask None => (0%Z, mk (cpus a) None (detached a) (stackaddr a) (stacksize a) (guardsize a) (live a))
  | SetMask (Some m) => (0%Z, mk (cpus a) (Some (fun s => if (s =? SIGCANCEL)%Z then false else m s)) (detached a) (stackaddr a) (stacksize a) (guardsize a) (live a))
  | SetDetach d =>
    if negb (d =? 1)%Z && negb (d =? 0)%Z then (EINVAL, a)
    else (0%Z, mk (cpus a) (mask a) (d =? 1)%Z (stackaddr a) (stacksize a) (guardsize a) (live a))
  | SetStackSize n => if (n <? STACK_MIN)%Z then (EINVAL, a) else (0%Z, mk (cpus a) (mask a) (detached a) (stackaddr a) n (guardsize a) (live a))
  | SetStackAddr p => (0%Z, mk (cpus a) (mask a) (detached a) p (stacksize a) (guardsize a) (live a))
  | SetStack p n => if (n <? STACK_MIN)%Z then (EINVAL, a) else (0%Z, mk (cpus a) (mask a) (detached a) p n (guardsize a) (live a))
  | SetGuard n => (0%Z, mk (cpus a) (mask a) (detached a) (stackaddr a) (stacksize a) n (live a))
  end.
Definition run (a : attr) (h : list call) : attr := fold_left (fun a c => snd (exec a c)) h a.

(** memcpy and memset at the start of dst *)
Definition put (dst : list Z) (s : list Z) : list Z := s ++ skipn (length s) dst.
(** pthread_attr_getaffinity_np: pthread.cpp:265-286; dst is what cpusetp points to *)
Definition getaffinity (a : attr) (n : nat) (dst : list Z) : Z * list Z :=
  match cpus a with
  | None => (0%Z, put dst (repeat 255%Z n))
  | Some s =>
    if existsb (fun b => negb (b =? 0)%Z) (skipn n s) then (ERANGE, dst)
    else
      let p := put dst (firstn (Nat.min n (length s)) s) in
      (0%Z, if Nat.ltb (length s) n then put p (repeat 0%Z (n - length s)) else p)
  end.
(** pthread_attr_getsigmask_np: pthread.cpp:313-327 *)
Definition getsigmask (a : attr) : Z * (Z -> bool) :=
  match mask a with None => (NO_SIGMASK, fun _ => false) | Some m => (0%Z, m) end.
(** pthread_attr_getdetachstate, getstack, getguardsize: pthread.cpp:96-100, 112-116, 126-130, 138-143, 154-158 *)
Definition getdetach (a : attr) : Z := if detached a then 1%Z else 0%Z.
Definition getstack (a : attr) : Z * Z := (stackaddr a, stacksize a).
Definition getguard (a : attr) : Z := guardsize a.

(** pthread_attr_init: pthread.cpp:82-85; the default sizes of the stack and its guard are parameters *)
Definition init (stack guard : Z) : attr := mk None None false 0%Z stack guard 0%Z.
(** pthread_attr_destroy: pthread.cpp:87-94 with threads.cpp:639-642: the blocks that are left *)
Definition destroy (a : attr) : Z := match cpus a with None => live a | Some _ => live a - 1 end%Z.
