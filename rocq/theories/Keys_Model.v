(** Model of thread-specific data: thread_key_create, thread_key_delete, thread_key_get,
    thread_key_set (options/internal/generic/threads.cpp:503-563; pthread_key_create,
    pthread_key_delete, pthread_getspecific and pthread_setspecific in
    options/posix/generic/pthread.cpp:744-770 and tss_* only call them) and the key part of
    thread_exit (threads.cpp:207-221).  Each of the four operations runs under key_mutex_ from
    beginning to end, so it is one step; thread_exit takes the mutex twice per key, so other
    threads may act in between.  Destructors are arbitrary: while one runs, its thread may call any
    of the four operations any number of times.  Pointers and functions are numbers, 0 is null.
    Simplifications: sequentially consistent memory; the thread's cleanup handlers and
    thread_local destructors, which run before, are not modelled. *)
From Verif Require Export Conc.
Open Scope Z_scope.

(** limits.h:171, bits/threads.h:34 *)
Definition PTHREAD_KEYS_MAX : Z := 1024.
Definition DESTRUCTOR_ITERATIONS : Z := 8.
Definition EAGAIN : Z := 11.
Definition EINVAL : Z := 22.

(** struct key_global_info (threads.cpp:19-24); struct Tcb::LocalKey (tcb.hpp:137-140) *)
Record slot := { in_use : bool; dtor : Z; gen : Z }.
Record local := { value : Z; lgen : Z }.

Inductive pc :=
| Running                            (* outside thread_exit *)
| XGet (j i : Z)                     (* thread_exit :209, about to read key i in round j *)
| XDtor (j i v : Z)                  (* :210 has read the value v, about to read the destructor *)
| XIn (j i : Z)                      (* :215 in the destructor of key i *)
| Gone.                              (* :221 past the destructors *)

(** what happened, for the record: results are part of the events *)
Inductive event :=
| ECreate (t d : Z) (key : option Z) (* key_create with destructor d: the key, or EAGAIN *)
| EDelete (t k : Z) (ok : bool)      (* key_delete: 0 or EINVAL *)
| ESet (t k v : Z) (ok : bool)       (* setspecific: 0 or EINVAL *)
| EGet (t k v : Z)                   (* getspecific returned v *)
| EExit (t : Z)                      (* the thread starts to run destructors *)
| ECall (t k d v : Z)                (* destructor d called with v for key k *)
| ERet (t k : Z)                     (* it returned *)
| EGone (t : Z).                     (* all destructors are done *)

Record state := { slots : Z -> slot; locals : Z -> Z -> local; at_ : Z -> pc; trace : list event }.

(** threads.cpp:26-29 zero-initialised; localKeys value-initialised (linker.cpp:1480) *)
Definition init : state :=
  {| slots := fun _ => {| in_use := false; dtor := 0; gen := 0 |};
     locals := fun _ _ => {| value := 0; lgen := 0 |};
     at_ := fun _ => Running; trace := [] |}.

Inductive act := Create (d : Z) | Delete (k : Z) | Get (k : Z) | Set_ (k v : Z) | Exit | Step.

(** threads.cpp:507-512 *)
Fixpoint find_free (g : Z -> slot) (n : nat) (i : Z) : option Z :=
  match n with
  | O => None
  | S n' => if negb (in_use (g i)) then Some i else find_free g n' (i + 1)
  end.

(** threads.cpp:503-522 *)
Definition key_create (g : Z -> slot) (d : Z) : option Z * (Z -> slot) :=
  match find_free g (Z.to_nat PTHREAD_KEYS_MAX) 0 with
  | None => (None, g)
  | Some k => (Some k, setf g k {| in_use := true; dtor := d; gen := gen (g k) |})
  end.

(** the test at :527, :541, :556 ([key] is unsigned) *)
Definition bad_key (g : Z -> slot) (k : Z) : bool :=
  (k <? 0) || (PTHREAD_KEYS_MAX <=? k) || negb (in_use (g k)).

(** threads.cpp:524-535; the generation is a uint64_t *)
Definition key_delete (g : Z -> slot) (k : Z) : bool * (Z -> slot) :=
  if bad_key g k then (false, g)
  else (true, setf g k {| in_use := false; dtor := 0; gen := (gen (g k) + 1) mod 2 ^ 64 |}).

(** threads.cpp:537-550 *)
Definition key_get (g : Z -> slot) (l : Z -> local) (k : Z) : Z * (Z -> local) :=
  if bad_key g k then (0, l)
  else
    let l' := if lgen (l k) <? gen (g k) then setf l k {| value := 0; lgen := gen (g k) |} else l in
    (value (l' k), l').

(** threads.cpp:552-563 *)
Definition key_set (g : Z -> slot) (l : Z -> local) (k v : Z) : bool * (Z -> local) :=
  if bad_key g k then (false, l)
  else (true, setf l k {| value := v; lgen := gen (g k) |}).

(** threads.cpp:207-208 the next turn of the two loops of thread_exit *)
Definition next (j i : Z) : pc :=
  if i + 1 <? PTHREAD_KEYS_MAX then XGet j (i + 1)
  else if j + 1 <? DESTRUCTOR_ITERATIONS then XGet (j + 1) 0 else Gone.

(** thread [t] goes on at [p]; leaving the loops is an event *)
Definition leave (t : Z) (p : pc) (tr : list event) : list event :=
  match p with Gone => EGone t :: tr | _ => tr end.

Definition step (t : Z) (a : act) (s : state) : option state :=
  let g := slots s in let l := locals s t in
  match at_ s t, a with
  | Running, Create d | XIn _ _, Create d =>
      let '(r, g') := key_create g d in
      Some {| slots := g'; locals := locals s; at_ := at_ s; trace := ECreate t d r :: trace s |}
  | Running, Delete k | XIn _ _, Delete k =>
      let '(r, g') := key_delete g k in
      Some {| slots := g'; locals := locals s; at_ := at_ s; trace := EDelete t k r :: trace s |}
  | Running, Get k | XIn _ _, Get k =>
      let '(v, l') := key_get g l k in
      Some {| slots := g; locals := setf (locals s) t l'; at_ := at_ s; trace := EGet t k v :: trace s |}
  | Running, Set_ k v | XIn _ _, Set_ k v =>
      let '(r, l') := key_set g l k v in
      Some {| slots := g; locals := setf (locals s) t l'; at_ := at_ s; trace := ESet t k v r :: trace s |}
  | Running, Exit =>
      Some {| slots := g; locals := locals s; at_ := setf (at_ s) t (XGet 0 0); trace := EExit t :: trace s |}
  | XGet j i, Step =>                                                    (* :209 *)
      let '(v, l') := key_get g l i in
      let p := if v =? 0 then next j i else XDtor j i v in
      Some {| slots := g; locals := setf (locals s) t l'; at_ := setf (at_ s) t p; trace := leave t p (trace s) |}
  | XDtor j i v, Step =>                                                 (* :210-214 *)
      if dtor (g i) =? 0 then
        let p := next j i in
        Some {| slots := g; locals := locals s; at_ := setf (at_ s) t p; trace := leave t p (trace s) |}
      else
        Some {| slots := g; locals := locals s; at_ := setf (at_ s) t (XIn j i);
                trace := ECall t i (dtor (g i)) v :: trace s |}
  | XIn j i, Step =>                                                     (* :216 *)
      let p := next j i in
      Some {| slots := g; locals := setf (locals s) t (setf l i {| value := 0; lgen := lgen (l i) |});
              at_ := setf (at_ s) t p; trace := leave t p (ERet t i :: trace s) |}
  | _, _ => None
  end.
