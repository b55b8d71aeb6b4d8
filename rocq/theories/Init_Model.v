(** Model of the initialisation and destruction of objects: Loader::initObjects and Loader::_scheduleInit
    (options/rtld/generic/linker.cpp:2062-2110), doInitialize and doDestruct (1345-1389),
    ObjectRepository::destructObjects (515-528), and their use by __dlapi_open and __dlapi_exit
    (options/rtld/generic/main.cpp:712-800). *)
From Verif Require Export Base Deps_Model.
Open Scope Z_scope.

(** the flags of the objects; [destruct_queue] with the top first; [started], [finished] and [destroyed] list the
    objects whose constructors were entered, whose constructors returned and whose destructors ran, in that order *)
Record state := { was_linked : Z -> bool; scheduled : Z -> bool; on_stack : Z -> bool; initialized : Z -> bool;
                  destruct_queue : list Z; started : list Z; finished : list Z; was_destroyed : Z -> bool; destroyed : list Z }.
Definition set_b (f : Z -> bool) (x : Z) (b : bool) : Z -> bool := fun y => if y =? x then b else f y.
Definition with_sched (s : state) (sc os : Z -> bool) : state :=
  {| was_linked := was_linked s; scheduled := sc; on_stack := os; initialized := initialized s; destruct_queue := destruct_queue s;
     started := started s; finished := finished s; was_destroyed := was_destroyed s; destroyed := destroyed s |}.

(** linker.cpp:2102-2105, with the recursive call as a parameter *)
Fixpoint sched_deps (rec : Z -> state -> list Z -> res (state * list Z)) (ds : list Z) (s : state) (q : list Z) : res (state * list Z) :=
  match ds with
  | [] => Ok (s, q)
  | d :: ds' =>
      if negb (scheduled s d) then '(s, q) <- rec d s q ;; sched_deps rec ds' s q
      else sched_deps rec ds' s q
  end.
(** linker.cpp:2093-2110; [q] is _initQueue *)
Fixpoint scheduleInit (fuel : nat) (deps : Z -> list Z) (o : Z) (s : state) (q : list Z) : res (state * list Z) :=
  match fuel with
  | O => Fuel
  | S f =>
      if on_stack s o then Abort else
      if scheduled s o then Abort else
      let s := with_sched s (set_b (scheduled s) o true) (set_b (on_stack s) o true) in
      '(s, q) <- sched_deps (scheduleInit f deps) (deps o) s q ;;
      Ok (with_sched s (scheduled s) (set_b (on_stack s) o false), q ++ [o])
  end.

(** linker.cpp:1345-1366: the constructors are given by the roots that they load, see [load] *)
Definition enter (s : state) (o : Z) : state :=
  {| was_linked := was_linked s; scheduled := scheduled s; on_stack := on_stack s; initialized := initialized s; destruct_queue := destruct_queue s;
     started := started s ++ [o]; finished := finished s; was_destroyed := was_destroyed s; destroyed := destroyed s |}.
(** linker.cpp:1365 and 2086 *)
Definition leave (s : state) (o : Z) : state :=
  {| was_linked := was_linked s; scheduled := scheduled s; on_stack := on_stack s; initialized := set_b (initialized s) o true; destruct_queue := o :: destruct_queue s;
     started := started s; finished := finished s ++ [o]; was_destroyed := was_destroyed s; destroyed := destroyed s |}.
Fixpoint each (f : Z -> state -> res state) (l : list Z) (s : state) : res state :=
  match l with [] => Ok s | x :: l' => s <- f x s ;; each f l' s end.
(** linker.cpp:2083-2088 *)
Fixpoint init_queue (ctor : Z -> state -> res state) (q : list Z) (s : state) : res state :=
  match q with
  | [] => Ok s
  | o :: q' =>
      if negb (initialized s o) then
        if negb (was_linked s o) then Abort else
        s <- ctor o (enter s o) ;;
        init_queue ctor q' (leave s o)
      else init_queue ctor q' s
  end.
(** linker.cpp:1882-1883: the objects of the list are linked *)
Definition link_all (s : state) (l : list Z) : state :=
  {| was_linked := fun x => if mem_b x l then true else was_linked s x; scheduled := scheduled s; on_stack := on_stack s; initialized := initialized s;
     destruct_queue := destruct_queue s; started := started s; finished := finished s; was_destroyed := was_destroyed s; destroyed := destroyed s |}.
(** main.cpp:797-799: linkObjects and initObjects for a root whose objects are found and mapped; [opens o] are the
    roots that the constructors of [o] load with dlopen. Relocation, TLS and the preinit array are not part of it. *)
Fixpoint load (fuel : nat) (deps : Z -> list Z) (opens : Z -> list Z) (root : Z) (s : state) : res state :=
  match fuel with
  | O => Fuel
  | S f =>
      bfs <- buildLinkBfs fuel deps root ;;
      '(s, q) <- sched_deps (scheduleInit fuel deps) bfs (link_all s bfs) [] ;;
      init_queue (fun o s => each (load f deps opens) (opens o) s) q s
  end.

(** linker.cpp:1368-1389 *)
Definition doDestruct (s : state) (o : Z) : state :=
  if negb (initialized s o) || was_destroyed s o then s else
  {| was_linked := was_linked s; scheduled := scheduled s; on_stack := on_stack s; initialized := initialized s; destruct_queue := destruct_queue s;
     started := started s; finished := finished s; was_destroyed := set_b (was_destroyed s) o true; destroyed := destroyed s ++ [o] |}.
Definition pop (s : state) : state :=
  {| was_linked := was_linked s; scheduled := scheduled s; on_stack := on_stack s; initialized := initialized s; destruct_queue := tl (destruct_queue s);
     started := started s; finished := finished s; was_destroyed := was_destroyed s; destroyed := destroyed s |}.
(** linker.cpp:522-528; destructors that load objects are not modelled *)
Fixpoint destructObjects (fuel : nat) (s : state) : res state :=
  match fuel with
  | O => Fuel
  | S f =>
      match destruct_queue s with
      | [] => Ok s
      | top :: _ => destructObjects f (pop (doDestruct s top))
      end
  end.
(** before the first object is loaded *)
Definition start : state :=
  {| was_linked := fun _ => false; scheduled := fun _ => false; on_stack := fun _ => false; initialized := fun _ => false;
     destruct_queue := []; started := []; finished := []; was_destroyed := fun _ => false; destroyed := [] |}.
