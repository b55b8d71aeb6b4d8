(** Model of dynamic thread vectors: Loader::_buildTlsMaps (options/rtld/generic/linker.cpp:1902-2004),
    Loader::_publishTlsMaps (2006-2060), allocateTcb (1467-1501), __rtld_allocateTcb (main.cpp:231-235) and
    accessDtvIndex (linker.cpp:1506-1515), as interleaved steps of loaders and threads. Memory is sequentially
    consistent; the code uses acquire loads and release stores for the two words that are read without the lock. *)
From Verif Require Export Base Conc.
Open Scope Z_scope.

(** a TLS block: the static one of a thread for an index, or a piece of allocated memory *)
Inductive block := Stat (t i : Z) | Dyn (k : Z).
(** what is in it: the TLS image, zeros, or what the thread has stored *)
Inductive data := Image | Zero | Val (v : Z).
Definition block_eqb (a b : block) : bool :=
  match a, b with Stat t i, Stat u j => (t =? u) && (i =? j) | Dyn k, Dyn l => k =? l | _, _ => false end.

(** a call of dlopen: not started; has assigned the indices from [prev] to [top]; holds the lock, is at the thread control
    blocks [ts] (the first one being [t] with its vector [a], at slot [i]) and has seen [new] indices *)
Inductive lpc :=
| LIdle
| LBuilt (prev top : Z)
| LPub (prev top new : Z) (ts : list Z)
| LSlots (prev top new t : Z) (ts : list Z) (a i : Z) (grow : bool)
| LSize (prev top new t : Z) (ts : list Z).
(** a thread: not in __tls_get_addr; has loaded dtvSize; has the address *)
Inductive rpc := RIdle | RSize (i s : Z) | RDone (i : Z) (b : block).
(** a finished access: thread, index, the block (None: a failed check or a null or wild pointer), its content *)
Record event := { e_thread : Z; e_index : Z; e_block : option block; e_seen : data }.

(** [n]: indices.size(); [vec a], [len a]: the allocated vectors *)
Record state := {
  n : Z; tcbs : list Z; exited : Z -> bool; dtv_size : Z -> Z; dtv : Z -> Z; vec : Z -> Z -> option block; len : Z -> Z;
  next_vec : Z; next_blk : Z; content : block -> data; lock : option Z; active : Z; pc : Z -> lpc; rd : Z -> rpc;
  ready : Z -> bool; log : list event }.

Inductive action := Build (k : Z) | Lock | Step | Create | Exit | Access (i : Z) | Load | Write (v : Z) | Return.

Definition set_pc (s : state) (l : Z) (p : lpc) : state :=
  {| n := n s; tcbs := tcbs s; exited := exited s; dtv_size := dtv_size s; dtv := dtv s; vec := vec s; len := len s; next_vec := next_vec s;
     next_blk := next_blk s; content := content s; lock := lock s; active := active s; pc := setf (pc s) l p; rd := rd s; ready := ready s; log := log s |}.
Definition set_rd (s : state) (t : Z) (p : rpc) : state :=
  {| n := n s; tcbs := tcbs s; exited := exited s; dtv_size := dtv_size s; dtv := dtv s; vec := vec s; len := len s; next_vec := next_vec s;
     next_blk := next_blk s; content := content s; lock := lock s; active := active s; pc := pc s; rd := setf (rd s) t p; ready := ready s; log := log s |}.
Definition set2 {B} (f : Z -> Z -> B) (a i : Z) (b : B) : Z -> Z -> B := setf f a (setf (f a) i b).
Definition set_content (f : block -> data) (b : block) (d : data) : block -> data := fun x => if block_eqb x b then d else f x.

(** what the code depends on: [serial]: calls of dlopen do not overlap; [stat i]: the object with index [i] has tlsModel
    initial; [glob i]: it is in the global scope *)
Record setup := { serial : bool; stat : Z -> bool; glob : Z -> bool }.

(** linker.cpp:1904-1905 and 1912-2003, under the lock: [k] objects with TLS get indices *)
Definition build (c : setup) (l k : Z) (s : state) : option state :=
  match pc s l, lock s with
  | LIdle, None =>
      if (0 <=? k) && (if serial c then active s =? 0 else true) then
        Some {| n := n s + k; tcbs := tcbs s; exited := exited s; dtv_size := dtv_size s; dtv := dtv s; vec := vec s; len := len s; next_vec := next_vec s;
                next_blk := next_blk s; content := content s; lock := lock s; active := active s + 1; pc := setf (pc s) l (LBuilt (n s) (n s + k)); rd := rd s;
                ready := ready s; log := log s |}
      else None
  | _, _ => None
  end.
(** linker.cpp:2007-2010: the relocations are done *)
Definition take_lock (l : Z) (s : state) : option state :=
  match pc s l, lock s with
  | LBuilt prev top, None =>
      Some {| n := n s; tcbs := tcbs s; exited := exited s; dtv_size := dtv_size s; dtv := dtv s; vec := vec s; len := len s; next_vec := next_vec s;
              next_blk := next_blk s; content := content s; lock := Some l; active := active s; pc := setf (pc s) l (LPub prev top (n s) (tcbs s)); rd := rd s;
              ready := ready s; log := log s |}
  | _, _ => None
  end.
(** one step of _publishTlsMaps *)
Definition publish (c : setup) (l : Z) (s : state) : option state :=
  match pc s l with
  | LPub prev top new [] =>
      (* the lock is released, the call goes on to run constructors and returns *)
      Some {| n := n s; tcbs := tcbs s; exited := exited s; dtv_size := dtv_size s; dtv := dtv s; vec := vec s; len := len s; next_vec := next_vec s;
              next_blk := next_blk s; content := content s; lock := None; active := active s - 1; pc := setf (pc s) l LIdle; rd := rd s;
              ready := fun i => ready s i || ((prev <=? i) && (i <? top)); log := log s |}
  | LPub prev top new (t :: ts) =>
      if exited s t then Some (set_pc s l (LPub prev top new ts))            (* 2011 *)
      else if dtv_size s t <? new then                                       (* 2014-2021: a new vector, not visible yet *)
        let a := next_vec s in
        Some {| n := n s; tcbs := tcbs s; exited := exited s; dtv_size := dtv_size s; dtv := dtv s;
                vec := setf (vec s) a (fun j => if j <? dtv_size s t then vec s (dtv s t) j else None); len := setf (len s) a new; next_vec := a + 1;
                next_blk := next_blk s; content := content s; lock := lock s; active := active s; pc := setf (pc s) l (LSlots prev top new t ts a prev true); rd := rd s;
                ready := ready s; log := log s |}
      else Some (set_pc s l (LSlots prev top new t ts (dtv s t) prev false))
  | LSlots prev top new t ts a i grow =>
      if i <? new then                                                       (* 2027-2050 *)
        let '(b, k) := if stat c i then (Stat t i, next_blk s)
                       else match vec s a i with Some b => (b, next_blk s) | None => (Dyn (next_blk s), next_blk s + 1) end in
        Some {| n := n s; tcbs := tcbs s; exited := exited s; dtv_size := dtv_size s; dtv := dtv s; vec := set2 (vec s) a i (Some b); len := len s; next_vec := next_vec s;
                next_blk := k; content := set_content (content s) b Image; lock := lock s; active := active s; pc := setf (pc s) l (LSlots prev top new t ts a (i + 1) grow);
                rd := rd s; ready := ready s; log := log s |}
      else if grow then                                                      (* 2056 *)
        Some {| n := n s; tcbs := tcbs s; exited := exited s; dtv_size := dtv_size s; dtv := setf (dtv s) t a; vec := vec s; len := len s; next_vec := next_vec s;
                next_blk := next_blk s; content := content s; lock := lock s; active := active s; pc := setf (pc s) l (LSize prev top new t ts); rd := rd s;
                ready := ready s; log := log s |}
      else Some (set_pc s l (LPub prev top new ts))
  | LSize prev top new t ts =>                                               (* 2057 *)
      Some {| n := n s; tcbs := tcbs s; exited := exited s; dtv_size := setf (dtv_size s) t new; dtv := dtv s; vec := vec s; len := len s; next_vec := next_vec s;
              next_blk := next_blk s; content := content s; lock := lock s; active := active s; pc := setf (pc s) l (LPub prev top new ts); rd := rd s;
              ready := ready s; log := log s |}
  | _ => None
  end.

(** linker.cpp:1429-1503 under the lock, and main.cpp:233: the vector of thread [t] is filled from index 1 on. A dynamic block is
    allocated with the image; a static one is zeroed (1438) and gets the image if the object is in the global scope. One step: the
    TCB is not visible to others before the lock is released. *)
Fixpoint fill (c : setup) (t : Z) (idx : list Z) (v : Z -> option block) (k : Z) (f : block -> data) : (Z -> option block) * Z * (block -> data) :=
  match idx with
  | [] => (v, k, f)
  | i :: r => if stat c i then fill c t r (setf v i (Some (Stat t i))) k (set_content f (Stat t i) (if glob c i then Image else Zero))
              else fill c t r (setf v i (Some (Dyn k))) (k + 1) (set_content f (Dyn k) Image)
  end.
Definition indices (m : Z) : list Z := map Z.of_nat (seq 1 (Z.to_nat (m - 1))).
Definition mem_b (x : Z) (l : list Z) : bool := existsb (Z.eqb x) l.
Definition create (c : setup) (t : Z) (s : state) : option state :=
  match lock s with
  | Some _ => None
  | None =>
      if mem_b t (tcbs s) then None else
      let a := next_vec s in
      let '(v, k, f) := fill c t (indices (n s)) (fun _ => None) (next_blk s) (content s) in
      Some {| n := n s; tcbs := tcbs s ++ [t]; exited := exited s; dtv_size := setf (dtv_size s) t (n s); dtv := setf (dtv s) t a; vec := setf (vec s) a v;
              len := setf (len s) a (n s); next_vec := a + 1; next_blk := k; content := f; lock := lock s; active := active s; pc := pc s; rd := setf (rd s) t RIdle;
              ready := ready s; log := log s |}
  end.

(** what happens in thread [t]: __tls_get_addr for the index [i] of an object whose dlopen has returned (linker.cpp:1508-1514),
    storing to the variable, and going on; the thread exits *)
Definition finish (s : state) (t : Z) (p : rpc) (e : event) : state :=
  {| n := n s; tcbs := tcbs s; exited := exited s; dtv_size := dtv_size s; dtv := dtv s; vec := vec s; len := len s; next_vec := next_vec s;
     next_blk := next_blk s; content := content s; lock := lock s; active := active s; pc := pc s; rd := setf (rd s) t p; ready := ready s; log := log s ++ [e] |}.
Definition failed (s : state) (t i : Z) : state :=
  finish s t RIdle {| e_thread := t; e_index := i; e_block := None; e_seen := Zero |}.
Definition access (t i : Z) (s : state) : option state :=
  match rd s t with
  | RIdle =>
      if mem_b t (tcbs s) && negb (exited s t) && ready s i then
        if i =? 0 then Some (failed s t i) else
        if i <? dtv_size s t then Some (set_rd s t (RSize i (dtv_size s t))) else Some (failed s t i)
      else None
  | _ => None
  end.
Definition load (t : Z) (s : state) : option state :=
  match rd s t with
  | RSize i _ =>
      if (0 <=? i) && (i <? len s (dtv s t)) then
        match vec s (dtv s t) i with
        | Some b => Some (finish s t (RDone i b) {| e_thread := t; e_index := i; e_block := Some b; e_seen := content s b |})
        | None => Some (failed s t i)
        end
      else Some (failed s t i)
  | _ => None
  end.
Definition write (t v : Z) (s : state) : option state :=
  match rd s t with
  | RDone i b =>
      Some {| n := n s; tcbs := tcbs s; exited := exited s; dtv_size := dtv_size s; dtv := dtv s; vec := vec s; len := len s; next_vec := next_vec s;
              next_blk := next_blk s; content := set_content (content s) b (Val v); lock := lock s; active := active s; pc := pc s; rd := rd s; ready := ready s; log := log s |}
  | _ => None
  end.
Definition exit (t : Z) (s : state) : option state :=
  match rd s t with
  | RIdle => if negb (mem_b t (tcbs s)) then None else
      Some {| n := n s; tcbs := tcbs s; exited := setf (exited s) t true; dtv_size := dtv_size s; dtv := dtv s; vec := vec s; len := len s; next_vec := next_vec s;
              next_blk := next_blk s; content := content s; lock := lock s; active := active s; pc := pc s; rd := rd s; ready := ready s; log := log s |}
  | _ => None
  end.
Definition step (c : setup) (x : Z) (a : action) (s : state) : option state :=
  match a with
  | Build k => build c x k s
  | Lock => take_lock x s
  | Step => publish c x s
  | Create => create c x s
  | Exit => exit x s
  | Access i => access x i s
  | Load => load x s
  | Write v => write x v s
  | Return => match rd s x with RDone _ _ => Some (set_rd s x RIdle) | _ => None end
  end.
(** linker.cpp:1395-1399: index 0 is reserved *)
Definition start : state :=
  {| n := 1; tcbs := []; exited := fun _ => false; dtv_size := fun _ => 0; dtv := fun _ => 0; vec := fun _ _ => None; len := fun _ => 0; next_vec := 0;
     next_blk := 0; content := fun _ => Zero; lock := None; active := 0; pc := fun _ => LIdle; rd := fun _ => RIdle; ready := fun _ => false; log := [] |}.
