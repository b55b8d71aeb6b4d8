(** Model of pthread_barrier_wait and pthread_barrier_destroy
    (options/posix/generic/pthread.cpp:1054-1130) on the words of struct __mlibc_barrier
    (options/internal/include/mlibc/thread-types.hpp:140-161).  Simplifications: sequentially
    consistent memory; FutexWait compares and sleeps atomically, FutexWake(all) wakes every
    sleeper, a sleeper may also wake up for no reason (0, EAGAIN or EINTR: the code treats them
    alike) and the futex calls return no other errors; frg::ceil_log2, which is not part of the
    repository, is the least shift with count <= 2^shift. *)
From Verif Require Export Conc.
Open Scope Z_scope.

(** pthread.h: value returned to one thread of every generation *)
Definition PTHREAD_BARRIER_SERIAL_THREAD : Z := -1.

(** unsigned int arithmetic *)
Definition u32 (x : Z) : Z := x mod 2 ^ 32.

Inductive pc :=
| Ready                      (* in no call *)
| EnterLoad                  (* pthread.cpp:1089 inside incremented, before the load of waiting *)
| Loop (old : Z)             (* pthread.cpp:1091 head of the loop *)
| StoreSeq (gen : Z)         (* pthread.cpp:1103 last thread, before seq.store(gen + 1) *)
| WakeSeq                    (* pthread.cpp:1104 before FutexWake(seq) *)
| LoadSeq (gen : Z)          (* pthread.cpp:1114 before the load of seq *)
| WaitSeq (gen cur : Z)      (* pthread.cpp:1118 before FutexWait(seq, cur) *)
| SleepSeq (gen cur : Z)     (* asleep in it *)
| Leave (r : Z)              (* pthread.cpp:1081 leave(), then return r *)
| WakeInside (r : Z)         (* pthread.cpp:1083 before FutexWake(inside), then return r *)
| Undefined                  (* pthread.cpp:1097 a shift by 32 bits *)
| DestroyLoad                (* pthread.cpp:1058 before the load of inside *)
| DestroyWait (e : Z)        (* pthread.cpp:1062 before FutexWait(inside, e) *)
| DestroySleep (e : Z).      (* asleep in it *)

(** [waiting], [seq], [inside]: the words.  Recorded for the specification: [arrived] counts the
    calls that have been counted as arrived; [ticket t] is the number of arrivals before that of
    [t]'s latest one; [log] lists (ticket, returned value) of the calls that have returned, the
    latest first; [destroyed]: pthread_barrier_destroy has returned. *)
Record state := {
  waiting : Z; seq : Z; inside : Z; at_ : Z -> pc;
  arrived : Z; ticket : Z -> Z; log : list (Z * Z); destroyed : bool }.

(** thread-types.hpp:151-155 a fresh barrier *)
Definition init : state :=
  {| waiting := 0; seq := 0; inside := 0; at_ := fun _ => Ready;
     arrived := 0; ticket := fun _ => 0; log := []; destroyed := false |}.

(** actions: the two calls, one atomic step, a weak compare-exchange that fails for no reason,
    waking up for no reason *)
Inductive act := CallWait | CallDestroy | Run | WeakFail | Spurious.

(** [t] goes on at [p] *)
Definition go (s : state) (t : Z) (p : pc) : option state :=
  Some {| waiting := waiting s; seq := seq s; inside := inside s; at_ := setf (at_ s) t p;
          arrived := arrived s; ticket := ticket s; log := log s; destroyed := destroyed s |}.

(** [t] has replaced the word [waiting] by [w], which counts it as arrived *)
Definition arrive (s : state) (t : Z) (w : Z) (p : pc) : option state :=
  Some {| waiting := w; seq := seq s; inside := inside s; at_ := setf (at_ s) t p;
          arrived := arrived s + 1; ticket := setf (ticket s) t (arrived s);
          log := log s; destroyed := destroyed s |}.

(** pthread.cpp:1091-1129 one turn of the loop; the compare-exchanges are weak *)
Definition turn (count t old : Z) (weak : bool) (s : state) : option state :=
  let gen_shift := Z.log2_up count in
  let mask := if gen_shift <? 32 then 2 ^ gen_shift - 1 else 2 ^ 32 - 1 in
  let gen := if gen_shift <? 32 then Z.shiftr old gen_shift else 0 in
  let waiters := Z.land old mask in
  let swapped := (waiting s =? old) && negb weak in
  if u32 (waiters + 1) =? count then
    if gen_shift <? 32 then
      let next_gen_start := u32 (Z.shiftl (u32 (gen + 1)) gen_shift) in
      if swapped then arrive s t next_gen_start (StoreSeq gen) else go s t (Loop (waiting s))
    else go s t Undefined
  else
    if swapped then arrive s t (u32 (old + 1)) (LoadSeq gen) else go s t (Loop (waiting s)).

(** threads asleep on [seq] wake up *)
Definition wake_seq (p : pc) : pc := match p with SleepSeq gen _ => LoadSeq gen | _ => p end.
(** threads asleep on [inside] wake up *)
Definition wake_inside (p : pc) : pc := match p with DestroySleep _ => DestroyLoad | _ => p end.

(** [t] returns [r] *)
Definition return_ (s : state) (t : Z) (ins : Z) (ps : Z -> pc) (r : Z) : option state :=
  Some {| waiting := waiting s; seq := seq s; inside := ins; at_ := setf ps t Ready;
          arrived := arrived s; ticket := ticket s; log := (ticket s t, r) :: log s;
          destroyed := destroyed s |}.

(** One step of thread [t] on a barrier for [count] threads. *)
Definition step (count : Z) (t : Z) (a : act) (s : state) : option state :=
  match at_ s t, a with
  | Ready, CallWait =>                                                        (* :1078 *)
      Some {| waiting := waiting s; seq := seq s; inside := u32 (inside s + 1);
              at_ := setf (at_ s) t EnterLoad;
              arrived := arrived s; ticket := ticket s; log := log s; destroyed := destroyed s |}
  | EnterLoad, Run => go s t (Loop (waiting s))
  | Loop old, Run => turn count t old false s
  | Loop old, WeakFail => turn count t old true s
  | StoreSeq gen, Run =>
      Some {| waiting := waiting s; seq := u32 (gen + 1); inside := inside s;
              at_ := setf (at_ s) t WakeSeq;
              arrived := arrived s; ticket := ticket s; log := log s; destroyed := destroyed s |}
  | WakeSeq, Run =>
      Some {| waiting := waiting s; seq := seq s; inside := inside s;
              at_ := setf (wake_with wake_seq (at_ s)) t (Leave PTHREAD_BARRIER_SERIAL_THREAD);
              arrived := arrived s; ticket := ticket s; log := log s; destroyed := destroyed s |}
  | LoadSeq gen, Run =>                                                       (* :1113-1117 *)
      let d := u32 (seq s - gen) in
      if (0 <? d) && (d <? 2 ^ 31) then go s t (Leave 0) else go s t (WaitSeq gen (seq s))
  | WaitSeq gen cur, Run =>
      if seq s =? cur then go s t (SleepSeq gen cur) else go s t (LoadSeq gen)
  | SleepSeq gen _, Spurious => go s t (LoadSeq gen)
  | Leave r, Run =>                                                           (* :1081-1084 *)
      if inside s =? 1
      then Some {| waiting := waiting s; seq := seq s; inside := u32 (inside s - 1);
                   at_ := setf (at_ s) t (WakeInside r);
                   arrived := arrived s; ticket := ticket s; log := log s; destroyed := destroyed s |}
      else return_ s t (u32 (inside s - 1)) (at_ s) r
  | WakeInside r, Run => return_ s t (inside s) (wake_with wake_inside (at_ s)) r
  | Ready, CallDestroy => go s t DestroyLoad
  | DestroyLoad, Run =>                                                       (* :1057-1066 *)
      if inside s =? 0
      then Some {| waiting := waiting s; seq := seq s; inside := inside s; at_ := setf (at_ s) t Ready;
                   arrived := arrived s; ticket := ticket s; log := log s; destroyed := true |}
      else go s t (DestroyWait (inside s))
  | DestroyWait e, Run =>
      if inside s =? e then go s t (DestroySleep e) else go s t DestroyLoad
  | DestroySleep _, Spurious => go s t DestroyLoad
  | _, _ => None
  end.
