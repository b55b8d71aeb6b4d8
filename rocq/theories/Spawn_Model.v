(** Model of posix_spawn, options/posix/generic/spawn.cpp.  A descriptor table maps numbers to an open file and its close-on-exec flag.  The
    kernel is given by parameters: [pick] chooses an unused descriptor, [open_file], [chdir] and [fchdir] act on the world (the files and the
    current directory), [exec] says whether the program can be started (0 or an error number), [sys] how the other calls end.  dup and dup2 of
    open descriptors, close, fcntl, read and write on the pipe succeed.  Scheduling: the parent waits for the child in read, so the two do not
    interleave. *)
From Verif Require Import Base.
Open Scope Z_scope.

Definition EBADF : Z := 9.
Definition ENOSYS : Z := 38.
Inductive disposition := Dfl | Ign | Handler (h : Z).
(** the calls made for the attributes *)
Inductive call := SetSid | SetPgid | SetScheduler | SetParam | SetGid | SetUid.

Section Spawn.
Variables file world : Type.
(** an open file of the user, or an end of the pipe that posix_spawn uses *)
Inductive desc := User (f : file) | PipeR | PipeW.
(** the table is the list of the changes made to it, the last one first *)
Definition table : Type := list (Z * option (desc * bool)).
Fixpoint get (t : table) (x : Z) : option (desc * bool) := match t with [] => None | (y, v) :: r => if x =? y then v else get r x end.
Definition set (t : table) (fd : Z) (v : option (desc * bool)) : table := (fd, v) :: t.

Variable pick : table -> Z.
Variable open_file : world -> list Z -> Z -> Z -> world * (file + Z).
Variable cloexec : Z -> bool.        (** does the flag word of open hold O_CLOEXEC? *)
Variable chdir : world -> list Z -> world + Z.
Variable fchdir : world -> desc -> world + Z.
Variable sys : call -> Z.

(** struct fdop, spawn-types.hpp:42-49 *)
Inductive fdop := FClose (fd : Z) | FDup2 (fd srcfd : Z) | FOpen (fd : Z) (path : list Z) (oflag mode : Z) | FChdir (path : list Z) | FFchdir (fd : Z).
Definition op_fd (o : fdop) : Z := match o with FClose fd | FDup2 fd _ | FOpen fd _ _ _ | FFchdir fd => fd | FChdir _ => -1 end.
(** posix_spawn_file_actions_add*, spawn.cpp:430-494: the error and the list afterwards *)
Definition adddup2 (ops : list fdop) (fildes newfildes : Z) : Z * list fdop := if (fildes <? 0) || (newfildes <? 0) then (EBADF, ops) else (0, ops ++ [FDup2 newfildes fildes]).
Definition addclose (ops : list fdop) (fildes : Z) : Z * list fdop := if fildes <? 0 then (EBADF, ops) else (0, ops ++ [FClose fildes]).
Definition addopen (ops : list fdop) (fildes : Z) (path : list Z) (oflag mode : Z) : Z * list fdop := if fildes <? 0 then (EBADF, ops) else (0, ops ++ [FOpen fildes path oflag mode]).
Definition addchdir (ops : list fdop) (path : list Z) : Z * list fdop := (0, ops ++ [FChdir path]).
Definition addfchdir (ops : list fdop) (fildes : Z) : Z * list fdop := if fildes <? 0 then (EBADF, ops) else (0, ops ++ [FFchdir fildes]).

(** posix_spawnattr_t *)
Record attr := { f_setsid : bool; f_setpgroup : bool; f_setscheduler : bool; f_setschedparam : bool; f_resetids : bool; f_setsigdef : bool; f_setsigmask : bool;
                 a_def : Z -> bool; a_mask : Z -> bool }.

(** the child: its table, the world, the descriptor of the pipe *)
Definition cstate : Type := (table * world * Z)%type.
(** spawn.cpp:144-157: the pipe makes way *)
Definition move_pipe (fd : Z) (s : cstate) : cstate :=
  let '(t, w, p) := s in
  if fd =? p then let n := pick t in (set (set t n (match get t p with Some (d, _) => Some (d, false) | None => None end)) p None, w, n) else s.
(** one file action, spawn.cpp:158-212; [inr]: the state and the error *)
Definition action (o : fdop) (s0 : cstate) : cstate + cstate * Z :=
  let '(t, w, p) := move_pipe (op_fd o) s0 in
  let s := (t, w, p) in
  match o with
  | FClose fd => inl (set t fd None, w, p)
  | FDup2 fd srcfd =>
      if srcfd =? p then inr (s, EBADF)
      else match get t srcfd with
           | None => inr (s, EBADF)
           | Some (d, _) => if negb (srcfd =? fd) then inl (set t fd (Some (d, false)), w, p) else inl (set t srcfd (Some (d, false)), w, p)
           end
  | FOpen fd path oflag mode =>
      match open_file w path oflag mode with
      | (w', inr e) => inr ((t, w', p), e)
      | (w', inl f) =>
          let n := pick t in
          let t := set t n (Some (User f, cloexec oflag)) in
          if negb (n =? fd) then inl (set (set t fd (Some (User f, false))) n None, w', p) else inl (t, w', p)
      end
  | FChdir path => match chdir w path with inr e => inr (s, e) | inl w' => inl (t, w', p) end
  | FFchdir fd => match get t fd with
                  | None => inr (s, EBADF)
                  | Some (d, _) => match fchdir w d with inr e => inr (s, e) | inl w' => inl (t, w', p) end
                  end
  end.
Fixpoint actions (ops : list fdop) (s : cstate) : cstate + cstate * Z :=
  match ops with [] => inl s | o :: r => match action o s with inl s' => actions r s' | inr x => inr x end end.
(** spawn.cpp:99-140: the calls made, and the error of the last one *)
Definition one (c : call) (ignore : bool) (k : list call * Z) : list call * Z :=
  let e := sys c in if (e =? 0) || (ignore && (e =? ENOSYS)) then (c :: fst k, snd k) else ([c], e).
Definition setup (a : attr) : list call * Z :=
  let k5 := ([], 0) in
  let k4 := if f_resetids a then one SetGid false (one SetUid false k5) else k5 in
  let k3 := if f_setscheduler a then one SetScheduler true k4 else if f_setschedparam a then one SetParam true k4 else k4 in
  let k2 := if f_setpgroup a then one SetPgid false k3 else k3 in
  if f_setsid a then one SetSid false k2 else k2.

(** the program that is started: its descriptors, the world, the calls made for the attributes, the signal mask and the dispositions *)
Record prog := { p_tab : Z -> option desc; p_world : world; p_calls : list call; p_mask : Z -> bool; p_disp : Z -> disposition }.
Variable exec : prog -> Z.
Definition exec_table (t : table) : Z -> option desc := fun x => match get t x with Some (d, false) => Some d | _ => None end.
Definition exec_disp (f : Z -> disposition) : Z -> disposition := fun x => match f x with Handler _ => Dfl | d => d end.
(** child, spawn.cpp:61-240: the error written to the pipe (0: none) and the program *)
Definition child (a : option attr) (ops : list fdop) (t : table) (w : world) (p0 p1 : Z) (mask : Z -> bool) (disp : Z -> disposition) : Z * option prog :=
  let t := set t p0 None in
  (** the handler set is never filled: only the signals of the attribute are reset *)
  let disp := fun i => match a with Some a => if f_setsigdef a && a_def a i then Dfl else disp i | None => disp i end in
  let '(calls, e) := match a with Some a => setup a | None => ([], 0) end in
  (** the error reaches the parent if the descriptor is the pipe *)
  let tell (s : cstate) (e : Z) := let '(t, _, p) := s in match get t p with Some (PipeW, _) => e | _ => 0 end in
  if negb (e =? 0) then (tell (t, w, p1) e, None)
  else match actions ops (t, w, p1) with
       | inr (s, e) => (tell s e, None)
       | inl (t, w, p) =>
           let t := match get t p with Some (d, _) => set t p (Some (d, true)) | None => t end in
           let g := {| p_tab := exec_table t; p_world := w; p_calls := calls;
                       p_mask := (match a with Some a => if f_setsigmask a then a_mask a else mask | None => mask end); p_disp := exec_disp disp |} in
           if exec g =? 0 then (0, Some g) else (tell (t, w, p) (exec g), None)
       end.

(** what the caller sees: the return value, whether the process number was stored, whether the child was waited for, the descriptors and the signal
    mask afterwards; and the program started *)
Record outcome := { ret : Z; stored : bool; reaped : bool; tab_after : table; mask_after : Z -> bool; program : option prog }.
(** posix_spawn_impl, spawn.cpp:242-306 *)
Definition spawn (pipe_error fork_error : Z) (a : option attr) (ops : list fdop) (t : table) (w : world) (mask : Z -> bool) (disp : Z -> disposition) : outcome :=
  let fail e t := {| ret := e; stored := false; reaped := false; tab_after := t; mask_after := mask; program := None |} in
  if negb (pipe_error =? 0) then fail pipe_error t
  else
    let p0 := pick t in
    let t1 := set t p0 (Some (PipeR, true)) in
    let p1 := pick t1 in
    let t2 := set t1 p1 (Some (PipeW, true)) in
    if negb (fork_error =? 0) then fail fork_error t2
    else
      let '(ec, g) := child a ops t2 w p0 p1 mask disp in
      {| ret := ec; stored := (ec =? 0); reaped := negb (ec =? 0); tab_after := set (set t2 p1 None) p0 None; mask_after := mask; program := g |}.
End Spawn.
