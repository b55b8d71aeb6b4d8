(** Model of popen and pclose (options/posix/generic/posix_stdio.cpp:42-162).  A process is its descriptors, the actions for SIGINT and SIGQUIT and the
    blocked signals; the system calls change it as Linux does.  Which descriptors pipe gives and what fork and waitpid answer are parameters.  The child is
    the process as it is when /bin/sh is executed with "sh", "-c" and the command, before and after the descriptors marked for it are closed.
    The allocation of the stream succeeds; the cached thread number is left out (see the model of fork). *)
From Verif Require Import Base.
Open Scope Z_scope.

Inductive obj := PipeEnd (id : Z) (writing : bool) | Other (id : Z).
Record proc := mk { fds : Z -> option (obj * bool); on_int : Z; on_quit : Z; blocked : Z -> bool }.
Definition EINVAL : Z := 22.
Definition ECHILD : Z := 10.
Definition SIG_IGN : Z := 1.
Definition SIGCHLD : Z := 17.

(** system calls *)
Definition upd {A} (f : Z -> A) (k : Z) (v : A) : Z -> A := fun j => if j =? k then v else f j.
Definition set_fds (p : proc) (f : Z -> option (obj * bool)) : proc := mk f (on_int p) (on_quit p) (blocked p).
Definition close (p : proc) (fd : Z) : proc := set_fds p (upd (fds p) fd None).
Definition dup2 (p : proc) (from to : Z) : option proc :=
  match fds p from with
  | None => None
  | Some (o, _) => Some (if from =? to then p else set_fds p (upd (fds p) to (Some (o, false))))
  end.
Definition sig_int (p : proc) (h : Z) : proc := mk (fds p) h (on_quit p) (blocked p).
Definition sig_quit (p : proc) (h : Z) : proc := mk (fds p) (on_int p) h (blocked p).
Definition setmask (p : proc) (m : Z -> bool) : proc := mk (fds p) (on_int p) (on_quit p) m.
Definition block (p : proc) (s : Z) : proc := setmask p (upd (blocked p) s true).
Definition pipe (p : proc) (id rd wr : Z) : proc := set_fds p (upd (upd (fds p) rd (Some (PipeEnd id false, false))) wr (Some (PipeEnd id true, false))).
Definition cloexec (p : proc) (fd : Z) : proc :=
  match fds p fd with Some (o, _) => set_fds p (upd (fds p) fd (Some (o, true))) | None => p end.
Definition exec (p : proc) : proc := set_fds p (fun fd => match fds p fd with Some (_, true) => None | x => x end).

(** strstr with a string of one character *)
Definition contains (s : list Z) (c : Z) : bool := existsb (fun x => x =? c) s.

Inductive forked := Failed (e : Z) | Child (pid : Z).
(** the stream: descriptor and process; errno; the program; the child *)
Record result := res_ { stream : option (Z * Z); err : Z; parent : proc; child : option proc }.

(** :85-87, :95-97, :142-144: the signals *)
Definition shield (p : proc) : proc := block (sig_quit (sig_int p SIG_IGN) SIG_IGN) SIGCHLD.
Definition restore (old p : proc) : proc := setmask (sig_quit (sig_int p (on_int old)) (on_quit old)) (blocked old).
(** :102-124 *)
Definition in_child (old p : proc) (parent_end child_end target : Z) : res proc :=
  let p1 := close (restore old p) parent_end in
  match dup2 p1 child_end target with
  | None => Abort
  | Some p2 => Ok (close p2 child_end)
  end.
(** popen; [pip] is the error of pipe *)
Definition popen (old : proc) (type : list Z) (pip id rd wr : Z) (f : forked) : res result :=
  if negb (contains type 119) && negb (contains type 114) then Ok (res_ None EINVAL old None)
  else
    let writing := contains type 119 in
    if negb (pip =? 0) then Ok (res_ None pip old None)
    else
      let p := shield (pipe old id rd wr) in
      let parent_end := if writing then wr else rd in
      let child_end := if writing then rd else wr in
      match f with
      | Failed e => Ok (res_ None e (restore old (close (close p rd) wr)) None)
      | Child pid =>
          c <- in_child old p parent_end child_end (if writing then 0 else 1) ;;
          let q := close p child_end in
          let q' := if contains type 101 then cloexec q parent_end else q in
          Ok (res_ (Some (parent_end, pid)) 0 (restore old q') (Some c))
      end.

(** pclose :42-59: the descriptor is closed and the process waited for once; [wait] is what waitpid gives for a process: its error, or 0 and the status *)
Definition pclose (p : proc) (s : Z * Z) (wait : Z -> Z * Z) : Z * Z * proc :=
  let '(fd, pid) := s in
  let '(e, status) := wait pid in
  if negb (e =? 0) then (-1, ECHILD, close p fd) else (status, 0, close p fd).
