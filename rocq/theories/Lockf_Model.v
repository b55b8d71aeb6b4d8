(** Model of lockf (options/posix/generic/unistd.cpp:573-605; the numbers of its operations are those of options/posix/include/unistd.h:367-370) over a model of the record locks
    of Linux.  A file has a table of locks, each with the process that holds it, whether it is a write lock, and its first and last byte.
    Deadlock detection, signals during a wait and leases are left out; a wait is the outcome [Waits]. *)
From Verif Require Import Base.
Open Scope Z_scope.

Definition EBADF : Z := 9.
Definition EAGAIN : Z := 11.
Definition EACCES : Z := 13.
Definition EINVAL : Z := 22.
Definition EOVERFLOW : Z := 75.
Definition off_max : Z := 9223372036854775807.
Record lk := mklk { owner : Z; write : bool; first : Z; last : Z }.
(** the locks of the file, the position of the descriptor and whether it can be written to, and the calling process *)
Record st := mkst { locks : list lk; pos : Z; writable : bool; me : Z }.

(** abis/linux/fcntl.h:72-74, 100-102 *)
Inductive ltype := RDLCK | WRLCK | UNLCK.
Inductive cmd := GETLK | SETLK | SETLKW.
Record flock := mkfl { l_type : ltype; l_start : Z; l_len : Z; l_pid : Z }.
Inductive answer := Ret (result errno : Z) (s : st) | Waits.

(** the kernel: the bytes of a flock with SEEK_CUR *)
Definition range (s : st) (l : flock) : (Z * Z) + Z :=
  let a := pos s + l_start l in
  if a <? 0 then inr EINVAL
  else if off_max <? a then inr EOVERFLOW
  else if 0 <? l_len l then (if off_max - a <? l_len l - 1 then inr EOVERFLOW else inl (a, a + l_len l - 1))
  else if l_len l <? 0 then (if a + l_len l <? 0 then inr EINVAL else inl (a + l_len l, a - 1))
  else inl (a, off_max).
Definition conflicts (s : st) (w : bool) (f t : Z) (k : lk) : bool :=
  negb (owner k =? me s) && (w || write k) && (first k <=? t) && (f <=? last k).
(** what is left of a lock without the bytes f to t *)
Definition without (f t : Z) (k : lk) : list lk :=
  (if first k <=? Z.min (last k) (f - 1) then [mklk (owner k) (write k) (first k) (Z.min (last k) (f - 1))] else []) ++
  (if Z.max (first k) (t + 1) <=? last k then [mklk (owner k) (write k) (Z.max (first k) (t + 1)) (last k)] else []).
Definition release (s : st) (f t : Z) : list lk :=
  flat_map (fun k => if owner k =? me s then without f t k else [k]) (locks s).
Definition set_locks (s : st) (l : list lk) : st := mkst l (pos s) (writable s) (me s).

(** fcntl (options/posix/generic/fcntl.cpp:15-26): result or -1 with errno, the flock as changed by F_GETLK *)
Definition fcntl (s : st) (c : cmd) (l : flock) : answer * flock :=
  match range s l with
  | inr e => (Ret (-1) e s, l)
  | inl (f, t) =>
    let w := match l_type l with WRLCK => true | _ => false end in
    match c with
    | GETLK =>
      match l_type l with
      | UNLCK => (Ret (-1) EINVAL s, l)
      | _ =>
        match find (conflicts s w f t) (locks s) with
        | None => (Ret 0 0 s, mkfl UNLCK (l_start l) (l_len l) (l_pid l))
        | Some k => (Ret 0 0 s, mkfl (if write k then WRLCK else RDLCK) (first k) (last k - first k + 1) (owner k))
        end
      end
    | _ =>
      match l_type l with
      | UNLCK => (Ret 0 0 (set_locks s (release s f t)), l)
      | _ =>
        if w && negb (writable s) then (Ret (-1) EBADF s, l)
        else if existsb (conflicts s w f t) (locks s) then (match c with SETLKW => Waits | _ => Ret (-1) EAGAIN s end, l)
        else (Ret 0 0 (set_locks s (mklk (me s) w f t :: release s f t)), l)
      end
    end
  end.

(** unistd.cpp:573-605; errno is 0 where the call leaves it alone *)
Definition F_LOCK : Z := 1.
Definition F_TEST : Z := 2.
Definition F_TLOCK : Z := 3.
Definition F_ULOCK : Z := 4.
Definition lockf (s : st) (op size : Z) : answer :=
  let l := mkfl WRLCK 0 size 0 in
  if op =? F_TEST then
    let l := mkfl RDLCK 0 size 0 in
    match fcntl s GETLK l with
    | (Ret r e s', l') =>
      if r <? 0 then Ret (-1) e s'
      else if (match l_type l' with UNLCK => true | _ => false end) || (l_pid l' =? me s) then Ret 0 0 s'
      else Ret (-1) EACCES s'
    | (Waits, _) => Waits
    end
  else if op =? F_ULOCK then fst (fcntl s SETLK (mkfl UNLCK 0 size 0))
  else if op =? F_TLOCK then fst (fcntl s SETLK l)
  else if op =? F_LOCK then fst (fcntl s SETLKW l)
  else Ret (-1) EINVAL s.
