(** Model of the modes of streams: fd_file::parse_modestring (options/ansi/generic/file-io.cpp:587-635), fopen (:688-699) and fdopen
    (options/posix/generic/posix-file-io.cpp:247-276).  A mode is the bytes from its start to the end of its array; reading after these is UB.
    Flags are those of Linux (abis/linux/fcntl.h).  The kernel is a parameter; the messages to the log are left out. *)
From Verif Require Import Base.
Open Scope Z_scope.

Definition O_RDONLY : Z := 0.
Definition O_WRONLY : Z := 1.
Definition O_RDWR : Z := 2.
Definition O_CREAT : Z := 64.
Definition O_EXCL : Z := 128.
Definition O_TRUNC : Z := 512.
Definition O_APPEND : Z := 1024.
Definition O_CLOEXEC : Z := 524288.
Definition EINVAL : Z := 22.

(** strchr(mode, '+') :590 *)
Fixpoint has (x : Z) (m : list Z) : res bool :=
  match m with [] => UB | c :: r => if c =? x then Ok true else if c =? 0 then Ok false else has x r end.
(** :591-612 *)
Definition first_flags (c : Z) (plus : bool) : Z :=
  if c =? 114 then (if plus then O_RDWR else O_RDONLY)
  else if c =? 119 then Z.lor (if plus then O_RDWR else O_WRONLY) (Z.lor O_CREAT O_TRUNC)
  else if c =? 97 then Z.lor (if plus then Z.lor O_APPEND O_RDWR else Z.lor O_APPEND O_WRONLY) O_CREAT
  else 0.
(** :615-632 *)
Fixpoint more (m : list Z) (flags : Z) : res Z :=
  match m with
  | [] => UB
  | c :: r =>
      if c =? 0 then Ok flags
      else if c =? 43 then more r flags
      else if c =? 98 then more r flags
      else if c =? 101 then more r (Z.lor flags O_CLOEXEC)
      else if c =? 120 then more r (Z.lor flags O_EXCL)
      else more r flags
  end.
Definition parse (m : list Z) : res Z :=
  plus <- has 43 m ;;
  match m with [] => UB | c :: r => more r (first_flags c plus) end.

(** fopen: errno or the descriptor, and the call: path, flags and mode *)
Definition fopen (open : list Z -> Z -> Z -> Z * Z) (path m : list Z) : res ((Z + Z) * (list Z * Z * Z)) :=
  flags <- parse m ;;
  let '(e, fd) := open path flags 438 in
  Ok (if e =? 0 then inr fd else inl e, (path, flags, 438)).

(** fdopen: [getfl] is what F_GETFL gives (negative: an error), [setfl] and [setfd] whether F_SETFL and F_SETFD succeed *)
Inductive call := GetFl | SetFl (flags : Z) | SetCloexec.
Definition fdopen (getfl : Z) (setfl : Z -> bool) (setfd : bool) (m : list Z) : res (option Z * list call) :=
  flags0 <- parse m ;;
  let flags := Z.land flags0 (Z.lnot O_TRUNC) in
  let '(e, t) :=
    if Z.land flags O_APPEND =? 0 then (None, [])
    else if getfl <? 0 then (Some EINVAL, [GetFl])
    else if negb (Z.land getfl O_APPEND =? 0) then (None, [GetFl])
    else if setfl (Z.lor getfl O_APPEND) then (None, [GetFl; SetFl (Z.lor getfl O_APPEND)]) else (Some EINVAL, [GetFl; SetFl (Z.lor getfl O_APPEND)]) in
  match e with
  | Some _ => Ok (e, t)
  | None => if Z.land flags O_CLOEXEC =? 0 then Ok (None, t) else if setfd then Ok (None, t ++ [SetCloexec]) else Ok (Some EINVAL, t ++ [SetCloexec])
  end.
