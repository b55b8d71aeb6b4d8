(** Model of mkostemps (options/internal/generic/stdlib.cpp:12-40) and what calls it: mkstemp, mkostemp, mkstemps, mkostemps and mkdtemp
    (options/posix/generic/posix_stdlib.cpp:181-230) and tmpfile (options/ansi/generic/stdio.cpp:782-800).  The template is in a buffer: the bytes
    from its start to the end of the array.  The kernel is a parameter: what it answers to the i-th call of a loop; the calls made are recorded.
    Flags and error numbers are those of Linux (abis/linux/fcntl.h, errno.h).  sprintf("%06zu") is its result, six digits and a zero byte. *)
From Verif Require Import Base.
Open Scope Z_scope.

Definition EEXIST : Z := 17.
Definition EINVAL : Z := 22.
Definition O_WRONLY : Z := 1.
Definition O_RDWR : Z := 2.
Definition O_CREAT : Z := 64.
Definition O_EXCL : Z := 128.
Definition W64 : Z := 18446744073709551616.

Fixpoint cstr (l : list Z) : list Z := match l with [] => [] | c :: r => if c =? 0 then [] else c :: cstr r end.
Definition strlen (m : list Z) : Z := Z.of_nat (length (cstr m)).
Definition get (m : list Z) (k : Z) : res Z := if k <? 0 then UB else match nth_error m (Z.to_nat k) with Some c => Ok c | None => UB end.
Definition put (m : list Z) (k : Z) (b : list Z) : res (list Z) :=
  if (0 <=? k) && (k + Z.of_nat (length b) <=? Z.of_nat (length m)) then Ok (firstn (Z.to_nat k) m ++ b ++ skipn (Z.to_nat k + length b) m) else UB.
Definition digits (i : Z) : list Z := map (fun p => 48 + i / p mod 10) [100000; 10000; 1000; 100; 10; 1].

(** :20-24 *)
Fixpoint all_x (k : nat) (m : list Z) (p : Z) : res bool :=
  match k with
  | O => Ok true
  | S k' => c <- get m p ;; if c =? 88 then all_x k' m (p + 1) else Ok false
  end.

Inductive call := Open (path : list Z) (flags mode : Z) | Mkdir (path : list Z) (mode : Z) | Unlink (path : list Z) | Close (fd : Z).

(** the flags of open, :18 and :32 *)
Definition open_flags (flags : Z) : Z := Z.lor (Z.lor (Z.lor O_RDWR O_CREAT) O_EXCL) (Z.land flags (Z.lnot O_WRONLY)).
(** S_IRUSR | S_IWUSR and S_IRWXU *)
Definition mode_file : Z := 384.
Definition mode_dir : Z := 448.

Section Loop.
  Variable sys : Z -> list Z -> Z * Z.    (** the answer to attempt i with a path: errno, and the descriptor if it is 0 *)
  Variable mk : list Z -> call.
  Variable write : list Z -> Z -> res (list Z).   (** puts the number in its place *)
  (** :27-39, the rest of the loop from [i] on with [k] attempts: errno, descriptor, buffer and calls *)
  Fixpoint attempts (k : nat) (i : Z) (m : list Z) : res (Z * Z * list Z * list call) :=
    match k with
    | O => Ok (EEXIST, 0, m, [])
    | S k' =>
        m' <- write m i ;;
        let p := cstr m' in
        let '(e, fd) := sys i p in
        if e =? 0 then Ok (0, fd, m', [mk p])
        else if negb (e =? EEXIST) then Ok (e, 0, m', [mk p])
        else '(r, t) <- attempts k' (i + 1) m' ;; Ok (r, mk p :: t)
    end.
End Loop.
Definition limit : Z := 999999.

(** mlibc::mkostemps :12-40; suffixlen is an int *)
Definition mkostemps (sys : Z -> list Z -> Z * Z) (m : list Z) (sfx flags : Z) : res (Z * Z * list Z * list call) :=
  let n := strlen m in
  if n <? (6 + sfx mod W64) mod W64 then Ok (EINVAL, 0, m, [])
  else if 2147483647 <? 6 + sfx then UB
  else
    let base := n - (6 + sfx) in
    ok <- all_x 6 m base ;;
    if negb ok then Ok (EINVAL, 0, m, [])
    else attempts sys (fun p => Open p (open_flags flags) mode_file)
           (fun m i => c <- get m (n - sfx) ;; m1 <- put m base (digits i ++ [0]) ;; put m1 (n - sfx) [c])
           (Z.to_nat limit) 0 m.

(** mkdtemp, posix_stdlib.cpp:203-230 *)
Definition mkdtemp (sys : Z -> list Z -> Z * Z) (m : list Z) : res (Z * Z * list Z * list call) :=
  let n := strlen m in
  if n <? 6 then Abort
  else
    ok <- all_x 6 m (n - 6) ;;
    if negb ok then Ok (EINVAL, 0, m, [])
    else attempts sys (fun p => Mkdir p mode_dir) (fun m i => put m (n - 6) (digits i ++ [0])) (Z.to_nat limit) 0 m.

(** tmpfile: the descriptor of the stream or an error, the errno that is set (0: none), and the calls *)
Definition tmpfile_template : list Z := [47; 116; 109; 112; 47; 116; 109; 112; 102; 105; 108; 101; 95; 88; 88; 88; 88; 88; 88; 0].
Definition tmpfile (sys : Z -> list Z -> Z * Z) (unlink : list Z -> Z) : res (option Z * Z * list call) :=
  '(r, t) <- mkostemps sys tmpfile_template 0 0 ;;
  let '(e, fd, m) := r in
  if negb (e =? 0) then Ok (None, 0, t)
  else
    let u := unlink (cstr m) in
    if u =? 0 then Ok (Some fd, 0, t ++ [Unlink (cstr m)]) else Ok (None, u, t ++ [Unlink (cstr m); Close fd]).
