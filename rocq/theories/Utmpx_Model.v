(** Model of the state of the user database (options/posix/generic/utmpx.cpp:13-24, 61-98, 99-116, 137-158): the path with the memory it is in, and the open file.
    The records are not modelled: a successful read tells the file it reads from.  What open answers is a parameter of each call.
    The lock around each function makes the calls follow one another. *)
From Verif Require Import Base.
Open Scope Z_scope.

Definition ENOENT : Z := 2.
Definition EACCES : Z := 13.
(** UTMPX_FILE: "/var/run/utmp" (abis/linux/utmpx.h:35) *)
Definition dflt : list Z := [47; 118; 97; 114; 47; 114; 117; 110; 47; 117; 116; 109; 112].
(** utmpxPath: the constant, or a string in the block with a number *)
Inductive path := Default | Heap (block : Z) (name : list Z).
(** the live blocks, the number of the next one, the open file with its descriptor, and the number of descriptors that are open *)
Record st := mk { pth : path; live : list Z; next : Z; file : option (Z * list Z); opened : Z }.
Definition init : st := mk Default [] 0 None 0.
Definition name_of (p : path) : list Z := match p with Default => dflt | Heap _ n => n end.
Definition same (a b : list Z) : bool := if list_eq_dec Z.eq_dec a b then true else false.

(** free of the path; freeing the constant, or a block that is not live, is undefined *)
Definition free (p : path) (l : list Z) : res (list Z) :=
  match p with
  | Default => UB
  | Heap b _ => if existsb (Z.eqb b) l then Ok (remove Z.eq_dec b l) else UB
  end.
(** utmpx.cpp:137-158; the flag tells whether strdup gets memory *)
Definition utmpxname (s : st) (f : list Z) (memory : bool) : res (Z * st) :=
  if negb (same f (name_of (pth s))) then
    if same f dflt then
      l <- free (pth s) (live s) ;; Ok (0, mk Default l (next s) (file s) (opened s))
    else if memory then
      let l := next s :: live s in
      l <- match pth s with Default => Ok l | p => free p l end ;;
      Ok (0, mk (Heap (next s) f) l (next s + 1) (file s) (opened s))
    else Ok (-1, s)
  else Ok (0, s).
(** what the two calls of open answer: errors, or 0 and the descriptor *)
Record answers := ans { e1 : Z; e2 : Z; fd : Z }.
(** utmpx.cpp:70-98 *)
Definition setutxent (s : st) (a : answers) : st :=
  match file s with
  | None =>
    let err := if e1 a =? EACCES then e2 a else e1 a in
    if negb (err =? 0) then mk (pth s) (live s) (next s) None (opened s)
    else mk (pth s) (live s) (next s) (Some (fd a, name_of (pth s))) (opened s + 1)
  | Some _ => s
  end.
(** utmpx.cpp:61-68 *)
Definition endutxent (s : st) : st :=
  match file s with
  | Some _ => mk (pth s) (live s) (next s) None (opened s - 1)
  | None => s
  end.
(** utmpx.cpp:99-116, up to the reading of the record: the error or the file that is read *)
Definition getutxent (s : st) (a : answers) : (Z + list Z) * st :=
  let s := match file s with None => setutxent s a | Some _ => s end in
  match file s with
  | None => (inl ENOENT, s)
  | Some (_, f) => (inr f, s)
  end.
