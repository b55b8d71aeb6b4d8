(** Shared vocabulary of the model: outcomes of C code and byte memory.
    No mlibc code is modelled here. *)
From Coq Require Export List ZArith Lia Bool Arith ZifyBool ZifyNat.
Export ListNotations.

(** Outcome of running a piece of modelled code.
    [Ok a]  : normal termination with result [a]
    [UB]    : undefined behaviour (e.g. access to memory that is not part of an object)
    [Abort] : the process is terminated by [__ensure] or a panic logger
    [Fuel]  : the model's recursion fuel ran out (never a behaviour of the code) *)
Inductive res (A : Type) : Type :=
| Ok (a : A)
| UB
| Abort
| Fuel.
Arguments Ok {A} a.
Arguments UB {A}.
Arguments Abort {A}.
Arguments Fuel {A}.

Definition bind {A B : Type} (r : res A) (k : A -> res B) : res B :=
  match r with
  | Ok a => k a
  | UB => UB
  | Abort => Abort
  | Fuel => Fuel
  end.

Notation "x <- e ;; k" := (bind e (fun x => k))
  (at level 61, e at next level, right associativity).
Notation "' pat <- e ;; k" := (bind e (fun x => match x with pat => k end))
  (at level 61, pat pattern, e at next level, right associativity).

(** Byte memory: address -> byte value (0..255), [None] if the address belongs to no object. *)
Definition mem : Type := Z -> option Z.

Definition load (m : mem) (p : Z) : res Z :=
  match m p with Some v => Ok v | None => UB end.

Definition upd (m : mem) (p v : Z) : mem :=
  fun a => if Z.eqb a p then Some v else m a.

Definition store (m : mem) (p v : Z) : res mem :=
  match m p with Some _ => Ok (upd m p v) | None => UB end.

(** ** Specification vocabulary *)

(** the bytes [l] are stored at [p], [p+1], ... *)
Definition bytes_at (m : mem) (p : Z) (l : list Z) : Prop :=
  forall i, i < length l -> m (p + Z.of_nat i)%Z = nth_error l i.

(** a NUL-terminated string with contents [s] (all bytes non-zero) is stored at [p] *)
Definition str_at (m : mem) (p : Z) (s : list Z) : Prop :=
  bytes_at m p (s ++ [0%Z]) /\ Forall (fun c => (0 < c < 256)%Z) s.

(** all of [p, p+n) belongs to some object *)
Definition mapped (m : mem) (p : Z) (n : nat) : Prop :=
  forall i, i < n -> m (p + Z.of_nat i)%Z <> None.

(** [m'] differs from [m] at most in [p, p+n) *)
Definition same_outside (m m' : mem) (p : Z) (n : nat) : Prop :=
  forall a, ~ (p <= a < p + Z.of_nat n)%Z -> m' a = m a.

(** [p,p+n) and [q,q+k) have no address in common *)
Definition disjoint (p : Z) (n : nat) (q : Z) (k : nat) : Prop :=
  (p + Z.of_nat n <= q \/ q + Z.of_nat k <= p)%Z.

(** a memory holding exactly the bytes [l] at [p] and nothing else; used in examples *)
Definition mem_of (p : Z) (l : list Z) : mem :=
  fun a => if (p <=? a)%Z then nth_error l (Z.to_nat (a - p)) else None.

(** union of two memories, the first one taking precedence *)
Definition munion (m1 m2 : mem) : mem :=
  fun a => match m1 a with Some v => Some v | None => m2 a end.
