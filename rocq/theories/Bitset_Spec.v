(** Sets of numbers and their histories. *)
From Verif Require Import Base.
Open Scope Z_scope.

(** a set is what it answers about membership *)
Definition zset := Z -> bool.
Inductive op := Empty | Fill | Add (x : Z) | Del (x : Z).
(** the set after an operation, in the universe lo..hi *)
Definition effect (lo hi : Z) (o : op) (s : zset) : zset :=
  match o with
  | Empty => fun _ => false
  | Fill => fun x => (lo <=? x) && (x <=? hi)
  | Add a => fun x => if (x =? a) && (lo <=? a) && (a <=? hi) then true else s x
  | Del a => fun x => if x =? a then false else s x
  end.
Definition after (lo hi : Z) (os : list op) (s : zset) : zset := fold_left (fun s o => effect lo hi o s) os s.
(** how many of lo, lo+1, ... (n numbers) are in the set *)
Fixpoint size (s : zset) (lo : Z) (n : nat) : Z := match n with O => 0 | S k => (if s lo then 1 else 0) + size s (lo + 1) k end.
