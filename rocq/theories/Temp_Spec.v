(** Templates of temporary files. *)
From Verif Require Import Base.
Open Scope Z_scope.

Definition six_x : list Z := [88; 88; 88; 88; 88; 88].
(** [t] is [pre], six X and [suf] *)
Definition template (t pre suf : list Z) : Prop := t = pre ++ six_x ++ suf.
(** six decimal digits with the value [i] *)
Definition number (d : list Z) (i : Z) : Prop :=
  length d = 6%nat /\ (forall c, In c d -> 48 <= c <= 57) /\ fold_left (fun v c => 10 * v + (c - 48)) d 0 = i.
(** the paths tried: those with the numbers from [i] up to, not including, [k] *)
Inductive tried (pre suf : list Z) : Z -> Z -> list (list Z) -> Prop :=
| no_more : forall i, tried pre suf i i []
| one_more : forall i k d l, i < k -> number d i -> tried pre suf (i + 1) k l -> tried pre suf i k ((pre ++ d ++ suf) :: l).
(** the paths that the kernel had already when it was asked for them *)
Fixpoint all_exist (sys : Z -> list Z -> Z * Z) (i : Z) (l : list (list Z)) : Prop :=
  match l with [] => True | p :: r => fst (sys i p) = 17 /\ all_exist sys (i + 1) r end.
(** what a search over the numbers gives: the error, the descriptor, the template after it, and the paths tried *)
Definition outcome (sys : Z -> list Z -> Z * Z) (pre suf : list Z) (e fd : Z) (t' : list Z) (paths : list (list Z)) : Prop :=
  (* success or another error with the last path, after failures with all others *)
  (exists k before d, 0 <= k < 999999 /\ tried pre suf 0 k before /\ all_exist sys 0 before /\ number d k /\ t' = pre ++ d ++ suf /\ paths = before ++ [t'] /\
     e = fst (sys k t') /\ e <> 17 /\ (e = 0 -> fd = snd (sys k t'))) \/
  (* or everything exists *)
  (e = 17 /\ tried pre suf 0 999999 paths /\ all_exist sys 0 paths).
