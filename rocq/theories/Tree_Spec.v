(** Search trees as ordered sets. *)
From Verif Require Import Base Tree_Model.
From Coq Require Export Sorted.
Open Scope Z_scope.

Section Spec.
Context {K : Type}.

(** the comparison orders the keys; keys comparing 0 are the same key *)
Definition key_order (cmp : K -> K -> Z) : Prop :=
  (forall a b, Z.sgn (cmp b a) = - Z.sgn (cmp a b)) /\
  (forall a b c, cmp a b <= 0 -> cmp b c <= 0 -> cmp a c <= 0).

(** the nodes of a tree from left to right *)
Fixpoint inorder (t : tree K) : list (node K) :=
  match t with E => [] | T _ n l r => inorder l ++ n :: inorder r end.

(** strictly ascending keys: in particular no key twice *)
Definition ascending (cmp : K -> K -> Z) (l : list (node K)) : Prop :=
  StronglySorted (fun x y => cmp (key x) (key y) < 0) l.

(** the ordered set: an ascending list of nodes *)
Inductive op := Insert (k : K) (malloc : option Z) | Find (k : K) | Delete (k : K).
Inductive out := Node (a : option Z) | Deleted (b : bool).

Definition lookup (cmp : K -> K -> Z) (k : K) (s : list (node K)) : option (node K) := List.find (fun n => cmp k (key n) =? 0) s.
Definition set_step (cmp : K -> K -> Z) (s : list (node K)) (o : op) : list (node K) * out :=
  match o with
  | Insert k m =>
    match lookup cmp k s, m with
    | Some n, _ => (s, Node (Some (id n)))
    | None, None => (s, Node None)
    | None, Some a => (filter (fun n => cmp k (key n) >? 0) s ++ {| id := a; key := k |} :: filter (fun n => cmp k (key n) <? 0) s, Node (Some a))
    end
  | Find k => (s, Node (option_map id (lookup cmp k s)))
  | Delete k => (filter (fun n => negb (cmp k (key n) =? 0)) s, Deleted (match lookup cmp k s with Some _ => true | None => false end))
  end.
Fixpoint set_run (cmp : K -> K -> Z) (s : list (node K)) (ops : list op) : list (node K) * list out :=
  match ops with
  | [] => (s, [])
  | o :: ops' => let (s1, r) := set_step cmp s o in let (s2, rs) := set_run cmp s1 ops' in (s2, r :: rs)
  end.

(** the same history on the tree; tdelete's return value is only tested against NULL *)
Definition tree_step (cmp : K -> K -> Z) (t : tree K) (o : op) : res (tree K * out) :=
  match o with
  | Insert k m => '(t', a) <- tsearch cmp k m t ;; Ok (t', Node a)
  | Find k => Ok (t, Node (tfind cmp k t))
  | Delete k => '(t', a) <- tdelete cmp k t ;; Ok (t', Deleted (match a with Some _ => true | None => false end))
  end.
Fixpoint tree_run (cmp : K -> K -> Z) (t : tree K) (ops : list op) : res (tree K * list out) :=
  match ops with
  | [] => Ok (t, [])
  | o :: ops' => '(t1, r) <- tree_step cmp t o ;; '(t2, rs) <- tree_run cmp t1 ops' ;; Ok (t2, r :: rs)
  end.

(** balance: measured heights of siblings differ by at most one, everywhere *)
Fixpoint real_height (t : tree K) : Z :=
  match t with E => 0 | T _ _ l r => 1 + Z.max (real_height l) (real_height r) end.
Fixpoint balanced (t : tree K) : Prop :=
  match t with E => True | T _ _ l r => Z.abs (real_height l - real_height r) <= 1 /\ balanced l /\ balanced r end.
(** comparisons made by tfind *)
Fixpoint cost (cmp : K -> K -> Z) (k : K) (t : tree K) : Z :=
  match t with
  | E => 0
  | T _ n l r => let c := cmp k (key n) in
                 if c =? 0 then 1 else 1 + (if c >? 0 then cost cmp k r else cost cmp k l)
  end.

(** the calls twalk must make on the tree [t] at depth [d] *)
Fixpoint walk (d : Z) (t : tree K) : list call :=
  match t with
  | E => []
  | T _ n E E => [(id n, leaf, d)]
  | T _ n l r => (id n, preorder, d) :: walk (d + 1) l ++ (id n, postorder, d) :: walk (d + 1) r ++ [(id n, endorder, d)]
  end.
End Spec.
Arguments op : clear implicits.
