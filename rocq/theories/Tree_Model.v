(** Model of tsearch, tfind, tdelete, twalk and tdestroy, options/posix/generic/search.cpp:12-263.
    A node is [T h n l r]: height field, node (its address [id] and its key), a[0], a[1].  A null pointer is [E].
    tsearch and tdelete keep a stack of slots (pointers to child pointers) from the root to the current node and then
    call balance_tree on the topmost slots until it returns 0.  Here the descent is a recursion and the loop over the
    stack is the way back up: the boolean says whether the loop is still running ([true]) or has stopped.
    Addresses of new nodes come from malloc ([None]: failure).  The comparison is a pure function of the keys. *)
From Verif Require Import Base.
Open Scope Z_scope.

Section Tree.
Context {K : Type}.

Record node := { id : Z; key : K }.
Inductive tree := E | T (h : Z) (n : node) (l r : tree).

(** height, search.cpp:19-21 *)
Definition height (t : tree) : Z := match t with E => 0 | T h _ _ _ => h end.

(** rotate with side = 0, search.cpp:23-50: the left child is too high *)
Definition rotate0 (t : tree) : res (tree * Z) :=
  match t with
  | T hn n (T hx x z y) r =>
    if height y >? height z then
      match y with
      | T hy yn y0 y1 => Ok (T (hy + 1) yn (T hy x z y0) (T hy n y1 r), hy + 1 - hn)
      | E => UB
      end
    else Ok (T (height y + 2) x z (T (height y + 1) n y r), height y + 2 - hn)
  | _ => UB                                       (* null dereference *)
  end.
(** rotate with side = 1 *)
Definition rotate1 (t : tree) : res (tree * Z) :=
  match t with
  | T hn n l (T hx x y z) =>
    if height y >? height z then
      match y with
      | T hy yn y0 y1 => Ok (T (hy + 1) yn (T hy n l y0) (T hy x y1 z), hy + 1 - hn)
      | E => UB
      end
    else Ok (T (height y + 2) x (T (height y + 1) n l y) z, height y + 2 - hn)
  | _ => UB
  end.

(** balance_tree, search.cpp:52-63; the node in the slot must not be null *)
Definition balance (t : tree) : res (tree * Z) :=
  match t with
  | E => UB
  | T h n l r =>
    let ha := height l in let hb := height r in
    if Z.abs (ha - hb) <? 2 then
      let h' := if ha <? hb then hb + 1 else ha + 1 in Ok (T h' n l r, h' - h)
    else if ha <? hb then rotate1 t else rotate0 t
  end.
(** one round of "while (nodes.size() && balance_tree(nodes.top())) nodes.pop();" *)
Definition balance_up (run : bool) (t : tree) : res (tree * bool) :=
  if run then '(t', d) <- balance t ;; Ok (t', negb (d =? 0)) else Ok (t, false).

(** tsearch, search.cpp:66-95: result tree, loop flag, and the node returned *)
Inductive found := Found (n : Z) | Inserted (n : Z) | NoMem.
Fixpoint tsearch_ (cmp : K -> K -> Z) (k : K) (malloc : option Z) (t : tree) : res (tree * bool * found) :=
  match t with
  | E => match malloc with
         | Some a => Ok (T 1 {| id := a; key := k |} E E, true, Inserted a)
         | None => Ok (E, false, NoMem)
         end
  | T h n l r =>
    let c := cmp k (key n) in
    if c =? 0 then Ok (t, false, Found (id n))
    else if c >? 0 then
      '(r', run, f) <- tsearch_ cmp k malloc r ;;
      '(t', run') <- balance_up run (T h n l r') ;; Ok (t', run', f)
    else
      '(l', run, f) <- tsearch_ cmp k malloc l ;;
      '(t', run') <- balance_up run (T h n l' r) ;; Ok (t', run', f)
  end.
Definition tsearch (cmp : K -> K -> Z) (k : K) (malloc : option Z) (t : tree) : res (tree * option Z) :=
  '(t', _, f) <- tsearch_ cmp k malloc t ;;
  Ok (t', match f with Found a => Some a | Inserted a => Some a | NoMem => None end).

(** tfind, search.cpp:98-112 *)
Fixpoint tfind (cmp : K -> K -> Z) (k : K) (t : tree) : option Z :=
  match t with
  | E => None
  | T _ n l r => let c := cmp k (key n) in
                 if c =? 0 then Some (id n) else if c >? 0 then tfind cmp k r else tfind cmp k l
  end.

(** Unlinking the predecessor, search.cpp:151-173: the rightmost node below [t] (a right child) is cut out; the slots
    of the nodes on the way, which are on the stack, are balanced while the loop runs. *)
Fixpoint cut_max (t : tree) : res (tree * bool * (Z * node)) :=
  match t with
  | E => UB
  | T h n l E => Ok (l, true, (h, n))               (* this slot is popped *)
  | T h n l r =>
    '(r', run, p) <- cut_max r ;;
    '(t', run') <- balance_up run (T h n l r') ;; Ok (t', run', p)
  end.

(** tdelete, search.cpp:114-194.  [par] is node_parent; the result is the tree, the loop flag and the node returned
    ([None]: key absent, NULL). *)
Fixpoint tdelete_ (cmp : K -> K -> Z) (k : K) (par : option Z) (t : tree) : res (tree * bool * option Z) :=
  match t with
  | E => Ok (E, false, None)
  | T h n l r =>
    let c := cmp k (key n) in
    if c =? 0 then
      let ret := Some (match par with Some p => p | None => id n end) in
      match l, r with
      | E, E => Ok (E, true, ret)                   (* case 0: the slot is popped *)
      | T _ _ _ _, E => '(t', run) <- balance_up true l ;; Ok (t', run, ret)   (* case 1: the slot stays on the stack *)
      | E, T _ _ _ _ => '(t', run) <- balance_up true r ;; Ok (t', run, ret)
      | T hl ln l0 E, T _ _ _ _ =>                   (* case 2, the predecessor is the left child *)
        '(t', run) <- balance_up true (T hl ln l0 r) ;; Ok (t', run, ret)
      | T hl ln l0 l1, T _ _ _ _ =>                  (* case 2: the slot of the left child is not on the stack *)
        '(l1', run, (hp, pn)) <- cut_max l1 ;;
        '(t', run') <- balance_up run (T hp pn (T hl ln l0 l1') r) ;; Ok (t', run', ret)
      end
    else if c >? 0 then
      '(r', run, f) <- tdelete_ cmp k (Some (id n)) r ;;
      '(t', run') <- balance_up run (T h n l r') ;; Ok (t', run', f)
    else
      '(l', run, f) <- tdelete_ cmp k (Some (id n)) l ;;
      '(t', run') <- balance_up run (T h n l' r) ;; Ok (t', run', f)
  end.
Definition tdelete (cmp : K -> K -> Z) (k : K) (t : tree) : res (tree * option Z) :=
  '(t', _, f) <- tdelete_ cmp k None t ;; Ok (t', f).

(** twalk, search.cpp:196-244: explicit stack of (node, visit) *)
Inductive visit := preorder | postorder | endorder | leaf.
Definition call := (Z * visit * Z)%type.            (* node, kind of visit, depth *)
Fixpoint twalk_loop (fuel : nat) (stack : list (tree * visit)) (depth : Z) : res (list call) :=
  match fuel with
  | O => Fuel
  | S f =>
    match stack with
    | [] => Ok []
    | (E, _) :: _ => UB
    | (T h n l r as t, v) :: st =>
      let v := match l, r with E, E => leaf | _, _ => v end in
      let '(next, st, depth') :=
        match v with
        | endorder | leaf => (E, st, depth - 1)
        | preorder => (l, (t, postorder) :: st, depth)
        | postorder => (r, (t, endorder) :: st, depth)
        end in
      let '(st, depth') := match next with E => (st, depth') | T _ _ _ _ => ((next, preorder) :: st, depth' + 1) end in
      rest <- twalk_loop f st depth' ;; Ok ((id n, v, depth) :: rest)
    end
  end.
Definition twalk (fuel : nat) (root : tree) : res (list call) :=
  match root with E => Ok [] | _ => twalk_loop fuel [(root, preorder)] 0 end.

(** tdestroy, search.cpp:246-263: the keys passed to free_node and the nodes freed, in order *)
Fixpoint tdestroy_loop (fuel : nat) (n : tree) (stack : list tree) : res (list node) :=
  match fuel with
  | O => Fuel
  | S f =>
    match n with
    | T h x l r => tdestroy_loop f l (n :: stack)
    | E => match stack with
           | [] => Ok []
           | E :: _ => UB
           | T _ x l r :: st => rest <- tdestroy_loop f r st ;; Ok (x :: rest)
           end
    end
  end.
Definition tdestroy (fuel : nat) (root : tree) : res (list node) := tdestroy_loop fuel root [].
End Tree.
Arguments node : clear implicits.
Arguments tree : clear implicits.
