(** Model of hcreate_r, hsearch_r and hdestroy_r, options/internal/generic/search.cpp:14-96 (hcreate/hsearch/hdestroy in
    options/posix/generic/search.cpp:314-331 call them on one global table).
    The table is a list of buckets; [None] is a bucket with used == false.  Keys are the contents of the key strings
    (the user must not change them while they are in the table); an entry is (key, data).  frg::hash is not part of
    the repository and is an arbitrary function [hash].  A returned pointer is the index of the bucket. *)
From Verif Require Import Base.

Definition key := list Z.
Record htab := { table : list (option (key * Z)); size : nat; filled : nat }.
Inductive action := FIND | ENTER.
Inductive hret := Ret (bucket : nat) | Esrch | Enomem.

Fixpoint set_nth {A} (l : list A) (i : nat) (x : A) : list A :=
  match l, i with
  | [], _ => []
  | _ :: l', O => x :: l'
  | y :: l', S i' => y :: set_nth l' i' x
  end.

(** hcreate_r, search.cpp:14-28; [ok] says whether calloc succeeds (otherwise ENOMEM, [None]) *)
Definition hcreate (ok : bool) (n : nat) : option htab :=
  if ok then Some {| table := repeat None n; size := n; filled := 0 |} else None.
(** hdestroy_r, search.cpp:30-39 *)
Definition hdestroy (h : htab) : htab := {| table := []; size := 0; filled := 0 |}.

Definition key_eqb (a b : key) : bool := if list_eq_dec Z.eq_dec a b then true else false.

(** outcome of the first loop, search.cpp:48-73 *)
Inductive probe_out := Hit (i : nat) | NotFound | Absent.
Fixpoint probe (fuel : nat) (t : list (option (key * Z))) (size start idx : nat) (k : key) (a : action) : res probe_out :=
  match fuel with
  | O => Fuel
  | S f =>
    match nth_error t idx with
    | None => UB                                   (* access outside the table *)
    | Some b =>
      match b, a with
      | Some e, _ => if key_eqb (fst e) k then Ok (Hit idx) else
          let idx' := (idx + 1) mod size in
          if idx' =? start then Ok (match a with FIND => NotFound | ENTER => Absent end)
          else probe f t size start idx' k a
      | None, FIND => Ok NotFound
      | None, ENTER =>
          let idx' := (idx + 1) mod size in
          if idx' =? start then Ok Absent else probe f t size start idx' k a
      end
    end
  end.

(** the second loop, search.cpp:83-93 *)
Fixpoint place (fuel : nat) (t : list (option (key * Z))) (size idx : nat) (e : key * Z) : res (list (option (key * Z)) * nat) :=
  match fuel with
  | O => Fuel
  | S f =>
    match nth_error t idx with
    | None => UB
    | Some None => Ok (set_nth t idx (Some e), idx)
    | Some (Some _) => place f t size ((idx + 1) mod size) e
    end
  end.

(** hsearch_r, search.cpp:42-96; a zero size is a division by zero at line 46 *)
Definition hsearch (hash : key -> nat) (h : htab) (item : key * Z) (a : action) : res (htab * hret) :=
  match size h with
  | O => UB
  | S _ =>
    let start := hash (fst item) mod size h in
    o <- probe (S (size h)) (table h) (size h) start start (fst item) a ;;
    match o with
    | Hit i => Ok (h, Ret i)
    | NotFound => Ok (h, Esrch)
    | Absent =>
      if size h =? filled h then Ok (h, Enomem)
      else
        '(t, i) <- place (S (size h)) (table h) (size h) start item ;;
        Ok ({| table := t; size := size h; filled := S (filled h) |}, Ret i)
    end
  end.
