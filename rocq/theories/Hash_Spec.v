(** hsearch as a bounded map: the log of entries, oldest first. *)
From Verif Require Import Base Hash_Model.

Fixpoint assoc (k : key) (l : list (key * Z)) : option Z :=
  match l with
  | [] => None
  | (k', d) :: l' => if list_eq_dec Z.eq_dec k' k then Some d else assoc k l'
  end.

Inductive answer := Datum (d : Z) | NoEntry | Full.

(** what hsearch must do on a map [l] of capacity [n] *)
Definition step (n : nat) (l : list (key * Z)) (item : key * Z) (a : action) : list (key * Z) * answer :=
  match assoc (fst item) l, a with
  | Some d, _ => (l, Datum d)
  | None, FIND => (l, NoEntry)
  | None, ENTER => if length l <? n then (l ++ [item], Datum (snd item)) else (l, Full)
  end.

Fixpoint steps (n : nat) (l : list (key * Z)) (ops : list (key * Z * action)) : list (key * Z) * list answer :=
  match ops with
  | [] => (l, [])
  | (it, a) :: ops' => let (l1, r) := step n l it a in let (l2, rs) := steps n l1 ops' in (l2, r :: rs)
  end.

(** the same history on the implementation: the answer is read through the returned pointer *)
Definition answer_of (h : htab) (r : hret) (k : key) : option answer :=
  match r with
  | Ret i => match nth_error (table h) i with
             | Some (Some (k', d)) => if list_eq_dec Z.eq_dec k' k then Some (Datum d) else None
             | _ => None
             end
  | Esrch => Some NoEntry
  | Enomem => Some Full
  end.
Fixpoint run (hash : key -> nat) (h : htab) (ops : list (key * Z * action)) : res (htab * list (option answer)) :=
  match ops with
  | [] => Ok (h, [])
  | (it, a) :: ops' =>
    '(h1, r) <- hsearch hash h it a ;;
    '(h2, rs) <- run hash h1 ops' ;;
    Ok (h2, answer_of h1 r (fst it) :: rs)
  end.
