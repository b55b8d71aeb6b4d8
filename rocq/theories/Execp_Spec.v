(** The search along PATH. *)
From Verif Require Import Base Execp_Model.
Open Scope Z_scope.

(** the elements of a list with colons between them *)
Inductive elements : list (list Z) -> list Z -> Prop :=
| e_one d : ~ In 58 d -> elements [d] d
| e_more d ds t : ~ In 58 d -> elements ds t -> elements (d :: ds) (d ++ [58] ++ t).
(** the path for an element; an empty one is the current directory *)
Definition candidate (file d : list Z) : list Z := match d with [] => file | _ => d ++ [47] ++ file end.
(** the errors after which the search goes on *)
Definition goes_on (e : Z) : bool := (e =? ENOENT) || (e =? ENOTDIR) || (e =? EACCES).
(** the first candidate that is started or fails otherwise decides; without one it is "permission denied" if that happened, else "not found" *)
Definition decision (exec : list Z -> Z) (cs : list (list Z)) : outcome :=
  match find (fun c => negb (goes_on (exec c))) cs with
  | Some c => if exec c =? 0 then Started c else Failed (exec c)
  | None => Failed (if existsb (fun c => exec c =? EACCES) cs then EACCES else ENOENT)
  end.
(** the candidates tried: up to the deciding one *)
Fixpoint tried (exec : list Z -> Z) (cs : list (list Z)) : list (list Z) := match cs with [] => [] | c :: r => if goes_on (exec c) then c :: tried exec r else [c] end.

(** the vector a program is started with: the pointers before the first null pointer *)
Fixpoint vector (l : list Z) : option (list Z) := match l with [] => None | a :: r => if a =? 0 then Some [] else option_map (cons a) (vector r) end.
