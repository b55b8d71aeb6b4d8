(** /etc/protocols: on each line a name, a number and aliases with blanks between them; a comment from # on. *)
From Verif Require Import Base Hosts_Spec Proto_Model.
Open Scope Z_scope.

Definition is_blank (c : Z) : Prop := c = 32 \/ c = 9.
Inductive fields : list (list Z) -> list Z -> Prop :=
| f_end b : Forall is_blank b -> fields [] b
| f_word b w rest ws : Forall is_blank b -> w <> [] -> (forall c, In c w -> ~ is_blank c) -> (rest = [] \/ exists c r, rest = c :: r /\ is_blank c) -> fields ws rest -> fields (w :: ws) (b ++ w ++ rest).
Inductive without_comment : list Z -> list Z -> Prop :=
| wc_none l : ~ In 35 l -> without_comment l l
| wc_some l t : ~ In 35 l -> without_comment (l ++ [35] ++ t) l.
(** the line gives the entry *)
Definition gives (line : list Z) (e : proto) : Prop := exists l d, without_comment line l /\ fields (p_name e :: d :: p_aliases e) l /\ decimal d (p_proto e).
(** the entries of the lines in order *)
Inductive listed : list (list Z) -> list proto -> Prop :=
| l_nil : listed [] []
| l_entry l e ls es : gives l e -> listed ls es -> listed (l :: ls) (e :: es)
| l_other l ls es : (forall e, ~ gives l e) -> listed ls es -> listed (l :: ls) es.
Definition text (ls : list (list Z)) : list Z := concat (map (fun l => l ++ [10]) ls).
Definition short (ls : list (list Z)) : Prop := Forall (fun l => ~ In 10 l /\ (length l <= 255)%nat) ls.
Definition aliased (es : list proto) : Prop := Forall (fun e => p_aliases e <> []) es.
(** the entry with a name or number that comes first *)
Definition first_with (P : proto -> Prop) (es : list proto) (r : option proto) : Prop :=
  match r with Some e => exists a b, es = a ++ e :: b /\ P e /\ Forall (fun x => ~ P x) a | None => Forall (fun x => ~ P x) es end.
(** how many times getprotoent is called *)
Definition gets (cs : list call) : nat := length (filter (fun c => match c with Get => true | _ => false end) cs).
