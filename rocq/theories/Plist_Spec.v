(** A list of paths: the pieces between separators. *)
From Verif Require Import Base Plist_Model.

Fixpoint split (seps : list Z) (l : list Z) : list (list Z) :=
  match l with
  | [] => [[]]
  | c :: l => if existsb (Z.eqb c) seps then [] :: split seps l else match split seps l with [] => [[c]] | x :: xs => (c :: x) :: xs end
  end.
Definition nonempty (l : list Z) : bool := match l with [] => false | _ => true end.
(** t is l without the slashes at its end *)
Definition stripped (l t : list Z) : Prop := exists k, l = t ++ repeat slash k /\ (t = [] \/ last t 0%Z <> slash).
