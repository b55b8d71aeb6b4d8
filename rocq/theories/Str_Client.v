(** Client programs and vocabulary used to state C10 and C11. *)
From Verif Require Import Base Str_Model.
Open Scope Z_scope.

(** [c] is one of the delimiters *)
Definition isd (ds : list Z) (c : Z) : bool := existsb (Z.eqb c) ds.

(** Clients calling strsep / strtok_r until NULL is returned *)
Fixpoint strsep_all (calls fuel : nat) (m : mem) (sp : option Z) (del : Z) : res (mem * option Z * list Z) :=
  match calls with
  | O => Fuel
  | S n => '(m1, sp1, r) <- strsep fuel m sp del ;;
           match r with
           | None => Ok (m1, sp1, [])
           | Some t => '(m2, sp2, ts) <- strsep_all n fuel m1 sp1 del ;; Ok (m2, sp2, t :: ts)
           end
  end.
Fixpoint strtok_all (calls fuel : nat) (m : mem) (s : option Z) (del : Z) (saved : option Z)
  : res (mem * option Z * list Z) :=
  match calls with
  | O => Fuel
  | S n => '(m1, sv1, r) <- strtok_r fuel m s del saved ;;
           match r with
           | None => Ok (m1, sv1, [])
           | Some t => '(m2, sv2, ts) <- strtok_all n fuel m1 None del sv1 ;; Ok (m2, sv2, t :: ts)
           end
  end.

