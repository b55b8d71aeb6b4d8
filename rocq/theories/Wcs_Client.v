(** A client that calls wcstok until NULL is returned. *)
From Verif Require Import Base Wcs_Model.
Open Scope Z_scope.

Fixpoint wcstok_all (calls fuel : nat) (m : mem) (s : option Z) (del : Z) (saved : option Z)
  : res (mem * option Z * list Z) :=
  match calls with
  | O => Fuel
  | S n => '(m1, sv1, r) <- wcstok fuel m s del saved ;;
           match r with
           | None => Ok (m1, sv1, [])
           | Some t => '(m2, sv2, ts) <- wcstok_all n fuel m1 None del sv1 ;; Ok (m2, sv2, t :: ts)
           end
  end.
