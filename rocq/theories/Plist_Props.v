From Verif Require Import Base Plist_Model Plist_Spec Plist_Proof.

(** C116: whatever the list and the separators, the result has one entry for each piece between separators that is not empty, in order, without the slashes at its
    end; no index is outside of the string and the loop ends *)
Theorem C116_parse_list : forall paths seps, exists r, parseList paths seps = Ok r /\ Forall2 stripped (filter nonempty (split seps paths)) r.
Proof. exact parse_ok. Qed.
(** the pieces: joined by separators they are the list again, and none has a separator in it *)
Theorem C116_pieces : forall paths sep, concat (map (fun x => x ++ [sep]) (split [sep] paths)) = paths ++ [sep] /\ Forall (fun x => ~ In sep x) (split [sep] paths).
Proof. exact split_ok. Qed.
(** an entry is determined by its piece *)
Theorem C116_stripped_unique : forall l t u, stripped l t -> stripped l u -> t = u.
Proof. exact stripped_unique. Qed.

(** "::/a//:/;b" with ":;" gives "/a", "" and "b" *)
Example C116_nonvacuous : parseList [58; 58; 47; 97; 47; 47; 58; 47; 59; 98]%Z [58; 59]%Z = Ok [[47; 97]; []; [98]]%Z.
Proof. reflexivity. Qed.

Print Assumptions C116_parse_list.
Print Assumptions C116_pieces.
Print Assumptions C116_stripped_unique.
