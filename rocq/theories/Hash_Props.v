(** Property C19: hsearch is a bounded map from key to the first datum entered. *)
From Verif Require Import Base Hash_Model Hash_Spec Hash_Proof.

(** Every history of hsearch calls on a new table of positive capacity gives the answers of the bounded map; each
    answer is read through the returned pointer, whose entry has the key searched for. *)
Theorem C19_hsearch : forall hash n h ops, n <> 0 -> hcreate true n = Some h ->
  exists h', run hash h ops = Ok (h', map Some (snd (steps n [] ops))).
Proof.
  intros hash n h ops Hn [= <-].
  destruct (run_ok hash ops _ [] (inv_init hash n Hn)) as (h' & E & _). exists h'. exact E.
Qed.
Print Assumptions C19_hsearch.

(** entries never move: a returned pointer keeps designating the same entry for the life of the table *)
Theorem C19_stable : forall hash n h ops ops' h1 rs h2 rs' i e, n <> 0 -> hcreate true n = Some h ->
  run hash h ops = Ok (h1, rs) -> nth_error (table h1) i = Some (Some e) -> run hash h1 ops' = Ok (h2, rs') ->
  nth_error (table h2) i = Some (Some e).
Proof.
  intros hash n h ops ops' h1 rs h2 rs' i e Hn [= <-] E1 Hu E2.
  destruct (run_ok hash ops _ [] (inv_init hash n Hn)) as (h1' & E & Es & I & _).
  rewrite E1 in E. injection E as <- _.
  destruct (run_ok hash ops' h1 _ I) as (h2' & E' & _ & _ & K). rewrite E2 in E'. injection E' as <- _. apply K, Hu.
Qed.
Print Assumptions C19_stable.

(** a colliding history on a table of two: full after two keys, the first datum stays *)
Example C19_case :
  let ops := [(([97], 1), ENTER); (([98], 2), ENTER); (([97], 7), ENTER); (([99], 3), ENTER); (([98], 0), FIND); (([99], 0), FIND)]%Z in
  match run (fun _ => 5) {| table := [None; None]; size := 2; filled := 0 |} ops with
  | Ok (_, rs) => rs = map Some [Datum 1; Datum 2; Datum 1; Full; Datum 2; NoEntry]%Z
  | _ => False end.
Proof. vm_compute. reflexivity. Qed.
