From Verif Require Import Base Wlcat_Model Wlcat_Proof.

(** C117: a destination of size cells (or more) that holds the string d: afterwards it holds d and as much of the source as fits before a terminating zero, the cells
    after that zero are as before, and the value is the length that was wanted.  Nothing outside is accessed. *)
Theorem C117_append : forall d rest s more size, ~ In 0%Z d -> ~ In 0%Z s -> length d < size -> size <= length (d ++ 0%Z :: rest) ->
  wcslcat (d ++ 0%Z :: rest) (s ++ 0%Z :: more) size =
    Ok (d ++ firstn (size - 1 - length d) s ++ 0%Z :: skipn (Nat.min (size - 1 - length d) (length s)) rest, length d + length s).
Proof. exact cat_ok. Qed.
(** a destination without a zero in its size cells is left as it is, whatever follows (also size 0) *)
Theorem C117_unterminated : forall d rest s more, ~ In 0%Z d -> ~ In 0%Z s -> wcslcat (d ++ rest) (s ++ 0%Z :: more) (length d) = Ok (d ++ rest, length d + length s).
Proof. exact full_ok. Qed.
(** so the caller sees a truncation exactly if the value is not less than the size *)
Theorem C117_truncated : forall d rest s more size m r, ~ In 0%Z d -> ~ In 0%Z s -> length d < size -> size <= length (d ++ 0%Z :: rest) ->
  wcslcat (d ++ 0%Z :: rest) (s ++ 0%Z :: more) size = Ok (m, r) -> (r < size <-> firstn (length d + length s + 1) m = d ++ s ++ [0%Z]).
Proof.
  intros d rest s more size m r D S L B E. rewrite (cat_ok d rest s more size D S L B) in E. injection E as <- <-. split.
  - intros K. rewrite (firstn_all2 s) by lia. rewrite !app_assoc, <- (app_nil_r (((d ++ s) ++ [0%Z]))). 
    match goal with |- firstn _ (_ ++ 0%Z :: ?t) = _ => change (0%Z :: t) with ([0%Z] ++ t) end. rewrite app_assoc, firstn_app.
    rewrite firstn_all2 by (rewrite !app_length; cbn [length]; lia). rewrite !app_length. cbn [length]. now replace (length d + length s + 1 - (length d + length s + 1)) with 0 by lia.
  - intros K. destruct (Nat.lt_ge_cases (length d + length s) size) as [|G]; [assumption|exfalso]. apply (f_equal (fun l => nth_error l (size - 1))) in K.
    rewrite nth_error_firstn_lt in K by lia. rewrite nth_error_app2 in K by lia. rewrite nth_error_app2 in K by (rewrite firstn_length; lia).
    rewrite firstn_length, Nat.min_l, Nat.sub_diag in K by lia. rewrite nth_error_app2 in K by lia. rewrite nth_error_app1 in K by lia. cbn [nth_error] in K. symmetry in K. apply nth_error_In in K. exact (S K).
Qed.

Example C117_nonvacuous : wcslcat [97; 0; 7; 7; 7]%Z [98; 99; 100; 0]%Z 4 = Ok ([97; 98; 99; 0; 7]%Z, 4).
Proof. reflexivity. Qed.

Print Assumptions C117_append.
Print Assumptions C117_unterminated.
Print Assumptions C117_truncated.
