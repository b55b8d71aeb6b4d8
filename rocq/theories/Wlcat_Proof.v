From Verif Require Import Base Wlcat_Model.

Lemma scan_end d x : ~ In 0%Z d -> forall p n i, i = length p -> n = length d -> scan (p ++ d ++ x) n i = Ok (i + length d).
Proof.
  induction d as [|c d IH]; intros N p n i -> ->; cbn [scan length]; [now rewrite Nat.add_0_r|].
  rewrite nth_error_app2, Nat.sub_diag by lia. cbn [app nth_error]. rewrite (proj2 (Z.eqb_neq c 0)) by (intros ->; apply N; now left).
  change (p ++ c :: d ++ x) with (p ++ [c] ++ (d ++ x)). rewrite app_assoc. rewrite (IH (fun I => N (or_intror I)) (p ++ [c]) (length d)); rewrite ?app_length; cbn [length]; try lia. f_equal. lia.
Qed.
Lemma scan_nul d x : ~ In 0%Z d -> forall p n i, i = length p -> length d < n -> scan (p ++ d ++ 0%Z :: x) n i = Ok (i + length d).
Proof.
  induction d as [|c d IH]; intros N p n i -> L; destruct n as [|n]; cbn [length] in L; try lia; cbn [scan length].
  - rewrite nth_error_app2, Nat.sub_diag by lia. cbn [app nth_error]. rewrite Z.eqb_refl. now rewrite Nat.add_0_r.
  - rewrite nth_error_app2, Nat.sub_diag by lia. cbn [app nth_error]. rewrite (proj2 (Z.eqb_neq c 0)) by (intros ->; apply N; now left).
    change (p ++ c :: d ++ 0%Z :: x) with (p ++ [c] ++ (d ++ 0%Z :: x)). rewrite app_assoc. rewrite (IH (fun I => N (or_intror I)) (p ++ [c]) n); rewrite ?app_length; cbn [length]; try lia. f_equal. lia.
Qed.
Lemma walk_ok s y : ~ In 0%Z s -> forall k, walk (s ++ 0%Z :: y) k = Ok (k + length s).
Proof.
  induction s as [|c s IH]; intros N k; cbn [app walk length]; [now rewrite Nat.add_0_r|]. rewrite (proj2 (Z.eqb_neq c 0)) by (intros ->; apply N; now left).
  rewrite (IH (fun I => N (or_intror I))). f_equal. lia.
Qed.
Lemma put_ok p c x v i : i = length p -> put (p ++ c :: x) i v = Ok (p ++ v :: x).
Proof.
  intros ->. unfold put. rewrite app_length. cbn [length]. rewrite (proj2 (Nat.ltb_lt _ _)) by lia. rewrite firstn_app, firstn_all, Nat.sub_diag. cbn [firstn]. rewrite app_nil_r.
  replace (S (length p)) with (length (p ++ [c])) by (rewrite app_length; cbn [length]; lia). replace (p ++ c :: x) with ((p ++ [c]) ++ x) by (rewrite <- app_assoc; reflexivity).
  rewrite skipn_app, skipn_all, Nat.sub_diag. reflexivity.
Qed.
Lemma copy_ok s y : ~ In 0%Z s -> forall p x n k i, i = length p -> n < length x ->
  copy (s ++ 0%Z :: y) (p ++ x) i n k = Ok (p ++ firstn n s ++ 0%Z :: skipn (S (Nat.min n (length s))) x, k + length s).
Proof.
  induction s as [|c s IH]; intros N p x n k i -> L; cbn [app copy length].
  - destruct x as [|a x]; [cbn [length] in L; lia|]. rewrite Z.eqb_refl, put_ok by reflexivity. cbn [bind]. rewrite Nat.min_0_r, firstn_nil. cbn [skipn app]. now rewrite Nat.add_0_r.
  - rewrite (proj2 (Z.eqb_neq c 0)) by (intros ->; apply N; now left). pose proof (fun I => N (or_intror I)) as N'. destruct n as [|n]; cbn [Nat.eqb].
    + rewrite (IH N') by auto. cbn [Nat.min firstn app]. f_equal. f_equal. lia.
    + destruct x as [|a x]; [cbn [length] in L; lia|]. rewrite put_ok by reflexivity. cbn [bind]. replace (p ++ c :: x) with ((p ++ [c]) ++ x) by (rewrite <- app_assoc; reflexivity).
      replace (S n - 1) with n by lia. cbn [length] in L. rewrite (IH N') by (rewrite ?app_length; cbn [length]; lia). cbn [firstn Nat.min]. rewrite <- app_assoc. cbn [app].
      change (skipn (S (S (Nat.min n (length s)))) (a :: x)) with (skipn (S (Nat.min n (length s))) x). f_equal. f_equal. lia.
Qed.

Lemma full_ok d x s y : ~ In 0%Z d -> ~ In 0%Z s -> wcslcat (d ++ x) (s ++ 0%Z :: y) (length d) = Ok (d ++ x, length d + length s).
Proof.
  intros D S. unfold wcslcat. pose proof (scan_end d x D [] _ 0 eq_refl eq_refl) as Q. cbn [app] in Q. rewrite Q. clear Q. cbn [bind Nat.add]. rewrite Nat.sub_diag. cbn [Nat.eqb]. rewrite (walk_ok s y S). reflexivity.
Qed.
Lemma cat_ok d x s y size : ~ In 0%Z d -> ~ In 0%Z s -> length d < size -> size <= length (d ++ 0%Z :: x) ->
  wcslcat (d ++ 0%Z :: x) (s ++ 0%Z :: y) size = Ok (d ++ firstn (size - 1 - length d) s ++ 0%Z :: skipn (Nat.min (size - 1 - length d) (length s)) x, length d + length s).
Proof.
  intros D S L B. rewrite app_length in B. cbn [length] in B. unfold wcslcat. pose proof (scan_nul d x D [] size 0 eq_refl L) as Q. cbn [app] in Q. rewrite Q. clear Q. cbn [bind Nat.add]. rewrite (proj2 (Nat.eqb_neq (size - length d) 0)) by lia.
  replace (size - length d - 1) with (size - 1 - length d) by lia. rewrite (copy_ok s y S) by (cbn [length]; lia). reflexivity.
Qed.
Lemma nth_error_firstn_lt (l : list Z) : forall n i, i < n -> nth_error (firstn n l) i = nth_error l i.
Proof. induction l as [|x l IH]; intros [|n] [|i] L; cbn [firstn nth_error]; try lia; auto. apply IH. lia. Qed.
