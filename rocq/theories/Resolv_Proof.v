From Verif Require Import Base Resolv_Model Resolv_Spec.

Lemma split_line f : f <> [] -> (exists l r, f = l ++ 10%Z :: r /\ ~ In 10%Z l /\ lines f = l :: lines r) \/ (~ In 10%Z f /\ lines f = [f]).
Proof.
  induction f as [|c f IH]; intros N; [congruence|]. cbn [lines]. destruct (Z.eqb_spec c 10) as [->|C].
  - left. exists [], f. split; [reflexivity|]. split; [intros []|reflexivity].
  - destruct f as [|d f]; [right; split; [intros [E|[]]; auto|reflexivity]|]. destruct IH as [[l [r [E [I L]]]]|[I L]]; [discriminate| |].
    + left. exists (c :: l), r. rewrite L. split; [cbn [app]; now rewrite E|]. split; [intros [X|X]; auto|reflexivity].
    + right. rewrite L. split; [intros [X|X]; auto|reflexivity].
Qed.

Lemma fgets_whole l : ~ In 10%Z l -> forall k r, length l < k -> fgets k (l ++ 10%Z :: r) = (l ++ [10%Z], r, false).
Proof.
  induction l as [|c l IH]; intros N k r K; destruct k as [|k]; cbn [length] in K; try lia; cbn [app fgets]; [reflexivity|].
  destruct (Z.eqb_spec c 10) as [E|E]; [exfalso; apply N; now left|]. rewrite IH; [reflexivity| |lia]. intros I. apply N. now right.
Qed.
Lemma fgets_last l : ~ In 10%Z l -> forall k, length l < k -> fgets k l = (l, [], true).
Proof.
  induction l as [|c l IH]; intros N k K; destruct k as [|k]; cbn [length] in K; try lia; cbn [fgets]; [reflexivity|].
  destruct (Z.eqb_spec c 10) as [E|E]; [exfalso; apply N; now left|]. rewrite IH; [reflexivity| |lia]. intros I. apply N. now right.
Qed.
Lemma fgets_part l : ~ In 10%Z l -> forall k r, k <= length l -> fgets k (l ++ r) = (firstn k l, skipn k l ++ r, false).
Proof.
  induction l as [|c l IH]; intros N k r K; destruct k as [|k]; cbn [length] in K; try lia; cbn [app fgets firstn skipn]; try reflexivity.
  destruct (Z.eqb_spec c 10) as [E|E]; [exfalso; apply N; now left|]. rewrite IH; [reflexivity| |lia]. intros I. apply N. now right.
Qed.
Lemma skip_line l r : ~ In 10%Z l -> skip (l ++ 10%Z :: r) = r.
Proof. induction l as [|c l IH]; intros N; cbn [app skip]; [reflexivity|]. destruct (Z.eqb_spec c 10) as [E|E]; [exfalso; apply N; now left|]. apply IH. intros I. apply N. now right. Qed.
Lemma skip_last l : ~ In 10%Z l -> skip l = [].
Proof. induction l as [|c l IH]; intros N; cbn [skip]; [reflexivity|]. destruct (Z.eqb_spec c 10) as [E|E]; [exfalso; apply N; now left|]. apply IH. intros I. apply N. now right. Qed.
Lemma skipn_in (l : list Z) k : ~ In 10%Z l -> ~ In 10%Z (skipn k l).
Proof. intros N I. apply N. rewrite <- (firstn_skipn k l). apply in_or_app. now right. Qed.
Lemma firstn_in (l : list Z) k : ~ In 10%Z l -> ~ In 10%Z (firstn k l).
Proof. intros N I. apply N. rewrite <- (firstn_skipn k l). apply in_or_app. now left. Qed.
Lemma no_newline l : ~ In 10%Z l -> existsb (Z.eqb 10) l = false.
Proof. intros N. destruct (existsb _ _) eqn:E; [|reflexivity]. apply existsb_exists in E. destruct E as [x [I E]]. apply Z.eqb_eq in E. subst x. now destruct N. Qed.

Lemma keyword_length l : has_keyword l = true -> 10 <= length l.
Proof.
  unfold has_keyword. destruct (list_eq_dec _ _ _) as [E|]; [|discriminate]. intros _. apply (f_equal (@length Z)) in E. rewrite firstn_length in E. change (length keyword) with 10 in E. lia.
Qed.
Lemma keyword_app l : ~ In 10%Z l -> has_keyword (l ++ [10%Z]) = has_keyword l.
Proof.
  intros N. unfold has_keyword. destruct (Nat.le_gt_cases 10 (length l)) as [L|L].
  - rewrite firstn_app. replace (10 - length l) with 0 by lia. cbn [firstn]. now rewrite app_nil_r.
  - rewrite (firstn_all2 (n := 10) l) by lia. rewrite firstn_all2 by (rewrite app_length; cbn [length]; lia).
    destruct (list_eq_dec Z.eq_dec (l ++ [10%Z]) keyword) as [E|E].
    + exfalso. assert (I : In 10%Z keyword) by (rewrite <- E; apply in_or_app; right; now left). cbn [In keyword] in I. lia.
    + destruct (list_eq_dec Z.eq_dec l keyword) as [E'|]; [|reflexivity]. apply (f_equal (@length Z)) in E'. change (length keyword) with 10 in E'. lia.
Qed.
Lemma word_app l : word (l ++ [10%Z]) = word l.
Proof. induction l as [|c l IH]; cbn [app word]; [reflexivity|]. destruct (isspace c); [reflexivity|]. now rewrite IH. Qed.
Lemma word_drop_app l : word (drop_space (l ++ [10%Z])) = word (drop_space l).
Proof. induction l as [|c l IH]; cbn [app drop_space]; [reflexivity|]. destruct (isspace c); [exact IH|]. apply (word_app (c :: l)). Qed.
Lemma drop_11 l c : nth_error l 10 = Some c -> isspace c = true -> drop_space (skipn 10 l) = drop_space (skipn 11 l).
Proof.
  intros N S. do 10 (destruct l as [|? l]; [discriminate N|]). destruct l as [|x l]; [discriminate N|]. cbn [nth_error] in N. injection N as ->. cbn [skipn drop_space]. now rewrite S.
Qed.

(** a whole line *)
Lemma line_entry l : ~ In 10%Z l -> has_keyword (l ++ [10%Z]) && isspace (nth 10 (l ++ [10%Z]) 0%Z) = entry l.
Proof.
  intros N. rewrite keyword_app by exact N. unfold entry. destruct (has_keyword l) eqn:K; [|reflexivity]. cbn [andb]. apply keyword_length in K.
  destruct (nth_error l 10) as [c|] eqn:E.
  - assert (L : 10 < length l) by (apply nth_error_Some; congruence). rewrite app_nth1 by exact L. now rewrite (nth_error_nth _ _ _ E).
  - apply nth_error_None in E. rewrite app_nth2 by exact E. replace (10 - length l) with 0 by lia. reflexivity.
Qed.
Lemma line_server l : entry l = true -> word (drop_space (skipn 11 (l ++ [10%Z]))) = server l.
Proof.
  unfold entry, server. rewrite andb_true_iff. intros [K E]. apply keyword_length in K. destruct (nth_error l 10) as [c|] eqn:X.
  - assert (L : 10 < length l) by (apply nth_error_Some; congruence). rewrite skipn_app. replace (11 - length l) with 0 by lia. change (skipn 0 [10%Z]) with [10%Z]. rewrite word_drop_app. now rewrite (drop_11 l c X E).
  - apply nth_error_None in X. rewrite (skipn_all2 (n := 10) l) by lia. rewrite skipn_all2 by (rewrite app_length; cbn [length]; lia). reflexivity.
Qed.
(** the last line without a newline *)
Lemma last_line l : (if has_keyword l && isspace (nth 10 l 0%Z) then word (drop_space (skipn 11 l)) else []) = (if entry l then server l else []).
Proof.
  unfold entry. destruct (has_keyword l) eqn:K; [|reflexivity]. cbn [andb]. apply keyword_length in K. destruct (nth_error l 10) as [c|] eqn:X.
  - rewrite (nth_error_nth _ _ _ X). destruct (isspace c) eqn:S; [|reflexivity]. unfold server. now rewrite (drop_11 l c X S).
  - apply nth_error_None in X. rewrite nth_overflow by exact X. change (isspace 0) with false. cbv iota. unfold server. now rewrite (skipn_all2 (n := 10) l) by lia.
Qed.

Definition found (f : list Z) : list Z := match find entry (filter short (lines f)) with None => [] | Some l => server l end.
Lemma scan_ok : forall fuel f, length f < fuel -> scan fuel f = Ok (found f).
Proof.
  induction fuel as [|fuel IH]; intros f F; [lia|]. cbn [scan]. destruct (list_eq_dec Z.eq_dec f []) as [->|N]; [reflexivity|].
  destruct (split_line f N) as [[l [r [E [I L]]]]|[I L]]; unfold found; rewrite L; cbn [filter]; unfold short at 1.
  - assert (R : scan fuel r = Ok (found r)). { apply IH. subst f. rewrite app_length in F. cbn [length] in F. lia. } subst f. destruct (Nat.leb_spec (length l) 126) as [S|S].
    + rewrite (fgets_whole l I 127 r) by lia. replace (match l ++ [10%Z] with [] => true | _ => false end) with false by now destruct l.
      rewrite existsb_app. cbn [existsb]. rewrite Z.eqb_refl. cbn [orb]. rewrite orb_true_r. cbn [negb andb]. rewrite line_entry by exact I. cbn [find].
      destruct (entry l) eqn:En; [now rewrite line_server|exact R].
    + rewrite (fgets_part l I 127 (10%Z :: r)) by lia. replace (match firstn 127 l with [] => true | _ => false end) with false by (destruct l; [cbn [length] in S; lia|reflexivity]).
      rewrite (no_newline _ (firstn_in l 127 I)). cbn [negb andb]. rewrite skip_line by now apply skipn_in. exact R.
  - destruct (Nat.leb_spec (length f) 126) as [S|S].
    + rewrite (fgets_last f I 127) by lia. replace (match f with [] => true | _ => false end) with false by now destruct f.
      rewrite (no_newline _ I). cbn [negb andb find]. pose proof (last_line f) as LL. destruct (has_keyword f && isspace (nth 10 f 0%Z)).
      * rewrite LL. now destruct (entry f).
      * replace (match (if entry f then Some f else None) with Some l => server l | None => [] end) with (if entry f then server f else []) by now destruct (entry f). rewrite <- LL.
        destruct fuel; [destruct f; [congruence|cbn [length] in F; lia]|]. reflexivity.
    + pose proof (fgets_part f I 127 []) as P. rewrite app_nil_r in P. rewrite P by lia. replace (match firstn 127 f with [] => true | _ => false end) with false by (destruct f; [congruence|reflexivity]).
      rewrite (no_newline _ (firstn_in f 127 I)). cbn [negb andb find]. rewrite app_nil_r, skip_last by now apply skipn_in. rewrite IH; [reflexivity|]. cbn [length]. lia.
Qed.
Lemma nameserver_ok f : get_nameserver (Some f) = Ok (first_server f).
Proof.
  unfold get_nameserver. rewrite scan_ok by lia. cbn [bind]. unfold found, first_server. destruct (find _ _) as [l|]; [|reflexivity]. now destruct (server l).
Qed.

Lemma lines_app l r : ~ In 10%Z l -> lines (l ++ 10%Z :: r) = l :: lines r.
Proof.
  induction l as [|c l IH]; intros N; cbn [app lines]; [reflexivity|]. destruct (Z.eqb_spec c 10) as [E|E]; [exfalso; apply N; now left|]. rewrite IH; [reflexivity|]. intros I. apply N. now right.
Qed.
Lemma skip_ok l f : ~ In 10%Z l -> 126 < length l \/ entry l = false -> get_nameserver (Some (l ++ 10%Z :: f)) = get_nameserver (Some f).
Proof.
  intros N H. rewrite !nameserver_ok. unfold first_server. rewrite lines_app by exact N. cbn [filter]. unfold short at 1. destruct (Nat.leb_spec (length l) 126) as [S|S]; [|reflexivity].
  destruct H as [H|H]; [lia|]. cbn [find]. now rewrite H.
Qed.
Lemma drop_all ws l : Forall (fun c => isspace c = true) ws -> drop_space (ws ++ l) = drop_space l.
Proof. induction 1 as [|c ws S F IH]; [reflexivity|]. cbn [app drop_space]. now rewrite S. Qed.
Lemma word_all name l : Forall (fun c => isspace c = false) name -> (l = [] \/ exists c l', l = c :: l' /\ isspace c = true) -> word (name ++ l) = name.
Proof.
  intros F H. induction F as [|c name S F IH].
  - destruct H as [->|[c [l' [-> S]]]]; cbn [app word]; [reflexivity|]. now rewrite S.
  - cbn [app word]. now rewrite S, IH.
Qed.
Lemma entry_ok ws name rest f : ws <> [] -> name <> [] -> Forall (fun c => isspace c = true) ws -> Forall (fun c => isspace c = false) name ->
  (rest = [] \/ exists c r, rest = c :: r /\ isspace c = true) -> ~ In 10%Z (ws ++ name ++ rest) -> length (ws ++ name ++ rest) <= 116 ->
  get_nameserver (Some ((keyword ++ ws ++ name ++ rest) ++ 10%Z :: f)) = Ok (Some name).
Proof.
  intros W0 N0 W N R I L. rewrite nameserver_ok. unfold first_server. rewrite lines_app.
  2: { intros X. apply in_app_or in X. destruct X as [X|X]; [cbn [In keyword] in X; lia|auto]. }
  cbn [filter]. unfold short at 1. rewrite app_length. change (length keyword) with 10. destruct (Nat.leb_spec (10 + length (ws ++ name ++ rest)) 126); [|lia]. cbn [find].
  assert (E : entry (keyword ++ ws ++ name ++ rest) = true). { destruct W as [|c ws S W]; [congruence|]. unfold entry, has_keyword. cbn [app keyword firstn nth_error]. destruct (list_eq_dec _ _ _) as [|X]; [exact S|now destruct X]. }
  rewrite E. unfold server. change (skipn 10 (keyword ++ ws ++ name ++ rest)) with (ws ++ name ++ rest). rewrite drop_all by exact W.
  assert (D : drop_space (name ++ rest) = name ++ rest). { destruct N as [|c name S N]; [congruence|]. cbn [app drop_space]. now rewrite S. }
  rewrite D, word_all by assumption. now destruct name.
Qed.
