From Verif Require Import Base Plist_Model Plist_Spec.

Lemma decompose seps l : (forall c, In c l -> existsb (Z.eqb c) seps = false) /\ split seps l = [l] \/
  exists a c r, l = a ++ c :: r /\ (forall c, In c a -> existsb (Z.eqb c) seps = false) /\ existsb (Z.eqb c) seps = true /\ split seps l = a :: split seps r.
Proof.
  induction l as [|c l IH]; [left; split; [intros c []|reflexivity]|]. cbn [split]. destruct (existsb (Z.eqb c) seps) eqn:E.
  - right. exists [], c, l. split; [reflexivity|]. split; [intros x []|]. auto.
  - destruct IH as [[N S]|[a [d [r [L [N [D S]]]]]]].
    + left. rewrite S. split; [intros x [<-|I]; auto|reflexivity].
    + right. exists (c :: a), d, r. rewrite S. split; [cbn [app]; now rewrite L|]. split; [intros x [<-|I]; auto|auto].
Qed.
Lemma find_none seps l : (forall c, In c l -> existsb (Z.eqb c) seps = false) -> forall p, find_in seps l p = None.
Proof. induction l as [|c l IH]; intros N p; [reflexivity|]. cbn [find_in]. rewrite (N c (or_introl eq_refl)). apply IH. intros x I. apply N. now right. Qed.
Lemma find_some seps a c r : (forall c, In c a -> existsb (Z.eqb c) seps = false) -> existsb (Z.eqb c) seps = true -> forall p, find_in seps (a ++ c :: r) p = Some (p + length a).
Proof.
  intros N C. induction a as [|x a IH]; intros p; cbn [app find_in length].
  - rewrite C. now rewrite Nat.add_0_r.
  - rewrite (N x (or_introl eq_refl)). rewrite IH by (intros y I; apply N; now right). f_equal. lia.
Qed.

(** slashes *)
Lemma strip_exists l : exists t, stripped l t.
Proof.
  induction l as [|c l [t [k [E T]]]] using rev_ind; [exists [], 0; split; [reflexivity|now left]|]. destruct (Z.eq_dec c slash) as [->|N].
  - exists t, (S k). split; [|exact T]. rewrite E, <- app_assoc. f_equal. change [slash] with (repeat slash 1). rewrite <- repeat_app. f_equal. lia.
  - exists (l ++ [c]), 0. split; [cbn [repeat]; now rewrite app_nil_r|]. right. now rewrite last_last.
Qed.
Lemma nth_rep k : forall i, i < k -> nth i (repeat slash k) 0%Z = slash.
Proof. induction k as [|k IH]; intros [|i] L; cbn [repeat nth]; try lia; auto. apply IH. lia. Qed.
Lemma nth_tail t k i : length t <= i < length t + k -> nth i (t ++ repeat slash k) 0%Z = slash.
Proof. intros L. rewrite app_nth2 by lia. apply nth_rep. lia. Qed.
Lemma last_nth (t : list Z) : last t 0%Z = nth (length t - 1) t 0%Z.
Proof. induction t as [|x t IH]; [reflexivity|]. cbn [last length]. destruct t as [|y t]; [reflexivity|]. rewrite IH. cbn [length]. replace (S (length t) - 1) with (length t) by lia. now replace (S (S (length t)) - 1) with (S (length t)) by lia. Qed.
Lemma back_ok t k : (t = [] \/ last t 0%Z <> slash) -> forall j, j < k -> back (t ++ repeat slash k) (length t + j) = length t - 1.
Proof.
  intros T. induction j as [|j IH]; intros J.
  - rewrite Nat.add_0_r. destruct (length t) as [|n] eqn:LT; [reflexivity|]. destruct T as [->|T]; [discriminate LT|].
    cbn [back]. rewrite <- LT at 1. rewrite nth_tail by lia. rewrite Z.eqb_refl.
    destruct n as [|n]; [reflexivity|]. cbn [back]. rewrite app_nth1 by lia. rewrite last_nth, LT in T. replace (S (S n) - 1) with (S n) in T by lia. rewrite (proj2 (Z.eqb_neq _ _) T). lia.
  - rewrite Nat.add_succ_r. cbn [back]. rewrite nth_tail by lia. rewrite Z.eqb_refl. apply IH. lia.
Qed.

Lemma last_rep t k : last (t ++ repeat slash (S k)) 0%Z = slash.
Proof. replace (S k) with (k + 1) by lia. rewrite repeat_app. cbn [repeat]. rewrite app_assoc. apply last_last. Qed.
Lemma clean_ok l t : l <> [] -> stripped l t -> clean l = Ok t.
Proof.
  intros N [k [E T]]. unfold clean. destruct k as [|k].
  - cbn [repeat] in E. rewrite app_nil_r in E. subst t. destruct T as [T|T]; [contradiction|]. rewrite (proj2 (Z.eqb_neq _ _) T). cbn [bind].
    destruct (list_eq_dec Z.eq_dec l [slash]) as [->|]; [exfalso; apply T; reflexivity|reflexivity].
  - rewrite E at 1. rewrite last_rep, Z.eqb_refl. assert (L : length l = length t + S k) by (rewrite E, app_length, repeat_length; reflexivity).
    replace (length l - 1) with (length t + k) by lia. rewrite E at 2. rewrite (back_ok t (S k) T k) by lia. unfold sub_string.
    rewrite (proj2 (Nat.ltb_ge (length l) (0 + (length t - 1 + 1)))) by lia. cbn [bind skipn]. destruct T as [->|T].
    + rewrite E. cbn [length app repeat]. change (0 - 1 + 1) with 1. cbn [firstn]. destruct (list_eq_dec Z.eq_dec [slash] [slash]) as [|F]; [reflexivity|now contradiction F].
    + destruct t as [|x t].
      * rewrite E. cbn [length app repeat]. change (0 - 1 + 1) with 1. cbn [firstn]. destruct (list_eq_dec Z.eq_dec [slash] [slash]) as [|F]; [reflexivity|now contradiction F].
      * replace (length (x :: t) - 1 + 1) with (length (x :: t)) by (cbn [length]; lia). rewrite E, firstn_app, firstn_all, Nat.sub_diag. cbn [firstn]. rewrite app_nil_r.
        destruct (list_eq_dec Z.eq_dec (x :: t) [slash]) as [F|]; [rewrite F in T; now contradiction T|reflexivity].
Qed.

Lemma skipn_skipn2 (l : list Z) : forall a b, skipn (a + b) l = skipn b (skipn a l).
Proof. induction l as [|x l IH]; intros [|a] b; cbn [Nat.add skipn]; auto. now destruct b. Qed.
Lemma loop_ok paths seps : forall fuel p out, length paths - p < fuel ->
  exists r, parse_loop fuel paths seps p out = Ok (out ++ r) /\ Forall2 stripped (filter nonempty (split seps (skipn p paths))) r.
Proof.
  induction fuel as [|fuel IH]; intros p out L; [lia|]. cbn [parse_loop]. destruct (p <? length paths) eqn:P; [apply Nat.ltb_lt in P|apply Nat.ltb_ge in P].
  2:{ exists []. rewrite app_nil_r, skipn_all2 by lia. split; [reflexivity|constructor]. }
  assert (LL : length (skipn p paths) = length paths - p) by apply skipn_length.
  assert (K : forall a s r, length a = s - p -> p <= s -> s <= length paths -> firstn (s - p) (skipn p paths) = a -> split seps (skipn p paths) = a :: r -> filter nonempty r = filter nonempty (split seps (skipn (s + 1) paths)) ->
     exists r, (path <- sub_string paths p (s - p) ;; match path with [] => parse_loop fuel paths seps (s + 1) out | _ => path <- clean path ;; parse_loop fuel paths seps (s + 1) (out ++ [path]) end) = Ok (out ++ r)
       /\ Forall2 stripped (filter nonempty (split seps (skipn p paths))) r).
  { intros a s r LA PS SL FA S R. unfold sub_string. rewrite (proj2 (Nat.ltb_ge _ _)) by lia. cbn [bind]. rewrite FA, S. destruct a as [|x a].
    - destruct (IH (s + 1) out ltac:(lia)) as [r' [E F]]. exists r'. split; [exact E|]. cbn [filter nonempty]. now rewrite R.
    - destruct (strip_exists (x :: a)) as [t T]. rewrite (clean_ok (x :: a) t) by (easy || exact T). cbn [bind].
      destruct (IH (s + 1) (out ++ [t]) ltac:(lia)) as [r' [E F]]. exists (t :: r'). split; [rewrite E, <- app_assoc; reflexivity|]. cbn [filter nonempty]. rewrite R. now constructor. }
  unfold find_first_of. destruct (decompose seps (skipn p paths)) as [[N S]|[a [c [r [E [N [C S]]]]]]].
  - rewrite find_none by exact N. apply (K (skipn p paths) (length paths) []); try lia.
    + rewrite <- LL. apply firstn_all.
    + exact S.
    + rewrite (skipn_all2 paths) by lia. reflexivity.
  - assert (FS : find_in seps (skipn p paths) p = Some (p + length a)) by (rewrite E; apply find_some; auto). rewrite FS. assert (LA : length a + (length r + 1) = length paths - p) by (rewrite <- LL, E, app_length; cbn [length]; lia).
    apply (K a (p + length a) (split seps r)); try lia.
    + replace (p + length a - p) with (length a) by lia. rewrite E, firstn_app, firstn_all, Nat.sub_diag. cbn [firstn]. apply app_nil_r.
    + exact S.
    + replace (p + length a + 1) with (p + (length a + 1)) by lia. rewrite skipn_skipn2, E, skipn_skipn2. rewrite skipn_app, skipn_all, Nat.sub_diag. reflexivity.
Qed.
Lemma parse_ok paths seps : exists r, parseList paths seps = Ok r /\ Forall2 stripped (filter nonempty (split seps paths)) r.
Proof. unfold parseList. apply (loop_ok paths seps (S (length paths)) 0 []). lia. Qed.
Lemma split_ok paths sep : concat (map (fun x => x ++ [sep]) (split [sep] paths)) = paths ++ [sep] /\ Forall (fun x => ~ In sep x) (split [sep] paths).
Proof.
  induction paths as [|c l [J N]]; [split; [reflexivity|constructor; [intros []|constructor]]|]. cbn [split existsb]. rewrite orb_false_r. destruct (c =? sep)%Z eqn:E.
  - apply Z.eqb_eq in E. subst c. split; [cbn [map concat app]; now rewrite J|constructor; [intros []|exact N]].
  - apply Z.eqb_neq in E. destruct (split [sep] l) as [|x xs]; [cbn [map concat] in J; destruct l; discriminate J|]. cbn [map concat] in J |- *. split.
    + cbn [app]. now rewrite J.
    + inversion N as [|? ? N1 N2]; subst. constructor; [|exact N2]. intros [F|F]; [now apply E|exact (N1 F)].
Qed.
Lemma stripped_unique l t u : stripped l t -> stripped l u -> t = u.
Proof.
  intros T U. destruct l as [|x l].
  - destruct T as [k [E _]], U as [j [F _]]. symmetry in E, F. apply app_eq_nil in E, F. destruct E as [-> _], F as [-> _]. reflexivity.
  - pose proof (clean_ok (x :: l) t ltac:(easy) T) as A. pose proof (clean_ok (x :: l) u ltac:(easy) U) as B. congruence.
Qed.
