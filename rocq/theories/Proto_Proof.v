From Verif Require Import Base Hosts_Model Hosts_Spec Users_Model Shadow_Proof Execp_Proof Proto_Model Proto_Spec.
Open Scope Z_scope.

Lemma blankE c : blank c = true <-> is_blank c. Proof. unfold blank, is_blank. rewrite orb_true_iff, !Z.eqb_eq. reflexivity. Qed.
Lemma blankF c : blank c = false <-> ~ is_blank c. Proof. rewrite <- blankE. destruct (blank c); intuition congruence. Qed.
Lemma skip_app b l : Forall is_blank b -> skip_blanks (b ++ l) = skip_blanks l.
Proof. induction 1 as [|c b C F IH]; [reflexivity|]. cbn. rewrite (proj2 (blankE c) C). exact IH. Qed.
Lemma until_app w rest : (forall c, In c w -> ~ is_blank c) -> (rest = [] \/ exists c r, rest = c :: r /\ is_blank c) -> until_blank (w ++ rest) = (w, rest).
Proof.
  intros N R. induction w as [|c w IH].
  - destruct R as [->|(c & r & -> & C)]; [reflexivity|]. cbn. rewrite (proj2 (blankE c) C). reflexivity.
  - cbn. rewrite (proj2 (blankF c)) by (apply N; left; reflexivity). rewrite IH; [reflexivity|]. intros x I. apply N. right. exact I.
Qed.
Lemma aliases_ok : forall ws l, fields ws l -> forall n, (length l < n)%nat -> aliases n l = ws.
Proof.
  induction 1 as [b B|b w rest ws B W N R F IH]; intros n K.
  - revert n K. induction B as [|c b C B IH]; intros n K; (destruct n as [|n]; [lia|]); [reflexivity|]. cbn. rewrite (proj2 (blankE c) C). apply IH. cbn in K. lia.
  - revert n K. induction B as [|c b C B IHB]; intros n K; (destruct n as [|n]; [lia|]).
    + cbn [app] in *. destruct w as [|c w]; [congruence|]. cbn [app aliases]. rewrite (proj2 (blankF c)) by (apply N; left; reflexivity).
      change (c :: w ++ rest) with ((c :: w) ++ rest). rewrite until_app by assumption. rewrite IH; [reflexivity|]. rewrite app_length in K. cbn in K. lia.
    + cbn [app aliases]. rewrite (proj2 (blankE c) C). apply IHB. cbn in K. lia.
Qed.
Lemma span_blanks l : exists b r, l = b ++ r /\ Forall is_blank b /\ (r = [] \/ exists c t, r = c :: t /\ ~ is_blank c).
Proof.
  induction l as [|c l (b & r & -> & B & R)]; [exists [], []; auto|]. destruct (blank c) eqn:C.
  - exists (c :: b), r. split; [reflexivity|]. split; [constructor; [apply blankE; exact C|exact B]|exact R].
  - exists [], (c :: b ++ r). split; [reflexivity|]. split; [constructor|]. right. exists c, (b ++ r). split; [reflexivity|apply blankF; exact C].
Qed.
Lemma span_word l : exists w r, l = w ++ r /\ (forall c, In c w -> ~ is_blank c) /\ (r = [] \/ exists c t, r = c :: t /\ is_blank c).
Proof.
  induction l as [|c l (w & r & -> & W & R)]; [exists [], []; cbn; tauto|]. destruct (blank c) eqn:C.
  - exists [], (c :: w ++ r). split; [reflexivity|]. split; [cbn; tauto|]. right. exists c, (w ++ r). split; [reflexivity|apply blankE; exact C].
  - exists (c :: w), r. split; [reflexivity|]. split; [|exact R]. intros x [<-|I]; [apply blankF; exact C|auto].
Qed.
Lemma fields_total : forall n l, (length l < n)%nat -> exists ws, fields ws l.
Proof.
  induction n as [|n IH]; intros l K; [lia|]. destruct (span_blanks l) as (b & r & -> & B & [->|(c & t & -> & C)]); [exists []; rewrite app_nil_r; constructor; exact B|].
  destruct (span_word (c :: t)) as (w & r & E & W & R). destruct w as [|x w].
  { cbn in E. subst r. destruct R as [|(y & z & E & Y)]; [discriminate|]. injection E as <- <-. contradiction. }
  destruct (IH r) as (ws & F); [rewrite E in K; rewrite !app_length in K; cbn in K; lia|]. exists ((x :: w) :: ws). rewrite E. apply f_word; auto. discriminate.
Qed.
Lemma fields_fun ws ws' l : fields ws l -> fields ws' l -> ws = ws'.
Proof. intros A B. rewrite <- (aliases_ok ws l A (S (length l))), <- (aliases_ok ws' l B (S (length l))) by lia. reflexivity. Qed.
(** what follows the word *)
Lemma fields_skip ws l : fields ws l -> match skip_blanks l with [] => ws = [] | l' => exists w rest ws', ws = w :: ws' /\ l' = w ++ rest /\ until_blank l' = (w, rest) /\ fields ws' rest /\ w <> [] /\ fields ws l' end.
Proof.
  destruct 1 as [b B|b w rest ws B W N R F].
  - rewrite <- (app_nil_r b), skip_app by exact B. reflexivity.
  - rewrite skip_app by exact B. destruct w as [|c w]; [congruence|]. cbn [app skip_blanks]. rewrite (proj2 (blankF c)) by (apply N; left; reflexivity).
    exists (c :: w), rest, ws. split; [reflexivity|]. split; [reflexivity|]. change (c :: w ++ rest) with ((c :: w) ++ rest). rewrite until_app by assumption. repeat split; auto.
    apply (f_word [] (c :: w) rest ws); auto.
Qed.
Lemma to_number_ok d v : d <> [] -> (to_number d = Some v <-> decimal d v).
Proof.
  intro D. rewrite decimal_val. unfold to_number, val, digit. destruct (forallb is_digit d) eqn:F.
  - split; [intro E; injection E as <-; repeat split; auto; apply Forall_forall; rewrite forallb_forall in F; exact F|]. intros (_ & _ & ->). reflexivity.
  - split; [discriminate|]. intros (_ & X & _). exfalso. apply not_true_iff_false in F. apply F. apply forallb_forall. rewrite Forall_forall in X. exact X.
Qed.
Definition of_fields (ws : list (list Z)) : option proto :=
  match ws with name :: d :: a :: r => match to_number d with Some v => Some {| p_name := name; p_proto := v; p_aliases := a :: r |} | None => None end | _ => None end.
Lemma parse_fields line l ws : without_comment line l -> fields ws l -> parse line = of_fields ws.
Proof.
  intros C F. unfold parse. assert (E : match cut 35 line with Some (a, _) => a | None => line end = l).
  { destruct C as [l N|l t N]; [rewrite cut_none by exact N; reflexivity|]. rewrite (proj2 (cut_some 35 (l ++ [35] ++ t) l t) (conj eq_refl N)). reflexivity. }
  rewrite E. clear E C line. apply fields_skip in F. destruct (skip_blanks l) as [|c t]; [subst; reflexivity|]. destruct F as (w & rest & ws' & -> & _ & U & F & _ & _). rewrite U. clear U c t l.
  assert (F0 := F). apply fields_skip in F. destruct (skip_blanks rest) as [|c t] eqn:S1; [subst; reflexivity|]. destruct F as (d & rest2 & ws2 & -> & _ & U & F & D & _). rewrite U. clear U c t S1.
  cbn [of_fields]. destruct rest2 as [|c t] eqn:R2.
  { assert (X : fields [] []) by (constructor; constructor). rewrite (fields_fun _ _ _ F X). reflexivity. }
  rewrite <- R2 in *. clear c t R2. apply fields_skip in F. destruct (skip_blanks rest2) as [|c t] eqn:S2.
  { subst ws2. destruct (to_number d); reflexivity. }
  destruct F as (a & rest3 & ws3 & -> & _ & _ & _ & _ & F). destruct (to_number d); [|reflexivity]. rewrite (aliases_ok _ _ F) by lia. reflexivity.
Qed.
Lemma wc_total line : exists l, without_comment line l.
Proof.
  destruct (cut 35 line) as [[a b]|] eqn:C.
  - apply cut_some in C. destruct C as [-> N]. exists a. apply (wc_some a b N).
  - exists line. constructor. intro I. apply in_split in I. destruct I as (a & b & ->). clear - C. induction a as [|x a IH]; [discriminate|]. cbn in C. destruct (x =? 35); [discriminate|]. destruct (cut 35 (a ++ 35 :: b)) as [[? ?]|]; [discriminate|]. apply IH. reflexivity.
Qed.
Lemma wc_fun line l l' : without_comment line l -> without_comment line l' -> l = l'.
Proof.
  assert (X : forall line l, without_comment line l -> match cut 35 line with Some (a, _) => a | None => line end = l).
  { intros li k [m N|m t N]; [rewrite cut_none by exact N; reflexivity|]. rewrite (proj2 (cut_some 35 (m ++ [35] ++ t) m t) (conj eq_refl N)). reflexivity. }
  intros A B. apply X in A. apply X in B. congruence.
Qed.
Lemma parse_ok line e : parse line = Some e <-> gives line e /\ p_aliases e <> [].
Proof.
  destruct (wc_total line) as (l & C). destruct (fields_total (S (length l)) l) as (ws & F); [lia|]. rewrite (parse_fields line l ws C F). split.
  - unfold of_fields. destruct ws as [|name [|d [|a r]]]; try discriminate. destruct (to_number d) as [v|] eqn:T; [|discriminate]. intro E. injection E as <-. split; [|discriminate].
    exists l, d. cbn [p_name p_proto p_aliases]. repeat split; auto. apply to_number_ok; [|exact T]. inversion F as [|? ? ? ? _ _ _ _ F2]; subst. inversion F2; subst. assumption.
  - intros [(l' & d & C' & F' & D) A]. rewrite (wc_fun _ _ _ C' C) in F'. rewrite (fields_fun _ _ _ F F'). unfold of_fields. destruct (p_aliases e) as [|a r] eqn:PA; [congruence|].
    assert (DN : d <> []) by (apply decimal_val in D; tauto). apply (to_number_ok d _ DN) in D. rewrite D, <- PA. destruct e; reflexivity.
Qed.

(** * the file *)
Lemma text_app a b : text (a ++ b) = text a ++ text b. Proof. unfold text. rewrite map_app, concat_app. reflexivity. Qed.
Lemma text_cons l b : text (l :: b) = l ++ 10 :: text b. Proof. unfold text. cbn. rewrite <- app_assoc. reflexivity. Qed.
Lemma read_line_ok n pre l suf : ~ In 10 l -> (length l <= 255)%nat -> read_line (S n) (text (pre ++ l :: suf)) (length (text pre)) [] = Ok (Some l).
Proof.
  intros N K. cbn [read_line]. rewrite text_app, skipn_app, skipn_all2, Nat.sub_diag by lia. cbn [app skipn]. rewrite text_cons.
  assert (X : exists r, firstn 256 (l ++ 10 :: text suf) = l ++ [10] ++ r).
  { rewrite firstn_app, firstn_all2 by lia. destruct (256 - length l)%nat as [|k] eqn:D; [lia|]. cbn [firstn]. exists (firstn k (text suf)). reflexivity. }
  destruct X as (r & X). rewrite X. destruct (l ++ [10] ++ r) as [|c t] eqn:Y; [destruct l; discriminate|]. rewrite <- Y.
  rewrite (proj2 (cut_some 10 (l ++ [10] ++ r) l r) (conj eq_refl N)). reflexivity.
Qed.
Lemma read_line_end n pre : read_line (S n) (text pre) (length (text pre)) [] = Ok None.
Proof. cbn [read_line]. rewrite skipn_all2 by lia. reflexivity. Qed.
Lemma find_ok want : forall suf es, listed suf es -> aliased es -> short suf -> forall n pre, (length suf + 1 < n)%nat ->
  (exists e a b s1 s2, es = a ++ e :: b /\ Forall (fun x => want x = false) a /\ want e = true /\ suf = s1 ++ s2 /\ listed s2 b /\
     find_proto n (text (pre ++ suf)) want (length (text pre)) = Ok (Some e, length (text (pre ++ s1)))) \/
  (Forall (fun x => want x = false) es /\ find_proto n (text (pre ++ suf)) want (length (text pre)) = Ok (None, length (text (pre ++ suf)))).
Proof.
  induction 1 as [|l e ls es G L IH|l ls es G L IH]; intros A S0 n pre K; (destruct n as [|n]; [lia|]); cbn [length] in K.
  - right. split; [constructor|]. rewrite app_nil_r. cbn [find_proto]. destruct n as [|n]; [lia|]. rewrite read_line_end. reflexivity.
  - inversion A as [|? ? AE A']; subst. inversion S0 as [|? ? [N K2] S1]; subst. destruct n as [|n]; [lia|].
    assert (FE : find_proto (S (S n)) (text (pre ++ l :: ls)) want (length (text pre)) = if want e then Ok (Some e, length (text (pre ++ [l]))) else find_proto (S n) (text ((pre ++ [l]) ++ ls)) want (length (text (pre ++ [l])))).
    { cbn [find_proto]. fold (find_proto). rewrite read_line_ok by assumption. cbn [bind]. rewrite (proj2 (parse_ok l e) (conj G AE)).
      replace (length (text pre) + (length l + 1))%nat with (length (text (pre ++ [l]))) by (rewrite text_app, text_cons, !app_length; cbn; lia).
      replace ((pre ++ [l]) ++ ls) with (pre ++ l :: ls) by (rewrite <- app_assoc; reflexivity). reflexivity. }
    rewrite FE. clear FE. destruct (want e) eqn:W.
    + left. exists e, [], es, [l], ls. repeat split; auto.
    + destruct (IH A' S1 (S n) (pre ++ [l])) as [(e' & a & b & s1 & s2 & E1 & E2 & E3 & E4 & E5 & E6)|[E1 E2]]; [lia| |].
      * left. exists e', (e :: a), b, (l :: s1), s2. rewrite E1, E4. split; [reflexivity|]. split; [constructor; auto|]. split; [auto|]. split; [reflexivity|]. split; [auto|].
        rewrite E4 in E6. rewrite E6. rewrite <- app_assoc. reflexivity.
      * right. split; [constructor; auto|]. rewrite E2. rewrite <- app_assoc. reflexivity.
  - inversion S0 as [|? ? [N K2] S1]; subst. destruct n as [|n]; [lia|].
    assert (PN : parse l = None). { destruct (parse l) as [e|] eqn:P; [|reflexivity]. apply parse_ok in P. elim (G e). tauto. }
    assert (FE : find_proto (S (S n)) (text (pre ++ l :: ls)) want (length (text pre)) = find_proto (S n) (text ((pre ++ [l]) ++ ls)) want (length (text (pre ++ [l])))).
    { cbn [find_proto]. fold (find_proto). rewrite read_line_ok by assumption. cbn [bind]. rewrite PN.
      replace (length (text pre) + (length l + 1))%nat with (length (text (pre ++ [l]))) by (rewrite text_app, text_cons, !app_length; cbn; lia).
      replace ((pre ++ [l]) ++ ls) with (pre ++ l :: ls) by (rewrite <- app_assoc; reflexivity). reflexivity. }
    rewrite FE. clear FE. destruct (IH A S1 (S n) (pre ++ [l])) as [(e' & a & b & s1 & s2 & E1 & E2 & E3 & E4 & E5 & E6)|[E1 E2]]; [lia| |].
    + left. exists e', a, b, (l :: s1), s2. rewrite E1, E4. repeat split; auto. rewrite E4 in E6. rewrite E6. rewrite <- app_assoc. reflexivity.
    + right. split; [auto|]. rewrite E2. rewrite <- app_assoc. reflexivity.
Qed.
Lemma first_ok want (P : proto -> Prop) ls es n : (forall e, want e = true <-> P e) -> listed ls es -> aliased es -> short ls -> (length ls + 1 < n)%nat ->
  exists r o, find_proto n (text ls) want 0 = Ok (r, o) /\ first_with P es r.
Proof.
  intros W L A S0 K. assert (WF : forall a, Forall (fun x => want x = false) a -> Forall (fun x => ~ P x) a).
  { intros a F. eapply Forall_impl; [|exact F]. cbn. intros x X Y. apply W in Y. congruence. }
  destruct (find_ok want ls es L A S0 n [] K) as [(e & a & b & s1 & s2 & E1 & E2 & E3 & E4 & E5 & E6)|[E1 E2]]; cbn [app text map concat length] in *.
  - exists (Some e). eexists. split; [exact E6|]. exists a, b. repeat split; auto. apply W. exact E3.
  - exists None. eexists. split; [exact E2|]. apply WF. exact E1.
Qed.
Lemma bytes_eqE a : forall b, bytes_eq a b = true <-> a = b.
Proof. induction a as [|x a IH]; intros [|y b]; cbn; try (split; congruence). rewrite andb_true_iff, Z.eqb_eq, IH. split; [intros [-> ->]; reflexivity|intro E; injection E; auto]. Qed.
(** * getprotoent *)
Lemma off_open b s : off (open_fd b s) = off s. Proof. unfold open_fd. destruct (fd s), b; reflexivity. Qed.
Lemma off_finish s o : off (finish s o) = o. Proof. unfold finish. cbn. destruct (stay s); reflexivity. Qed.
Lemma get_ok n pre suf es s : listed suf es -> aliased es -> short suf -> (length suf + 1 < n)%nat -> off s = length (text pre) ->
  exists s' s1 s2, getprotoent n (text (pre ++ suf)) s = Ok (hd_error es, s') /\ suf = s1 ++ s2 /\ off s' = length (text (pre ++ s1)) /\ listed s2 (tl es).
Proof.
  intros L A S0 K O. unfold getprotoent. rewrite off_open, O. destruct (find_ok (fun _ => true) suf es L A S0 n pre K) as [(e & a & b & s1 & s2 & E1 & E2 & E3 & E4 & E5 & E6)|[E1 E2]].
  - destruct a as [|x a]; [|inversion E2; discriminate]. rewrite E6. cbn [bind]. eexists. exists s1, s2. rewrite E1. split; [reflexivity|]. split; [exact E4|]. split; [apply off_finish|]. cbn. exact E5.
  - destruct es as [|x es]; [|inversion E1; discriminate]. rewrite E2. cbn [bind]. eexists. exists suf, []. split; [reflexivity|]. split; [rewrite app_nil_r; reflexivity|]. split; [apply off_finish|]. constructor.
Qed.
Lemma short_suffix a b : short (a ++ b) -> short b. Proof. unfold short. rewrite Forall_app. tauto. Qed.
Lemma aliased_tl es : aliased es -> aliased (tl es). Proof. destruct 1; [constructor|assumption]. Qed.
Lemma nth_tl {A} (l : list A) i : nth_error (tl l) i = nth_error l (S i). Proof. destruct l; [destruct i; reflexivity|reflexivity]. Qed.
Lemma run_ok n : forall cs pre suf es s, listed suf es -> aliased es -> short suf -> (length suf + 1 < n)%nat -> off s = length (text pre) ->
  exists s', run n (text (pre ++ suf)) cs s = Ok (map (nth_error es) (seq 0 (gets cs)), s').
Proof.
  induction cs as [|c cs IH]; intros pre suf es s L A S0 K O; [exists s; reflexivity|]. destruct c as [|b|]; cbn [run].
  - destruct (get_ok n pre suf es s L A S0 K O) as (s' & s1 & s2 & E & -> & O' & L'). rewrite E. cbn [bind]. rewrite app_assoc.
    destruct (IH (pre ++ s1) s2 (tl es) s' L' (aliased_tl es A) (short_suffix _ _ S0)) as (s'' & R); [rewrite app_length in K; lia|exact O'|]. rewrite R. cbn [bind]. exists s''. do 2 f_equal.
    unfold gets. cbn [filter length seq map]. replace (hd_error es) with (nth_error es 0) by (destruct es; reflexivity). f_equal. rewrite <- seq_shift, map_map. apply map_ext. intro i. apply nth_tl.
  - apply (IH pre suf es (setprotoent b s)); auto. unfold setprotoent. rewrite off_open. exact O.
  - apply (IH pre suf es (endprotoent s)); auto.
Qed.
Lemma stuck n : forall file off line, firstn 256 (skipn off file) <> [] -> ~ In 10 (firstn 256 (skipn off file)) -> read_line n file off line = Fuel.
Proof.
  induction n as [|n IH]; intros file off line E N; [reflexivity|]. cbn [read_line]. destruct (firstn 256 (skipn off file)) as [|c t] eqn:X; [congruence|]. rewrite cut_none by exact N.
  apply IH; rewrite X; auto.
Qed.
