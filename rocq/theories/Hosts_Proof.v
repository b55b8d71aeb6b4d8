(** Lemmas about lookups in the host and service files. *)
From Verif Require Import Base Hosts_Model Hosts_Spec.
Open Scope Z_scope.

Lemma space_white c : is_space c = true <-> white c.
Proof. unfold is_space, white. lia. Qed.
Lemma space_not c : is_space c = false <-> ~ white c.
Proof. rewrite <- space_white. destruct (is_space c); split; congruence. Qed.
Lemma plain_cons c w : plain (c :: w) -> is_space c = false /\ c <> 35 /\ c <> 0 /\ plain w.
Proof. intros H. destruct (H c (or_introl eq_refl)) as (H1 & H2 & H3). apply space_not in H1. repeat split; auto. all: intros; apply H; right; assumption. Qed.
Lemma blanks_cons c w : blanks (c :: w) -> is_space c = true /\ c <> 10 /\ blanks w.
Proof. intros H. destruct (H c (or_introl eq_refl)) as (H1 & H2). apply space_white in H1. repeat split; auto. all: intros; apply H; right; assumption. Qed.

(** ** The line buffer *)
Lemma fgets_ok l : forall k file, ~ In 10 l -> (length l < k)%nat -> fgets k (l ++ [10] ++ file) = (l ++ [10], file).
Proof.
  induction l as [|c l IH]; intros k file N L; (destruct k as [|k]; [cbn in L; lia|]); [reflexivity|].
  cbn [app fgets]. replace (c =? 10) with false by (symmetry; apply Z.eqb_neq; intros ->; apply N; left; reflexivity). cbn [app] in IH. rewrite IH; [reflexivity| |cbn in L; lia]. intros I. apply N. right. exact I.
Qed.
Definition clean (l : list Z) : Prop := forall c, In c l -> c <> 35 /\ c <> 0.
Lemma strip_clean l : forall t, clean l -> strip (l ++ t) = l ++ strip t.
Proof.
  induction l as [|c l IH]; intros t H; [reflexivity|]. destruct (H c (or_introl eq_refl)). cbn [app strip]. replace (c =? 0) with false by lia. replace (c =? 35) with false by lia. rewrite IH by (intros x I; apply H; right; exact I). reflexivity.
Qed.
Lemma cstr_clean l t : clean l -> cstr (l ++ 0 :: t) = l.
Proof.
  induction l as [|c l IH]; intros H; [reflexivity|]. destruct (H c (or_introl eq_refl)). cbn [app]. unfold cstr in *. replace (c =? 0) with false by lia. rewrite IH by (intros x I; apply H; right; exact I). reflexivity.
Qed.
Definition body (e : line) : list Z := head e ++ concat (map (fun sw => fst sw ++ snd sw) (rest e)) ++ trail e.
Lemma text_body e : text e = body e ++ comment e ++ [10].
Proof. unfold text, body. rewrite <- !app_assoc. reflexivity. Qed.
Lemma body_clean e : line_ok e -> clean (body e) /\ ~ In 10 (body e).
Proof.
  intros (H1 & _ & H3 & H4 & _). assert (G : forall c, In c (body e) -> (c <> 35 /\ c <> 0) /\ c <> 10).
  { intros c I. unfold body in I. assert (W : forall d, white d -> d <> 35 /\ d <> 0) by (unfold white; lia). assert (W2 : forall d, ~ white d -> d <> 10) by (unfold white; lia).
    apply in_app_or in I as [I|I]; [|apply in_app_or in I as [I|I]].
    - destruct (H1 c I) as (A & B & C). auto.
    - apply in_concat in I as (x & I1 & I2). apply in_map_iff in I1 as ((s & w) & <- & I1). cbn [fst snd] in I2. destruct (H3 s w I1) as (A & _ & _ & B). apply in_app_or in I2 as [I2|I2].
      + destruct (A c I2). auto. + destruct (B c I2) as (? & ? & ?). auto.
    - destruct (H4 c I). auto. }
  split; [intros c I; exact (proj1 (G c I))|]. intros I. destruct (G 10 I). congruence.
Qed.
Lemma text_split e : line_ok e -> exists l, text e = l ++ [10] /\ ~ In 10 l /\ (length l < 127)%nat.
Proof.
  intros H. destruct (body_clean e H) as [_ N]. destruct H as (_ & _ & _ & _ & C & L). rewrite text_body in *. exists (body e ++ comment e). rewrite <- app_assoc. split; [reflexivity|]. split.
  - intros I. apply in_app_or in I as [I|I]; [exact (N I)|]. destruct C as [E|(c & E & A & _)]; rewrite E in I; [destruct I|]. destruct I as [I|I]; [lia|exact (A I)].
  - rewrite !app_length in *. cbn in L. lia.
Qed.
Lemma fgets_text e file : line_ok e -> fgets 127 (text e ++ file) = (text e, file).
Proof. intros H. destruct (text_split e H) as (l & -> & N & L). rewrite <- app_assoc. apply (fgets_ok l 127 file N L). Qed.
(** after the comment is removed *)
Lemma strip_text e buf : line_ok e -> length buf = 128%nat -> exists tail, strip (over (text e) buf) = body e ++ 10 :: 0 :: tail /\ length (body e ++ 10 :: 0 :: tail) = 128%nat.
Proof.
  intros H LB. destruct (body_clean e H) as [C _]. destruct H as (_ & _ & _ & _ & CM & L). unfold over. rewrite text_body in *. rewrite <- !app_assoc. rewrite strip_clean by exact C. destruct CM as [E|(c & E & _ & N)].
  - rewrite E in *. cbn [app] in *. eexists. split; [reflexivity|]. rewrite !app_length in *. cbn [length] in *. rewrite skipn_length. lia.
  - rewrite E in *. cbn [app strip]. change (35 =? 0) with false. change (35 =? 35) with true. cbv iota.
    match goal with |- context [over [10] (35 :: ?R)] => remember R as R0 eqn:ER end. destruct R0 as [|x r]; [destruct c; discriminate|]. exists r. split; [reflexivity|].
    apply (f_equal (@length Z)) in ER. cbn [length app] in *. rewrite !app_length in *. cbn [length app] in *. rewrite !app_length in *. cbn [length] in *. rewrite skipn_length in ER. rewrite ?app_length in *. cbn [length] in *. rewrite ?app_length in *. cbn [length] in *. lia.
Qed.
Lemma over_text e buf : line_ok e -> length buf = 128%nat -> length (over (text e) buf) = 128%nat.
Proof. intros (_ & _ & _ & _ & _ & L) B. unfold over. rewrite app_length. cbn [length]. rewrite skipn_length. lia. Qed.
Lemma cstr_body e tail : line_ok e -> cstr (body e ++ 10 :: 0 :: tail) = body e ++ [10].
Proof.
  intros H. destruct (body_clean e H) as [C _]. change (body e ++ 10 :: 0 :: tail) with (body e ++ [10] ++ 0 :: tail). rewrite app_assoc. apply cstr_clean. intros c I. apply in_app_or in I as [I|[<-|[]]]; [exact (C c I)|lia].
Qed.

(** ** Searching a name *)
Lemma prefix_app a t : prefix a (a ++ t) = true.
Proof. induction a as [|c a IH]; [reflexivity|]. cbn. rewrite Z.eqb_refl. exact IH. Qed.
Lemma prefix_iff p : forall t, prefix p t = true <-> exists r, t = p ++ r.
Proof.
  induction p as [|a p IH]; intros t; [split; [exists t; reflexivity|reflexivity]|]. destruct t as [|b t]; cbn; [split; [discriminate|intros (r & E); discriminate]|].
  rewrite andb_true_iff, Z.eqb_eq, IH. split; [intros (-> & r & ->); exists r; reflexivity|]. intros (r & E). injection E as -> ->. eauto.
Qed.
Lemma after_app w t : after (length w) (w ++ t) = match t with c :: _ => c | [] => 0 end.
Proof. unfold after. rewrite skipn_app, skipn_all, Nat.sub_diag. destruct t; reflexivity. Qed.
(** two words followed by white space, one a prefix *)
Lemma word_eq name : forall w x r, plain name -> plain w -> is_space x = true -> prefix name (w ++ x :: r) = true -> is_space (after (length name) (w ++ x :: r)) = true -> name = w.
Proof.
  induction name as [|a name IH]; intros w x r P1 P2 X H1 H2.
  - destruct w as [|b w]; [reflexivity|]. apply plain_cons in P2 as (A & _). cbn in H2. congruence.
  - apply plain_cons in P1 as (A & _ & _ & P1). destruct w as [|b w].
    + cbn in H1. apply andb_true_iff in H1 as [H1 _]. apply Z.eqb_eq in H1. subst. congruence.
    + cbn in H1. apply andb_true_iff in H1 as [H1 H3]. apply Z.eqb_eq in H1. subst b. apply plain_cons in P2 as (_ & _ & _ & P2). f_equal. exact (IH w x r P1 P2 X H3 H2).
Qed.
Lemma search_end sp name : is_word name -> search sp name [] = false.
Proof. intros [N _]. destruct name; [congruence|reflexivity]. Qed.
Lemma search_blank name s : forall sp t, is_word name -> blanks s -> search sp name (s ++ t) = search (match s with [] => sp | _ => true end) name t.
Proof.
  induction s as [|c s IH]; intros sp t W B; [reflexivity|]. apply blanks_cons in B as (S0 & _ & B). cbn [app search]. rewrite S0, IH by assumption.
  replace (prefix name (c :: s ++ t)) with false; [destruct s; reflexivity|]. destruct W as [N P]. destruct name as [|a name]; [congruence|]. apply plain_cons in P as (A & _). cbn. symmetry. apply andb_false_iff. left. apply Z.eqb_neq. intros ->. congruence.
Qed.
Lemma search_inside name w : forall t, plain w -> search false name (w ++ t) = search false name t.
Proof. induction w as [|c w IH]; intros t P; [reflexivity|]. apply plain_cons in P as (A & _ & _ & P). cbn [app search]. rewrite A, andb_false_r, IH by exact P. reflexivity. Qed.
Lemma search_word name w x t : is_word name -> is_word w -> is_space x = true -> search true name (w ++ x :: t) = true <-> name = w \/ search true name t = true.
Proof.
  intros W1 [N2 P2] X. assert (E : search true name (w ++ x :: t) = (prefix name (w ++ x :: t) && true && is_space (after (length name) (w ++ x :: t))) || search false name (x :: t)).
  { destruct w as [|c w]; [congruence|]. apply plain_cons in P2 as (A & _ & _ & P2). cbn [app]. cbn [search]. rewrite A. f_equal. rewrite (search_inside name w (x :: t) P2). reflexivity. }
  rewrite E. cbn [search]. rewrite X. rewrite andb_false_r. cbn [andb orb]. rewrite andb_true_r. split.
  - intros H. apply orb_true_iff in H as [H|H]; [|right; exact H]. apply andb_true_iff in H as [H1 H2]. left. exact (word_eq name w x t (proj2 W1) P2 X H1 H2).
  - intros [->|H]; [|rewrite H; apply orb_true_r]. rewrite prefix_app, after_app, X. reflexivity.
Qed.
(** the blank before a word, or the end of the line *)
Definition spaced (t : list Z) : Prop := exists x r, t = x :: r /\ is_space x = true.
Definition rest_text (r : list (list Z * list Z)) : list Z := concat (map (fun sw => fst sw ++ snd sw) r).
Definition rest_ok (r : list (list Z * list Z)) : Prop := forall s w, In (s, w) r -> blanks s /\ s <> [] /\ is_word w.
Lemma rest_cons s w r : rest_ok ((s, w) :: r) -> blanks s /\ s <> [] /\ is_word w /\ rest_ok r.
Proof. intros H. destruct (H s w (or_introl eq_refl)) as (A & B & C). split; [exact A|]. split; [exact B|]. split; [exact C|]. intros s' w' I. apply (H s' w'). right. exact I. Qed.
Lemma rest_spaced r t : rest_ok r -> spaced t -> spaced (rest_text r ++ t).
Proof.
  intros R T. destruct r as [|(s & w) r]; [exact T|]. apply rest_cons in R as (A & B & _). destruct s as [|c s]; [congruence|]. apply blanks_cons in A as (A & _). exists c. eexists. split; [reflexivity|exact A].
Qed.
Lemma trail_spaced s t : blanks s -> spaced t -> spaced (s ++ t).
Proof. intros B T. destruct s as [|c s]; [exact T|]. apply blanks_cons in B as (A & _). exists c. eexists. split; [reflexivity|exact A]. Qed.
Lemma nl_spaced t : spaced (10 :: t).
Proof. exists 10, t. split; reflexivity. Qed.
Lemma search_rest name r : forall sp t, is_word name -> rest_ok r -> spaced t -> (search true name t = false) -> (search sp name t = false) ->
  search sp name (rest_text r ++ t) = true <-> In name (map snd r).
Proof.
  induction r as [|(s & w) r IH]; intros sp t W R T E1 E2; [cbn; rewrite E2; split; [discriminate|tauto]|]. apply rest_cons in R as (A & B & C & R).
  unfold rest_text. cbn [map concat fst snd]. fold (rest_text r). rewrite <- !app_assoc. rewrite search_blank by assumption. replace (match s with [] => sp | _ => true end) with true by (destruct s; [congruence|reflexivity]).
  destruct (rest_spaced r t R T) as (x & u & E & X). rewrite E. rewrite search_word by assumption.
  assert (E3 : search true name (rest_text r ++ t) = search true name u).
  { rewrite E. cbn [search]. rewrite X. replace (prefix name (x :: u)) with false; [reflexivity|]. destruct W as [N P]. destruct name as [|a name]; [congruence|]. apply plain_cons in P as (AA & _). cbn. symmetry. apply andb_false_iff. left. apply Z.eqb_neq. intros ->. congruence. }
  rewrite <- E3, (IH true t W R T E1 E1). cbn [In]. split; intros [H|H]; auto.
Qed.
Lemma search_tail sp name s : is_word name -> blanks s -> search sp name (s ++ [10]) = false.
Proof.
  intros W B. rewrite search_blank by assumption. destruct W as [N P]. destruct name as [|a name]; [congruence|]. apply plain_cons in P as (A & _). cbn [search prefix]. replace (a =? 10) with false by (symmetry; apply Z.eqb_neq; intros ->; discriminate A). destruct name; reflexivity.
Qed.
Lemma listed_ok name e : is_word name -> line_ok e -> listed name (body e ++ [10]) = true <-> In name (words e).
Proof.
  intros W H. destruct H as (P & NE & R & B & _). unfold body. rewrite <- !app_assoc. fold (rest_text (rest e)).
  pose proof (search_tail true name (trail e) W B) as E1. pose proof (trail_spaced _ _ B (nl_spaced [])) as T. unfold words. destruct (head e) as [|c h] eqn:EH.
  - destruct (rest e) as [|x r] eqn:ER; [|exfalso; apply NE; [discriminate|reflexivity]]. cbn [app rest_text map concat]. split; [|intros []]. intros L. exfalso. destruct (trail e ++ [10]) as [|d u] eqn:EU; [destruct (trail e); discriminate|]. cbn [listed] in L.
    destruct T as (x & r & Ex & X). injection Ex as -> ->. rewrite X in L. cbn [search] in E1. apply orb_false_iff in E1 as [_ E1]. rewrite X in E1. congruence.
  - apply plain_cons in P as (A & _ & _ & P). cbn [app listed]. rewrite A. rewrite search_inside by exact P. apply search_rest; auto. apply search_tail; assumption.
Qed.

(** ** Reading the words *)
Lemma word0_ok w : forall t, plain w -> spaced t -> word0 (w ++ t) = Ok (w, t).
Proof.
  induction w as [|c w IH]; intros t P T; [destruct T as (x & r & -> & X); cbn; rewrite X; reflexivity|]. apply plain_cons in P as (A & _ & _ & P). cbn [app word0]. rewrite A, IH by assumption. reflexivity.
Qed.
Lemma word_ok w : forall t, plain w -> spaced t -> word (w ++ t) = Ok (w, t).
Proof.
  induction w as [|c w IH]; intros t P T; [destruct T as (x & r & -> & X); cbn; rewrite X, orb_true_r; reflexivity|]. apply plain_cons in P as (A & _ & N & P). cbn [app word]. rewrite A. replace (c =? 0) with false by lia. cbn [orb]. rewrite IH by assumption. reflexivity.
Qed.
Lemma skip_ok s : forall c t, blanks s -> is_space c = false -> skip_sp (s ++ c :: t) = Ok (c :: t).
Proof.
  induction s as [|d s IH]; intros c t B C; [cbn; rewrite C, orb_true_r; reflexivity|]. apply blanks_cons in B as (A & _ & B). cbn [app skip_sp]. rewrite A. replace (d =? 0) with false by (unfold is_space in A; lia). cbn [negb orb]. apply IH; assumption.
Qed.
Lemma skip_word s w t : blanks s -> is_word w -> skip_sp (s ++ w ++ t) = Ok (w ++ t).
Proof. intros B [N P]. destruct w as [|c w]; [congruence|]. apply plain_cons in P as (A & _). apply skip_ok; assumption. Qed.
Lemma skip0_word s w t : blanks s -> is_word w -> skip_sp0 (s ++ w ++ t) = Ok (w ++ t).
Proof.
  intros B [N P]. destruct w as [|c w]; [congruence|]. apply plain_cons in P as (A & _). cbn [app]. induction s as [|d s IH]; [cbn; rewrite A; reflexivity|]. apply blanks_cons in B as (X & _ & B). cbn [app skip_sp0]. rewrite X. apply IH. exact B.
Qed.
Lemma alias_ok r : forall fuel t acc, rest_ok r -> (length r < fuel)%nat -> alias_loop fuel (rest_text r ++ 10 :: 0 :: t) acc = Ok (acc ++ map snd r).
Proof.
  induction r as [|(s & w) r IH]; intros fuel t acc R L; (destruct fuel as [|k]; [cbn in L; lia|]).
  - cbn. rewrite app_nil_r. reflexivity.
  - pose proof (rest_cons _ _ _ R) as (A & B & C & R'). unfold rest_text. cbn [map concat fst snd]. fold (rest_text r). rewrite <- !app_assoc. destruct s as [|c s]; [congruence|].
    assert (exists y u, s ++ w ++ rest_text r ++ 10 :: 0 :: t = y :: u /\ y <> 0) as (y & u & EY & NY).
    { destruct s as [|y s]; [|exists y; eexists; split; [reflexivity|]; destruct (A y (or_intror (or_introl eq_refl))) as [AW _]; unfold white in AW; lia]. destruct C as [N P]. destruct w as [|y w]; [congruence|]. apply plain_cons in P as (_ & _ & P & _). exists y. eexists. split; [reflexivity|exact P]. }
    cbn [app alias_loop]. rewrite EY. replace (y =? 0) with false by lia. rewrite <- EY. change (c :: s ++ w ++ rest_text r ++ 10 :: 0 :: t) with ((c :: s) ++ w ++ rest_text r ++ 10 :: 0 :: t).
    rewrite skip_word by assumption. cbn [bind]. rewrite word_ok; [|exact (proj2 C)|apply rest_spaced; [exact R'|apply nl_spaced]]. cbn [bind]. rewrite IH; [|exact R'|cbn in L; lia]. cbn [map snd]. rewrite <- app_assoc. reflexivity.
Qed.

(** ** Host names *)
Section Pton.
Variables pton4 pton6 : list Z -> option (list Z).
Definition accept (name : list Z) (f : family) (e : line) (s : hosts) : hosts :=
  if existsb (fun w => if list_eq_dec Z.eq_dec name w then true else false) (words e) then
    match parse pton4 pton6 f (head e) with
    | Some (six, b) => {| addrs := addrs s ++ [(hd [] (words e), six, b)]; aliases := aliases s ++ tl (words e); canon := hd [] (words e) |}
    | None => s
    end
  else s.
Lemma exists_in (name : list Z) l : existsb (fun w => if list_eq_dec Z.eq_dec name w then true else false) l = true <-> In name l.
Proof.
  rewrite existsb_exists. split; [intros (x & I & E); destruct (list_eq_dec Z.eq_dec name x); [subst; exact I|discriminate]|]. intros I. exists name. split; [exact I|]. destruct (list_eq_dec Z.eq_dec name name); congruence.
Qed.
Lemma host_line_ok fuel name f e buf s : is_word name -> line_ok e -> (In name (words e) -> trail e = []) -> length buf = 128%nat -> (length (rest e) <= fuel)%nat ->
  exists buf', host_line pton4 pton6 fuel name f (over (text e) buf) s = Ok (buf', accept name f e s) /\ length buf' = 128%nat.
Proof.
  intros W H TR LB FU. destruct (strip_text e buf H LB) as (tail & E & LT). unfold host_line. rewrite E. rewrite cstr_body by exact H. unfold accept.
  destruct (listed name (body e ++ [10])) eqn:L.
  - apply (listed_ok name e W H) in L. pose proof (proj2 (exists_in name (words e)) L) as L2. rewrite L2. specialize (TR L). destruct H as (P & NE & R & B & _). unfold body in *. rewrite TR in *. rewrite app_nil_r in *. fold (rest_text (rest e)) in *.
    rewrite <- !app_assoc in *. rewrite word0_ok; [|exact P|apply rest_spaced; [exact R|apply nl_spaced]]. cbn [bind].
    assert (LEN : length (head e ++ 0 :: List.tl (rest_text (rest e) ++ 10 :: 0 :: tail)) = 128%nat).
    { rewrite <- LT. destruct (rest_text (rest e) ++ 10 :: 0 :: tail) as [|x u] eqn:EX; [destruct (rest_text (rest e)); discriminate|]. rewrite !app_length. reflexivity. }
    unfold words in *. destruct (parse pton4 pton6 f (head e)) as [(six & b)|]; [|eexists; split; [reflexivity|exact LEN]].
    destruct (rest e) as [|(sp & w) r] eqn:ER; [destruct L|]. pose proof (rest_cons _ _ _ R) as (A1 & A2 & A3 & R'). destruct sp as [|c sp]; [congruence|].
    assert (EB : rest_text ((c :: sp, w) :: r) ++ 10 :: 0 :: tail = c :: sp ++ w ++ rest_text r ++ 10 :: 0 :: tail) by (unfold rest_text; cbn [map concat fst snd app]; rewrite <- !app_assoc; reflexivity).
    rewrite EB in LEN |- *. cbn [List.tl] in LEN |- *. rewrite skip_word; [|apply (blanks_cons _ _ A1)|exact A3]. cbn [bind]. rewrite word_ok; [|exact (proj2 A3)|apply rest_spaced; [exact R'|apply nl_spaced]]. cbn [bind].
    rewrite alias_ok; [|exact R'|cbn in FU; lia]. cbn [bind map snd hd List.tl]. eexists. split; [reflexivity|exact LEN].
  - assert (L2 : existsb (fun w => if list_eq_dec Z.eq_dec name w then true else false) (words e) = false).
    { destruct (existsb _ _) eqn:X; [|reflexivity]. apply exists_in in X. apply (listed_ok name e W H) in X. congruence. }
    rewrite L2. eexists. split; [reflexivity|exact LT].
Qed.
Lemma rest_len e : line_ok e -> (length (rest e) <= 127)%nat.
Proof.
  intros (_ & _ & R & _ & _ & L). unfold text in L. rewrite !app_length in L. fold (rest_text (rest e)) in L. assert (G : forall r, rest_ok r -> (length r <= length (rest_text r))%nat).
  { induction r as [|(s & w) r IH]; intros RR; [cbn; lia|]. apply rest_cons in RR as (_ & A & _ & RR). specialize (IH RR). unfold rest_text. cbn [map concat fst snd]. fold (rest_text r). rewrite !app_length. destruct s; [congruence|]. cbn. lia. }
  specialize (G _ R). lia.
Qed.
Lemma lookup_name_ok name f es : forall n fuel buf s, is_word name -> Forall line_ok es -> Forall (fun e => In name (words e) -> trail e = []) es -> length buf = 128%nat -> (length es < n)%nat -> (127 <= fuel)%nat ->
  lookup_name pton4 pton6 n fuel name f buf (file es) s = Ok (fold_left (fun s e => accept name f e s) es s).
Proof.
  induction es as [|e es IH]; intros n fuel buf s W OK TR LB N F; (destruct n as [|n]; [cbn in N; lia|]); [reflexivity|].
  inversion OK; subst. inversion TR; subst. unfold file. cbn [map concat]. fold (file es). cbn [lookup_name]. destruct (text e ++ file es) as [|c u] eqn:E.
  - exfalso. destruct (text_split e H1) as (l & EL & _). rewrite EL in E. destruct l; discriminate.
  - rewrite <- E, fgets_text by exact H1. destruct (host_line_ok fuel name f e buf s W H1 H3 LB) as (buf' & HL & LB'); [pose proof (rest_len e H1); lia|]. rewrite HL. cbn [bind]. apply IH; auto. cbn in N. lia.
Qed.
Lemma found_fold name f es : hosts_found (parse pton4 pton6 f) name es (addrs (fold_left (fun s e => accept name f e s) es {| addrs := []; aliases := []; canon := [] |}))
  (aliases (fold_left (fun s e => accept name f e s) es {| addrs := []; aliases := []; canon := [] |})) (canon (fold_left (fun s e => accept name f e s) es {| addrs := []; aliases := []; canon := [] |})).
Proof.
  induction es as [|e es IH] using rev_ind; [constructor|]. rewrite fold_left_app. cbn [fold_left]. set (s := fold_left _ es _) in *. unfold accept. destruct (existsb _ (words e)) eqn:X.
  - apply exists_in in X. destruct (parse pton4 pton6 f (head e)) as [(six & b)|] eqn:P.
    + destruct (words e) as [|w ws] eqn:E; [destruct X|]. cbn [addrs aliases canon hd tl]. eapply hf_found; [exact IH|exact E|rewrite E; exact X|exact P].
    + apply hf_other; [exact IH|]. intros [_ N]. congruence.
  - apply hf_other; [exact IH|]. intros [I _]. apply exists_in in I. congruence.
Qed.
End Pton.

(** ** Addresses *)
Lemma addr_line_ok n addr size e es buf : is_word addr -> line_ok e -> length buf = 128%nat -> head e = addr -> rest e <> [] -> lookup_addr (S n) addr size buf (text e ++ file es) =
  Ok (Some (if Z.of_nat (length (hd [] (words e))) + 1 <=? size then Some (hd [] (words e) ++ [0]) else None)).
Proof.
  intros W H LB HD NE. destruct (strip_text e buf H LB) as (tail & E & LT). cbn [lookup_addr]. destruct (text e ++ file es) as [|c u] eqn:EE.
  { exfalso. destruct (text_split e H) as (l & EL & _). rewrite EL in EE. destruct l; discriminate. }
  rewrite <- EE, fgets_text by exact H. rewrite E, cstr_body by exact H. destruct H as (P & _ & R & B & _). unfold body. rewrite HD, <- !app_assoc, prefix_app. fold (rest_text (rest e)).
  unfold words. destruct (rest e) as [|(sp & w) r] eqn:ER; [congruence|]. pose proof (rest_cons _ _ _ R) as (A1 & A2 & A3 & R'). destruct sp as [|x sp]; [congruence|].
  assert (EB : skipn (length addr + 1) (addr ++ rest_text ((x :: sp, w) :: r) ++ trail e ++ 10 :: 0 :: tail) = sp ++ w ++ rest_text r ++ trail e ++ 10 :: 0 :: tail).
  { rewrite Nat.add_comm, skipn_app. rewrite (skipn_all2 addr) by lia. replace (1 + length addr - length addr)%nat with 1%nat by lia. unfold rest_text. cbn [map concat fst snd app skipn]. rewrite <- !app_assoc. reflexivity. }
  rewrite EB. rewrite skip0_word; [|apply (blanks_cons _ _ A1)|exact A3]. cbn [bind]. rewrite word0_ok; [|exact (proj2 A3)|apply rest_spaced; [exact R'|apply trail_spaced; [exact B|apply nl_spaced]]]. cbn [bind map snd hd].
  destruct (size <=? Z.of_nat (length w)) eqn:S0; [replace (Z.of_nat (length w) + 1 <=? size) with false by lia|replace (Z.of_nat (length w) + 1 <=? size) with true by lia]; reflexivity.
Qed.
Lemma addr_skip n addr size e rest buf : line_ok e -> length buf = 128%nat -> prefix addr (body e ++ [10]) = false ->
  exists buf', lookup_addr (S n) addr size buf (text e ++ rest) = lookup_addr n addr size buf' rest /\ length buf' = 128%nat.
Proof.
  intros H LB PF. destruct (strip_text e buf H LB) as (tail & E & LT). cbn [lookup_addr]. destruct (text e ++ rest) as [|c u] eqn:EE.
  { exfalso. destruct (text_split e H) as (l & EL & _). rewrite EL in EE. destruct l; discriminate. }
  rewrite <- EE, fgets_text by exact H. rewrite E, cstr_body, PF by exact H. exists (body e ++ 10 :: 0 :: tail). split; [reflexivity|exact LT].
Qed.
Lemma addr_other addr e : is_word addr -> line_ok e -> prefix addr (head e) = false -> prefix addr (body e ++ [10]) = false.
Proof.
  intros [N P] H PF. destruct (prefix addr (body e ++ [10])) eqn:X; [|reflexivity]. apply prefix_iff in X as (r & X). destruct H as (PH & _ & R & B & _). unfold body in X. rewrite <- !app_assoc in X. fold (rest_text (rest e)) in X.
  pose proof (rest_spaced _ _ R (trail_spaced _ _ B (nl_spaced []))) as SP. remember (rest_text (rest e) ++ trail e ++ [10]) as t. clear Heqt. exfalso. revert N PF X. generalize (head e). clear R B PH. intros h _ PF X.
  revert h PF X. induction addr as [|a addr IH]; intros h PF X; [discriminate PF|]. apply plain_cons in P as (A & _ & _ & P). destruct h as [|b h].
  - destruct SP as (x & u & -> & SX). cbn in X. injection X as -> _. congruence.
  - cbn in X. injection X as -> X. cbn in PF. rewrite Z.eqb_refl in PF. exact (IH P h PF X).
Qed.
Lemma lookup_addr_ok addr size es1 : forall e es2 n buf, is_word addr -> Forall line_ok es1 -> line_ok e -> length buf = 128%nat -> (length es1 < n)%nat ->
  Forall (fun x => prefix addr (head x) = false) es1 -> head e = addr -> rest e <> [] ->
  lookup_addr n addr size buf (file (es1 ++ e :: es2)) = Ok (Some (if Z.of_nat (length (hd [] (words e))) + 1 <=? size then Some (hd [] (words e) ++ [0]) else None)).
Proof.
  induction es1 as [|x es1 IH]; intros e es2 n buf W OK1 OK2 LB N PF HD NE; (destruct n as [|n]; [cbn in N; lia|]); unfold file; cbn [app map concat].
  - fold (file es2). apply addr_line_ok; assumption.
  - inversion OK1; subst. inversion PF; subst. destruct (addr_skip n (head e) size x (concat (map text (es1 ++ e :: es2))) buf H1 LB (addr_other _ _ W H1 H3)) as (buf' & E & LB'). rewrite E. apply IH; auto. cbn in N. lia.
Qed.
Lemma lookup_addr_none addr size es : forall n buf, is_word addr -> Forall line_ok es -> length buf = 128%nat -> (length es < n)%nat -> Forall (fun x => prefix addr (head x) = false) es ->
  lookup_addr n addr size buf (file es) = Ok None.
Proof.
  induction es as [|x es IH]; intros n buf W OK1 LB N PF; (destruct n as [|n]; [cbn in N; lia|]); [reflexivity|]. inversion OK1; subst. inversion PF; subst. unfold file. cbn [map concat].
  destruct (addr_skip n addr size x (concat (map text es)) buf H1 LB (addr_other _ _ W H1 H3)) as (buf' & E & LB'). rewrite E. apply IH; auto. cbn in N. lia.
Qed.

(** ** Services *)
Lemma search_space sp name x u : is_word name -> is_space x = true -> search sp name (x :: u) = search true name u.
Proof.
  intros [N P] X. cbn [search]. rewrite X. replace (prefix name (x :: u)) with false; [reflexivity|]. destruct name as [|a name]; [congruence|]. apply plain_cons in P as (A & _). cbn. symmetry. apply andb_false_iff. left. apply Z.eqb_neq. intros ->. congruence.
Qed.
Lemma serv_search name u : forall sp, is_word name -> clean u -> search_serv sp name (u ++ [10]) = search sp name (u ++ [10]).
Proof.
  assert (G : forall v, is_word name -> clean v -> prefix name (v ++ [10]) = true -> (after (length name) (v ++ [10]) =? 0) = false).
  { intros v [N P] C PF. apply prefix_iff in PF as (r & E). unfold after. rewrite E, skipn_app, skipn_all, Nat.sub_diag. cbn [app skipn]. destruct r as [|c r].
    - exfalso. rewrite app_nil_r in E. assert (I : In 10 name) by (rewrite <- E; apply in_or_app; right; left; reflexivity). destruct (P 10 I) as [W _]. apply W. unfold white. lia.
    - assert (I : In c (v ++ [10])) by (rewrite E; apply in_or_app; right; left; reflexivity). apply in_app_or in I as [I|[I|[]]]; [destruct (C c I)|]; lia. }
  induction u as [|c u IH]; intros sp W C.
  - pose proof (G [] W C) as G0. cbn [app search_serv search] in *. destruct (prefix name [10]); [rewrite (G0 eq_refl)|]; cbn [orb]; (destruct name; [destruct W; congruence|reflexivity]).
  - pose proof (G (c :: u) W C) as G0. cbn [app search_serv search] in *. rewrite IH; [|exact W|intros x I; apply C; right; exact I]. destruct (prefix name (c :: u ++ [10])); [rewrite (G0 eq_refl)|]; reflexivity.
Qed.
Lemma serv_listed name e : is_word name -> line_ok e -> head e <> [] -> search_serv true name (body e ++ [10]) = true <-> In name (head e :: words e).
Proof.
  intros W H NE. rewrite serv_search; [|exact W|exact (proj1 (body_clean e H))]. destruct H as (P & _ & R & B & _). unfold body. rewrite <- !app_assoc. fold (rest_text (rest e)).
  destruct (rest_spaced _ _ R (trail_spaced _ _ B (nl_spaced []))) as (x & u & E & X). rewrite E. rewrite search_word; [|exact W|split; assumption|exact X].
  rewrite <- (search_space true name x u W X), <- E. rewrite search_rest; [|exact W|exact R|apply trail_spaced; [exact B|apply nl_spaced]|apply search_tail; assumption|apply search_tail; assumption].
  unfold words. cbn [In]. split; intros [Q|Q]; auto.
Qed.
Lemma first_word_ok w t : plain w -> spaced t -> first_word (w ++ t) = t.
Proof. intros P T. induction w as [|c w IH]; [destruct T as (x & r & -> & X); cbn; rewrite X; reflexivity|]. apply plain_cons in P as (A & _ & _ & P). cbn [app first_word]. rewrite A. exact (IH P). Qed.
Lemma skip_spaces_ok s c t : blanks s -> is_space c = false -> skip_spaces (s ++ c :: t) = c :: t.
Proof. intros B C. induction s as [|d s IH]; [cbn; rewrite C; reflexivity|]. apply blanks_cons in B as (A & _ & B). cbn [app skip_spaces]. rewrite A. exact (IH B). Qed.
Lemma digits_step a d t : 0 <= d <= 9 -> digits a (48 + d :: t) = digits (10 * a + d) t.
Proof. intros D. cbn [digits]. unfold is_digit. replace ((48 <=? 48 + d) && (48 + d <=? 57)) with true by lia. f_equal. lia. Qed.
Lemma decimal_digits ds v : decimal ds v -> (exists c r, ds = c :: r /\ is_digit c = true) /\ forall t, digits 0 (ds ++ t) = digits v t.
Proof.
  induction 1 as [d D|l v d H [(c & r & E & C) IH] D].
  - split; [exists (48 + d), []; split; [reflexivity|unfold is_digit; lia]|]. intros t. cbn [app]. rewrite digits_step by exact D. replace (10 * 0 + d) with d by lia. reflexivity.
  - split; [exists c, (r ++ [48 + d]); rewrite E; split; [reflexivity|exact C]|]. intros t. rewrite <- app_assoc, IH. cbn [app]. apply digits_step. exact D.
Qed.
Lemma strtoul_ok s ds v c t : blanks s -> decimal ds v -> 0 <= v <= 65535 -> is_digit c = false -> strtoul (s ++ ds ++ c :: t) = Some (v, c :: t).
Proof.
  intros B H V C. destruct (decimal_digits ds v H) as [(d & r & E & D) G]. unfold strtoul. assert (D1 : is_space d = false /\ (d =? 45) = false /\ (d =? 43) = false) by (unfold is_digit in D; unfold is_space; lia). destruct D1 as (D1 & D2 & D3).
  rewrite E. cbn [app]. rewrite skip_spaces_ok by assumption. rewrite D2, D3, D. change (d :: r ++ c :: t) with ((d :: r) ++ c :: t). rewrite <- E, G. cbn [digits]. rewrite C. replace (18446744073709551615 <? v) with false by lia.
  unfold to_int. rewrite Z.mod_small by lia. replace (2147483648 <=? v) with false by lia. reflexivity.
Qed.
Definition to_proto (t : transport) : proto := match t with TCP => Tcp | UDP => Udp end.
Definition wants (p : proto) (t : transport) : bool := match p, t with Tcp, UDP => false | Udp, TCP => false | _, _ => true end.
Lemma rest_proto_ok p t x : rest_proto (47 :: transport_name t ++ x) p = if wants p t then Some (to_proto t) else None.
Proof. destruct p, t; reflexivity. Qed.
(** the parts of a line of the service file *)
Lemma service_parts e n port t als : line_ok e -> service e n port t als -> exists s ds r, rest e = (s, ds ++ [47] ++ transport_name t) :: r /\ head e = n /\ n <> [] /\ blanks s /\ s <> [] /\ decimal ds port /\ 0 <= port <= 65535 /\
  map snd r = als /\ rest_ok r.
Proof.
  intros (_ & _ & R & _) (ds & HD & NE & WS & D & PB & _). unfold words in WS. destruct (rest e) as [|(s & w) r] eqn:E; [discriminate|]. cbn [map snd] in WS. pose proof (f_equal (@List.hd _ []) WS) as W1. pose proof (f_equal (@List.tl _) WS) as W2. cbn [List.hd List.tl] in W1, W2. subst w als.
  pose proof (rest_cons _ _ _ R) as (A & B & _ & R'). exists s, ds, r. auto 12.
Qed.
Lemma serv_line_ok name p e n port t als : is_word name -> ~ In 47 name -> line_ok e -> service e n port t als ->
  serv_line name p (body e ++ [10]) = if existsb (fun w => if list_eq_dec Z.eq_dec name w then true else false) (n :: als) && wants p t then Some (port, to_proto t) else None.
Proof.
  intros W SL H SV. destruct (service_parts _ _ _ _ _ H SV) as (s & ds & r & ER & HD & NE & B1 & B2 & D & PB & MR & RO). unfold serv_line.
  assert (IFF : search_serv true name (body e ++ [10]) = existsb (fun w => if list_eq_dec Z.eq_dec name w then true else false) (n :: als)).
  { apply eq_true_iff_eq. rewrite exists_in, (serv_listed name e W H) by congruence. unfold words. rewrite ER, HD. cbn [map snd In]. rewrite MR. split; [intros [Q|[Q|Q]]; auto|intros [Q|Q]; auto]. exfalso. apply SL. rewrite <- Q. apply in_or_app. right. left. reflexivity. }
  rewrite IFF. destruct (existsb _ _); cbn [andb]; [|reflexivity]. destruct H as (P & _ & R & B & _). unfold body. rewrite <- !app_assoc. fold (rest_text (rest e)).
  rewrite first_word_ok; [|exact P|apply rest_spaced; [exact R|apply trail_spaced; [exact B|apply nl_spaced]]]. rewrite ER. unfold rest_text. cbn [map concat fst snd]. fold (rest_text r). rewrite <- !app_assoc. cbn [app].
  rewrite (strtoul_ok s ds port 47 _ B1 D PB eq_refl). replace (65535 <? port) with false by lia. cbn [app]. rewrite rest_proto_ok. destruct (wants p t); reflexivity.
Qed.
Lemma serv_blank name p e : is_word name -> line_ok e -> head e = [] -> serv_line name p (body e ++ [10]) = None.
Proof.
  intros W H E. unfold serv_line. assert (RE : rest e = []) by (destruct H as (_ & H & _); destruct (rest e); [reflexivity|exfalso; apply H; [discriminate|exact E]]).
  replace (search_serv true name (body e ++ [10])) with false; [reflexivity|]. symmetry. rewrite serv_search; [|exact W|exact (proj1 (body_clean e H))]. unfold body. rewrite E, RE. cbn [app map concat]. apply search_tail; [exact W|exact (proj1 (proj2 (proj2 (proj2 H))))].
Qed.
Lemma serv_step n name p e rest buf : line_ok e -> length buf = 128%nat -> exists buf', length buf' = 128%nat /\
  serv_by_name (S n) name p buf (text e ++ rest) = (out <- serv_by_name n name p buf' rest ;; Ok (match serv_line name p (body e ++ [10]) with Some x => x :: out | None => out end)).
Proof.
  intros H LB. destruct (strip_text e buf H LB) as (tail & E & LT). cbn [serv_by_name]. destruct (text e ++ rest) as [|c u] eqn:EE.
  { exfalso. destruct (text_split e H) as (l & EL & _). rewrite EL in EE. destruct l; discriminate. }
  rewrite <- EE, fgets_text by exact H. rewrite E, cstr_body by exact H. exists (body e ++ 10 :: 0 :: tail). split; [exact LT|reflexivity].
Qed.
Lemma services_ok name p es out : services_found (fun t => wants p t = true) name es out -> forall n buf, is_word name -> ~ In 47 name -> Forall line_ok es -> length buf = 128%nat -> (length es < n)%nat ->
  serv_by_name n name p buf (file es) = Ok (map (fun x => (fst x, to_proto (snd x))) out).
Proof.
  induction 1 as [|e es nm port t als out SV I WT _ IH|e es nm port t als out SV NI _ IH|e es out HE _ IH]; intros n buf W SL OK LB N; (destruct n as [|n]; [cbn in N; lia|]); [reflexivity| | |]; inversion OK as [|? ? H1 H2]; subst;
    unfold file; cbn [map concat]; fold (file es); destruct (serv_step n name p e (file es) buf H1 LB) as (buf' & LB' & E); rewrite E; rewrite IH by (auto; cbn in N; lia); cbn [bind].
  - rewrite (serv_line_ok name p e nm port t als W SL H1 SV). apply exists_in in I. rewrite I, WT. reflexivity.
  - rewrite (serv_line_ok name p e nm port t als W SL H1 SV). destruct (existsb _ _) eqn:X; [|reflexivity]. apply exists_in in X. destruct (wants p t) eqn:WT; [exfalso; tauto|reflexivity].
  - rewrite (serv_blank name p e W H1 HE). reflexivity.
Qed.

(** by port *)
Definition suf (t u : list Z) : Prop := exists p, u = p ++ t.
Lemma suf_refl t : suf t t. Proof. exists []. reflexivity. Qed.
Lemma suf_cons c t u : suf t u -> suf t (c :: u). Proof. intros (p & ->). exists (c :: p). reflexivity. Qed.
Lemma suf_trans a b c : suf a b -> suf b c -> suf a c. Proof. intros (p & ->) (q & ->). exists (q ++ p). rewrite app_assoc. reflexivity. Qed.
Lemma suf_len a b : suf a b -> (length a <= length b)%nat. Proof. intros (p & ->). rewrite app_length. lia. Qed.
Lemma suf_in a b c : suf a b -> In c a -> In c b. Proof. intros (p & ->) I. apply in_or_app. right. exact I. Qed.
Lemma skip_alpha_nl u : exists u2, skip_alpha (u ++ [10]) = u2 ++ [10] /\ suf u2 u.
Proof. induction u as [|c u (u2 & E & S0)]; [exists []; split; [reflexivity|apply suf_refl]|]. cbn [app skip_alpha]. destruct (is_alpha c); [exists u2; split; [exact E|apply suf_cons, S0]|exists (c :: u); split; [reflexivity|apply suf_refl]]. Qed.
Lemma skip_spaces_nl u : skip_spaces (u ++ [10]) = [] \/ exists u2, skip_spaces (u ++ [10]) = u2 ++ [10] /\ suf u2 u.
Proof. induction u as [|c u IH]; [left; reflexivity|]. cbn [app skip_spaces]. destruct (is_space c); [|right; exists (c :: u); split; [reflexivity|apply suf_refl]]. destruct IH as [E|(u2 & E & S0)]; [left; exact E|right; exists u2; split; [exact E|apply suf_cons, S0]]. Qed.
Lemma digits_nl u : forall v, exists u2 w, digits v (u ++ [10]) = (w, u2 ++ [10]) /\ suf u2 u.
Proof. induction u as [|c u IH]; intros v; [exists [], v; split; [reflexivity|apply suf_refl]|]. cbn [app digits]. destruct (is_digit c); [destruct (IH (10 * v + (c - 48))) as (u2 & w & E & S0); exists u2, w; split; [exact E|apply suf_cons, S0]|exists (c :: u), v; split; [reflexivity|apply suf_refl]]. Qed.
Lemma strtoul_nl u v e : strtoul (u ++ [10]) = Some (v, e) -> exists u2, e = u2 ++ [10] /\ suf u2 u.
Proof.
  unfold strtoul. destruct (skip_spaces_nl u) as [E|(u2 & E & S0)]; rewrite E; [discriminate|]. intros H.
  assert (G : exists neg u3, suf u3 u2 /\ (match u3 ++ [10] with c :: _ => if is_digit c then let '(v, e) := digits 0 (u3 ++ [10]) in Some (to_int (if 18446744073709551615 <? v then 18446744073709551615 else if neg : bool then - v else v), e) else None | [] => None end) = Some (v, e)).
  { destruct u2 as [|c u2]; [exists false, []; split; [apply suf_refl|exact H]|]. cbn [app] in H. destruct (c =? 45) eqn:C1; [exists true, u2; split; [apply suf_cons, suf_refl|exact H]|]. destruct (c =? 43) eqn:C2; [exists false, u2; split; [apply suf_cons, suf_refl|exact H]|]. exists false, (c :: u2). split; [apply suf_refl|exact H]. }
  destruct G as (neg & u3 & S1 & G). destruct (digits_nl u3 0) as (u4 & w & E4 & S4). rewrite E4 in G. destruct (u3 ++ [10]) as [|c q]; [discriminate|]. destruct (is_digit c); [|discriminate]. pose proof (f_equal (fun o => match o with Some x => snd x | None => [] end) G) as G2. cbn [snd] in G2. exists u4. split; [congruence|]. eapply suf_trans; [exact S4|]. eapply suf_trans; eassumption.
Qed.
Lemma scan_end fuel port line : port_scan (S fuel) port line [] = Ok None. Proof. reflexivity. Qed.
Lemma scan_noslash port line : forall fuel u, ~ In 47 u -> (length u < fuel)%nat -> (exists r, port_scan (S fuel) port line (u ++ [10]) = Ok r /\ forall n e, r = Some (n, e) -> ~ In 47 e).
Proof.
  induction fuel as [|fuel IH]; intros u NS L; [lia|]. remember (S fuel) as f1. cbn [port_scan]. destruct (u ++ [10]) as [|c0 q0] eqn:EU; [destruct u; discriminate|]. rewrite <- EU. clear EU c0 q0.
  destruct (skip_alpha_nl u) as (u2 & E & S0). rewrite E.
  assert (X : exists v u3, (match strtoul (u2 ++ [10]) with Some (v, e) => (v, e) | None => (0, u2 ++ [10]) end) = (v, u3 ++ [10]) /\ suf u3 u2).
  { destruct (strtoul (u2 ++ [10])) as [(v & e)|] eqn:ES; [|exists 0, u2; split; [reflexivity|apply suf_refl]]. destruct (strtoul_nl u2 v e ES) as (u3 & -> & S3). exists v, u3. auto. }
  destruct X as (v & u3 & EX & S3). rewrite EX. pose proof (suf_trans _ _ _ S3 S0) as SS. destruct (negb (v =? port) || (65535 <? v)).
  - destruct u3 as [|c u3]; cbn [app].
    + exists None. subst f1. split; [apply scan_end|discriminate].
    + subst f1. apply IH; [intros I; apply NS; eapply suf_in; [exact SS|right; exact I]|]. apply suf_len in SS. cbn in SS. lia.
  - eexists. split; [reflexivity|]. intros n e H. injection H as _ <-. intros I. apply in_app_or in I as [I|[I|[]]]; [|discriminate]. apply NS. eapply suf_in; eassumption.
Qed.
Lemma rest_noslash e p : ~ In 47 e -> rest_proto e p = None.
Proof. intros N. unfold rest_proto. destruct e as [|c e]; [reflexivity|]. assert (c <> 47) by (intros ->; apply N; left; reflexivity). cbn [prefix]. replace (47 =? c) with false by lia. reflexivity. Qed.
Definition alphabetic (n : list Z) : Prop := forall c, In c n -> 65 <= c <= 90 \/ 97 <= c <= 122.
Lemma skip_alpha_ok n c t : alphabetic n -> is_alpha c = false -> skip_alpha (n ++ c :: t) = c :: t.
Proof. intros A C. induction n as [|d n IH]; [cbn; rewrite C; reflexivity|]. cbn [app skip_alpha]. replace (is_alpha d) with true by (symmetry; unfold is_alpha; pose proof (A d (or_introl eq_refl)); lia). apply IH. intros x I. apply A. right. exact I. Qed.
Lemma count_ok n t : plain n -> count (n ++ t) (length n) = Z.of_nat (length n).
Proof. induction n as [|c n IH]; intros P; [destruct t; reflexivity|]. apply plain_cons in P as (A & _ & _ & P). cbn [app length count]. rewrite A, IH by exact P. lia. Qed.
Lemma port_line_ok fuel port p e n pt t als : line_ok e -> service e n pt t als -> alphabetic n -> (130 <= fuel)%nat ->
  port_line fuel port p (body e ++ [10]) = Ok (if (pt =? port) && wants p t then Some (n, to_proto t) else None).
Proof.
  intros H SV AL FU. destruct (service_parts _ _ _ _ _ H SV) as (s & ds & r & ER & HD & NE & B1 & B2 & D & PB & MR & RO). assert (NS : Forall (fun a => ~ In 47 a) als) by (destruct SV as (? & _ & _ & _ & _ & _ & _ & Q); exact Q). destruct H as (P & _ & R & B & _ & LEN).
  set (more := rest_text r ++ trail e). assert (EB : body e ++ [10] = n ++ s ++ ds ++ 47 :: transport_name t ++ more ++ [10]).
  { unfold body, more. rewrite HD, ER. unfold rest_text. cbn [map concat fst snd]. rewrite <- !app_assoc. reflexivity. }
  assert (NM : ~ In 47 (transport_name t ++ more)).
  { intros I. apply in_app_or in I as [I|I]; [destruct t; cbn in I; lia|]. apply in_app_or in I as [I|I]; [|destruct (B 47 I) as [WH _]; unfold white in WH; lia]. unfold rest_text in I. apply in_concat in I as (x & I1 & I2). apply in_map_iff in I1 as ((s' & w) & <- & I1). cbn [fst snd] in I2. apply in_app_or in I2 as [I2|I2].
    - destruct (RO s' w I1) as (BB & _). destruct (BB 47 I2) as [WH _]. unfold white in WH. lia.
    - rewrite Forall_forall in NS. apply (NS w); [rewrite <- MR; apply in_map_iff; exists (s', w); auto|exact I2]. }
  assert (LM : (length (transport_name t ++ more) < 127)%nat).
  { rewrite text_body in LEN. rewrite !app_length in LEN. apply (f_equal (@length Z)) in EB. rewrite !app_length in EB. cbn [length] in EB. rewrite !app_length in EB. rewrite !app_length. cbn [length] in *. lia. }
  unfold port_line. rewrite EB. clear EB LEN. destruct s as [|x s]; [congruence|]. assert (X : is_alpha x = false) by (destruct (blanks_cons _ _ B1) as (XS & _); unfold is_space in XS; unfold is_alpha; lia).
  rewrite HD in P. destruct fuel as [|fuel]; [lia|]. destruct n as [|n0 n]; [congruence|]. set (line := (n0 :: n) ++ (x :: s) ++ ds ++ 47 :: transport_name t ++ more ++ [10]).
  assert (SA : skip_alpha line = (x :: s) ++ ds ++ 47 :: transport_name t ++ more ++ [10]) by (unfold line; cbn [app]; apply (skip_alpha_ok (n0 :: n)); assumption).
  cbn [port_scan]. rewrite SA. rewrite (strtoul_ok (x :: s) ds pt 47 _ B1 D PB eq_refl). unfold line at 1. cbn [app].
  change (x :: s ++ ds ++ 47 :: transport_name t ++ more ++ [10]) with ((x :: s) ++ ds ++ 47 :: transport_name t ++ more ++ [10]).
  replace (65535 <? pt) with false by lia. rewrite orb_false_r. destruct (pt =? port) eqn:EP; cbn [negb andb].
  - cbn [bind]. replace (length line - length ((x :: s) ++ ds ++ 47%Z :: transport_name t ++ more ++ [10]%Z))%nat with (length (n0 :: n)) by (unfold line; rewrite (app_length (n0 :: n)); lia).
    unfold line. rewrite count_ok by exact P. replace (Z.of_nat (length (n0 :: n)) =? 0) with false by (cbn [length]; lia). rewrite rest_proto_ok. rewrite Nat2Z.id, firstn_app, firstn_all, Nat.sub_diag. cbn [firstn]. rewrite app_nil_r. destruct (wants p t); reflexivity.
  - destruct fuel as [|fuel]; [lia|]. rewrite app_assoc. destruct (scan_noslash port line fuel (transport_name t ++ more) NM ltac:(lia)) as (rr & E & G). rewrite E. cbn [bind]. destruct rr as [(k & e1)|]; [|reflexivity]. rewrite (rest_noslash e1 p (G k e1 eq_refl)). destruct (k =? 0); reflexivity.
Qed.
Lemma port_blank fuel port p e : line_ok e -> head e = [] -> (130 <= fuel)%nat -> port_line fuel port p (body e ++ [10]) = Ok None.
Proof.
  intros H E FU. assert (RE : rest e = []) by (destruct H as (_ & H & _); destruct (rest e); [reflexivity|exfalso; apply H; [discriminate|exact E]]). unfold port_line, body. rewrite E, RE. cbn [app map concat].
  assert (LEN : (length (trail e) < 127)%nat) by (destruct H as (_ & _ & _ & _ & _ & L); unfold text in L; rewrite !app_length in L; cbn in L; lia).
  destruct H as (_ & _ & _ & B & _). destruct fuel as [|fuel]; [lia|]. destruct (scan_noslash port (trail e ++ [10]) fuel (trail e)) as (r & ES & G); [intros I; destruct (B 47 I) as [WH _]; unfold white in WH; lia|lia|]. rewrite ES. cbn [bind]. destruct r as [(k & e1)|]; [|reflexivity]. rewrite (rest_noslash e1 p (G k e1 eq_refl)). destruct (k =? 0); reflexivity.
Qed.
Lemma port_step n fuel port p e rest buf : line_ok e -> length buf = 128%nat -> exists buf', length buf' = 128%nat /\
  serv_by_port (S n) fuel port p buf (text e ++ rest) = (x <- port_line fuel port p (body e ++ [10]) ;; out <- serv_by_port n fuel port p buf' rest ;; Ok (match x with Some y => y :: out | None => out end)).
Proof.
  intros H LB. destruct (strip_text e buf H LB) as (tail & E & LT). cbn [serv_by_port]. destruct (text e ++ rest) as [|c u] eqn:EE.
  { exfalso. destruct (text_split e H) as (l & EL & _). rewrite EL in EE. destruct l; discriminate. }
  rewrite <- EE, fgets_text by exact H. rewrite E, cstr_body by exact H. exists (body e ++ 10 :: 0 :: tail). split; [exact LT|reflexivity].
Qed.
Lemma ports_ok port p es out : ports_found (fun t => wants p t = true) port es out -> forall n fuel buf, Forall line_ok es -> Forall (fun e => alphabetic (head e)) es -> length buf = 128%nat -> (length es < n)%nat -> (130 <= fuel)%nat ->
  serv_by_port n fuel port p buf (file es) = Ok (map (fun x => (fst x, to_proto (snd x))) out).
Proof.
  induction 1 as [|e es nm t als out SV WT _ IH|e es nm pt t als out SV NI _ IH|e es out HE _ IH]; intros n fuel buf OK AL LB N FU; (destruct n as [|n]; [cbn in N; lia|]); [reflexivity| | |]; inversion OK as [|? ? H1 H2]; subst; inversion AL as [|? ? A1 A2]; subst;
    unfold file; cbn [map concat]; fold (file es); destruct (port_step n fuel port p e (file es) buf H1 LB) as (buf' & LB' & E); rewrite E.
  - assert (A3 : alphabetic nm) by (destruct SV as (ds & <- & _); exact A1). rewrite (port_line_ok fuel port p e nm port t als H1 SV A3 FU). rewrite Z.eqb_refl, WT. cbn [andb bind]. rewrite IH by (auto; cbn in N; lia). reflexivity.
  - assert (A3 : alphabetic nm) by (destruct SV as (ds & <- & _); exact A1). rewrite (port_line_ok fuel port p e nm pt t als H1 SV A3 FU). replace ((pt =? port) && wants p t) with false; [cbn [bind]; rewrite IH by (auto; cbn in N; lia); reflexivity|].
    symmetry. apply andb_false_iff. destruct (pt =? port) eqn:X; [right|left; reflexivity]. destruct (wants p t) eqn:Y; [|reflexivity]. exfalso. apply NI. split; [lia|reflexivity].
  - rewrite (port_blank fuel port p e H1 HE FU). cbn [bind]. rewrite IH by (auto; cbn in N; lia). reflexivity.
Qed.
