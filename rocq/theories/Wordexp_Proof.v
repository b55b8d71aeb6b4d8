From Verif Require Import Base Wordexp_Model Wordexp_Spec.
Open Scope Z_scope.

Definition nz (w : list Z) : Prop := ~ In 0 w.
Lemma nz_cons c w : nz (c :: w) <-> c <> 0 /\ nz w. Proof. unfold nz. cbn. intuition congruence. Qed.
Lemma nz_app a b : nz (a ++ b) <-> nz a /\ nz b. Proof. unfold nz. rewrite in_app_iff. tauto. Qed.

(** * the scanning loops *)
Lemma backquote_sound : forall k w r, (length w < k)%nat -> nz w -> backquote (w ++ [0]) = Ok (Some r) -> exists t r', w = t ++ [96] ++ r' /\ r = r' ++ [0] /\ command t.
Proof.
  induction k as [|k IH]; intros w r K N E; [lia|]. destruct w as [|c w]; [discriminate|]. apply nz_cons in N as [C N]. cbn [app backquote] in E. cbn [length] in K.
  destruct (Z.eqb_spec c 0); [congruence|]. destruct (Z.eqb_spec c 96) as [->|].
  { injection E as <-. exists [], w. repeat split. constructor. }
  destruct (Z.eqb_spec c 92) as [->|].
  - destruct w as [|x w]; [discriminate|]. apply nz_cons in N as [X N]. cbn [app] in E. destruct (Z.eqb_spec x 0); [congruence|].
    cbn [length] in K. destruct (IH w r) as (t & r' & E1 & E2 & E3); [lia|assumption|assumption|]. exists (92 :: x :: t), r'. subst. repeat split. constructor. assumption.
  - destruct (IH w r) as (t & r' & E1 & E2 & E3); [lia|assumption|assumption|]. exists (c :: t), r'. subst. repeat split. constructor; assumption.
Qed.
Lemma backquote_complete t r : command t -> nz t -> backquote (t ++ 96 :: r) = Ok (Some r).
Proof.
  induction 1 as [|x t H IH|x t X1 X2 H IH]; intro N; [reflexivity| |].
  - apply nz_cons in N as [_ N]. apply nz_cons in N as [X N]. cbn [app backquote Z.eqb Pos.eqb]. destruct (Z.eqb_spec x 0); [congruence|]. auto.
  - apply nz_cons in N as [X N]. cbn [app backquote]. destruct (Z.eqb_spec x 0); [congruence|]. destruct (Z.eqb_spec x 96); [congruence|]. destruct (Z.eqb_spec x 92); [congruence|]. auto.
Qed.

Section Bal.
Variables o c : Z.
Hypothesis O0 : o <> 0.
Hypothesis C0 : c <> 0.
Hypothesis O92 : o <> 92.
Hypothesis C92 : c <> 92.
Hypothesis OC : o <> c.
Lemma bal_app t1 t2 : balanced o c t1 -> balanced o c t2 -> balanced o c (t1 ++ t2).
Proof.
  induction 1 as [|x t H IH|x t X1 X2 X3 H IH|a b HA IHA HB IHB]; intro K; [assumption| | |].
  - cbn [app]. constructor. auto.
  - cbn [app]. constructor; auto.
  - cbn [app]. rewrite <- app_assoc. cbn [app]. apply b_nest; auto.
Qed.
Fixpoint balk (k : nat) (t : list Z) : Prop := match k with O => balanced o c t | S k => exists a b, t = a ++ c :: b /\ balanced o c a /\ balk k b end.
Lemma balk_app k b t : balanced o c b -> balk k t -> balk k (b ++ t).
Proof. destruct k; cbn [balk]; intros B T; [apply bal_app; assumption|]. destruct T as (x & y & -> & X & Y). exists (b ++ x), y. rewrite <- app_assoc. split; [reflexivity|]. split; [apply bal_app; assumption|assumption]. Qed.
Lemma nested_sound : forall n w r k, (length w < n)%nat -> nz w -> nested o c (w ++ [0]) (S k) = Ok (Some r) -> exists t r', w = t ++ [c] ++ r' /\ r = r' ++ [0] /\ balk k t.
Proof.
  induction n as [|n IH]; intros w r k K N E; [lia|]. destruct w as [|x w]; [discriminate|]. apply nz_cons in N as [X N]. cbn [app nested] in E. cbn [length] in K.
  destruct (Z.eqb_spec x 0); [congruence|]. destruct (Z.eqb_spec x 92) as [->|].
  { destruct w as [|y w]; [discriminate|]. apply nz_cons in N as [Y N]. cbn [app] in E. cbn [length] in K. destruct (Z.eqb_spec y 0); [congruence|].
    destruct (IH w r k) as (t & r' & E1 & E2 & E3); [lia|assumption|assumption|]. exists (92 :: y :: t), r'. subst. repeat split.
    apply (balk_app k [92; y] t); [|assumption]. repeat constructor. }
  destruct (Z.eqb_spec x o) as [->|].
  { destruct (IH w r (S k)) as (t & r' & E1 & E2 & E3); [lia|assumption|assumption|]. destruct E3 as (a & b & -> & A & B). exists (o :: a ++ c :: b), r'. subst. repeat split.
    replace (o :: a ++ c :: b) with ((o :: a ++ c :: []) ++ b) by (cbn [app]; rewrite <- app_assoc; reflexivity). apply balk_app; [|assumption]. apply b_nest; [assumption|constructor]. }
  destruct (Z.eqb_spec x c) as [->|].
  { destruct k as [|k].
    - injection E as <-. exists [], w. repeat split. constructor.
    - destruct (IH w r k) as (t & r' & E1 & E2 & E3); [lia|assumption|assumption|]. exists (c :: t), r'. subst. repeat split. exists [], t. repeat split; [constructor|assumption]. }
  destruct (IH w r k) as (t & r' & E1 & E2 & E3); [lia|assumption|assumption|]. exists (x :: t), r'. subst. repeat split. apply (balk_app k [x] t); [|assumption]. constructor; auto. constructor.
Qed.
Lemma nested_bal t : balanced o c t -> nz t -> forall s l, nested o c (t ++ s) (S l) = nested o c s (S l).
Proof.
  induction 1 as [|x t H IH|x t X1 X2 X3 H IH|a b HA IHA HB IHB]; intros N s l; [reflexivity| | |].
  - apply nz_cons in N as [_ N]. apply nz_cons in N as [X N]. cbn [app nested]. change (92 =? 0) with false. rewrite Z.eqb_refl. cbv iota. destruct (Z.eqb_spec x 0); [congruence|]. auto.
  - apply nz_cons in N as [X N]. cbn [app nested]. destruct (Z.eqb_spec x 0); [congruence|]. destruct (Z.eqb_spec x 92); [congruence|]. destruct (Z.eqb_spec x o); [congruence|]. destruct (Z.eqb_spec x c); [congruence|]. auto.
  - apply nz_cons in N as [X N]. apply nz_app in N as [NA N]. apply nz_cons in N as [_ NB]. cbn [app nested]. destruct (Z.eqb_spec o 0); [congruence|]. destruct (Z.eqb_spec o 92); [congruence|].
    rewrite Z.eqb_refl, <- app_assoc. rewrite IHA by assumption. cbn [app nested]. destruct (Z.eqb_spec c 0); [congruence|]. destruct (Z.eqb_spec c 92); [congruence|].
    destruct (Z.eqb_spec c o); [congruence|]. rewrite Z.eqb_refl. auto.
Qed.
Lemma nested_complete t r : balanced o c t -> nz t -> nested o c (t ++ c :: r) 1 = Ok (Some r).
Proof.
  intros B N. rewrite nested_bal by assumption. cbn [nested]. destruct (Z.eqb_spec c 0); [congruence|]. destruct (Z.eqb_spec c 92); [congruence|]. destruct (Z.eqb_spec c o); [congruence|]. rewrite Z.eqb_refl. reflexivity.
Qed.
End Bal.

(** * the main loop *)
Definition mode_of (s d : bool) : mode := if s then Single else if d then Double else Plain.
Definition tame (q s : bool) (w : list Z) : Prop := In 96 w -> q = false /\ s = false /\ ~ In 92 w /\ ~ In 39 w.
Lemma tame_suffix q s a w : tame q s (a ++ w) -> tame false s w.
Proof. intros T I. destruct T as (_ & A & B & C); [apply in_or_app; auto|]. repeat split; auto; intro J; [apply B|apply C]; apply in_or_app; auto. Qed.
Lemma tame_cons q s a w : tame q s (a :: w) -> tame false s w. Proof. apply (tame_suffix q s [a]). Qed.
Lemma badE c : bad c = true <-> In c [124; 38; 59; 60; 62; 123; 125; 40; 41; 10].
Proof. unfold bad. rewrite existsb_exists. split; [intros (x & I & E); apply Z.eqb_eq in E; subst; assumption|]. intro I. exists c. rewrite Z.eqb_refl. auto. Qed.
Definition concl (nocmd q s d : bool) (w : list Z) : Prop := if q then exists c r, w = c :: r /\ words nocmd (mode_of s d) r else words nocmd (mode_of s d) w.
Lemma not_single d : mode_of false d <> Single. Proof. destruct d; discriminate. Qed.
Lemma plainC c : c <> 92 -> c <> 39 -> c <> 34 -> c <> 36 -> c <> 96 -> bad c = false -> ~ In c [92; 39; 34; 36; 96; 124; 38; 59; 60; 62; 123; 125; 40; 41; 10].
Proof.
  intros H1 H2 H3 H4 H5 B I. assert (~ bad c = true) by congruence. rewrite badE in H. cbn [In] in *. intuition congruence.
Qed.
Lemma dqC c : c <> 92 -> c <> 34 -> c <> 36 -> c <> 96 -> ~ In c [92; 34; 36; 96].
Proof. intros H1 H2 H3 H4 I. cbn [In] in I. intuition congruence. Qed.
Lemma check_sound : forall n nocmd q s d w, nz w -> (s = true -> q = false /\ d = false) -> tame q s w ->
  check n nocmd q s d (w ++ [0]) = Ok 0 -> concl nocmd q s d w.
Proof.
  induction n as [|n IH]; intros nocmd q s d w N M T E; [discriminate|]. destruct w as [|c w].
  { cbn in E. destruct (q || s || d) eqn:Q; [discriminate|]. destruct q, s, d; try discriminate. constructor. }
  apply nz_cons in N as [C N]. cbn [app check] in E. destruct (Z.eqb_spec c 0); [congruence|]. unfold concl.
  assert (TT := tame_cons _ _ _ _ T).
  destruct (Z.eqb_spec c 92) as [->|C92].
  { assert (T96 : ~ In 96 w). { intro I. destruct T as (_ & _ & B & _); [right; exact I|]. apply B. left. reflexivity. }
    destruct s.
    - destruct M as [-> ->]; [reflexivity|]. apply IH in E; auto. cbn. apply (w_single_char nocmd 92); [lia|]. exact E.
    - apply IH in E; [|exact N|discriminate|intro I; contradiction]. unfold concl in E. destruct q; cbn [negb] in E.
      + exists 92, w. auto.
      + destruct E as (x & r & -> & E). constructor; [apply not_single|exact E]. }
  destruct (Z.eqb_spec c 39) as [->|C39].
  { assert (T96 : ~ In 96 w). { intro I. destruct T as (_ & _ & _ & B); [right; exact I|]. apply B. left. reflexivity. }
    destruct q; cbn [orb] in E.
    - destruct s; [destruct M; [reflexivity|discriminate]|]. apply IH in E; [|exact N|discriminate|exact TT]. exists 39, w. auto.
    - destruct d.
      + destruct s; [destruct M; [reflexivity|discriminate]|]. apply IH in E; [|exact N|discriminate|exact TT]. cbn. apply (w_double_char nocmd 39); [apply dqC; lia|]. exact E.
      + apply IH in E; [|exact N|auto|intro I; contradiction]. destruct s; cbn in E |- *; constructor; exact E. }
  destruct (Z.eqb_spec c 34) as [->|C34].
  { destruct q; cbn [orb] in E.
    - destruct s; [destruct M; [reflexivity|discriminate]|]. apply IH in E; [|exact N|discriminate|exact TT]. exists 34, w. auto.
    - destruct s.
      + destruct M as [_ ->]; [reflexivity|]. apply IH in E; [|exact N|auto|exact TT]. cbn. apply (w_single_char nocmd 34); [lia|]. exact E.
      + apply IH in E; [|exact N|discriminate|exact TT]. destruct d; cbn in E |- *; constructor; exact E. }
  destruct (Z.eqb_spec c 96) as [->|C96].
  { destruct T as (-> & -> & T1 & T2); [left; reflexivity|]. cbn [orb negb andb] in E. destruct nocmd; [discriminate|].
    destruct (backquote (w ++ [0])) as [[r|]| | |] eqn:B; try discriminate. apply (backquote_sound (S (length w))) in B; [|lia|exact N]. destruct B as (t & r' & -> & -> & CT).
    cbn [bind] in E. apply IH in E; [| |discriminate|].
    - apply (w_command false (mode_of false d) t r'); [apply not_single|reflexivity|exact CT|exact E].
    - apply nz_app in N as [_ N]. apply (nz_cons 96) in N as [_ N]. exact N.
    - apply (tame_suffix false false (t ++ [96])). rewrite <- app_assoc. exact TT. }
  destruct (bad c) eqn:B.
  { destruct (q || s || d) eqn:Q; cbn [negb] in E; [|discriminate]. apply IH in E; [|exact N|intro SS; destruct M; auto|exact TT]. cbn in E.
    destruct q; [exists c, w; auto|]. destruct s; cbn in E |- *; [constructor; auto|]. destruct d; [|discriminate]. constructor; [|exact E]. apply dqC; auto. intros ->. discriminate. }
  destruct (Z.eqb_spec c 36) as [->|C36].
  - destruct w as [|x w'] eqn:W; [cbn [app] in E; rewrite Z.eqb_refl in E; destruct n; discriminate|]. rewrite <- W in *. cbn [app] in E. assert (WA : w ++ [0] = x :: w' ++ [0]) by (rewrite W; reflexivity).
    rewrite W in E. cbn [app] in E. change (x :: w' ++ [0]) with ((x :: w') ++ [0]) in E. rewrite <- W in E.
    assert (NX : x <> 0 /\ nz w') by (rewrite W in N; apply nz_cons in N; exact N). destruct NX as [X N'].
    destruct (Z.eqb_spec x 0); [congruence|]. destruct (q || s) eqn:Q; cbn [negb andb] in E.
    + apply IH in E; [|exact N|intro SS; destruct M; auto|exact TT]. destruct q; [exists 36, w; auto|]. destruct s; [|discriminate]. cbn in E |- *. constructor; [lia|exact E].
    + apply orb_false_iff in Q as [-> ->]. destruct (Z.eqb_spec x 40) as [->|X40].
      * destruct w' as [|y w''] eqn:W'; [cbn in E; destruct nocmd; discriminate|]. rewrite <- W' in *. assert (WB : w' ++ [0] = y :: w'' ++ [0]) by (rewrite W'; reflexivity). rewrite WB in E. rewrite <- WB in E.
        destruct (nocmd && negb (y =? 40)) eqn:Y; [discriminate|].
        destruct (nested 40 41 (w' ++ [0]) 1) as [[r|]| | |] eqn:R; try discriminate. apply (nested_sound 40 41) with (n := S (length w')) in R; [|lia..|exact N']. cbn [balk] in R.
        destruct R as (t & r' & E1 & -> & BT). cbn [bind] in E. apply IH in E; [| |discriminate|].
        -- rewrite W, E1. apply (w_paren nocmd (mode_of false d) t r'); [apply not_single|exact BT| |exact E]. intros ->. cbn in Y. apply negb_false_iff in Y. apply Z.eqb_eq in Y. subst y.
           rewrite W' in E1. destruct t as [|z t]; cbn in E1; [discriminate E1|]. injection E1 as <- _. reflexivity.
        -- rewrite E1 in N'. apply nz_app in N' as [_ N']. apply (nz_cons 41) in N' as [_ N']. exact N'.
        -- rewrite W, E1 in TT. apply (tame_suffix false false ((40 :: t) ++ [41])). rewrite <- app_assoc. exact TT.
      * destruct (Z.eqb_spec x 123) as [->|X123].
        -- destruct (nested 123 125 (w' ++ [0]) 1) as [[r|]| | |] eqn:R; try discriminate. apply (nested_sound 123 125) with (n := S (length w')) in R; [|lia..|exact N']. cbn [balk] in R.
           destruct R as (t & r' & E1 & -> & BT). cbn [bind] in E. apply IH in E; [| |discriminate|].
           ++ rewrite W, E1. apply (w_brace nocmd (mode_of false d) t r'); [apply not_single|exact BT|exact E].
           ++ rewrite E1 in N'. apply nz_app in N' as [_ N']. apply (nz_cons 125) in N' as [_ N']. exact N'.
           ++ rewrite W, E1 in TT. apply (tame_suffix false false ((123 :: t) ++ [125])). rewrite <- app_assoc. exact TT.
        -- apply IH in E; [|exact N|discriminate|exact TT]. constructor; [apply not_single|rewrite W; exact X40|rewrite W; exact X123|exact E].
  - apply IH in E; [|exact N|intro SS; destruct M; auto|exact TT]. destruct q; [exists c, w; auto|]. cbn in E. destruct s; cbn in E |- *; [constructor; auto|].
    destruct d; constructor; auto; [apply dqC; auto|apply plainC; auto].
Qed.

(** * completeness *)
Definition sq (m : mode) : bool := match m with Single => true | _ => false end.
Definition dq (m : mode) : bool := match m with Double => true | _ => false end.
Lemma last_suffix (a r : list Z) : last (a ++ r) 0 <> 36 -> last r 0 <> 36.
Proof.
  destruct r as [|x r] using rev_ind; [cbn; lia|]. rewrite app_assoc, !last_last. auto.
Qed.
Lemma esc_step n nocmd d c r : c <> 0 -> c <> 96 -> (c = 36 -> r <> []) -> nz r -> check (S n) nocmd true false d (c :: r ++ [0]) = check n nocmd false false d (r ++ [0]).
Proof.
  intros C0 C96 C36 N. cbn [check]. destruct (Z.eqb_spec c 0); [congruence|]. destruct (Z.eqb_spec c 92); [reflexivity|]. destruct (Z.eqb_spec c 39); [reflexivity|]. destruct (Z.eqb_spec c 34); [reflexivity|].
  destruct (Z.eqb_spec c 96); [congruence|]. cbn [orb negb]. destruct (bad c); [reflexivity|]. destruct (Z.eqb_spec c 36) as [E|]; [|reflexivity].
  destruct r as [|x r]; [elim (C36 E); reflexivity|]. apply nz_cons in N as [X N]. cbn [app]. destruct (Z.eqb_spec x 0); [congruence|]. reflexivity.
Qed.
Lemma check_complete nocmd m w : words nocmd m w -> forall n, (length w < n)%nat -> nz w -> last w 0 <> 36 -> tame false (sq m) w -> check n nocmd false (sq m) (dq m) (w ++ [0]) = Ok 0.
Proof.
  assert (ST : forall c r : list Z, last (c ++ r) 0 <> 36 -> last r 0 <> 36) by apply last_suffix.
  induction 1 as [|c r NI H IH|m c r MS H IH|r H IH|r H IH|c r C39 H IH|r H IH|r H IH|c r NI H IH|m r MS H1 H2 H IH|m t r MS B NC H IH|m t r MS B H IH|m t r MS NC B H IH];
    intros n K N L T; (destruct n as [|n]; [cbn in K; lia|]).
  - reflexivity.
  - apply nz_cons in N as [C N]. cbn [app check sq dq]. assert (BD : bad c = false). { apply not_true_is_false. intro X. apply badE in X. apply NI. cbn [In] in X |- *. tauto. }
    cbn [In] in NI. destruct (Z.eqb_spec c 0); [tauto|]. destruct (Z.eqb_spec c 92); [intuition congruence|]. destruct (Z.eqb_spec c 39); [intuition congruence|]. destruct (Z.eqb_spec c 34); [intuition congruence|].
    destruct (Z.eqb_spec c 96); [intuition congruence|]. rewrite BD. destruct (Z.eqb_spec c 36); [intuition congruence|]. apply IH; [cbn in K; lia|exact N|exact (ST [c] r L)|exact (tame_cons _ _ _ _ T)].
  - apply nz_cons in N as [_ N]. apply nz_cons in N as [C N]. assert (T96 : ~ In 96 (c :: r)). { intro I. destruct T as (_ & _ & X & _); [right; exact I|]. apply X. left. reflexivity. }
    assert (SQ : sq m = false) by (destruct m; reflexivity || congruence). cbn [app]. cbn [check]. change (92 =? 0) with false. change (92 =? 92) with true. cbv iota. rewrite SQ in *. cbn [negb].
    destruct n as [|n]; [cbn in K; lia|]. rewrite esc_step.
    + apply IH; [cbn in K; lia|exact N|exact (ST [92; c] r L)|]. intro I. elim T96. right. exact I.
    + exact C.
    + intros ->. apply T96. left. reflexivity.
    + intros -> ->. apply L. reflexivity.
    + exact N.
  - apply nz_cons in N as [_ N]. assert (T96 : ~ In 96 r). { intro I. destruct T as (_ & _ & _ & X); [right; exact I|]. apply X. left. reflexivity. }
    cbn [app check sq dq]. cbn [Z.eqb Pos.eqb orb negb]. apply IH; [cbn in K; lia|exact N|exact (ST [39] r L)|intro I; contradiction].
  - apply nz_cons in N as [_ N]. assert (T96 : ~ In 96 r). { intro I. destruct T as (_ & _ & _ & X); [right; exact I|]. apply X. left. reflexivity. }
    cbn [app check sq dq]. cbn [Z.eqb Pos.eqb orb negb]. apply IH; [cbn in K; lia|exact N|exact (ST [39] r L)|intro I; contradiction].
  - apply nz_cons in N as [C N]. assert (T96 : ~ In 96 (c :: r)). { intro I. destruct T as (_ & X & _); [exact I|]. discriminate. }
    assert (G : check n nocmd false true false (r ++ [0]) = Ok 0). { apply IH; [cbn in K; lia|exact N|exact (ST [c] r L)|intro I; elim T96; right; exact I]. }
    cbn [app check sq dq orb negb andb]. destruct (Z.eqb_spec c 0); [congruence|]. destruct (Z.eqb_spec c 92); [exact G|]. destruct (Z.eqb_spec c 39); [congruence|]. destruct (Z.eqb_spec c 34); [exact G|].
    destruct (Z.eqb_spec c 96); [elim T96; left; auto|]. destruct (bad c); [exact G|]. destruct (Z.eqb_spec c 36) as [->|]; [|exact G].
    destruct r as [|x r]; [elim L; reflexivity|]. cbn [app] in *. apply nz_cons in N as [X N]. destruct (Z.eqb_spec x 0); [congruence|]. exact G.
  - apply nz_cons in N as [_ N]. cbn [app check sq dq]. cbn [Z.eqb Pos.eqb orb negb]. apply IH; [cbn in K; lia|exact N|exact (ST [34] r L)|exact (tame_cons _ _ _ _ T)].
  - apply nz_cons in N as [_ N]. cbn [app check sq dq]. cbn [Z.eqb Pos.eqb orb negb]. apply IH; [cbn in K; lia|exact N|exact (ST [34] r L)|exact (tame_cons _ _ _ _ T)].
  - apply nz_cons in N as [C N]. assert (G : check n nocmd false false true (r ++ [0]) = Ok 0). { apply IH; [cbn in K; lia|exact N|exact (ST [c] r L)|exact (tame_cons _ _ _ _ T)]. }
    cbn [In] in NI. cbn [app check sq dq orb negb andb]. destruct (Z.eqb_spec c 0); [congruence|]. destruct (Z.eqb_spec c 92); [intuition congruence|]. destruct (Z.eqb_spec c 39); [exact G|]. destruct (Z.eqb_spec c 34); [intuition congruence|].
    destruct (Z.eqb_spec c 96); [intuition congruence|]. destruct (bad c); [exact G|]. destruct (Z.eqb_spec c 36); [intuition congruence|]. exact G.
  - apply nz_cons in N as [_ N]. assert (SQ : sq m = false) by (destruct m; reflexivity || congruence).
    assert (G : check n nocmd false (sq m) (dq m) (r ++ [0]) = Ok 0). { apply IH; [cbn in K; lia|exact N|exact (ST [36] r L)|exact (tame_cons _ _ _ _ T)]. }
    rewrite SQ in *. destruct r as [|x r]; [elim L; reflexivity|]. cbn [hd] in H1, H2. apply nz_cons in N as [X N]. cbn [app] in *. cbn [check]. cbn [Z.eqb Pos.eqb orb negb andb].
    change (bad 36) with false. cbv iota. destruct (Z.eqb_spec x 0); [congruence|]. destruct (Z.eqb_spec x 40); [congruence|]. destruct (Z.eqb_spec x 123); [congruence|]. exact G.
  - assert (SQ : sq m = false) by (destruct m; reflexivity || congruence). cbn [app] in *. apply nz_cons in N as [_ N]. apply nz_cons in N as [_ N]. assert (N' := N). apply nz_app in N' as [NT N']. apply nz_cons in N' as [_ NR].
    assert (G : check n nocmd false (sq m) (dq m) (r ++ [0]) = Ok 0).
    { apply IH; [cbn [length] in K; rewrite app_length in K; cbn [length] in K; lia|exact NR|apply (ST ([36; 40] ++ t ++ [41]) r); cbn [app]; rewrite <- app_assoc; exact L|].
      apply (tame_suffix false (sq m) ([36; 40] ++ t ++ [41])). cbn [app]. rewrite <- app_assoc. exact T. }
    rewrite SQ in *. cbn [check]. cbn [Z.eqb Pos.eqb orb negb andb]. change (bad 36) with false. cbv iota. rewrite <- app_assoc. cbn [app].
    destruct (t ++ 41 :: r ++ [0]) as [|x l] eqn:X; [destruct t; discriminate|].
    assert (Y : nocmd && negb (x =? 40) = false). { destruct nocmd; [|reflexivity]. specialize (NC eq_refl). destruct t as [|y t]; [discriminate|]. cbn in NC. subst y. injection X as <- _. reflexivity. }
    rewrite Y, <- X. rewrite (nested_complete 40 41) by (lia || assumption). cbn [bind]. exact G.
  - assert (SQ : sq m = false) by (destruct m; reflexivity || congruence). cbn [app] in *. apply nz_cons in N as [_ N]. apply nz_cons in N as [_ N]. assert (N' := N). apply nz_app in N' as [NT N']. apply nz_cons in N' as [_ NR].
    assert (G : check n nocmd false (sq m) (dq m) (r ++ [0]) = Ok 0).
    { apply IH; [cbn [length] in K; rewrite app_length in K; cbn [length] in K; lia|exact NR|apply (ST ([36; 123] ++ t ++ [125]) r); cbn [app]; rewrite <- app_assoc; exact L|].
      apply (tame_suffix false (sq m) ([36; 123] ++ t ++ [125])). cbn [app]. rewrite <- app_assoc. exact T. }
    rewrite SQ in *. cbn [check]. cbn [Z.eqb Pos.eqb orb negb andb]. change (bad 36) with false. cbv iota. rewrite <- app_assoc. cbn [app].
    rewrite (nested_complete 123 125) by (lia || assumption). cbn [bind]. exact G.
  - assert (SQ : sq m = false) by (destruct m; reflexivity || congruence). cbn [app] in *. apply nz_cons in N as [_ N]. assert (N' := N). apply nz_app in N' as [NT N']. apply nz_cons in N' as [_ NR].
    assert (G : check n nocmd false (sq m) (dq m) (r ++ [0]) = Ok 0).
    { apply IH; [cbn [length] in K; rewrite app_length in K; cbn [length] in K; lia|exact NR|apply (ST ([96] ++ t ++ [96]) r); cbn [app]; rewrite <- app_assoc; exact L|].
      apply (tame_suffix false (sq m) ([96] ++ t ++ [96])). cbn [app]. rewrite <- app_assoc. exact T. }
    rewrite SQ in *. cbn [check]. cbn [Z.eqb Pos.eqb orb negb andb]. rewrite NC in *. rewrite <- app_assoc. cbn [app]. rewrite backquote_complete by assumption. cbn [bind]. exact G.
Qed.

(** * no read behind the string *)
Lemma backquote_total : forall k w, (length w < k)%nat -> nz w -> backquote (w ++ [0]) = Ok None \/ exists r, backquote (w ++ [0]) = Ok (Some r).
Proof.
  induction k as [|k IH]; intros w K N; [lia|]. destruct w as [|c w]; [left; reflexivity|]. apply nz_cons in N as [C N]. cbn [app backquote]. cbn [length] in K.
  destruct (Z.eqb_spec c 0); [auto|]. destruct (Z.eqb_spec c 96); [eauto|]. destruct (Z.eqb_spec c 92); [|apply IH; [lia|assumption]].
  destruct w as [|x w]; [left; reflexivity|]. apply nz_cons in N as [X N]. cbn [app length] in *. destruct (Z.eqb_spec x 0); [auto|]. apply IH; [lia|assumption].
Qed.
Lemma nested_total o c : forall k w l, (length w < k)%nat -> nz w -> nested o c (w ++ [0]) l = Ok None \/ exists r a, nested o c (w ++ [0]) l = Ok (Some (r ++ [0])) /\ w = a ++ r.
Proof.
  induction k as [|k IH]; intros w l K N; [lia|]. destruct w as [|x w]; [left; reflexivity|]. apply nz_cons in N as [C N]. cbn [app nested]. cbn [length] in K.
  assert (G : forall l, nested o c (w ++ [0]) l = Ok None \/ exists r a, nested o c (w ++ [0]) l = Ok (Some (r ++ [0])) /\ x :: w = a ++ r).
  { intro l'. destruct (IH w l') as [E|(r & a & E & ->)]; [lia|assumption|auto|]. right. exists r, (x :: a). auto. }
  destruct (Z.eqb_spec x 0); [auto|]. destruct (Z.eqb_spec x 92).
  { destruct w as [|y w]; [left; reflexivity|]. apply nz_cons in N as [Y N]. cbn [app length] in *. destruct (Z.eqb_spec y 0); [auto|]. destruct (IH w l) as [E|(r & a & E & ->)]; [lia|assumption|auto|].
    right. exists r, (x :: y :: a). auto. }
  destruct (Z.eqb_spec x o); [apply G|]. destruct (Z.eqb_spec x c); [|apply G]. destruct l as [|[|l]]; [right; exists w, [x]; auto..|apply G].
Qed.
Lemma check_total : forall n nocmd q s d w, (length w < n)%nat -> nz w -> last w 0 <> 36 -> exists e, check n nocmd q s d (w ++ [0]) = Ok e /\ In e [0; WRDE_BADCHAR; WRDE_CMDSUB; WRDE_SYNTAX].
Proof.
  induction n as [|n IH]; intros nocmd q s d w K N L; [lia|]. destruct w as [|c w].
  { cbn [app check]. rewrite Z.eqb_refl. eexists. split; [reflexivity|]. destruct (q || s || d); cbn; auto. }
  apply nz_cons in N as [C N]. cbn [length] in K. assert (LW := last_suffix [c] w L).
  assert (G : forall q s d, exists e, check n nocmd q s d (w ++ [0]) = Ok e /\ In e [0; WRDE_BADCHAR; WRDE_CMDSUB; WRDE_SYNTAX]) by (intros; apply IH; [lia|assumption..]).
  assert (F : forall e, In e [0; WRDE_BADCHAR; WRDE_CMDSUB; WRDE_SYNTAX] -> exists e', @Ok Z e = Ok e' /\ In e' [0; WRDE_BADCHAR; WRDE_CMDSUB; WRDE_SYNTAX]) by (intros e I; exists e; auto).
  cbn [app check]. destruct (Z.eqb_spec c 0); [congruence|]. destruct (Z.eqb_spec c 92); [apply G|]. destruct (Z.eqb_spec c 39); [apply G|]. destruct (Z.eqb_spec c 34); [apply G|].
  destruct (Z.eqb_spec c 96).
  { destruct (negb (q || s) && nocmd); [apply F; cbn; auto|]. destruct (backquote_total (S (length w)) w) as [E|(r & E)]; [lia|assumption|rewrite E; apply F; cbn; auto|].
    rewrite E. cbn [bind]. apply (backquote_sound (S (length w))) in E; [|lia|assumption]. destruct E as (t & r' & -> & -> & _). apply IH.
    - rewrite !app_length in K. lia.
    - apply nz_app in N as [_ N]. apply (nz_app [96]) in N as [_ N]. exact N.
    - apply (last_suffix (t ++ [96])). rewrite <- app_assoc. exact LW. }
  destruct (bad c); [destruct (negb (q || s || d)); [apply F; cbn; auto|apply G]|]. destruct (Z.eqb_spec c 36) as [->|]; [|apply G].
  destruct w as [|x w]; [elim L; reflexivity|]. cbn [app] in *. assert (NX := N). apply nz_cons in NX as [X NX]. cbn [length] in K. destruct (Z.eqb_spec x 0); [congruence|].
  assert (H : forall o cl l, exists e, (r <- nested o cl (w ++ [0]) l ;; match r with None => Ok WRDE_SYNTAX | Some w => check n nocmd false s d w end) = Ok e /\ In e [0; WRDE_BADCHAR; WRDE_CMDSUB; WRDE_SYNTAX]).
  { intros o cl l. destruct (nested_total o cl (S (length w)) w l) as [E|(r & a & E & ->)]; [lia|assumption|rewrite E; apply F; cbn; auto|]. rewrite E. cbn [bind]. apply IH.
    - rewrite app_length in K. lia.
    - apply nz_app in NX as [_ NX]. exact NX.
    - apply (last_suffix (x :: a)). exact LW. }
  destruct (negb (q || s) && (x =? 40)).
  { destruct (w ++ [0]) as [|y l] eqn:W; [destruct w; discriminate|]. destruct (nocmd && negb (y =? 40)); [apply F; cbn; auto|]. apply H. }
  destruct (negb (q || s) && (x =? 123)); [apply H|]. apply G.
Qed.
Lemma check_over : forall w n nocmd, Forall (fun c => c <> 0 /\ ~ In c [92; 39; 34; 36; 96; 124; 38; 59; 60; 62; 123; 125; 40; 41; 10]) w -> (length w + 1 < n)%nat -> check n nocmd false false false (w ++ [36; 0]) = UB.
Proof.
  induction w as [|c w IH]; intros n nocmd F K; (destruct n as [|n]; [lia|]).
  - cbn. destruct n as [|n]; [cbn in K; lia|]. reflexivity.
  - inversion F as [|? ? [C NI] F']; subst. cbn [app check]. assert (BD : bad c = false). { apply not_true_is_false. intro X. apply badE in X. apply NI. cbn [In] in X |- *. tauto. }
    cbn [In] in NI. destruct (Z.eqb_spec c 0); [tauto|]. destruct (Z.eqb_spec c 92); [intuition congruence|]. destruct (Z.eqb_spec c 39); [intuition congruence|]. destruct (Z.eqb_spec c 34); [intuition congruence|].
    destruct (Z.eqb_spec c 96); [intuition congruence|]. rewrite BD. destruct (Z.eqb_spec c 36); [intuition congruence|]. apply IH; [assumption|cbn in K; lia].
Qed.

(** * the vector *)
Lemma put_ok (a : list cell) x b y : put (a ++ x :: b) (length a) y = Ok (a ++ y :: b).
Proof. induction a as [|c a IH]; [reflexivity|]. cbn [app length put]. rewrite IH. reflexivity. Qed.
Lemma zero_at_ok w r : ~ In 0 w -> zero_at (w ++ 0 :: r) = Some (length w).
Proof. induction w as [|c w IH]; intro N; [reflexivity|]. apply nz_cons in N as [C N]. cbn [app zero_at length]. destruct (Z.eqb_spec c 0); [congruence|]. rewrite IH by exact N. reflexivity. Qed.
Fixpoint ptrs (p : nat) (ws : list (list Z)) : list cell := match ws with [] => [] | w :: r => At p :: ptrs (p + length w + 1) r end.
Lemma ptrs_length ws : forall p, length (ptrs p ws) = length ws. Proof. induction ws as [|w ws IH]; intro p; [reflexivity|]. cbn. rewrite IH. reflexivity. Qed.
Lemma joined_cons w ws : joined (w :: ws) = w ++ 0 :: joined ws. Proof. unfold joined. cbn. rewrite <- app_assoc. reflexivity. Qed.
Lemma joined_length ws : length (joined ws) = (length (concat ws) + length ws)%nat.
Proof. induction ws as [|w ws IH]; [reflexivity|]. rewrite joined_cons. cbn [concat]. rewrite !app_length. cbn [length]. rewrite IH. lia. Qed.
Lemma entries_ok : forall ws pre mid post p, Forall (fun w => ~ In 0 w) ws -> length mid = length ws ->
  entries (length ws) (pre ++ mid ++ post) (length pre) p (joined ws) = Ok (Some (pre ++ ptrs p ws ++ post, (length pre + length ws)%nat)).
Proof.
  induction ws as [|w ws IH]; intros pre mid post p F M.
  - destruct mid; [|discriminate]. cbn. rewrite Nat.add_0_r. reflexivity.
  - destruct mid as [|x mid]; [discriminate|]. inversion F; subst. cbn [length entries]. cbn [app]. rewrite put_ok. cbn [bind]. rewrite joined_cons, zero_at_ok by assumption.
    replace (skipn (length w + 1) (w ++ 0 :: joined ws)) with (joined ws).
    2: { replace (w ++ 0 :: joined ws) with ((w ++ [0]) ++ joined ws) by (rewrite <- app_assoc; reflexivity). rewrite skipn_app. rewrite skipn_all2 by (rewrite app_length; cbn; lia).
         rewrite app_length. cbn [length]. rewrite Nat.sub_diag. reflexivity. }
    replace (pre ++ At p :: mid ++ post) with ((pre ++ [At p]) ++ mid ++ post) by (rewrite <- app_assoc; reflexivity).
    replace (S (length pre)) with (length (pre ++ [At p])) by (rewrite app_length; cbn; lia). rewrite IH; [|assumption|cbn in M; lia].
    rewrite <- app_assoc. cbn [app ptrs]. do 3 f_equal. rewrite app_length. cbn. lia.
Qed.
Lemma ptrs_read : forall ws pre post, Forall2 (reads (pre ++ joined ws ++ post)) (ptrs (length pre) ws) ws.
Proof.
  induction ws as [|w ws IH]; intros pre post; [constructor|]. rewrite joined_cons. cbn [ptrs]. constructor.
  - exists (length pre), (joined ws ++ post). split; [reflexivity|]. rewrite skipn_app, skipn_all2, Nat.sub_diag by lia. cbn [app skipn]. rewrite <- app_assoc. reflexivity.
  - replace (pre ++ (w ++ 0 :: joined ws) ++ post) with ((pre ++ w ++ [0]) ++ joined ws ++ post) by (rewrite <- !app_assoc; reflexivity).
    replace (length pre + length w + 1)%nat with (length (pre ++ w ++ [0])) by (rewrite !app_length; cbn; lia). apply IH.
Qed.
Lemma reads_more st more ps ws : Forall2 (reads st) ps ws -> Forall2 (reads (st ++ more)) ps ws.
Proof.
  induction 1 as [|c w ps ws (p & rest & -> & E) H IH]; constructor; [|assumption]. exists p, (rest ++ more). split; [reflexivity|].
  assert (L : (p <= length st)%nat). { destruct (Nat.le_gt_cases p (length st)); [assumption|]. rewrite skipn_all2 in E by lia. destruct w; discriminate. }
  rewrite skipn_app, E. replace (p - length st)%nat with 0%nat by lia. cbn [skipn]. rewrite <- !app_assoc. reflexivity.
Qed.
Lemma hexv_digit v : 0 <= v < 16 -> hexv (digit16 v) = Some v.
Proof. intro H. unfold digit16, hexv. destruct (Z.ltb_spec v 10).
  - replace (48 <=? 48 + v) with true by (symmetry; apply Z.leb_le; lia). replace (48 + v <=? 57) with true by (symmetry; apply Z.leb_le; lia). cbn [andb]. f_equal. lia.
  - replace (48 <=? 87 + v) with true by (symmetry; apply Z.leb_le; lia). replace (87 + v <=? 57) with false by (symmetry; apply Z.leb_gt; lia). cbn [andb].
    replace (97 <=? 87 + v) with true by (symmetry; apply Z.leb_le; lia). replace (87 + v <=? 102) with true by (symmetry; apply Z.leb_le; lia). cbn [andb]. f_equal. lia. Qed.
Lemma hex_app : forall l acc c v, (forall x, In x l -> hexv x <> None) -> hexv c = Some v -> hex acc (l ++ [c]) = hex acc l * 16 + v.
Proof. induction l as [|x l IH]; intros acc c v D C; [cbn; rewrite C; reflexivity|]. cbn [app hex]. destruct (hexv x) eqn:X; [|elim (D x); [left; reflexivity|exact X]]. apply IH; [|exact C]. intros y I. apply D. right. exact I. Qed.
Lemma hex_digits_ok : forall n v acc, 0 <= v -> hex acc (hex_digits n v) = acc * 16 ^ Z.of_nat n + v mod 16 ^ Z.of_nat n /\ (forall x, In x (hex_digits n v) -> hexv x <> None) /\ length (hex_digits n v) = n.
Proof.
  induction n as [|n IH]; intros v acc V.
  - cbn. rewrite Z.mod_1_r. split; [lia|]. split; [tauto|reflexivity].
  - cbn [hex_digits]. assert (M := Z.mod_pos_bound v 16 ltac:(lia)). destruct (IH (v / 16) acc) as (A & B & C); [apply Z.div_pos; lia|]. split; [|split].
    + rewrite (hex_app _ _ _ (v mod 16)); [|exact B|apply hexv_digit; lia]. rewrite A. rewrite Nat2Z.inj_succ, Z.pow_succ_r by lia.
      rewrite (Z.rem_mul_r v 16 (16 ^ Z.of_nat n)) by (try lia; apply Z.pow_pos_nonneg; lia). lia.
    + intros x I. apply in_app_or in I. destruct I as [I|[<-|[]]]; [auto|]. rewrite hexv_digit by lia. discriminate.
    + rewrite app_length, C. cbn. lia.
Qed.
Lemma hex8 v : 0 <= v < 2 ^ 32 -> hex 0 (hex_digits 8 v) = v.
Proof. intro H. rewrite (proj1 (hex_digits_ok 8 v 0 ltac:(lia))). change (16 ^ Z.of_nat 8) with (2 ^ 32). rewrite Z.mod_small by lia. lia. Qed.
Lemma out_parts ws : sane ws -> (16 <= length (shell_output ws))%nat /\ Z.to_nat (hex 0 (firstn 8 (shell_output ws))) = length ws /\
  Z.to_nat (hex 0 (firstn 8 (skipn 8 (shell_output ws)))) = length (concat ws) /\ skipn 16 (shell_output ws) = joined ws.
Proof.
  intros (_ & A & B). unfold shell_output. assert (L1 : length (hex_digits 8 (Z.of_nat (length ws))) = 8%nat) by (apply hex_digits_ok; [exact 0|lia]).
  assert (L2 : length (hex_digits 8 (Z.of_nat (length (concat ws)))) = 8%nat) by (apply hex_digits_ok; [exact 0|lia]).
  assert (H1 := hex8 (Z.of_nat (length ws)) ltac:(lia)). assert (H2 := hex8 (Z.of_nat (length (concat ws))) ltac:(lia)).
  revert L1 L2 H1 H2. generalize (hex_digits 8 (Z.of_nat (length ws))) (hex_digits 8 (Z.of_nat (length (concat ws)))). intros l1 l2 L1 L2 H1 H2. split; [|split; [|split]].
  - rewrite !app_length. lia.
  - rewrite firstn_app, L1, Nat.sub_diag, firstn_all2 by lia. cbn [firstn]. rewrite app_nil_r. lia.
  - rewrite skipn_app, L1, Nat.sub_diag, skipn_all2 by lia. cbn [skipn app]. rewrite firstn_app, L2, Nat.sub_diag, firstn_all2 by lia. cbn [firstn]. rewrite app_nil_r. lia.
  - rewrite app_assoc, skipn_app, skipn_all2 by (rewrite app_length; lia). rewrite app_length, L1, L2. reflexivity.
Qed.
Lemma fill_ok : forall n v rest k, length v = n -> fill n (repeat Null k ++ v ++ rest) k = Ok (repeat Null (k + n) ++ rest).
Proof.
  induction n as [|n IH]; intros v rest k L.
  - destruct v; [|discriminate]. rewrite Nat.add_0_r. reflexivity.
  - destruct v as [|x v]; [discriminate|]. cbn [fill]. assert (P := put_ok (repeat Null k) x (v ++ rest) Null). rewrite repeat_length in P. cbn [app]. rewrite P. cbn [bind].
    assert (R : repeat Null k ++ Null :: v ++ rest = repeat Null (S k) ++ v ++ rest) by (rewrite <- (Nat.add_1_r k), repeat_app, <- app_assoc; reflexivity).
    rewrite R. rewrite IH by (cbn in L; lia). do 2 f_equal. f_equal. lia.
Qed.
Lemma askshell_tail w undef (dooffs : bool) (append : bool) ws pre (mid : list cell) x vofs :
  sane ws -> (vofs = wordc w + (if dooffs && append then offs w else 0))%nat ->
  let size := (wordc w + length ws + 1 + (if dooffs then offs w else 0))%nat in
  forall v, v = firstn size (wordv w ++ repeat Undef size) ->
  forallb defined (firstn vofs v) = true ->
  (if (vofs =? 0)%nat && dooffs then v <- fill (offs w) v 0 ;; Ok (v, offs w) else Ok (v, vofs)) = Ok (pre ++ mid ++ [x], length pre) -> length mid = length ws ->
  we_askshell w undef dooffs append (shell_output ws) true =
    Ok ({| wordc := wordc w + length ws; offs := offs w; wordv := pre ++ ptrs (length (strings w)) ws ++ [Null]; strings := strings w ++ joined ws |}, 0).
Proof.
  intros S0 V size v EV D F M. destruct (out_parts ws S0) as (A & B & C & E). unfold we_askshell. destruct (Nat.ltb_spec (length (shell_output ws)) 16); [lia|]. cbv zeta.
  rewrite B, C, E. fold size. rewrite <- EV, <- V, D. cbn [negb]. rewrite firstn_all2 by (rewrite joined_length; lia). rewrite joined_length, Nat.eqb_refl. cbn [negb].
  rewrite F. cbn [bind]. rewrite entries_ok by (apply S0 || assumption). cbn [bind].
  assert (P := put_ok (pre ++ ptrs (length (strings w)) ws) x [] Null). rewrite app_length, ptrs_length, <- !app_assoc in P. rewrite P. reflexivity.
Qed.
Lemma undef_repeat (m : nat) : forall n, firstn n (repeat Undef (n + m)) = repeat Undef n. Proof. induction n; [reflexivity|]. cbn. rewrite IHn. reflexivity. Qed.
Lemma firstn_repeat' n : firstn n (repeat Undef n) = repeat Undef n. Proof. rewrite <- (Nat.add_0_r n) at 2. apply undef_repeat. Qed.
Lemma first_ok w undef dooffs ws : sane ws -> wordc w = 0%nat -> wordv w = [] -> strings w = [] ->
  exists w', we_askshell w undef dooffs false (shell_output ws) true = Ok (w', 0) /\ holds w' (if dooffs then offs w else 0) ws /\ offs w' = offs w.
Proof.
  intros S0 W V ST. pose (k := if dooffs then offs w else 0%nat). eexists. split; [|split].
  - apply (askshell_tail w undef dooffs false ws (repeat Null k) (repeat Undef (length ws)) Undef 0%nat S0) with (v := repeat Undef (wordc w + length ws + 1 + (if dooffs then offs w else 0))).
    + rewrite W, andb_false_r. reflexivity.
    + rewrite V. cbn [app]. rewrite firstn_repeat'. reflexivity.
    + reflexivity.
    + rewrite W. cbn [Nat.eqb andb Nat.add]. unfold k. destruct dooffs.
      * replace (length ws + 1 + offs w)%nat with (offs w + (length ws + 1))%nat by lia. rewrite !repeat_app. pose proof (fill_ok (offs w) (repeat Undef (offs w)) (repeat Undef (length ws) ++ repeat Undef 1) 0 (repeat_length _ _)) as F.
        cbn [repeat app] in F. cbn [repeat]. rewrite F. cbn [bind Nat.add]. rewrite repeat_length. reflexivity.
      * rewrite Nat.add_0_r, repeat_app. reflexivity.
    + apply repeat_length.
  - split; [cbn; rewrite W; reflexivity|]. cbn [wordv strings]. exists (ptrs (length (strings w)) ws). split; [reflexivity|]. rewrite ST. cbn [app length]. pose proof (ptrs_read ws [] []) as R. rewrite app_nil_r in R. exact R.
  - reflexivity.
Qed.
Lemma append_ok w undef (dooffs : bool) ws0 ws : sane ws -> holds w (if dooffs then offs w else 0) ws0 ->
  exists w', we_askshell w undef dooffs true (shell_output ws) true = Ok (w', 0) /\ holds w' (if dooffs then offs w else 0) (ws0 ++ ws) /\ offs w' = offs w.
Proof.
  intros S0 (W & ps & V & R). assert (LP : length ps = length ws0) by (clear -R; induction R; cbn; congruence). pose (k := if dooffs then offs w else 0%nat). fold k in V.
  assert (KV : (wordc w + (if dooffs && true then offs w else 0) = k + length ps)%nat) by (unfold k; rewrite andb_true_r; lia).
  assert (EV : firstn (wordc w + length ws + 1 + k) (wordv w ++ repeat Undef (wordc w + length ws + 1 + k)) = (repeat Null k ++ ps) ++ Null :: repeat Undef (length ws)).
  { rewrite V. replace (repeat Null k ++ ps ++ [Null]) with ((repeat Null k ++ ps) ++ [Null]) by (rewrite <- app_assoc; reflexivity). rewrite firstn_app, firstn_all2 by (rewrite !app_length, repeat_length; cbn; lia).
    rewrite !app_length, repeat_length. cbn [length]. replace (wordc w + length ws + 1 + k - (k + length ps + 1))%nat with (length ws) by lia.
    replace (wordc w + length ws + 1 + k)%nat with (length ws + (wordc w + 1 + k))%nat by lia. rewrite undef_repeat, <- !app_assoc. reflexivity. }
  eexists. split; [|split].
  - apply (askshell_tail w undef dooffs true ws (repeat Null k ++ ps) (firstn (length ws) (Null :: repeat Undef (length ws))) (last (Null :: repeat Undef (length ws)) Null) (k + length ps)%nat S0)
      with (v := (repeat Null k ++ ps) ++ Null :: repeat Undef (length ws)).
    + symmetry. exact KV.
    + symmetry. exact EV.
    + rewrite firstn_app, firstn_all2 by (rewrite app_length, repeat_length; lia). rewrite app_length, repeat_length, Nat.sub_diag. cbn [firstn]. rewrite app_nil_r, forallb_app. apply andb_true_intro. split.
      * apply forallb_forall. intros x I. apply repeat_spec in I. subst. reflexivity.
      * clear -R. induction R as [|c w' ps ws' (p & rest & -> & _) H IH]; [reflexivity|]. cbn. exact IH.
    + assert (Y : (Null :: repeat Undef (length ws)) = firstn (length ws) (Null :: repeat Undef (length ws)) ++ [last (Null :: repeat Undef (length ws)) Null]).
      { assert (X : Null :: repeat Undef (length ws) <> []) by discriminate. rewrite (app_removelast_last Null X) at 1. f_equal. rewrite removelast_firstn_len. f_equal. cbn [length]. rewrite repeat_length. reflexivity. }
      rewrite <- Y. rewrite app_length, repeat_length. destruct (Nat.eqb_spec (k + length ps) 0) as [K0|]; [|reflexivity]. destruct dooffs; [|reflexivity]. cbn [andb].
      assert (OF : offs w = 0%nat) by (unfold k in K0; lia). rewrite OF. cbn [fill bind]. do 2 f_equal. lia.
    + apply firstn_length_le. cbn. rewrite repeat_length. lia.
  - split; [cbn; rewrite W, app_length; reflexivity|]. cbn [wordv strings]. exists (ps ++ ptrs (length (strings w)) ws). split.
    + rewrite <- !app_assoc. reflexivity.
    + apply Forall2_app; [apply reads_more; exact R|]. pose proof (ptrs_read ws (strings w) []) as R2. rewrite app_nil_r in R2. exact R2.
  - reflexivity.
Qed.
