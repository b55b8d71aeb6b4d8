From Verif Require Import Base Tree_Model Tree_Spec.
Open Scope Z_scope.

Section P.
Context {K : Type}.
Implicit Types (t : tree K) (cmp : K -> K -> Z).

Ltac assoc := cbn [app]; repeat (rewrite <- app_assoc; cbn [app]); reflexivity.
Ltac okinv H := match type of H with Ok _ = Ok _ => injection H; clear H; intros; subst | _ => discriminate H end.

(** heights stored in nodes are positive *)
Fixpoint pos t : Prop := match t with E => True | T h _ l r => 1 <= h /\ pos l /\ pos r end.
Lemma pos_height t : pos t -> 0 <= height t.
Proof. destruct t; cbn; lia. Qed.

Lemma balance_ok h n l r : pos (T h n l r) ->
  exists t' d, balance (T h n l r) = Ok (t', d) /\ pos t' /\ inorder t' = inorder (T h n l r) /\ d = height t' - h.
Proof.
  intros (Hh & Pl & Pr). pose proof (pos_height l Pl). pose proof (pos_height r Pr). unfold balance.
  destruct (Z.abs (height l - height r) <? 2) eqn:E0.
  - eexists _, _. split; [reflexivity|]. cbn [height pos inorder]. split; [|split; reflexivity].
    split; [|tauto]. destruct (height l <? height r) eqn:E1; lia.
  - destruct (height l <? height r) eqn:E1.
    + destruct r as [|hx x y z]; [cbn in *; lia|]. cbn [pos height] in *. destruct Pr as (Hx & Py & Pz).
      pose proof (pos_height y Py). pose proof (pos_height z Pz). cbn [rotate1].
      destruct (height y >? height z) eqn:E2.
      * destruct y as [|hy yn y0 y1]; [cbn in *; lia|]. cbn [pos height] in *.
        eexists _, _. split; [reflexivity|]. cbn [pos height inorder]. split; [repeat split; tauto || lia|]. split; [|lia].
        assoc.
      * eexists _, _. split; [reflexivity|]. cbn [pos height inorder]. split; [repeat split; tauto || lia|]. split; [|lia].
        assoc.
    + destruct l as [|hx x z y]; [cbn in *; lia|]. cbn [pos height] in *. destruct Pl as (Hx & Pz & Py).
      pose proof (pos_height y Py). pose proof (pos_height z Pz). cbn [rotate0].
      destruct (height y >? height z) eqn:E2.
      * destruct y as [|hy yn y0 y1]; [cbn in *; lia|]. cbn [pos height] in *.
        eexists _, _. split; [reflexivity|]. cbn [pos height inorder]. split; [repeat split; tauto || lia|]. split; [|lia].
        assoc.
      * eexists _, _. split; [reflexivity|]. cbn [pos height inorder]. split; [repeat split; tauto || lia|]. split; [|lia].
        assoc.
Qed.

Lemma balance_up_ok run h n l r : pos (T h n l r) ->
  exists t' run', balance_up run (T h n l r) = Ok (t', run') /\ pos t' /\ inorder t' = inorder (T h n l r) /\
    (run = false -> t' = T h n l r /\ run' = false).
Proof.
  intros P. destruct run; cbn [balance_up].
  - destruct (balance_ok h n l r P) as (t' & d & -> & P' & I & _). cbn [bind]. eexists _, _. split; [reflexivity|]. repeat split; auto; discriminate.
  - eexists _, _. split; [reflexivity|]. auto.
Qed.

(** ** Order *)
Section Ord.
Variable cmp : K -> K -> Z.
Hypothesis O : key_order cmp.

Lemma sgn_neg a b : cmp a b < 0 <-> cmp b a > 0.
Proof. destruct O as [H _]. specialize (H a b). lia. Qed.
Lemma sgn_zero a b : cmp a b = 0 <-> cmp b a = 0.
Proof. destruct O as [H _]. specialize (H a b). lia. Qed.
Lemma cmp_refl a : cmp a a = 0.
Proof. destruct O as [H _]. specialize (H a a). lia. Qed.
Lemma lt_le a b c : cmp a b < 0 -> cmp b c <= 0 -> cmp a c < 0.
Proof.
  intros H1 H2. destruct O as [_ Tr]. pose proof (Tr a b c ltac:(lia) H2).
  destruct (Z.eq_dec (cmp a c) 0) as [E|]; [|lia]. apply sgn_zero in E.
  pose proof (Tr b c a H2 ltac:(lia)). apply sgn_neg in H1. lia.
Qed.
Lemma le_lt a b c : cmp a b <= 0 -> cmp b c < 0 -> cmp a c < 0.
Proof.
  intros H1 H2. destruct O as [_ Tr]. pose proof (Tr a b c H1 ltac:(lia)).
  destruct (Z.eq_dec (cmp a c) 0) as [E|]; [|lia]. apply sgn_zero in E.
  pose proof (Tr c a b ltac:(lia) H1). apply sgn_neg in H2. lia.
Qed.

Notation asc := (ascending cmp).
Lemma asc_app l1 l2 : asc (l1 ++ l2) <-> asc l1 /\ asc l2 /\ (forall x y, In x l1 -> In y l2 -> cmp (key x) (key y) < 0).
Proof.
  unfold ascending. induction l1 as [|a l1 IH]; cbn.
  - split; [intros H; repeat split; [constructor|exact H|intros x y []]|tauto].
  - split.
    + intros H. inversion H as [|? ? H1 H2]; subst. apply IH in H1 as (S1 & S2 & S3). rewrite Forall_app in H2. destruct H2 as [F1 F2].
      split; [constructor; assumption|]. split; [exact S2|]. intros x y [<-|Hx] Hy; [|auto]. rewrite Forall_forall in F2. auto.
    + intros (S1 & S2 & S3). inversion S1 as [|? ? H1 H2]; subst. constructor; [apply IH; auto|].
      rewrite Forall_app. split; [exact H2|]. rewrite Forall_forall. auto.
Qed.
Lemma asc_node l n r : asc (l ++ n :: r) <->
  asc l /\ asc r /\ (forall x, In x l -> cmp (key x) (key n) < 0) /\ (forall y, In y r -> cmp (key n) (key y) < 0) /\
  (forall x y, In x l -> In y r -> cmp (key x) (key y) < 0).
Proof.
  rewrite asc_app. split.
  - intros (S1 & S2 & S3). inversion S2 as [|? ? H1 H2]; subst. rewrite Forall_forall in H2. repeat split; auto.
    + intros x Hx. apply S3; [exact Hx|left; reflexivity].
    + intros x y Hx Hy. apply S3; [exact Hx|right; exact Hy].
  - intros (S1 & S2 & S3 & S4 & S5). repeat split; auto.
    + constructor; [exact S2|]. apply Forall_forall, S4.
    + intros x y Hx [<-|Hy]; auto.
Qed.

(** the position of a key in an ascending list *)
Lemma lookup_app k l1 l2 : lookup cmp k (l1 ++ l2) = match lookup cmp k l1 with Some n => Some n | None => lookup cmp k l2 end.
Proof. unfold lookup. induction l1 as [|a l1 IH]; cbn; [reflexivity|]. destruct (_ =? 0); auto. Qed.
Lemma lookup_cons k n s : lookup cmp k (n :: s) = if cmp k (key n) =? 0 then Some n else lookup cmp k s.
Proof. reflexivity. Qed.
Lemma lookup_none k s : (forall x, In x s -> cmp k (key x) <> 0) -> lookup cmp k s = None.
Proof.
  unfold lookup. induction s as [|a s IH]; cbn; intros H; [reflexivity|].
  destruct (Z.eqb_spec (cmp k (key a)) 0) as [E|]; [exfalso; apply (H a); auto|]. apply IH. auto.
Qed.
Lemma filter_all {A} (f : A -> bool) s : (forall x, In x s -> f x = true) -> filter f s = s.
Proof. induction s as [|a s IH]; cbn; intros H; [reflexivity|]. rewrite H by auto. f_equal. apply IH. auto. Qed.
Lemma filter_none {A} (f : A -> bool) s : (forall x, In x s -> f x = false) -> filter f s = [].
Proof. induction s as [|a s IH]; cbn; intros H; [reflexivity|]. rewrite H by auto. apply IH. auto. Qed.

(** below and above a node *)
Lemma below k l n r : asc (l ++ n :: r) -> cmp k (key n) >= 0 -> forall x, In x l -> cmp k (key x) > 0.
Proof.
  intros S H x Hx. apply asc_node in S as (_ & _ & S & _). specialize (S x Hx).
  apply sgn_neg. apply (lt_le _ (key n)); [exact S|]. destruct O as [Hs _]. specialize (Hs k (key n)). lia.
Qed.
Lemma above k l n r : asc (l ++ n :: r) -> cmp k (key n) <= 0 -> forall x, In x r -> cmp k (key x) < 0.
Proof. intros S H x Hx. apply asc_node in S as (_ & _ & _ & S & _). apply (le_lt _ (key n)); auto. Qed.

Lemma tfind_ok k t : asc (inorder t) -> tfind cmp k t = option_map id (lookup cmp k (inorder t)).
Proof.
  induction t as [|h n l IHl r IHr]; intros S; [reflexivity|]. cbn [inorder tfind] in *. cbv zeta.
  pose proof S as S'. apply asc_node in S' as (Sl & Sr & _).
  rewrite lookup_app.
  destruct (Z.eqb_spec (cmp k (key n)) 0) as [E|E].
  - rewrite lookup_none by (intros x Hx; pose proof (below k _ _ _ S ltac:(lia) x Hx); lia).
    rewrite lookup_cons, E. reflexivity.
  - destruct (cmp k (key n) >? 0) eqn:G.
    + rewrite lookup_none by (intros x Hx; pose proof (below k _ _ _ S ltac:(lia) x Hx); lia).
      rewrite (IHr Sr), lookup_cons. replace (cmp k (key n) =? 0) with false by lia. reflexivity.
    + rewrite (IHl Sl), lookup_cons. replace (cmp k (key n) =? 0) with false by lia.
      rewrite (lookup_none k (inorder r)) by (intros x Hx; pose proof (above k _ _ _ S ltac:(lia) x Hx); lia).
      destruct (lookup cmp k (inorder l)); reflexivity.
Qed.

Definition ins k a (s : list (node K)) : list (node K) :=
  filter (fun n => cmp k (key n) >? 0) s ++ {| id := a; key := k |} :: filter (fun n => cmp k (key n) <? 0) s.

Lemma ins_right k a l n r : asc (l ++ n :: r) -> cmp k (key n) > 0 -> ins k a (l ++ n :: r) = l ++ n :: ins k a r.
Proof.
  intros S H. unfold ins. rewrite !filter_app. cbn [filter]. replace (cmp k (key n) >? 0) with true by lia. replace (cmp k (key n) <? 0) with false by lia.
  rewrite (filter_all _ l), (filter_none _ l) by (intros x Hx; pose proof (below k _ _ _ S ltac:(lia) x Hx); lia).
  rewrite <- app_assoc. reflexivity.
Qed.
Lemma ins_left k a l n r : asc (l ++ n :: r) -> cmp k (key n) < 0 -> ins k a (l ++ n :: r) = ins k a l ++ n :: r.
Proof.
  intros S H. unfold ins. rewrite !filter_app. cbn [filter]. replace (cmp k (key n) >? 0) with false by lia. replace (cmp k (key n) <? 0) with true by lia.
  rewrite (filter_none _ r), (filter_all _ r) by (intros x Hx; pose proof (above k _ _ _ S ltac:(lia) x Hx); lia).
  rewrite app_nil_r, <- app_assoc. reflexivity.
Qed.

Lemma asc_ins k a s : asc s -> lookup cmp k s = None -> asc (ins k a s).
Proof.
  intros S H. assert (N : forall x, In x s -> cmp k (key x) <> 0).
  { intros x Hx E. pose proof (find_none _ _ H x Hx) as F. cbn in F. lia. }
  assert (FS : forall f, asc (filter f s)).
  { intros f. unfold ascending in *. clear H N. induction S as [|x s S IH F]; cbn; [constructor|]. destruct (f x); [|exact IH].
    constructor; [exact IH|]. rewrite Forall_forall in *. intros y Hy. apply filter_In in Hy as [Hy _]. auto. }
  unfold ins. apply asc_node. repeat split; auto; cbn.
  - intros x Hx. apply filter_In in Hx as [_ Hx]. apply sgn_neg. lia.
  - intros x Hx. apply filter_In in Hx as [_ Hx]. lia.
  - intros x y Hx Hy. apply filter_In in Hx as [_ Hx]. apply filter_In in Hy as [_ Hy].
    apply (lt_le _ k); [apply sgn_neg; lia|lia].
Qed.

Lemma tsearch_ok k m t : pos t -> asc (inorder t) ->
  exists t' run f, tsearch_ cmp k m t = Ok (t', run, f) /\ pos t' /\
    match lookup cmp k (inorder t), m with
    | Some n, _ => t' = t /\ run = false /\ f = Found (id n)
    | None, None => t' = t /\ run = false /\ f = NoMem
    | None, Some a => f = Inserted a /\ inorder t' = ins k a (inorder t)
    end.
Proof.
  induction t as [|h n l IHl r IHr]; intros P S.
  - cbn. destruct m; eexists _, _, _; (split; [reflexivity|]); cbn; repeat split; lia.
  - cbn [tsearch_]. cbv zeta. pose proof P as (Hh & Pl & Pr). cbn [inorder] in *. pose proof S as S'. apply asc_node in S' as (Sl & Sr & _).
    destruct (Z.eqb_spec (cmp k (key n)) 0) as [E|E]; [|destruct (cmp k (key n) >? 0) eqn:G].
    + eexists _, _, _. split; [reflexivity|]. split; [exact P|]. rewrite lookup_app.
      rewrite lookup_none by (intros x Hx; pose proof (below k _ _ _ S ltac:(lia) x Hx); lia).
      rewrite lookup_cons, E. cbn. auto.
    + destruct (IHr Pr Sr) as (r' & run & f & -> & Pr' & C). cbn [bind].
      destruct (balance_up_ok run h n l r') as (t' & run' & -> & P' & I & F); [cbn; auto|]. cbn [bind].
      eexists _, _, _. split; [reflexivity|]. split; [exact P'|]. rewrite lookup_app.
      rewrite lookup_none by (intros x Hx; pose proof (below k _ _ _ S ltac:(lia) x Hx); lia).
      rewrite lookup_cons. replace (cmp k (key n) =? 0) with false by lia.
      destruct (lookup cmp k (inorder r)) as [n'|]; [|destruct m as [a|]].
      * destruct C as (-> & -> & ->). destruct (F eq_refl) as [-> ->]. auto.
      * destruct C as (-> & C). split; [reflexivity|]. rewrite I, (ins_right _ _ _ _ _ S) by lia. cbn. rewrite C. reflexivity.
      * destruct C as (-> & -> & ->). destruct (F eq_refl) as [-> ->]. auto.
    + destruct (IHl Pl Sl) as (l' & run & f & -> & Pl' & C). cbn [bind].
      destruct (balance_up_ok run h n l' r) as (t' & run' & -> & P' & I & F); [cbn; auto|]. cbn [bind].
      eexists _, _, _. split; [reflexivity|]. split; [exact P'|]. rewrite lookup_app.
      assert (L2 : lookup cmp k (n :: inorder r) = None).
      { apply lookup_none. intros x [<-|Hx]; [exact E|]. pose proof (above k _ _ _ S ltac:(lia) x Hx). lia. }
      rewrite L2. destruct (lookup cmp k (inorder l)) as [n'|]; [|destruct m as [a|]].
      * destruct C as (-> & -> & ->). destruct (F eq_refl) as [-> ->]. auto.
      * destruct C as (-> & C). split; [reflexivity|]. rewrite I, (ins_left _ _ _ _ _ S) by lia. cbn. rewrite C. reflexivity.
      * destruct C as (-> & -> & ->). destruct (F eq_refl) as [-> ->]. auto.
Qed.

Lemma cut_max_ok t : pos t -> t <> E -> exists t' run h n, cut_max t = Ok (t', run, (h, n)) /\ pos t' /\ 1 <= h /\ inorder t = inorder t' ++ [n].
Proof.
  induction t as [|h n l _ r IH]; intros P N; [congruence|]. destruct P as (Hh & Pl & Pr). destruct r as [|hr nr rl rr].
  - cbn [cut_max]. eexists _, _, _, _. split; [reflexivity|]. auto.
  - destruct (IH Pr ltac:(discriminate)) as (r' & run & h' & n' & E1 & Pr' & Hh' & I). cbn [cut_max]. cbn [cut_max] in E1. rewrite E1. cbn [bind].
    destruct (balance_up_ok run h n l r') as (t' & run' & -> & P' & I' & _); [cbn; auto|]. cbn [bind].
    eexists _, _, _, _. split; [reflexivity|]. split; [exact P'|]. split; [exact Hh'|]. rewrite I'. cbn [inorder] in *. rewrite I, <- app_assoc. reflexivity.
Qed.

Definition del k (s : list (node K)) := filter (fun n => negb (cmp k (key n) =? 0)) s.
Lemma del_eq k l n r : asc (l ++ n :: r) -> cmp k (key n) = 0 -> del k (l ++ n :: r) = l ++ r.
Proof.
  intros S H. unfold del. rewrite filter_app. cbn [filter]. rewrite H. cbn [Z.eqb negb].
  rewrite (filter_all _ l) by (intros x Hx; pose proof (below k _ _ _ S ltac:(lia) x Hx); lia).
  rewrite (filter_all _ r) by (intros x Hx; pose proof (above k _ _ _ S ltac:(lia) x Hx); lia). reflexivity.
Qed.
Lemma del_right k l n r : asc (l ++ n :: r) -> cmp k (key n) > 0 -> del k (l ++ n :: r) = l ++ n :: del k r.
Proof.
  intros S H. unfold del. rewrite filter_app. cbn [filter]. replace (cmp k (key n) =? 0) with false by lia. cbn [negb].
  rewrite (filter_all _ l) by (intros x Hx; pose proof (below k _ _ _ S ltac:(lia) x Hx); lia). reflexivity.
Qed.
Lemma del_left k l n r : asc (l ++ n :: r) -> cmp k (key n) < 0 -> del k (l ++ n :: r) = del k l ++ n :: r.
Proof.
  intros S H. unfold del. rewrite filter_app. cbn [filter]. replace (cmp k (key n) =? 0) with false by lia. cbn [negb].
  rewrite (filter_all _ r) by (intros x Hx; pose proof (above k _ _ _ S ltac:(lia) x Hx); lia). reflexivity.
Qed.

Lemma tdelete_ok k t : forall par, pos t -> asc (inorder t) ->
  exists t' run f, tdelete_ cmp k par t = Ok (t', run, f) /\ pos t' /\ inorder t' = del k (inorder t) /\
    match lookup cmp k (inorder t) with
    | Some n => exists a, f = Some a
    | None => t' = t /\ run = false /\ f = None
    end.
Proof.
  induction t as [|h n l IHl r IHr]; intros par P S.
  - cbn. eexists _, _, _. split; [reflexivity|]. auto.
  - cbn [tdelete_]. cbv zeta. pose proof P as (Hh & Pl & Pr). cbn [inorder] in *. pose proof S as S'. apply asc_node in S' as (Sl & Sr & _).
    destruct (Z.eqb_spec (cmp k (key n)) 0) as [E|E]; [|destruct (cmp k (key n) >? 0) eqn:G].
    + rewrite (del_eq k _ _ _ S E).
      assert (L : lookup cmp k (inorder l ++ n :: inorder r) = Some n).
      { rewrite lookup_app, lookup_none by (intros x Hx; pose proof (below k _ _ _ S ltac:(lia) x Hx); lia).
        rewrite lookup_cons, E. reflexivity. }
      rewrite L. clear L. destruct l as [|hl ln l0 l1], r as [|hr rn r0 r1].
      * eexists _, _, _. split; [reflexivity|]. cbn. eauto.
      * destruct (balance_up_ok true hr rn r0 r1 Pr) as (t' & run & -> & P' & I & _). cbn [bind].
        eexists _, _, _. split; [reflexivity|]. split; [exact P'|]. split; [exact I|]. eauto.
      * destruct (balance_up_ok true hl ln l0 l1 Pl) as (t' & run & -> & P' & I & _). cbn [bind].
        eexists _, _, _. split; [destruct l1; reflexivity|]. split; [exact P'|]. split; [rewrite I; cbn; rewrite app_nil_r; reflexivity|]. eauto.
      * destruct l1 as [|h1 n1 l10 l11].
        -- destruct (balance_up_ok true hl ln l0 (T hr rn r0 r1)) as (t' & run & -> & P' & I & _); [cbn in *; tauto|]. cbn [bind].
           eexists _, _, _. split; [reflexivity|]. split; [exact P'|]. split; [rewrite I; cbn; rewrite <- app_assoc; reflexivity|]. eauto.
        -- destruct Pl as (Hhl & Pl0 & Pl1).
           destruct (cut_max_ok (T h1 n1 l10 l11) Pl1 ltac:(discriminate)) as (l1' & run & hp & pn & -> & P1 & Hp & I1). cbn [bind].
           destruct (balance_up_ok run hp pn (T hl ln l0 l1') (T hr rn r0 r1)) as (t' & run' & -> & P' & I & _); [cbn [pos] in *; tauto|]. cbn [bind].
           eexists _, _, _. split; [reflexivity|]. split; [exact P'|]. split; [|eauto].
           rewrite I. cbn [inorder] in *. rewrite I1. repeat (rewrite <- app_assoc; cbn [app]). reflexivity.
    + destruct (IHr (Some (id n)) Pr Sr) as (r' & run & f & -> & Pr' & I & C). cbn [bind].
      destruct (balance_up_ok run h n l r') as (t' & run' & -> & P' & I' & F); [cbn; auto|]. cbn [bind].
      eexists _, _, _. split; [reflexivity|]. split; [exact P'|]. rewrite (del_right k _ _ _ S) by lia.
      split; [rewrite I'; cbn; rewrite I; reflexivity|]. rewrite lookup_app.
      rewrite lookup_none by (intros x Hx; pose proof (below k _ _ _ S ltac:(lia) x Hx); lia).
      rewrite lookup_cons. replace (cmp k (key n) =? 0) with false by lia.
      destruct (lookup cmp k (inorder r)) as [n'|]; [exact C|]. destruct C as (-> & -> & ->). destruct (F eq_refl) as [-> ->]. auto.
    + destruct (IHl (Some (id n)) Pl Sl) as (l' & run & f & -> & Pl' & I & C). cbn [bind].
      destruct (balance_up_ok run h n l' r) as (t' & run' & -> & P' & I' & F); [cbn; auto|]. cbn [bind].
      eexists _, _, _. split; [reflexivity|]. split; [exact P'|]. rewrite (del_left k _ _ _ S) by lia.
      split; [rewrite I'; cbn; rewrite I; reflexivity|]. rewrite lookup_app.
      assert (L2 : lookup cmp k (n :: inorder r) = None).
      { apply lookup_none. intros x [<-|Hx]; [exact E|]. pose proof (above k _ _ _ S ltac:(lia) x Hx). lia. }
      rewrite L2. destruct (lookup cmp k (inorder l)) as [n'|]; [exact C|]. destruct C as (-> & -> & ->). destruct (F eq_refl) as [-> ->]. auto.
Qed.

Lemma asc_filter f s : asc s -> asc (filter f s).
Proof.
  unfold ascending. intros S. induction S as [|x s S IH F]; cbn; [constructor|]. destruct (f x); [|exact IH].
  constructor; [exact IH|]. rewrite Forall_forall in *. intros y Hy. apply filter_In in Hy as [Hy _]. auto.
Qed.

Lemma step_ok t o : pos t -> asc (inorder t) ->
  exists t', tree_step cmp t o = Ok (t', snd (set_step cmp (inorder t) o)) /\ pos t' /\
    inorder t' = fst (set_step cmp (inorder t) o) /\ asc (inorder t').
Proof.
  intros P S. destruct o as [k m|k|k]; cbn [tree_step set_step].
  - unfold tsearch. destruct (tsearch_ok k m t P S) as (t' & run & f & -> & P' & C). cbn [bind]. exists t'.
    destruct (lookup cmp k (inorder t)) as [n|] eqn:L; [|destruct m as [a|]]; cbn [fst snd].
    + destruct C as (-> & _ & ->). auto.
    + destruct C as (-> & I). unfold ins in I. rewrite I. split; [reflexivity|]. split; [exact P'|]. split; [reflexivity|]. apply asc_ins; assumption.
    + destruct C as (-> & _ & ->). auto.
  - exists t. cbn [fst snd]. rewrite tfind_ok by exact S. auto.
  - unfold tdelete. destruct (tdelete_ok k t None P S) as (t' & run & f & -> & P' & I & C). cbn [bind]. exists t'. cbn [fst snd].
    unfold del in I. split; [|split; [exact P'|split; [exact I|rewrite I; apply asc_filter, S]]].
    destruct (lookup cmp k (inorder t)); [destruct C as [a ->]; reflexivity|]. destruct C as (_ & _ & ->). reflexivity.
Qed.

Lemma run_ok ops : forall t, pos t -> asc (inorder t) ->
  exists t', tree_run cmp t ops = Ok (t', snd (set_run cmp (inorder t) ops)) /\ pos t' /\
    inorder t' = fst (set_run cmp (inorder t) ops) /\ asc (inorder t').
Proof.
  induction ops as [|o ops IH]; intros t P S; [exists t; auto|]. cbn [tree_run set_run].
  destruct (step_ok t o P S) as (t1 & -> & P1 & I1 & S1). cbn [bind].
  destruct (IH t1 P1 S1) as (t2 & E2 & P2 & I2 & S2). rewrite I1 in *. destruct (set_step cmp (inorder t) o) as [s1 r1]. cbn [fst snd] in *. subst s1.
  rewrite E2. cbn [bind]. destruct (set_run cmp (inorder t1) ops) as [s2 r2]. cbn [fst snd] in *. exists t2. auto.
Qed.
End Ord.

(** ** Balance *)
Fixpoint avl t : Prop :=
  match t with
  | E => True
  | T h _ l r => avl l /\ avl r /\ Z.abs (height l - height r) <= 1 /\ h = 1 + Z.max (height l) (height r)
  end.
Lemma avl_nonneg t : avl t -> 0 <= height t.
Proof. induction t as [|h n l IHl r IHr]; cbn [avl height pos real_height balanced]; [lia|]. intros (A & B & C & ->). specialize (IHl A). specialize (IHr B). lia. Qed.
Lemma avl_pos t : avl t -> pos t.
Proof.
  induction t as [|h n l IHl r IHr]; cbn [avl height pos real_height balanced]; [auto|]. intros (A & B & C & ->). pose proof (avl_nonneg l A). pose proof (avl_nonneg r B).
  repeat split; auto. lia.
Qed.
Lemma avl_real t : avl t -> real_height t = height t /\ balanced t.
Proof.
  induction t as [|h n l IHl r IHr]; cbn [avl height pos real_height balanced]; [auto|]. intros (A & B & C & ->). destruct (IHl A) as [-> Bl]. destruct (IHr B) as [-> Br]. auto.
Qed.

Lemma balance_avl h n l r : avl l -> avl r -> Z.abs (height l - height r) <= 2 ->
  exists t' d, balance (T h n l r) = Ok (t', d) /\ avl t' /\ d = height t' - h /\
    (Z.abs (height l - height r) <= 1 -> height t' = 1 + Z.max (height l) (height r)) /\
    Z.max (height l) (height r) <= height t' <= 1 + Z.max (height l) (height r).
Proof.
  intros Al Ar D. pose proof (avl_nonneg l Al). pose proof (avl_nonneg r Ar). unfold balance.
  destruct (Z.abs (height l - height r) <? 2) eqn:E0.
  - eexists _, _. split; [reflexivity|]. cbn [height avl]. destruct (height l <? height r) eqn:E1; repeat split; auto; lia.
  - destruct (height l <? height r) eqn:E1.
    + destruct r as [|hx x y z]; [cbn in *; lia|]. cbn [avl height] in *. destruct Ar as (Ay & Az & Dx & Hx).
      pose proof (avl_nonneg y Ay). pose proof (avl_nonneg z Az). cbn [rotate1].
      destruct (height y >? height z) eqn:E2.
      * destruct y as [|hy yn y0 y1]; [cbn in *; lia|]. cbn [avl height] in *. destruct Ay as (A0 & A1 & Dy & Hy).
        pose proof (avl_nonneg y0 A0). pose proof (avl_nonneg y1 A1).
        eexists _, _. split; [reflexivity|]. cbn [avl height]. repeat split; auto; lia.
      * eexists _, _. split; [reflexivity|]. cbn [avl height]. repeat split; auto; lia.
    + destruct l as [|hx x z y]; [cbn in *; lia|]. cbn [avl height] in *. destruct Al as (Az & Ay & Dx & Hx).
      pose proof (avl_nonneg y Ay). pose proof (avl_nonneg z Az). cbn [rotate0].
      destruct (height y >? height z) eqn:E2.
      * destruct y as [|hy yn y0 y1]; [cbn in *; lia|]. cbn [avl height] in *. destruct Ay as (A0 & A1 & Dy & Hy).
        pose proof (avl_nonneg y0 A0). pose proof (avl_nonneg y1 A1).
        eexists _, _. split; [reflexivity|]. cbn [avl height]. repeat split; auto; lia.
      * eexists _, _. split; [reflexivity|]. cbn [avl height]. repeat split; auto; lia.
Qed.

Lemma tsearch_avl cmp k m t : avl t -> exists t' run f, tsearch_ cmp k m t = Ok (t', run, f) /\ avl t' /\
  height t' = height t + (if run then 1 else 0).
Proof.
  induction t as [|h n l IHl r IHr]; intros A.
  - cbn. destruct m; eexists _, _, _; (split; [reflexivity|]); cbn; repeat split; lia.
  - cbn [tsearch_]. cbv zeta. destruct (cmp k (key n) =? 0); [eexists _, _, _; split; [reflexivity|split; [exact A|lia]]|].
    destruct A as (Al & Ar & D & Hh). destruct (cmp k (key n) >? 0).
    + destruct (IHr Ar) as (r' & run & f & -> & Ar' & Hr). cbn [bind]. destruct run; cbn [balance_up].
      * destruct (balance_avl h n l r' Al Ar' ltac:(lia)) as (t' & d & -> & A' & -> & H1 & H2). cbn [bind].
        eexists _, _, _. split; [reflexivity|]. split; [exact A'|]. cbn [height].
        destruct (Z.eqb_spec (height t' - h) 0); cbv beta iota delta [negb]; [lia|]. destruct (Z.le_gt_cases (Z.abs (height l - height r')) 1) as [L|L]; [specialize (H1 L); lia|lia].
      * eexists _, _, _. split; [reflexivity|]. cbn [avl height]. rewrite Z.add_0_r in Hr. rewrite Hr. auto with zarith.
    + destruct (IHl Al) as (l' & run & f & -> & Al' & Hl). cbn [bind]. destruct run; cbn [balance_up].
      * destruct (balance_avl h n l' r Al' Ar ltac:(lia)) as (t' & d & -> & A' & -> & H1 & H2). cbn [bind].
        eexists _, _, _. split; [reflexivity|]. split; [exact A'|]. cbn [height].
        destruct (Z.eqb_spec (height t' - h) 0); cbv beta iota delta [negb]; [lia|]. destruct (Z.le_gt_cases (Z.abs (height l' - height r)) 1) as [L|L]; [specialize (H1 L); lia|lia].
      * eexists _, _, _. split; [reflexivity|]. cbn [avl height]. rewrite Z.add_0_r in Hl. rewrite Hl. auto with zarith.
Qed.

(** the node with a given key has no children *)
Fixpoint at_leaf cmp (k : K) t : Prop :=
  match t with
  | E => True
  | T _ n l r => if cmp k (key n) =? 0 then l = E /\ r = E
                 else if cmp k (key n) >? 0 then at_leaf cmp k r else at_leaf cmp k l
  end.
Lemma tdelete_leaf cmp k t : forall par, avl t -> at_leaf cmp k t -> exists t' run f, tdelete_ cmp k par t = Ok (t', run, f) /\ avl t' /\
  height t' = height t - (if run then 1 else 0).
Proof.
  induction t as [|h n l IHl r IHr]; intros par A L.
  - cbn. eexists _, _, _. split; [reflexivity|]. cbn. auto.
  - cbn [tdelete_ at_leaf] in *. cbv zeta. destruct (cmp k (key n) =? 0).
    { destruct L as [-> ->]. eexists _, _, _. split; [reflexivity|]. cbn in *. lia. }
    destruct A as (Al & Ar & D & Hh). destruct (cmp k (key n) >? 0).
    + destruct (IHr (Some (id n)) Ar L) as (r' & run & f & -> & Ar' & Hr). cbn [bind]. destruct run; cbn [balance_up].
      * destruct (balance_avl h n l r' Al Ar' ltac:(lia)) as (t' & d & -> & A' & -> & H1 & H2). cbn [bind].
        eexists _, _, _. split; [reflexivity|]. split; [exact A'|]. cbn [height].
        destruct (Z.eqb_spec (height t' - h) 0); cbv beta iota delta [negb]; [lia|]. destruct (Z.le_gt_cases (Z.abs (height l - height r')) 1) as [L1|L1]; [specialize (H1 L1); lia|lia].
      * eexists _, _, _. split; [reflexivity|]. cbn [avl height]. rewrite Z.sub_0_r in Hr. rewrite Hr. auto with zarith.
    + destruct (IHl (Some (id n)) Al L) as (l' & run & f & -> & Al' & Hl). cbn [bind]. destruct run; cbn [balance_up].
      * destruct (balance_avl h n l' r Al' Ar ltac:(lia)) as (t' & d & -> & A' & -> & H1 & H2). cbn [bind].
        eexists _, _, _. split; [reflexivity|]. split; [exact A'|]. cbn [height].
        destruct (Z.eqb_spec (height t' - h) 0); cbv beta iota delta [negb]; [lia|]. destruct (Z.le_gt_cases (Z.abs (height l' - height r)) 1) as [L1|L1]; [specialize (H1 L1); lia|lia].
      * eexists _, _, _. split; [reflexivity|]. cbn [avl height]. rewrite Z.sub_0_r in Hl. rewrite Hl. auto with zarith.
Qed.

Definition sz t : Z := Z.of_nat (length (inorder t)).
Lemma sq_mono a b : 0 <= b -> b * b <= a * a -> 0 <= a -> b <= a.
Proof. nia. Qed.
Lemma avl_size t : avl t -> 2 ^ height t <= (sz t + 1) * (sz t + 1).
Proof.
  induction t as [|h n l IHl r IHr]; [cbn; lia|]. intros (Al & Ar & D & Hh). specialize (IHl Al). specialize (IHr Ar).
  pose proof (avl_nonneg l Al). pose proof (avl_nonneg r Ar). cbn [height].
  assert (Hs : sz (T h n l r) + 1 = (sz l + 1) + (sz r + 1)) by (unfold sz; cbn; rewrite app_length; cbn; lia).
  rewrite Hs. assert (0 <= sz l) by (unfold sz; lia). assert (0 <= sz r) by (unfold sz; lia).
  set (a := sz l + 1) in *. set (b := sz r + 1) in *. clear Hs.
  assert (P : forall x y, 0 <= y -> x = y + 1 -> 2 ^ x = 2 * 2 ^ y) by (intros x y Hy ->; rewrite Z.pow_add_r by lia; lia).
  destruct (Z.lt_trichotomy (height l) (height r)) as [L|[L|L]].
  - assert (E1 : height r = height l + 1) by lia. rewrite (P h (height r)) by lia. rewrite (P (height r) (height l)) in * by lia.
    set (p := 2 ^ height l) in *. assert (0 < p) by (apply Z.pow_pos_nonneg; lia).
    assert (p <= a * b) by (apply sq_mono; nia). nia.
  - rewrite (P h (height l)) by lia. rewrite <- L in *. set (p := 2 ^ height l) in *. assert (0 < p) by (apply Z.pow_pos_nonneg; lia).
    nia.
  - assert (E1 : height l = height r + 1) by lia. rewrite (P h (height l)) by lia. rewrite (P (height l) (height r)) in * by lia.
    set (p := 2 ^ height r) in *. assert (0 < p) by (apply Z.pow_pos_nonneg; lia).
    assert (p <= a * b) by (apply sq_mono; nia). nia.
Qed.
Lemma cost_height cmp k t : cost cmp k t <= real_height t.
Proof.
  induction t as [|h n l IHl r IHr]; cbn [cost real_height]; [lia|].
  assert (forall t, 0 <= real_height t) by (induction t as [|? ? a Ha b Hb]; cbn [real_height]; lia). pose proof (H l). pose proof (H r).
  cbv zeta; destruct (_ =? 0); [lia|]. destruct (_ >? 0); lia.
Qed.

(** ** Walking and destroying *)
Fixpoint steps t : nat := match t with E => 0 | T _ _ E E => 1 | T _ _ l r => 3 + steps l + steps r end%nat.

Lemma walk_ok t : t <> E -> forall fuel st d rest, (forall f, (fuel <= f)%nat -> twalk_loop f st (d - 1) = Ok rest) ->
  forall f, (steps t + fuel <= f)%nat -> twalk_loop f ((t, preorder) :: st) d = Ok (walk d t ++ rest).
Proof.
  induction t as [|h n l IHl r IHr]; intros N fuel st d rest Hr f Hf; [congruence|]. clear N.
  destruct l as [|hl nl ll lr], r as [|hr nr rl rr].
  - cbn [steps walk] in *. destruct f as [|f]; [lia|]. cbn. rewrite Hr by lia. reflexivity.
  - set (r := T hr nr rl rr) in *. set (t := T h n E r) in *.
    assert (EW : walk d t = (id n, preorder, d) :: (id n, postorder, d) :: walk (d + 1) r ++ [(id n, endorder, d)]) by reflexivity.
    assert (ES : steps t = (3 + steps r)%nat) by reflexivity. rewrite ES in Hf.
    assert (H2 : forall f, (1 + fuel <= f)%nat -> twalk_loop f ((t, endorder) :: st) d = Ok ((id n, endorder, d) :: rest)).
    { intros f0 Hf0. destruct f0 as [|f0]; [lia|]. cbn. rewrite Hr by lia. reflexivity. }
    rewrite EW. destruct f as [|[|f]]; [lia|lia|].
    transitivity (x <- twalk_loop f ((r, preorder) :: (t, endorder) :: st) (d + 1) ;; Ok ((id n, preorder, d) :: (id n, postorder, d) :: x)).
    { cbn [twalk_loop t r]. fold r. fold t. destruct (twalk_loop f _ _); reflexivity. }
    rewrite (IHr ltac:(discriminate) (1 + fuel)%nat ((t, endorder) :: st) (d + 1) ((id n, endorder, d) :: rest)); [|intros f0 Hf0; replace (d + 1 - 1) with d by lia; apply H2; lia|lia].
    cbn [bind app]. rewrite <- app_assoc. reflexivity.
  - set (l := T hl nl ll lr) in *. set (t := T h n l E) in *.
    assert (EW : walk d t = (id n, preorder, d) :: walk (d + 1) l ++ (id n, postorder, d) :: [(id n, endorder, d)]) by reflexivity.
    assert (ES : steps t = (3 + steps l + 0)%nat) by reflexivity. rewrite ES in Hf.
    assert (H2 : forall f, (2 + fuel <= f)%nat -> twalk_loop f ((t, postorder) :: st) d = Ok ((id n, postorder, d) :: (id n, endorder, d) :: rest)).
    { intros f0 Hf0. destruct f0 as [|[|f0]]; [lia|lia|]. cbn. rewrite Hr by lia. reflexivity. }
    rewrite EW. destruct f as [|f]; [lia|].
    transitivity (x <- twalk_loop f ((l, preorder) :: (t, postorder) :: st) (d + 1) ;; Ok ((id n, preorder, d) :: x)).
    { reflexivity. }
    rewrite (IHl ltac:(discriminate) (2 + fuel)%nat ((t, postorder) :: st) (d + 1) ((id n, postorder, d) :: (id n, endorder, d) :: rest)); [|intros f0 Hf0; replace (d + 1 - 1) with d by lia; apply H2; lia|lia].
    cbn [bind app]. rewrite <- app_assoc. reflexivity.
  - set (l := T hl nl ll lr) in *. set (r := T hr nr rl rr) in *. set (t := T h n l r) in *.
    assert (EW : walk d t = (id n, preorder, d) :: walk (d + 1) l ++ (id n, postorder, d) :: walk (d + 1) r ++ [(id n, endorder, d)]) by reflexivity.
    assert (ES : steps t = (3 + steps l + steps r)%nat) by reflexivity. rewrite ES in Hf.
    assert (H2 : forall f, (1 + fuel <= f)%nat -> twalk_loop f ((t, endorder) :: st) d = Ok ((id n, endorder, d) :: rest)).
    { intros f0 Hf0. destruct f0 as [|f0]; [lia|]. cbn. rewrite Hr by lia. reflexivity. }
    assert (H3 : forall f, (2 + steps r + fuel <= f)%nat -> twalk_loop f ((t, postorder) :: st) d =
                   Ok ((id n, postorder, d) :: walk (d + 1) r ++ (id n, endorder, d) :: rest)).
    { intros f0 Hf0. destruct f0 as [|f0]; [lia|].
      transitivity (x <- twalk_loop f0 ((r, preorder) :: (t, endorder) :: st) (d + 1) ;; Ok ((id n, postorder, d) :: x)); [reflexivity|].
      rewrite (IHr ltac:(discriminate) (1 + fuel)%nat ((t, endorder) :: st) (d + 1) ((id n, endorder, d) :: rest)); [reflexivity|intros f1 Hf1; replace (d + 1 - 1) with d by lia; apply H2; lia|lia]. }
    rewrite EW. destruct f as [|f]; [lia|].
    transitivity (x <- twalk_loop f ((l, preorder) :: (t, postorder) :: st) (d + 1) ;; Ok ((id n, preorder, d) :: x)); [reflexivity|].
    rewrite (IHl ltac:(discriminate) (2 + steps r + fuel)%nat ((t, postorder) :: st) (d + 1) ((id n, postorder, d) :: walk (d + 1) r ++ (id n, endorder, d) :: rest)); [|intros f0 Hf0; replace (d + 1 - 1) with d by lia; apply H3; lia|lia].
    cbn [bind app]. repeat (rewrite <- app_assoc; cbn [app]). reflexivity.
Qed.

Lemma steps_size t : (steps t <= 3 * length (inorder t))%nat.
Proof.
  induction t as [|h n l IHl r IHr]; [cbn; lia|]. cbn [inorder]. rewrite app_length. cbn [length].
  destruct l; [destruct r|]; cbn [steps] in *; lia.
Qed.

Lemma twalk_ok fuel t : (3 * length (inorder t) < fuel)%nat -> twalk fuel t = Ok (walk 0 t).
Proof.
  intros Hf. pose proof (steps_size t). destruct t as [|h n l r]; [reflexivity|]. unfold twalk.
  rewrite (walk_ok (T h n l r) ltac:(discriminate) 1%nat [] 0 []); [rewrite app_nil_r; reflexivity| |lia].
  intros f Hf'. destruct f; [lia|reflexivity].
Qed.

Lemma destroy_ok t : forall fuel st rest, (forall f, (fuel <= f)%nat -> tdestroy_loop f E st = Ok rest) ->
  forall f, (2 * length (inorder t) + fuel <= f)%nat -> tdestroy_loop f t st = Ok (inorder t ++ rest).
Proof.
  induction t as [|h n l IHl r IHr]; intros fuel st rest H f Hf; [apply H; cbn in Hf; lia|].
  cbn [inorder] in *. rewrite app_length in Hf. cbn [length] in Hf. destruct f as [|f]; [lia|]. cbn [tdestroy_loop].
  rewrite (IHl (1 + 2 * length (inorder r) + fuel)%nat (T h n l r :: st) (n :: inorder r ++ rest)); [rewrite <- app_assoc; reflexivity| |lia].
  intros f0 Hf0. destruct f0 as [|f0]; [lia|]. cbn [tdestroy_loop]. rewrite (IHr fuel st rest H) by lia. reflexivity.
Qed.
Lemma tdestroy_ok fuel t : (2 * length (inorder t) < fuel)%nat -> tdestroy fuel t = Ok (inorder t).
Proof.
  intros Hf. unfold tdestroy. rewrite (destroy_ok t 1%nat [] []); [rewrite app_nil_r; reflexivity| |lia].
  intros f Hf'. destruct f; [lia|reflexivity].
Qed.
End P.
