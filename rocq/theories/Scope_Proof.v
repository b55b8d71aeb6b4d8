(** Proofs about scopes. *)
From Verif Require Import Base Deps_Model Deps_Spec Deps_Proof Scope_Model Scope_Spec.
Open Scope Z_scope.

Lemma find_app_or : forall (f : Z -> bool) l1 l2, find f (l1 ++ l2) = match find f l1 with Some y => Some y | None => find f l2 end.
Proof. induction l1 as [|x l1 IH]; intro l2; cbn; [reflexivity|]. destruct (f x); [reflexivity|apply IH]. Qed.
Lemma find_fresh : forall (f : Z -> bool) l seen, (forall y, In y seen -> f y = false) -> find f (fresh seen l) = find f l.
Proof.
  induction l as [|x l IH]; intros seen H; cbn [fresh find]; [reflexivity|]. destruct (in_dec Z.eq_dec x seen) as [I|I].
  - rewrite (H x I). apply IH; exact H.
  - cbn [find]. destruct (f x) eqn:E; [reflexivity|]. apply IH. intros y [<-|Hy]; [exact E|exact (H y Hy)].
Qed.
Lemma find_append : forall (f : Z -> bool) g l, find f (g ++ fresh g l) = find f (g ++ l).
Proof.
  intros f g l. rewrite !find_app_or. destruct (find f g) eqn:E; [reflexivity|]. apply find_fresh. intros y Hy. exact (find_none _ _ E y Hy).
Qed.
Lemma fresh_none : forall seen l, incl l seen -> fresh seen l = [].
Proof.
  intros seen l; revert seen. induction l as [|x l IH]; intros seen H; cbn [fresh]; [reflexivity|].
  destruct (in_dec Z.eq_dec x seen) as [I|I]; [apply IH; intros y Hy; apply H; right; exact Hy|]. destruct I; apply H; left; reflexivity.
Qed.
Lemma append_fresh : forall l x r, append l x ++ fresh (append l x) r = l ++ fresh l (x :: r).
Proof.
  intros l x r. unfold append. cbn [fresh]. destruct (mem_b x l) eqn:E.
  - apply mem_b_In in E. destruct (in_dec Z.eq_dec x l); [reflexivity|contradiction].
  - destruct (in_dec Z.eq_dec x l) as [I|I]; [apply mem_b_In in I; congruence|]. rewrite <- app_assoc. cbn [app]. f_equal. f_equal.
    assert (G : forall r s1 s2, (forall y, In y s1 <-> In y s2) -> fresh s1 r = fresh s2 r).
    { clear. induction r as [|z r IH]; intros s1 s2 H; cbn [fresh]; [reflexivity|].
      destruct (in_dec Z.eq_dec z s1) as [A|A]; destruct (in_dec Z.eq_dec z s2) as [B|B].
      - apply IH; exact H.
      - destruct B; apply H; exact A.
      - destruct A; apply H; exact B.
      - f_equal. apply IH. intro y; cbn [In]. rewrite H; reflexivity. }
    apply G. intro y. rewrite in_app_iff. cbn [In]. tauto.
Qed.

Lemma promote_global : forall bfs r s, r <> 0 ->
  let s' := promote bfs r None s in
  counter s' = counter s /\ global s' = global s ++ fresh (global s) bfs /\ locals s' = locals s /\ scope s' = scope s /\ object_rts s' = object_rts s /\
  forall x, global_rts s' x = if (global_rts s x =? 0) && mem_b x bfs then r else global_rts s x.
Proof.
  induction bfs as [|x bfs IH]; intros r s Hr; cbn [promote].
  - cbn. rewrite app_nil_r. repeat (split; [reflexivity|]). intro x. rewrite andb_false_r. reflexivity.
  - match goal with |- context [promote bfs r None ?t] => set (s1 := t) end. destruct (IH r s1 Hr) as (A & B & C & D & E & F).
    split; [exact A|]. split; [rewrite B; unfold s1; cbn [global]; apply append_fresh|]. split; [exact C|]. split; [exact D|]. split; [exact E|].
    intro y. rewrite F. unfold s1; cbn [global_rts mem_b existsb]. fold (mem_b y bfs).
    destruct (Z.eqb_spec y x) as [->|N]; cbn [andb orb]; [|reflexivity].
    destruct (global_rts s x =? 0) eqn:E0; cbn [andb]; [|rewrite E0; reflexivity].
    destruct (Z.eqb_spec r 0); [contradiction|]. reflexivity.
Qed.
Lemma promote_local : forall bfs r i s,
  let s' := promote bfs r (Some i) s in
  counter s' = counter s /\ global s' = global s /\ (forall j, locals s' j = if j =? i then locals s i ++ fresh (locals s i) bfs else locals s j) /\
  scope s' = scope s /\ object_rts s' = object_rts s /\ global_rts s' = global_rts s.
Proof.
  induction bfs as [|x bfs IH]; intros r i s; cbn [promote].
  - cbn. rewrite app_nil_r. repeat (split; [reflexivity|]). split; [|auto]. intro j. destruct (Z.eqb_spec j i) as [->|]; reflexivity.
  - match goal with |- context [promote bfs r (Some i) ?t] => set (s1 := t) end. destruct (IH r i s1) as (A & B & C & D & E & F).
    split; [exact A|]. split; [exact B|]. split; [|split; [exact D|split; [exact E|exact F]]].
    intro j. rewrite C. unfold s1; cbn [locals]. rewrite Z.eqb_refl. destruct (Z.eqb_spec j i) as [->|]; [|reflexivity]. apply append_fresh.
Qed.

(** lookups that skip nothing *)
Lemma resolve_all : forall g copy main skip s def l,
  (forall x, In x l -> match skip with Some r => global_rts s x <= r | None => True end) ->
  resolve g copy main skip s def l = find (if copy then except main def else def) l.
Proof.
  intros g copy main skip s def. induction l as [|x l IH]; intro H; cbn [resolve find]; [reflexivity|].
  rewrite IH by (intros y Hy; apply H; right; exact Hy).
  assert (E : match skip with Some r => r <? global_rts s x | None => false end = false).
  { destruct skip as [r|]; [|reflexivity]. specialize (H x (or_introl eq_refl)). cbn in H. apply Z.ltb_ge; exact H. }
  rewrite E. destruct copy; cbn [andb]; [|reflexivity]. change (except main def x) with (negb (x =? main) && def x). destruct (x =? main); reflexivity.
Qed.
(** the part of the global scope up to a time *)
Lemma resolve_prefix : forall copy main r s def l1 l2, (forall x, In x l1 -> global_rts s x <= r) -> (forall x, In x l2 -> r < global_rts s x) ->
  resolve true copy main (Some r) s def (l1 ++ l2) = find (if copy then except main def else def) l1.
Proof.
  intros copy main r s def l1 l2 H1 H2. induction l1 as [|x l1 IH]; cbn [app resolve find].
  - destruct l2 as [|x l2]; [reflexivity|]. assert (G : resolve true copy main (Some r) s def (x :: l2) = None).
    { clear H1. revert H2. induction (x :: l2) as [|y l IH]; intro H2; cbn [resolve]; [reflexivity|].
      assert (E : r <? global_rts s y = true) by (apply Z.ltb_lt; apply H2; left; reflexivity). rewrite E.
      destruct (copy && (y =? main)); [apply IH; intros z Hz; apply H2; right; exact Hz|reflexivity]. }
    exact G.
  - rewrite IH by (intros y Hy; apply H1; right; exact Hy). assert (E : r <? global_rts s x = false) by (apply Z.ltb_ge; apply H1; left; reflexivity).
    rewrite E. destruct copy; cbn [andb]; [|reflexivity]. change (except main def x) with (negb (x =? main) && def x). destruct (x =? main); reflexivity.
Qed.

Section Hist.
Variables (deps : Z -> list Z) (all : list Z) (fuel : nat).
Hypothesis Hfuel : (S (S (length all)) <= fuel)%nat.
Definition known (root : Z) : Prop := within deps root all.

Record inv (s : sstate) (ld gl : list Z) : Prop := {
  i_global : global s = gl;
  i_loaded : forall x, loaded s x = true <-> In x ld;
  i_counter : 1 <= counter s;
  i_rts : forall x, (In x gl <-> global_rts s x <> 0) /\ 0 <= global_rts s x < counter s;
  i_sub : incl gl ld;
  i_closed : forall x d, In x ld -> In d (deps x) -> In d ld;
  i_scope : forall x, scope s x = Some None -> forall y, reach deps x y -> In y gl;
  i_locals : forall j, counter s <= j -> locals s j = [];
  i_orts : forall x, In x ld -> object_rts s x < counter s;
  i_named : forall x i, scope s x = Some (Some i) -> i < counter s }.

Lemma inv_nothing : inv nothing [] [].
Proof.
  constructor.
  - reflexivity.
  - intro x; split; [discriminate|intros []].
  - cbn; lia.
  - intro x; cbn; split; [split; [intros []|intro H; exfalso; apply H; reflexivity]|lia].
  - intros x [].
  - intros x d [].
  - intro x; discriminate.
  - reflexivity.
  - intros x [].
  - intros x i; discriminate.
Qed.

Lemma bfs_ok : forall root, known root -> buildLinkBfs fuel deps root = Ok (group (length all) deps root).
Proof. intros root H. exact (bfs_spec deps root all fuel H Hfuel). Qed.
Lemma group_members : forall root, known root -> forall x, In x (group (length all) deps root) <-> reach deps root x.
Proof. intros root H x. exact (bfs_members deps root all x H). Qed.
Lemma closed_ld : forall s ld gl, inv s ld gl -> forall x y, reach deps x y -> In x ld -> In y ld.
Proof. intros s ld gl V. apply closed_reach. exact (i_closed _ _ _ V). Qed.

(** a call that loads *)
Definition fresh_open (root : Z) (g : bool) (s : sstate) (ld gl : list Z) (s' : sstate) : Prop :=
  let grp := group (length all) deps root in
  counter s' = counter s + 1 /\ global s' = (if g then gl ++ fresh gl grp else gl) /\
  (forall x, global_rts s' x = if g && (global_rts s x =? 0) && mem_b x grp then counter s else global_rts s x) /\
  (forall x, ~ In x ld -> In x grp -> object_rts s' x = counter s /\ scope s' x = Some (if g then None else Some (counter s))) /\
  (forall x, In x ld -> object_rts s' x = object_rts s x /\ scope s' x = scope s x) /\
  (if g then locals s' = locals s else locals s' (counter s) = fresh [] grp).

Lemma loaded_scope : forall s x, loaded s x = true <-> scope s x <> None.
Proof. intros s x; unfold loaded. destruct (scope s x); split; intro H; try discriminate; try reflexivity; contradiction. Qed.

Lemma dlopen_new : forall root g s ld gl, inv s ld gl -> known root -> ~ In root ld -> exists s', dlopen fuel deps root g false s = Ok s' /\
  inv s' (ld ++ group (length all) deps root) (if g then gl ++ fresh gl (group (length all) deps root) else gl) /\ fresh_open root g s ld gl s'.
Proof.
  intros root g s ld gl V Hk Hn. pose proof V as V0. destruct V. set (grp := group (length all) deps root).
  assert (Hl : loaded s root = false) by (destruct (loaded s root) eqn:E; [apply i_loaded0 in E; contradiction|reflexivity]).
  assert (Hs : scope s root = None) by (unfold loaded in Hl; destruct (scope s root); [discriminate|reflexivity]).
  unfold dlopen. unfold loaded at 1; cbn [scope]. rewrite Hs. cbn [andb]. rewrite (bfs_ok root Hk). cbn [bind]. fold grp.
  assert (Hin : forall x, In x grp <-> reach deps root x) by exact (group_members root Hk).
  assert (Hsc : forall x, scope s x = None <-> ~ In x ld).
  { intro x. rewrite <- i_loaded0. rewrite loaded_scope. destruct (scope s x); split; intro H; try congruence. exfalso; apply H; discriminate. }
  match goal with |- context [promote grp _ _ ?t] => set (s1 := t) end.
  assert (Hsc1 : forall x, scope s1 x = match scope s x with Some sc' => Some sc' | None => if mem_b x grp then Some (if g then None else Some (counter s)) else None end) by reflexivity.
  assert (Hload : forall x, scope s1 x <> None <-> In x (ld ++ grp)).
  { intro x. rewrite Hsc1, in_app_iff. destruct (scope s x) eqn:E.
    - split; [intros _; left; apply i_loaded0; apply loaded_scope; rewrite E; discriminate|discriminate].
    - apply Hsc in E. destruct (mem_b x grp) eqn:M.
      + apply mem_b_In in M. split; [auto|discriminate].
      + split; [congruence|]. intros [H|H]; [contradiction|apply mem_b_In in H; congruence]. }
  assert (Hclosed : forall x d, In x (ld ++ grp) -> In d (deps x) -> In d (ld ++ grp)).
  { intros x d H D. apply in_app_iff in H. apply in_app_iff. destruct H as [H|H]; [left; exact (i_closed0 x d H D)|right].
    apply Hin. apply Hin in H. eapply reach_trans; [exact H|apply reach_dep; exact D]. }
  eexists. split; [reflexivity|]. destruct g.
  - destruct (promote_global grp (counter s) s1 ltac:(lia)) as (A & B & C & D & E & F). cbn zeta in *.
    set (s' := promote grp (counter s) None s1) in *.
    assert (Fr : fresh_open root true s ld gl s').
    { unfold fresh_open. fold grp. split; [rewrite A; reflexivity|]. split; [rewrite B; unfold s1; cbn [global]; rewrite i_global0; reflexivity|].
      split; [intro x; rewrite F; reflexivity|]. split.
      - intros x Nx Gx. rewrite D, E. rewrite Hsc1. unfold s1; cbn [object_rts]. rewrite (proj2 (Hsc x) Nx), (proj2 (mem_b_In x grp) Gx). auto.
      - split; [|exact C]. intros x Hx. rewrite D, E. rewrite Hsc1. unfold s1; cbn [object_rts]. pose proof (proj2 (i_loaded0 x) Hx) as L. apply loaded_scope in L. destruct (scope s x); [auto|contradiction]. }
    split; [|exact Fr]. destruct Fr as (Fa & Fb & Fc & Fd & Fe & _). fold grp in Fb, Fc, Fd.
    constructor.
    + exact Fb.
    + intro x. rewrite loaded_scope, D. apply Hload.
    + lia.
    + intro x. rewrite Fc, Fa. cbn [andb]. destruct (i_rts0 x) as (R1 & R2). destruct (Z.eqb_spec (global_rts s x) 0) as [Z0|Z0]; cbn [andb].
      * destruct (mem_b x grp) eqn:M.
        -- apply mem_b_In in M. split; [|lia]. split; [lia|]. intros _. apply in_app_iff. destruct (in_dec Z.eq_dec x gl) as [I|I]; [left; exact I|right; apply fresh_in; auto].
        -- split; [|lia]. split; [|lia]. intro I. apply in_app_iff in I. destruct I as [I|I]; [apply R1 in I; exact I|]. apply fresh_in in I. destruct I as (I & _). apply mem_b_In in I; congruence.
      * split; [|lia]. split; [intros _; exact Z0|]. intros _. apply in_app_iff. left. apply R1; exact Z0.
    + intros x I. apply in_app_iff in I. apply in_app_iff. destruct I as [I|I]; [left; apply i_sub0; exact I|right; apply fresh_in in I; apply I].
    + exact Hclosed.
    + intros x Hx y Hy. rewrite D, Hsc1 in Hx. apply in_app_iff. destruct (scope s x) as [sc|] eqn:E0.
      * injection Hx as ->. left. exact (i_scope0 x E0 y Hy).
      * destruct (mem_b x grp) eqn:M; [|discriminate]. apply mem_b_In in M. apply Hin in M. destruct (in_dec Z.eq_dec y gl) as [I|I]; [left; exact I|right].
        apply fresh_in. split; [apply Hin; eapply reach_trans; [exact M|exact Hy]|exact I].
    + intros j Hj. rewrite C. unfold s1; cbn [locals]. apply i_locals0. lia.
    + intros x Hx. rewrite Fa. destruct (in_dec Z.eq_dec x ld) as [I|I]; [rewrite (proj1 (Fe x I)); specialize (i_orts0 x I); lia|].
      apply in_app_iff in Hx. destruct Hx as [Hx|Hx]; [contradiction|]. rewrite (proj1 (Fd x I Hx)). lia.
    + intros x i Hx. rewrite Fa. rewrite D, Hsc1 in Hx. destruct (scope s x) as [sc|] eqn:E0; [injection Hx as ->; specialize (i_named0 x i E0); lia|].
      destruct (mem_b x grp); [|discriminate]. discriminate.
  - destruct (promote_local grp (counter s) (counter s) s1) as (A & B & C & D & E & F). cbn zeta in *.
    set (s' := promote grp (counter s) (Some (counter s)) s1) in *.
    assert (Fr : fresh_open root false s ld gl s').
    { unfold fresh_open. fold grp. split; [rewrite A; reflexivity|]. split; [rewrite B; unfold s1; cbn [global]; exact i_global0|].
      split; [intro x; rewrite F; reflexivity|]. split.
      - intros x Nx Gx. rewrite D, E. rewrite Hsc1. unfold s1; cbn [object_rts]. rewrite (proj2 (Hsc x) Nx), (proj2 (mem_b_In x grp) Gx). auto.
      - split.
        + intros x Hx. rewrite D, E. rewrite Hsc1. unfold s1; cbn [object_rts]. pose proof (proj2 (i_loaded0 x) Hx) as L. apply loaded_scope in L. destruct (scope s x); [auto|contradiction].
        + rewrite C, Z.eqb_refl. unfold s1; cbn [locals]. rewrite i_locals0 by lia. reflexivity. }
    split; [|exact Fr]. destruct Fr as (Fa & Fb & Fc & Fd & Fe & _). fold grp in Fd.
    constructor.
    + exact Fb.
    + intro x. rewrite loaded_scope, D. apply Hload.
    + lia.
    + intro x. rewrite Fc, Fa. cbn [andb]. destruct (i_rts0 x) as (R1 & R2). split; [exact R1|lia].
    + intros x I. apply in_app_iff. left; apply i_sub0; exact I.
    + exact Hclosed.
    + intros x Hx y Hy. rewrite D, Hsc1 in Hx. destruct (scope s x) as [sc|] eqn:E0.
      * injection Hx as ->. exact (i_scope0 x E0 y Hy).
      * destruct (mem_b x grp); discriminate.
    + intros j Hj. rewrite C. destruct (Z.eqb_spec j (counter s)); [lia|]. unfold s1; cbn [locals]. apply i_locals0. lia.
    + intros x Hx. rewrite Fa. destruct (in_dec Z.eq_dec x ld) as [I|I]; [rewrite (proj1 (Fe x I)); specialize (i_orts0 x I); lia|].
      apply in_app_iff in Hx. destruct Hx as [Hx|Hx]; [contradiction|]. rewrite (proj1 (Fd x I Hx)). lia.
    + intros x i Hx. rewrite Fa. rewrite D, Hsc1 in Hx. destruct (scope s x) as [sc|] eqn:E0; [injection Hx as ->; specialize (i_named0 x i E0); lia|].
      destruct (mem_b x grp); [|discriminate]. injection Hx as <-. lia.
Qed.

(** what stays in every call *)
Definition grows (s s' : sstate) (ld gl gl' : list Z) : Prop :=
  counter s' = counter s + 1 /\ (exists new, gl' = gl ++ new /\ forall x, In x new -> ~ In x gl /\ global_rts s' x = counter s) /\
  (forall x, In x gl -> global_rts s' x = global_rts s x) /\ (forall x, In x ld -> object_rts s' x = object_rts s x /\ scope s' x = scope s x).

(** a call that changes nothing but local scopes *)
Lemma inv_same : forall s s' ld gl, inv s ld gl -> counter s' = counter s + 1 -> global s' = global s -> (forall x, scope s' x = scope s x) ->
  (forall x, In x ld -> object_rts s' x = object_rts s x) -> (forall x, global_rts s' x = global_rts s x) -> (forall j, counter s + 1 <= j -> locals s' j = locals s j) ->
  inv s' ld gl /\ grows s s' ld gl gl.
Proof.
  intros s s' ld gl V E1 E2 E3 E4 E5 E6. destruct V. split.
  - constructor.
    + congruence.
    + intro x. rewrite loaded_scope, E3, <- loaded_scope. apply i_loaded0.
    + lia.
    + intro x. rewrite E5, E1. destruct (i_rts0 x) as (R1 & R2). split; [exact R1|lia].
    + exact i_sub0.
    + exact i_closed0.
    + intros x; rewrite E3; apply i_scope0.
    + intros j Hj. rewrite E1 in Hj. rewrite (E6 j Hj). apply i_locals0; lia.
    + intros x Hx. rewrite (E4 x Hx), E1. specialize (i_orts0 x Hx); lia.
    + intros x i. rewrite E3, E1. intro H; specialize (i_named0 x i H); lia.
  - split; [exact E1|]. split; [exists []; split; [rewrite app_nil_r; reflexivity|intros x []]|]. split; [intros x _; apply E5|]. intros x Hx; split; [exact (E4 x Hx)|apply E3].
Qed.

Lemma dlopen_again : forall root g s ld gl, inv s ld gl -> known root -> In root ld -> (global_rts s root =? 0) && g = false ->
  exists s', dlopen fuel deps root g false s = Ok s' /\ inv s' ld gl /\ grows s s' ld gl gl.
Proof.
  intros root g s ld gl V Hk I Hg0. pose proof V as V0. destruct V.
  pose proof (proj2 (i_loaded0 root) I) as L. pose proof L as L'. apply loaded_scope in L'.
  unfold dlopen. change (loaded {| counter := counter s + 1; global := global s; locals := locals s; scope := scope s; object_rts := object_rts s; global_rts := global_rts s |} root) with (loaded s root).
  rewrite L. cbn [andb global_rts]. rewrite Hg0.
  cbn [scope]. destruct (scope s root) as [sc|] eqn:Es; [|contradiction]. rewrite (bfs_ok root Hk). cbn [bind]. eexists. split; [reflexivity|].
  set (grp := group (length all) deps root). match goal with |- context [promote grp _ _ ?t] => set (s1 := t) end.
  assert (Hg : forall x, In x grp -> In x ld) by (intros x Hx; apply (group_members root Hk) in Hx; eapply closed_ld; eauto).
  assert (Sc : forall x, scope s1 x = scope s x).
  { intro x. unfold s1; cbn [scope]. destruct (scope s x) eqn:E; [reflexivity|]. destruct (mem_b x grp) eqn:M; [|reflexivity]. apply mem_b_In in M. apply Hg in M.
    apply i_loaded0 in M. apply loaded_scope in M. contradiction. }
  assert (Or : forall x, In x ld -> object_rts s1 x = object_rts s x).
  { intros x Hx. unfold s1; cbn [object_rts]. apply i_loaded0 in Hx. apply loaded_scope in Hx. destruct (scope s x); [reflexivity|contradiction]. }
  destruct sc as [i|].
  - destruct (promote_local grp (counter s) i s1) as (A & B & C & D & E & F). cbn zeta in *. set (s' := promote grp (counter s) (Some i) s1) in *.
    apply (inv_same s s' ld gl V0); [rewrite A; reflexivity|rewrite B; reflexivity|intro x; rewrite D; apply Sc|intros x Hx; rewrite E; apply Or; exact Hx|intro x; rewrite F; reflexivity|].
    intros j Hj. rewrite C. specialize (i_named0 root i Es). destruct (Z.eqb_spec j i); [lia|reflexivity].
  - destruct (promote_global grp (counter s) s1 ltac:(lia)) as (A & B & C & D & E & F). cbn zeta in *. set (s' := promote grp (counter s) None s1) in *.
    assert (Hgl : forall x, In x grp -> In x gl) by (intros x Hx; apply (group_members root Hk) in Hx; exact (i_scope0 root Es x Hx)).
    apply (inv_same s s' ld gl V0); [rewrite A; reflexivity| |intro x; rewrite D; apply Sc|intros x Hx; rewrite E; apply Or; exact Hx| |intros j _; rewrite C; reflexivity].
    + rewrite B. unfold s1; cbn [global]. rewrite fresh_none; [apply app_nil_r|]. rewrite i_global0. exact Hgl.
    + intro x. rewrite F. unfold s1; cbn [global_rts]. destruct (Z.eqb_spec (global_rts s x) 0) as [Z0|]; [|reflexivity]. cbn [andb].
      destruct (mem_b x grp) eqn:M; [|reflexivity]. apply mem_b_In in M. apply Hgl in M. apply (i_rts0 x) in M. contradiction.
Qed.

Lemma dlopen_any : forall call s ld gl, inv s ld gl -> known (fst (fst call)) -> exists s', dlopen fuel deps (fst (fst call)) (snd (fst call)) (snd call) s = Ok s' /\
  inv s' (fst (spec_open (length all) deps call (ld, gl))) (snd (spec_open (length all) deps call (ld, gl))) /\
  grows s s' ld gl (snd (spec_open (length all) deps call (ld, gl))).
Proof.
  intros [[root g] noload] s ld gl V Hk. cbn [fst snd spec_open] in *. pose proof V as V0. destruct V.
  destruct (in_dec Z.eq_dec root ld) as [I|I]; cbn [fst snd].
  - destruct ((global_rts s root =? 0) && g) eqn:Hg0.
    + apply andb_true_iff in Hg0. destruct Hg0 as (Z0 & ->). apply Z.eqb_eq in Z0.
      assert (Ng : ~ In root gl) by (intro H; apply (i_rts0 root) in H; contradiction).
      cbn [fresh]. destruct (in_dec Z.eq_dec root gl); [contradiction|].
      pose proof (proj2 (i_loaded0 root) I) as L.
      unfold dlopen. change (loaded {| counter := counter s + 1; global := global s; locals := locals s; scope := scope s; object_rts := object_rts s; global_rts := global_rts s |} root) with (loaded s root).
      rewrite L. cbn [andb global_rts]. rewrite Z0. cbn [Z.eqb andb].
      eexists. split; [reflexivity|]. cbn [counter global]. assert (Ea : append (global s) root = gl ++ [root]).
      { unfold append. rewrite i_global0. destruct (mem_b root gl) eqn:M; [apply mem_b_In in M; contradiction|reflexivity]. }
      split.
      * constructor; cbn.
        -- exact Ea.
        -- exact i_loaded0.
        -- lia.
        -- intro x. destruct (i_rts0 x) as (R1 & R2). rewrite in_app_iff. cbn [In]. destruct (Z.eqb_spec x root) as [->|N]; [split; [split; [lia|auto]|lia]|].
           split; [|lia]. rewrite <- R1. split; [intros [H|[H|[]]]; [exact H|congruence]|auto].
        -- intros x H. apply in_app_iff in H. destruct H as [H|[<-|[]]]; [apply i_sub0; exact H|exact I].
        -- exact i_closed0.
        -- intros x Hx y Hy. apply in_app_iff. left. exact (i_scope0 x Hx y Hy).
        -- intros j Hj. apply i_locals0; lia.
        -- intros x Hx; specialize (i_orts0 x Hx); lia.
        -- intros x i Hx; specialize (i_named0 x i Hx); lia.
      * split; [reflexivity|]. cbn. split; [|split; [|auto]].
        -- exists [root]. split; [reflexivity|]. intros x [<-|[]]. rewrite Z.eqb_refl. auto.
        -- intros x Hx. destruct (Z.eqb_spec x root) as [->|N]; [contradiction|reflexivity].
    + assert (Egl : (if g then gl ++ fresh gl [root] else gl) = gl).
      { destruct g; [|reflexivity]. rewrite andb_true_r in Hg0. apply Z.eqb_neq in Hg0. apply (i_rts0 root) in Hg0. rewrite fresh_none; [apply app_nil_r|]. intros x [<-|[]]; exact Hg0. }
      rewrite Egl. destruct noload; [|exact (dlopen_again root g s ld gl V0 Hk I Hg0)].
      pose proof (proj2 (i_loaded0 root) I) as L.
      unfold dlopen. change (loaded {| counter := counter s + 1; global := global s; locals := locals s; scope := scope s; object_rts := object_rts s; global_rts := global_rts s |} root) with (loaded s root).
      rewrite L. cbn [andb global_rts]. rewrite Hg0. eexists. split; [reflexivity|]. apply inv_same; auto.
  - destruct noload; cbn [fst snd].
    + assert (Hl : loaded s root = false) by (destruct (loaded s root) eqn:E; [apply i_loaded0 in E; contradiction|reflexivity]).
      unfold dlopen. change (loaded {| counter := counter s + 1; global := global s; locals := locals s; scope := scope s; object_rts := object_rts s; global_rts := global_rts s |} root) with (loaded s root).
      rewrite Hl. cbn [andb]. eexists. split; [reflexivity|]. apply inv_same; auto.
    + destruct (dlopen_new root g s ld gl V0 Hk I) as (s' & E & V' & (F1 & F2 & F3 & F4 & F5 & F6)). exists s'. split; [exact E|]. split; [exact V'|].
      split; [exact F1|]. split; [|split; [|exact F5]].
      * destruct g; [|exists []; split; [rewrite app_nil_r; reflexivity|intros x []]]. eexists; split; [reflexivity|]. intros x Hx. apply fresh_in in Hx. destruct Hx as (X1 & X2).
        split; [exact X2|]. rewrite F3. assert (Z0 : global_rts s x =? 0 = true) by (apply Z.eqb_eq; destruct (Z.eq_dec (global_rts s x) 0) as [|N]; [assumption|apply (i_rts0 x) in N; contradiction]).
        rewrite Z0, (proj2 (mem_b_In _ _) X1). reflexivity.
      * intros x Hx. rewrite F3. apply (i_rts0 x) in Hx. apply Z.eqb_neq in Hx. rewrite Hx, andb_false_r. reflexivity.
Qed.

Definition all_known (hist : list (Z * bool * bool)) : Prop := Forall (fun call => known (fst (fst call))) hist.
Lemma dlopens_inv : forall hist s ld gl, inv s ld gl -> all_known hist -> exists s', dlopens fuel deps hist s = Ok s' /\
  inv s' (fst (spec_opens (length all) deps hist (ld, gl))) (snd (spec_opens (length all) deps hist (ld, gl))).
Proof.
  induction hist as [|[[root g] noload] hist IH]; intros s ld gl V H; cbn [dlopens spec_opens fold_left].
  - exists s. auto.
  - inversion H as [|? ? H1 H2]; subst. destruct (dlopen_any (root, g, noload) s ld gl V H1) as (s1 & E & V1 & _). cbn [fst snd] in E. rewrite E. cbn [bind].
    destruct (spec_open (length all) deps (root, g, noload) (ld, gl)) as [ld1 gl1]. exact (IH s1 ld1 gl1 V1 H2).
Qed.

Lemma boot_dlopens : forall main hist, dlopens fuel deps ((main, true, false) :: hist) nothing = (s <- boot fuel deps main ;; dlopens fuel deps hist s).
Proof. reflexivity. Qed.
Lemma history_inv : forall main hist, known main -> all_known hist -> exists s, (s <- boot fuel deps main ;; dlopens fuel deps hist s) = Ok s /\
  inv s (fst (history (length all) deps main hist)) (snd (history (length all) deps main hist)).
Proof.
  intros main hist Hm Hh. rewrite <- boot_dlopens. apply dlopens_inv; [exact inv_nothing|]. constructor; [exact Hm|exact Hh].
Qed.

(** relocation of an object that is loaded now *)
Lemma lookup_new : forall root g s ld gl s' x copy main def, inv s ld gl -> known root -> ~ In root ld -> dlopen fuel deps root g false s = Ok s' ->
  reach deps root x -> ~ In x ld -> lookup copy main x def s' = first_def (if copy then except main def else def) (gl ++ group (length all) deps root).
Proof.
  intros root g s ld gl s' x copy main def V Hk Hn E Hx Hxn. destruct (dlopen_new root g s ld gl V Hk Hn) as (s1 & E1 & V1 & F). rewrite E in E1. injection E1 as <-.
  destruct F as (F1 & F2 & F3 & F4 & F5 & F6). apply (group_members root Hk) in Hx. destruct (F4 x Hxn Hx) as (O & S). unfold lookup, first_def. rewrite O, S, F2.
  assert (R : forall y, global_rts s' y <= counter s) by (intro y; destruct (i_rts _ _ _ V1 y) as (_ & R); lia).
  set (f := if copy then except main def else def). destruct g.
  - rewrite resolve_all by (intros y _; apply R). unfold scope_list. rewrite F2. rewrite resolve_all by (intros y _; apply R). fold f. rewrite find_append.
    destruct (find f (gl ++ group (length all) deps root)); reflexivity.
  - rewrite resolve_all by (intros y _; apply R). unfold scope_list. rewrite F6. rewrite resolve_all by (intros y _; apply R). fold f. rewrite find_app_or.
    destruct (find f gl); [reflexivity|]. apply find_fresh. intros y [].
Qed.
Lemma default_spec : forall s ld gl def, inv s ld gl -> dlsym_default def s = first_def def gl.
Proof. intros s ld gl def V. unfold dlsym_default. rewrite resolve_all by auto. rewrite (i_global _ _ _ V). reflexivity. Qed.
Lemma next_def_find : forall main def l, next_def main def l = find (except main def) l.
Proof. induction l as [|x l IH]; cbn [next_def find]; [reflexivity|]. rewrite IH. change (except main def x) with (negb (x =? main) && def x). destruct (x =? main); reflexivity. Qed.
Lemma find_after_split : forall x a b, ~ In x a -> find_after x (a ++ x :: b) = b.
Proof.
  induction a as [|y a IH]; intros b H; cbn [app find_after]; [rewrite Z.eqb_refl; reflexivity|].
  destruct (Z.eqb_spec y x) as [->|N]; [destruct H; left; reflexivity|]. apply IH. intro X; apply H; right; exact X.
Qed.
Lemma next_spec : forall s ld gl main origin def a b, inv s ld gl -> gl = a ++ origin :: b -> ~ In origin a -> scope s origin = Some None ->
  dlsym_next main origin def s = first_def (except main def) b.
Proof.
  intros s ld gl main origin def a b V -> N S. unfold dlsym_next, scope_list. rewrite S, (i_global _ _ _ V), (find_after_split _ _ _ N), next_def_find. unfold first_def.
  destruct (find (except main def) b); reflexivity.
Qed.

(** the global part of lookups from an object that was loaded earlier *)
Lemma prefix_stays : forall hist s ld gl r, inv s ld gl -> all_known hist -> r < counter s -> (forall x, In x gl -> global_rts s x <= r) ->
  forall s', dlopens fuel deps hist s = Ok s' ->
  (forall x, In x ld -> object_rts s' x = object_rts s x /\ scope s' x = scope s x) /\
  exists new, global s' = gl ++ new /\ (forall x, In x gl -> global_rts s' x <= r) /\ (forall x, In x new -> r < global_rts s' x).
Proof.
  (* generalised: the part that came after time r *)
  assert (G : forall hist s ld gl1 gl2 r, inv s ld (gl1 ++ gl2) -> all_known hist -> r < counter s -> (forall x, In x gl1 -> global_rts s x <= r) -> (forall x, In x gl2 -> r < global_rts s x) ->
    forall s', dlopens fuel deps hist s = Ok s' -> (forall x, In x ld -> object_rts s' x = object_rts s x /\ scope s' x = scope s x) /\
    exists new, global s' = gl1 ++ new /\ (forall x, In x gl1 -> global_rts s' x <= r) /\ (forall x, In x new -> r < global_rts s' x)).
  { induction hist as [|[[root g] noload] hist IH]; intros s ld gl1 gl2 r V H Hr H1 H2 s' E; cbn [dlopens] in E.
    - injection E as <-. split; [auto|]. exists gl2. split; [exact (i_global _ _ _ V)|auto].
    - inversion H as [|? ? K1 K2]; subst. destruct (dlopen_any (root, g, noload) s ld (gl1 ++ gl2) V K1) as (s1 & E1 & V1 & (W1 & (new & W2 & W3) & W4 & W5)). cbn [fst snd] in E1. rewrite E1 in E. cbn [bind] in E.
      pose proof (spec_open (length all) deps (root, g, noload) (ld, gl1 ++ gl2)) as st.
      set (st1 := spec_open (length all) deps (root, g, noload) (ld, gl1 ++ gl2)) in *.
      assert (Hld : incl ld (fst st1)).
      { unfold st1; cbn [spec_open]. destruct (in_dec Z.eq_dec root ld); [apply incl_refl|]. destruct noload; [apply incl_refl|]. cbn [fst]. apply incl_appl, incl_refl. }
      rewrite W2, <- app_assoc in V1.
      destruct (IH s1 (fst st1) gl1 (gl2 ++ new) r V1 K2) with (s' := s') as (A & B).
      + lia.
      + intros x Hx. rewrite W4 by (apply in_app_iff; auto). exact (H1 x Hx).
      + intros x Hx. apply in_app_iff in Hx. destruct Hx as [Hx|Hx]; [rewrite W4 by (apply in_app_iff; auto); exact (H2 x Hx)|]. rewrite (proj2 (W3 x Hx)). lia.
      + exact E.
      + split; [|exact B]. intros x Hx. destruct (A x (Hld x Hx)) as (A1 & A2). destruct (W5 x Hx) as (B1 & B2). split; congruence. }
  intros hist s ld gl r V H Hr H1 s' E. rewrite <- (app_nil_r gl) in V. apply (G hist s ld gl [] r V H Hr H1); [intros x []|exact E].
Qed.
Lemma late_global : forall root g s ld gl s1 hist s' x copy main def, inv s ld gl -> known root -> ~ In root ld -> dlopen fuel deps root g false s = Ok s1 -> all_known hist ->
  dlopens fuel deps hist s1 = Ok s' -> reach deps root x -> ~ In x ld ->
  resolve true copy main (Some (object_rts s' x)) s' def (global s') = first_def (if copy then except main def else def) (global s1).
Proof.
  intros root g s ld gl s1 hist s' x copy main def V Hk Hn E Hh E' Hx Hxn. destruct (dlopen_new root g s ld gl V Hk Hn) as (s2 & E2 & V1 & F). rewrite E in E2. injection E2 as <-.
  destruct F as (F1 & F2 & F3 & F4 & F5 & F6). apply (group_members root Hk) in Hx. destruct (F4 x Hxn Hx) as (O & S).
  pose proof (i_global _ _ _ V1) as Eg. set (gl1 := if g then gl ++ fresh gl (group (length all) deps root) else gl) in *.
  destruct (prefix_stays hist s1 _ gl1 (counter s) V1 Hh) with (s' := s') as (A & new & B1 & B2 & B3).
  - lia.
  - intros y _. destruct (i_rts _ _ _ V1 y) as (_ & R); lia.
  - exact E'.
  - destruct (A x) as (A1 & _); [apply in_app_iff; right; exact Hx|]. rewrite A1, O, B1, Eg. apply resolve_prefix; assumption.
Qed.

(** dlsym on a handle *)
Lemma handle_loop_spec : forall def fu i q set l, bfs_loop fu deps i q set = Ok l -> (i <= length q)%nat -> find def (firstn i q) = None ->
  handle_loop fu deps def i q set = Ok (find def l).
Proof.
  intros def. induction fu as [|fu IH]; intros i q set l E Hi Hf; cbn [bfs_loop handle_loop] in *; [discriminate|].
  destruct (nth_error q i) as [x|] eqn:En.
  - assert (Hlen : (i < length q)%nat) by (apply nth_error_Some; congruence).
    assert (Fi : firstn (S i) q = firstn i q ++ [x]).
    { clear - En. revert q En. induction i as [|i IH]; intros [|y q] En; cbn in *; try discriminate; [congruence|]. f_equal. apply IH; exact En. }
    rewrite push_new_fresh in E |- *. destruct (def x) eqn:Ed.
    + assert (G : forall fu i q set l, bfs_loop fu deps i q set = Ok l -> exists r, l = q ++ r).
      { clear. induction fu as [|fu IH]; intros i q set l E; cbn [bfs_loop] in E; [discriminate|]. destruct (nth_error q i); [|injection E as <-; exists []; rewrite app_nil_r; reflexivity].
        rewrite push_new_fresh in E. destruct (IH _ _ _ _ E) as (r & ->). eexists; rewrite <- app_assoc; reflexivity. }
      destruct (G _ _ _ _ _ E) as (r & ->). f_equal. assert (Q : find def q = Some x) by (rewrite <- (firstn_skipn (S i) q); rewrite Fi; rewrite !find_app_or, Hf; cbn [find]; rewrite Ed; reflexivity). rewrite <- app_assoc, find_app_or, Q. reflexivity.
    + apply (IH _ _ _ _ E); [rewrite app_length; lia|]. rewrite firstn_app. replace (S i - length q)%nat with 0%nat by lia. rewrite firstn_O, app_nil_r, Fi, find_app_or, Hf. cbn. rewrite Ed. reflexivity.
  - injection E as <-. apply nth_error_None in En. assert (i = length q) by lia. subst i. rewrite firstn_all in Hf. rewrite Hf. reflexivity.
Qed.
Lemma handle_spec : forall root def, known root -> dlsym_handle fuel deps def root = Ok (first_def def (levels (S (length all)) deps [root] [root])).
Proof.
  intros root def H. unfold dlsym_handle. apply (handle_loop_spec def fuel 0 [root] [root]); [exact (queue_spec deps root all fuel H Hfuel)|cbn; lia|reflexivity].
Qed.
End Hist.
