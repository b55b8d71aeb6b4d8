(** Proofs about the breadth-first lists. *)
From Verif Require Import Base Deps_Model Deps_Spec.
Open Scope Z_scope.

Lemma mem_b_In x l : mem_b x l = true <-> In x l.
Proof.
  unfold mem_b. rewrite existsb_exists. split.
  - intros (y & H & E). apply Z.eqb_eq in E. subst. exact H.
  - intros H. exists x. split; [exact H|]. apply Z.eqb_refl.
Qed.
Lemma reach_trans deps x y z : reach deps x y -> reach deps y z -> reach deps x z.
Proof. induction 1; intros; [assumption|]. eapply reach_step; eauto. Qed.
Lemma reach_dep deps x d : In d (deps x) -> reach deps x d.
Proof. intros. eapply reach_step; [eassumption|constructor]. Qed.

Lemma push_new_fresh ds : forall set q, push_new ds set q = (q ++ fresh set ds, rev (fresh set ds) ++ set).
Proof.
  induction ds as [|d ds IH]; intros set q; cbn [push_new fresh]; [rewrite app_nil_r; reflexivity|].
  destruct (mem_b d set) eqn:E; destruct (in_dec Z.eq_dec d set) as [I|I].
  - apply IH.
  - apply mem_b_In in E. contradiction.
  - apply mem_b_In in I. congruence.
  - rewrite IH. cbn [rev]. rewrite <- !app_assoc. reflexivity.
Qed.
Lemma fresh_app l1 l2 : forall seen, fresh seen (l1 ++ l2) = fresh seen l1 ++ fresh (rev (fresh seen l1) ++ seen) l2.
Proof.
  induction l1 as [|d l1 IH]; intros seen; cbn [fresh app]; [reflexivity|].
  destruct (in_dec Z.eq_dec d seen); [apply IH|]. cbn [app rev]. rewrite IH, <- !app_assoc. reflexivity.
Qed.
Lemma fresh_in l : forall seen x, In x (fresh seen l) <-> In x l /\ ~ In x seen.
Proof.
  induction l as [|d l IH]; intros seen x; cbn [fresh]; [cbn; tauto|].
  destruct (in_dec Z.eq_dec d seen) as [I|I]; [rewrite IH|cbn [In]; rewrite IH]; cbn [In].
  - split; [tauto|]. intros [[->|H] N]; tauto.
  - destruct (Z.eq_dec d x) as [->|]; tauto.
Qed.
Lemma fresh_nodup l : forall seen, NoDup (fresh seen l).
Proof.
  induction l as [|d l IH]; intros seen; cbn [fresh]; [constructor|]. destruct (in_dec Z.eq_dec d seen); [apply IH|].
  constructor; [|apply IH]. rewrite fresh_in. cbn [In]. tauto.
Qed.
Lemma levels_nil n deps seen : levels n deps seen [] = [].
Proof. revert seen. induction n as [|n IH]; intros seen; cbn [levels flat_map fresh app rev]; [reflexivity|apply IH]. Qed.

(** one level of the loop *)
Lemma bfs_level deps : forall F a G set fuel, (length F <= fuel)%nat ->
  bfs_loop fuel deps (length a) (a ++ F ++ G) set =
  bfs_loop (fuel - length F) deps (length (a ++ F)) (a ++ F ++ G ++ fresh set (flat_map deps F)) (rev (fresh set (flat_map deps F)) ++ set).
Proof.
  induction F as [|x F IH]; intros a G set fuel L.
  - cbn [length flat_map fresh rev app]. rewrite Nat.sub_0_r, !app_nil_r. reflexivity.
  - destruct fuel as [|fuel]; [cbn in L; lia|]. cbn [length] in L. cbn [bfs_loop].
    assert (N : nth_error (a ++ (x :: F) ++ G) (length a) = Some x) by (rewrite nth_error_app2 by lia; rewrite Nat.sub_diag; reflexivity).
    rewrite N, push_new_fresh. cbn [flat_map].
    replace (S (length a)) with (length (a ++ [x])) by (rewrite app_length; cbn; lia).
    replace ((a ++ (x :: F) ++ G) ++ fresh set (deps x)) with ((a ++ [x]) ++ F ++ G ++ fresh set (deps x)) by (rewrite <- !app_assoc; reflexivity).
    rewrite IH by lia. rewrite fresh_app, rev_app_distr, <- !app_assoc. cbn [app length]. reflexivity.
Qed.
Lemma length_fresh_pos seen l : fresh seen l <> [] -> (1 <= length (fresh seen l))%nat.
Proof. destruct (fresh seen l); [congruence|cbn; lia]. Qed.
Lemma nodup_app {A} (l1 l2 : list A) : NoDup l1 -> NoDup l2 -> (forall x, In x l1 -> ~ In x l2) -> NoDup (l1 ++ l2).
Proof.
  induction l1 as [|x l1 IH]; intros N1 N2 D; cbn [app]; [exact N2|]. inversion N1 as [|? ? A1 A2]; subst. constructor.
  - rewrite in_app_iff. intros [H|H]; [contradiction|]. apply (D x); [left; reflexivity|exact H].
  - apply IH; [exact A2|exact N2|]. intros y Hy. apply D. right. exact Hy.
Qed.
Lemma bfs_levels deps root all : within deps root all -> forall n F a set fuel,
  NoDup set -> incl set all -> (forall x, In x F -> reach deps root x) ->
  (length all - length set < n)%nat -> (S (length F + (length all - length set)) <= fuel)%nat ->
  bfs_loop fuel deps (length a) (a ++ F) set = Ok (a ++ levels n deps set F).
Proof.
  intros W. induction n as [|n IH]; intros F a set fuel N I R M FU; [lia|].
  pose proof (bfs_level deps F a [] set fuel ltac:(lia)) as E. rewrite !app_nil_r in E. rewrite E. clear E. cbn [app levels].
  set (next := fresh set (flat_map deps F)).
  assert (NR : forall x, In x next -> reach deps root x).
  { intros x Hx. apply fresh_in in Hx as [Hx _]. apply in_flat_map in Hx as (y & Hy & Hx). eapply reach_trans; [apply R; eassumption|]. apply reach_dep, Hx. }
  assert (ND : NoDup (rev next ++ set)).
  { apply nodup_app; [apply NoDup_rev, fresh_nodup|exact N|]. intros x Hx. apply in_rev, fresh_in in Hx. tauto. }
  assert (IN : incl (rev next ++ set) all).
  { intros x Hx. apply in_app_iff in Hx as [Hx|Hx]; [|apply I, Hx]. apply in_rev in Hx. apply W, NR, Hx. }
  pose proof (NoDup_incl_length ND IN) as LE. rewrite app_length, rev_length in LE.
  destruct next as [|y next'] eqn:NX.
  - cbn [rev app]. rewrite levels_nil, !app_nil_r. destruct (fuel - length F)%nat as [|f] eqn:EF; [lia|]. cbn [bfs_loop].
    assert (NE : nth_error (a ++ F) (length (a ++ F)) = None) by (apply nth_error_None; lia). rewrite NE. reflexivity.
  - rewrite <- NX in *. assert (1 <= length next)%nat by (rewrite NX; cbn; lia).
    rewrite app_assoc. rewrite (IH next (a ++ F) (rev next ++ set) (fuel - length F)%nat ND IN NR).
    + rewrite <- app_assoc. reflexivity.
    + rewrite app_length, rev_length. lia.
    + rewrite app_length, rev_length. lia.
Qed.

(** what the levels contain *)
Lemma levels_nodup deps : forall n seen F, NoDup F -> incl F seen -> NoDup (levels n deps seen F).
Proof.
  assert (G : forall n deps seen F x, In x (levels n deps seen F) -> In x F \/ ~ In x seen).
  { induction n as [|n IH]; cbn [levels]; intros deps' seen F x H; [destruct H|]. apply in_app_iff in H as [H|H]; [left; exact H|].
    apply IH in H as [H|H]; [right; apply fresh_in in H; tauto|right; rewrite in_app_iff in H; tauto]. }
  induction n as [|n IH]; intros seen F N I; cbn [levels]; [constructor|]. apply nodup_app; [exact N| |].
  - apply IH; [apply fresh_nodup|]. intros x Hx. apply in_app_iff. left. apply in_rev. rewrite rev_involutive. exact Hx.
  - intros x Hx H. apply G in H as [H|H]; [apply fresh_in in H; apply I in Hx; tauto|]. rewrite in_app_iff in H. apply I in Hx. tauto.
Qed.
Lemma levels_reach deps root : forall n seen F, (forall x, In x F -> reach deps root x) -> forall x, In x (levels n deps seen F) -> reach deps root x.
Proof.
  induction n as [|n IH]; intros seen F R x H; cbn [levels] in H; [destruct H|]. apply in_app_iff in H as [H|H]; [apply R, H|].
  revert H. apply IH. intros y Hy. apply fresh_in in Hy as [Hy _]. apply in_flat_map in Hy as (z & Hz & Hy). eapply reach_trans; [apply R, Hz|]. apply reach_dep, Hy.
Qed.
(** every dependency of a member is a member or was seen *)
Lemma levels_closed deps root all : within deps root all -> forall n seen F,
  NoDup seen -> incl seen all -> (forall x, In x F -> reach deps root x) -> (length all - length seen < n)%nat ->
  forall x d, In x (levels n deps seen F) -> In d (deps x) -> In d seen \/ In d (levels n deps seen F).
Proof.
  intros W. induction n as [|n IH]; intros seen F N I R M x d H D; [lia|]. cbn [levels] in *. set (next := fresh seen (flat_map deps F)) in *.
  assert (NR : forall y, In y next -> reach deps root y).
  { intros y Hy. apply fresh_in in Hy as [Hy _]. apply in_flat_map in Hy as (z & Hz & Hy). eapply reach_trans; [apply R; eassumption|]. apply reach_dep, Hy. }
  assert (ND : NoDup (rev next ++ seen)).
  { apply nodup_app; [apply NoDup_rev, fresh_nodup|exact N|]. intros y Hy. apply in_rev, fresh_in in Hy. tauto. }
  assert (IN : incl (rev next ++ seen) all).
  { intros y Hy. apply in_app_iff in Hy as [Hy|Hy]; [|apply I, Hy]. apply in_rev in Hy. apply W, NR, Hy. }
  pose proof (NoDup_incl_length ND IN) as LE. rewrite app_length, rev_length in LE.
  assert (LV : In d next -> In d (F ++ levels n deps (rev next ++ seen) next)).
  { intros Hd. apply in_app_iff. right. destruct n as [|n]; [|cbn [levels]; apply in_app_iff; left; exact Hd].
    exfalso. destruct next; [destruct Hd|cbn [length] in *; lia]. }
  apply in_app_iff in H as [H|H].
  - destruct (in_dec Z.eq_dec d seen) as [S|S]; [left; exact S|right]. apply LV, fresh_in. split; [|exact S]. apply in_flat_map. eauto.
  - destruct next as [|y next'] eqn:NX; [cbn [rev app] in H; rewrite levels_nil in H; destruct H|]. rewrite <- NX in *.
    assert (1 <= length next)%nat by (rewrite NX; cbn; lia).
    destruct (IH (rev next ++ seen) next ND IN NR ltac:(rewrite app_length, rev_length; lia) x d H D) as [S|S].
    + apply in_app_iff in S as [S|S]; [right; apply LV, in_rev, S|left; exact S].
    + right. apply in_app_iff. right. exact S.
Qed.

Lemma bfs_spec deps root all fuel : within deps root all -> (S (S (length all)) <= fuel)%nat ->
  buildLinkBfs fuel deps root = Ok (levels (S (length all)) deps [] [root]).
Proof.
  intros W F. unfold buildLinkBfs. apply (bfs_levels deps root all W (S (length all)) [root] [] [] fuel).
  - constructor.
  - intros x [].
  - intros x [<-|[]]. constructor.
  - cbn [length]. lia.
  - cbn [length]. lia.
Qed.
Lemma queue_spec deps root all fuel : within deps root all -> (S (S (length all)) <= fuel)%nat ->
  handle_queue fuel deps root = Ok (levels (S (length all)) deps [root] [root]).
Proof.
  intros W F. unfold handle_queue. apply (bfs_levels deps root all W (S (length all)) [root] [] [root] fuel).
  - repeat constructor. intros [].
  - intros x [<-|[]]. apply W. constructor.
  - intros x [<-|[]]. constructor.
  - cbn [length]. lia.
  - cbn [length]. lia.
Qed.
(** the members of the list are the objects that can be reached *)
Lemma closed_reach deps (P : Z -> Prop) : (forall x d, P x -> In d (deps x) -> P d) -> forall x y, reach deps x y -> P x -> P y.
Proof. intros C x y H. induction H; intros; [assumption|]. apply IHreach. eapply C; eauto. Qed.
Lemma bfs_members deps root all x : within deps root all ->
  In x (levels (S (length all)) deps [] [root]) <-> reach deps root x.
Proof.
  intros W. split.
  - apply levels_reach. intros y [<-|[]]. constructor.
  - intros R. apply (closed_reach deps (fun y => In y (levels (S (length all)) deps [] [root]))) with (x := root); [|exact R|cbn [levels app]; left; reflexivity].
    intros y d Hy D. destruct (levels_closed deps root all W (S (length all)) [] [root]) with (x := y) (d := d) as [[]|H]; auto.
    + constructor.
    + intros z [].
    + intros z [<-|[]]. constructor.
    + cbn [length]. lia.
Qed.
Lemma queue_members deps root all x : within deps root all ->
  In x (levels (S (length all)) deps [root] [root]) <-> reach deps root x.
Proof.
  intros W. split.
  - apply levels_reach. intros y [<-|[]]. constructor.
  - intros R. apply (closed_reach deps (fun y => In y (levels (S (length all)) deps [root] [root]))) with (x := root); [|exact R|cbn [levels app]; left; reflexivity].
    intros y d Hy D. destruct (levels_closed deps root all W (S (length all)) [root] [root]) with (x := y) (d := d) as [[<-|[]]|H]; auto.
    + repeat constructor. intros [].
    + intros z [<-|[]]. apply W. constructor.
    + intros z [<-|[]]. constructor.
    + cbn [length]. lia.
    + cbn [levels app]. left. reflexivity.
Qed.
Lemma queue_nodup deps root n : NoDup (levels n deps [root] [root]).
Proof. apply levels_nodup; [repeat constructor; intros []|]. apply incl_refl. Qed.
(** the list without the root at its head *)
Lemma bfs_tail deps root n : exists t, levels (S n) deps [] [root] = root :: t /\ NoDup t /\
  (forall x, In x t -> needs deps root x).
Proof.
  cbn [levels flat_map]. rewrite !app_nil_r. eexists. split; [reflexivity|]. split.
  - apply levels_nodup; [apply fresh_nodup|]. intros x Hx. apply in_rev. rewrite rev_involutive. exact Hx.
  - assert (G : forall n seen F, (forall y, In y F -> needs deps root y) -> forall x, In x (levels n deps seen F) -> needs deps root x).
    { clear n. induction n as [|n IH]; intros seen F R x H; cbn [levels] in H; [destruct H|]. apply in_app_iff in H as [H|H]; [apply R, H|].
      revert H. apply IH. intros y Hy. apply fresh_in in Hy as [Hy _]. apply in_flat_map in Hy as (z & Hz & Hy).
      destruct (R z Hz) as (d & D & Q). exists d. split; [exact D|]. eapply reach_trans; [exact Q|]. apply reach_dep, Hy. }
    apply G. intros y Hy. apply fresh_in in Hy as [Hy _]. exists y. split; [exact Hy|constructor].
Qed.
Lemma bfs_nodup deps root n : ~ needs deps root root -> NoDup (levels (S n) deps [] [root]).
Proof.
  intros H. destruct (bfs_tail deps root n) as (t & -> & N & T). constructor; [|exact N]. intros I. apply H, T, I.
Qed.
