(** Proofs about the order of initialisation and destruction. *)
From Verif Require Import Base Deps_Model Deps_Spec Deps_Proof Init_Model Init_Spec.
Open Scope Z_scope.

Lemma set_b_eq f x b : set_b f x b x = b.
Proof. unfold set_b. rewrite Z.eqb_refl. reflexivity. Qed.
Lemma set_b_ne f x b y : y <> x -> set_b f x b y = f y.
Proof. intros H. unfold set_b. apply Z.eqb_neq in H. rewrite H. reflexivity. Qed.
Lemma before_app_l l1 l2 d x : before l1 d x -> before (l1 ++ l2) d x.
Proof. intros (a & b & c & ->). exists a, b, (c ++ l2). rewrite <- app_assoc. cbn [app]. rewrite <- app_assoc. reflexivity. Qed.
Lemma before_app_r l1 l2 d x : before l2 d x -> before (l1 ++ l2) d x.
Proof. intros (a & b & c & ->). exists (l1 ++ a), b, c. rewrite <- app_assoc. reflexivity. Qed.
Lemma before_mid l1 l2 d x : In d l1 -> In x l2 -> before (l1 ++ l2) d x.
Proof.
  intros D X. apply in_split in D as (a & b & ->). apply in_split in X as (c & e & ->). exists a, (b ++ c), e.
  rewrite <- !app_assoc. reflexivity.
Qed.

Section Graph.
Variable deps opens : Z -> list Z.
Variable all : list Z.
Hypothesis closed : forall x, In x all -> incl (deps x) all /\ incl (opens x) all.

Lemma reach_all x y : reach deps x y -> In x all -> In y all.
Proof. apply (closed_reach deps (fun z => In z all)). intros a d A D. apply (proj1 (closed a A)), D. Qed.
Lemma within_all r : In r all -> within deps r all.
Proof. intros R x H. exact (reach_all _ _ H R). Qed.

Definition left (sc : Z -> bool) : nat := length (filter (fun x => negb (sc x)) all).
Lemma left_mono sc sc' : (forall x, sc x = true -> sc' x = true) -> (left sc' <= left sc)%nat.
Proof.
  clear closed. intros M. unfold left. induction all as [|x l IH]; cbn [filter]; [lia|].
  destruct (sc x) eqn:E; cbn [negb]; [rewrite (M x E); cbn [negb]; exact IH|]. destruct (sc' x); cbn [negb length]; lia.
Qed.
Lemma left_strict sc sc' o : (forall x, sc x = true -> sc' x = true) -> In o all -> sc o = false -> sc' o = true -> (left sc' < left sc)%nat.
Proof.
  clear closed. intros M. unfold left. induction all as [|x l IH]; intros I F T; cbn [filter]; [destruct I|].
  destruct (Z.eq_dec x o) as [->|N].
  - rewrite F, T. cbn [negb length]. assert (H : (length (filter (fun x => negb (sc' x)) l) <= length (filter (fun x => negb (sc x)) l))%nat); [|lia].
    clear - M. induction l as [|x l IH]; cbn [filter]; [lia|].
    destruct (sc x) eqn:E; cbn [negb]; [rewrite (M x E); cbn [negb]; exact IH|]. destruct (sc' x); cbn [negb length]; lia.
  - destruct I as [->|I]; [congruence|]. specialize (IH I F T). destruct (sc x) eqn:E; cbn [negb]; [rewrite (M x E); cbn [negb]; exact IH|].
    destruct (sc' x); cbn [negb length]; lia.
Qed.

(** scheduled: settled before ([P]), in the queue, or on the stack *)
Definition Inv (P : Z -> Prop) (sc os : Z -> bool) (q : list Z) : Prop :=
  NoDup q /\ (forall x, sc x = true <-> P x \/ In x q \/ os x = true) /\ (forall x, In x q -> ~ P x /\ os x = false) /\ (forall x, P x -> os x = false).
(** what scheduling the objects [ds] does *)
Definition scheds (P : Z -> Prop) (ds : list Z) (s : state) (q : list Z) (r : res (state * list Z)) : Prop :=
  exists sc os new, r = Ok (with_sched s sc os, q ++ new) /\ (forall x, os x = on_stack s x) /\ Inv P sc os (q ++ new) /\
    (forall x, scheduled s x = true -> sc x = true) /\ (forall d, In d ds -> sc d = true) /\
    (forall x, In x new -> scheduled s x = false /\ exists d, In d ds /\ reach deps d x) /\
    (forall x d, In x new -> In d (deps x) -> sc d = true /\ (P d \/ before (q ++ new) d x \/ reach deps d x)).

Lemma with_sched_twice s a b c d : with_sched (with_sched s a b) c d = with_sched s c d.
Proof. reflexivity. Qed.
Lemma with_sched_same s : with_sched s (scheduled s) (on_stack s) = s.
Proof. destruct s; reflexivity. Qed.

Lemma deps_ok P f : (forall o s q, In o all -> (left (scheduled s) <= f)%nat -> scheduled s o = false -> Inv P (scheduled s) (on_stack s) q ->
    (forall k, on_stack s k = true -> reach deps k o) -> scheds P [o] s q (scheduleInit f deps o s q)) ->
  forall ds s q, incl ds all -> (left (scheduled s) <= f)%nat -> Inv P (scheduled s) (on_stack s) q ->
    (forall k d, on_stack s k = true -> In d ds -> reach deps k d) -> scheds P ds s q (sched_deps (scheduleInit f deps) ds s q).
Proof.
  intros REC. induction ds as [|d ds IH]; intros s q I L V R; cbn [sched_deps].
  - exists (scheduled s), (on_stack s), []. rewrite app_nil_r, with_sched_same. split; [reflexivity|]. split; [reflexivity|]. split; [exact V|].
    split; [auto|]. split; [intros d []|]. split; [intros x []|intros x d []].
  - destruct (scheduled s d) eqn:SD; cbn [negb].
    + destruct (IH s q) as (sc & os & new & E & O & V' & M & A & N & C); auto.
      { intros x Hx. apply I. right. exact Hx. }
      { intros k x K X. apply R; [exact K|right; exact X]. }
      exists sc, os, new. split; [exact E|]. split; [exact O|]. split; [exact V'|]. split; [exact M|]. split; [intros x [<-|X]; auto|].
      split; [|exact C]. intros x Hx. destruct (N x Hx) as (N1 & y & N2 & N3). split; [exact N1|]. exists y. split; [right; exact N2|exact N3].
    + destruct (REC d s q) as (sc & os & new & E & O & V' & M & A & N & C); auto.
      { apply I. left. reflexivity. }
      { intros k K. apply R; [exact K|left; reflexivity]. }
      rewrite E. cbn [bind].
      destruct (IH (with_sched s sc os) (q ++ new)) as (sc2 & os2 & new2 & E2 & O2 & V2 & M2 & A2 & N2 & C2).
      { intros x Hx. apply I. right. exact Hx. }
      { cbn [scheduled with_sched]. pose proof (left_mono _ _ M). lia. }
      { exact V'. }
      { cbn [on_stack with_sched]. intros k x K X. rewrite O in K. apply R; [exact K|right; exact X]. }
      cbn [scheduled on_stack with_sched] in *. rewrite with_sched_twice in E2. rewrite E2.
      exists sc2, os2, (new ++ new2). rewrite app_assoc. split; [reflexivity|]. split; [intros x; rewrite O2; apply O|]. split; [exact V2|].
      split; [auto|]. split; [intros x [<-|X]; [apply M2, A; left; reflexivity|auto]|]. split.
      * intros x Hx. apply in_app_iff in Hx as [Hx|Hx].
        -- destruct (N x Hx) as (N1 & y & [<-|[]] & N3). split; [exact N1|]. exists d. split; [left; reflexivity|exact N3].
        -- destruct (N2 x Hx) as (N1 & y & Y & N3). split; [|exists y; split; [right; exact Y|exact N3]].
           destruct (scheduled s x) eqn:SX; [|reflexivity]. rewrite (M x SX) in N1. exact N1.
      * intros x e Hx D. apply in_app_iff in Hx as [Hx|Hx].
        -- destruct (C x e Hx D) as (C1 & [C3|[C3|C3]]); (split; [apply M2, C1|]); auto. right. left. apply before_app_l, C3.
        -- destruct (C2 x e Hx D) as (C1 & [C3|[C3|C3]]); (split; [exact C1|]); auto.
Qed.
Lemma schedule_ok P : forall f o s q, In o all -> (left (scheduled s) <= f)%nat -> scheduled s o = false -> Inv P (scheduled s) (on_stack s) q ->
    (forall k, on_stack s k = true -> reach deps k o) -> scheds P [o] s q (scheduleInit f deps o s q).
Proof.
  induction f as [|f IH]; intros o s q I L SO V R.
  - exfalso. pose proof (left_strict (scheduled s) (fun _ => true) o (fun _ _ => eq_refl) I SO eq_refl). lia.
  - cbn [scheduleInit]. destruct V as (ND & SC & Q & PS).
    assert (OS : on_stack s o = false). { destruct (on_stack s o) eqn:E; [|reflexivity]. rewrite <- SO. symmetry. apply SC. auto. }
    assert (NP : ~ P o). { intros X. rewrite (proj2 (SC o)) in SO; [discriminate|auto]. }
    assert (NQ : ~ In o q). { intros X. rewrite (proj2 (SC o)) in SO; [discriminate|auto]. }
    rewrite OS, SO. set (s1 := with_sched s (set_b (scheduled s) o true) (set_b (on_stack s) o true)).
    assert (M1 : forall x, scheduled s x = true -> set_b (scheduled s) o true x = true).
    { intros x H. destruct (Z.eq_dec x o) as [->|N]; [apply set_b_eq|rewrite set_b_ne by exact N; exact H]. }
    destruct (deps_ok P f IH (deps o) s1 q) as (sc & os & new & E & O & V' & M & A & N & C).
    { exact (proj1 (closed o I)). }
    { cbn [s1 scheduled with_sched]. pose proof (left_strict (scheduled s) (set_b (scheduled s) o true) o M1 I SO (set_b_eq _ _ _)). lia. }
    { cbn [s1 scheduled on_stack with_sched]. split; [exact ND|]. split; [|split].
      - intros x. destruct (Z.eq_dec x o) as [->|NE]; [rewrite !set_b_eq; tauto|]. rewrite !set_b_ne by exact NE. apply SC.
      - intros x X. destruct (Z.eq_dec x o) as [->|NE]; [contradiction|]. rewrite set_b_ne by exact NE. apply Q, X.
      - intros x X. destruct (Z.eq_dec x o) as [->|NE]; [contradiction|]. rewrite set_b_ne by exact NE. apply PS, X. }
    { cbn [s1 on_stack with_sched]. intros k d K D. destruct (Z.eq_dec k o) as [->|NE]; [apply reach_dep, D|].
      rewrite set_b_ne in K by exact NE. eapply reach_trans; [apply R, K|apply reach_dep, D]. }
    rewrite E. clear E. cbn [bind]. subst s1. rewrite !with_sched_twice. cbn [scheduled on_stack with_sched] in *. cbn [scheduled on_stack with_sched].
    destruct V' as (ND' & SC' & Q' & PS').
    assert (OO : os o = true) by (rewrite O; apply set_b_eq).
    exists sc, (set_b os o false), (new ++ [o]). rewrite app_assoc.
    assert (OF : forall x, set_b os o false x = on_stack s x).
    { intros x. destruct (Z.eq_dec x o) as [->|NE]; [rewrite set_b_eq; congruence|]. rewrite set_b_ne by exact NE. rewrite O. apply set_b_ne, NE. }
    assert (NO : ~ In o (q ++ new)) by (intros X; apply Q' in X as [_ X]; congruence).
    split; [reflexivity|]. split; [exact OF|]. split; [|split; [auto|split; [|split]]].
    + split; [|split; [|split]].
      * apply nodup_app; [exact ND'|repeat constructor; intros []|]. intros x X [<-|[]]. contradiction.
      * intros x. rewrite SC', (in_app_iff (q ++ new) [o]). cbn [In]. destruct (Z.eq_dec x o) as [->|NE]; [rewrite set_b_eq; tauto|]. rewrite set_b_ne by exact NE.
        split; [tauto|]. intros [H|[[H|[H|[]]]|H]]; first [congruence|auto].
      * intros x X. rewrite OF. apply in_app_iff in X as [X|[<-|[]]]; [|auto]. destruct (Q' x X) as [Q1 Q2]. split; [exact Q1|].
        rewrite <- OF. destruct (Z.eq_dec x o) as [->|NE]; [apply set_b_eq|rewrite set_b_ne by exact NE; exact Q2].
      * intros x X. rewrite OF. apply PS, X.
    + intros d [<-|[]]. apply M, set_b_eq.
    + intros x X. apply in_app_iff in X as [X|[<-|[]]]; [|split; [exact SO|exists o; split; [left; reflexivity|constructor]]].
      destruct (N x X) as (N1 & d & D & RD). split; [|exists o; split; [left; reflexivity|eapply reach_step; eassumption]].
      destruct (scheduled s x) eqn:SX; [|reflexivity]. rewrite (M1 x SX) in N1. exact N1.
    + intros x d X D. apply in_app_iff in X as [X|[<-|[]]].
      * destruct (C x d X D) as (C1 & [C2|[C2|C2]]); (split; [exact C1|]); auto. right. left. apply before_app_l, C2.
      * pose proof (A d D) as SD. split; [exact SD|]. apply SC' in SD as [H|[H|H]]; [auto| |].
        -- right. left. apply before_mid; [exact H|left; reflexivity].
        -- right. right. rewrite O in H. destruct (Z.eq_dec d o) as [->|NE]; [constructor|]. rewrite set_b_ne in H by exact NE. apply R, H.
Qed.
(** scheduling all the objects of a load *)
Lemma schedule_all f s ds : incl ds all -> (left (scheduled s) <= f)%nat -> (forall x, on_stack s x = false) ->
  exists sc os q, sched_deps (scheduleInit f deps) ds s [] = Ok (with_sched s sc os, q) /\ (forall x, os x = false) /\ NoDup q /\
    (forall x, sc x = true <-> scheduled s x = true \/ In x q) /\ (forall d, In d ds -> sc d = true) /\
    (forall x, In x q -> scheduled s x = false /\ exists d, In d ds /\ reach deps d x) /\
    (forall x d, In x q -> In d (deps x) -> sc d = true /\ (scheduled s d = true \/ before q d x \/ reach deps d x)).
Proof.
  intros I L O. destruct (deps_ok (fun x => scheduled s x = true) f (schedule_ok _ f) ds s []) as (sc & os & q & E & OS & V & M & A & N & C); auto.
  { split; [constructor|]. split; [|split; [intros x []|auto]]. intros x. rewrite O. cbn [In]. intuition discriminate. }
  { intros k d K. rewrite O in K. discriminate. }
  cbn [app] in *. destruct V as (ND & SC & _ & _). exists sc, os, q. split; [exact E|]. split; [intros x; rewrite OS; apply O|]. split; [exact ND|].
  split; [|auto]. intros x. rewrite SC, OS, O. intuition discriminate.
Qed.

(** between loads *)
Definition good (s : state) : Prop :=
  (forall x, on_stack s x = false) /\ NoDup (started s) /\ NoDup (finished s) /\
  (forall x, In x (started s) -> scheduled s x = true) /\ (forall x, In x (finished s) -> In x (started s)) /\
  (forall x, initialized s x = true <-> In x (finished s)) /\ destruct_queue s = rev (finished s) /\
  (forall x, was_destroyed s x = false) /\ destroyed s = [].
(** what a piece of work does that starts exactly the newly scheduled objects and those of [q] *)
Definition grows (q : list Z) (s s' : state) : Prop :=
  good s' /\ (forall x, scheduled s x = true -> scheduled s' x = true) /\ (forall x, was_linked s x = true -> was_linked s' x = true) /\
  exists new fin, started s' = started s ++ new /\ finished s' = finished s ++ fin /\ (forall x, In x new <-> In x fin) /\
    (forall x, In x new <-> In x q \/ (scheduled s x = false /\ scheduled s' x = true)).
Lemma grows_refl s : good s -> grows [] s s.
Proof.
  intros G. split; [exact G|]. split; [auto|]. split; [auto|]. exists [], []. rewrite !app_nil_r. split; [reflexivity|]. split; [reflexivity|].
  split; [tauto|]. intros x. cbn [In]. intuition congruence.
Qed.
Lemma grows_trans q1 q2 s1 s2 s3 : grows q1 s1 s2 -> grows q2 s2 s3 -> (forall x, In x q2 -> scheduled s1 x = true) -> grows (q1 ++ q2) s1 s3.
Proof.
  intros (G2 & M2 & L2 & n2 & f2 & S2 & F2 & E2 & N2) (G3 & M3 & L3 & n3 & f3 & S3 & F3 & E3 & N3) Q.
  split; [exact G3|]. split; [auto|]. split; [auto|]. exists (n2 ++ n3), (f2 ++ f3). rewrite S3, S2, F3, F2, !app_assoc.
  split; [reflexivity|]. split; [reflexivity|]. split.
  - intros x. rewrite !in_app_iff, E2, E3. reflexivity.
  - intros x. rewrite !in_app_iff, N2, N3. pose proof (M2 x) as A. pose proof (M3 x) as B. pose proof (Q x) as C.
    destruct (scheduled s1 x) eqn:X1, (scheduled s2 x) eqn:X2, (scheduled s3 x) eqn:X3; intuition congruence.
Qed.
(** the roots an object is loaded from *)
Definition inv_closed (s : state) : Prop := forall x, scheduled s x = true -> (forall d, In d (deps x) -> scheduled s d = true).

Definition load_spec (fuel : nat) : Prop := forall root s, In root all -> (length all + 2 + left (scheduled s) <= fuel)%nat -> good s ->
  exists s', load fuel deps opens root s = Ok s' /\ grows [] s s' /\ scheduled s' root = true /\
    (forall x, scheduled s x = false -> scheduled s' x = true -> (forall d, In d (deps x) \/ In d (opens x) -> scheduled s' d = true) /\ involved deps opens [root] x).

Lemma involved_mono roots roots' x : (forall r, In r roots -> involved deps opens roots' r) -> involved deps opens roots x -> involved deps opens roots' x.
Proof. intros H. induction 1; [auto|eapply inv_dep; eauto|eapply inv_open; eauto]. Qed.
Lemma involved_reach roots x y : reach deps x y -> involved deps opens roots x -> involved deps opens roots y.
Proof. intros H. induction H; intros; [assumption|]. apply IHreach. eapply inv_dep; eauto. Qed.

Lemma each_load fuel : load_spec fuel -> forall roots s, incl roots all -> (length all + 2 + left (scheduled s) <= fuel)%nat -> good s ->
  exists s', each (load fuel deps opens) roots s = Ok s' /\ grows [] s s' /\ (forall r, In r roots -> scheduled s' r = true) /\
    (forall x, scheduled s x = false -> scheduled s' x = true -> (forall d, In d (deps x) \/ In d (opens x) -> scheduled s' d = true) /\ involved deps opens roots x).
Proof.
  intros LS. induction roots as [|r roots IH]; intros s I F G; cbn [each].
  - exists s. split; [reflexivity|]. split; [apply grows_refl, G|]. split; [intros r []|]. intros x A B. congruence.
  - destruct (LS r s) as (s1 & E1 & G1 & R1 & C1); [apply I; left; reflexivity|exact F|exact G|]. rewrite E1. cbn [bind].
    pose proof G1 as (GG1 & M1 & _).
    destruct (IH s1) as (s2 & E2 & G2 & R2 & C2); [intros x Hx; apply I; right; exact Hx|pose proof (left_mono _ _ M1); lia|exact GG1|].
    rewrite E2. exists s2. split; [reflexivity|]. pose proof G2 as (_ & M2 & _).
    split; [exact (grows_trans [] [] s s1 s2 G1 G2 (fun x H => match H with end))|]. split; [intros x [<-|X]; [apply M2, R1|auto]|].
    intros x A B. destruct (scheduled s1 x) eqn:X.
    + destruct (C1 x A X) as [D1 D2]. split; [intros d Hd; apply M2, D1, Hd|]. eapply involved_mono; [|exact D2]. intros y [<-|[]]. apply inv_root. left. reflexivity.
    + destruct (C2 x X B) as [D1 D2]. split; [exact D1|]. eapply involved_mono; [|exact D2]. intros y Y. apply inv_root. right. exact Y.
Qed.

Lemma good_enter s o : good s -> scheduled s o = true -> ~ In o (started s) -> good (enter s o).
Proof.
  intros (A & B & C & D & E & F & G & H & I) SO NS. unfold good, enter; cbn. repeat (split; try assumption).
  - apply nodup_app; [exact B|repeat constructor; intros []|]. intros x X [<-|[]]. contradiction.
  - intros x X. apply in_app_iff in X as [X|[<-|[]]]; auto.
  - intros x X. apply in_app_iff. left. auto.
Qed.
Lemma good_leave s o : good s -> In o (started s) -> ~ In o (finished s) -> good (leave s o).
Proof.
  intros (A & B & C & D & E & F & G & H & I) SO NF. unfold good, leave; cbn. split; [exact A|]. split; [exact B|]. split; [|split; [exact D|split; [|split; [|split; [|auto]]]]].
  - apply nodup_app; [exact C|repeat constructor; intros []|]. intros x X [<-|[]]. contradiction.
  - intros x X. apply in_app_iff in X as [X|[<-|[]]]; auto.
  - intros x. rewrite in_app_iff. cbn [In]. destruct (Z.eq_dec x o) as [->|NE]; [rewrite set_b_eq; tauto|]. rewrite set_b_ne by exact NE. rewrite F.
    split; [tauto|]. intros [X|[X|[]]]; [exact X|congruence].
  - rewrite G, rev_app_distr. reflexivity.
Qed.

Lemma init_ok fuel : load_spec fuel -> forall q s, NoDup q -> incl q all -> (forall x, In x q -> scheduled s x = true /\ was_linked s x = true /\ ~ In x (started s)) ->
  (length all + 2 + left (scheduled s) <= fuel)%nat -> good s ->
  exists s', init_queue (fun o s => each (load fuel deps opens) (opens o) s) q s = Ok s' /\ grows q s s' /\
    (forall x, In x q -> forall d, In d (opens x) -> scheduled s' d = true) /\
    (forall x, scheduled s x = false -> scheduled s' x = true -> (forall d, In d (deps x) \/ In d (opens x) -> scheduled s' d = true) /\ exists o, In o q /\ involved deps opens (opens o) x).
Proof.
  intros LS. induction q as [|o q IH]; intros s ND I Q F G; cbn [init_queue].
  - exists s. split; [reflexivity|]. split; [apply grows_refl, G|]. split; [intros x []|]. intros x A B. congruence.
  - inversion ND as [|? ? N1 N2]; subst. destruct (Q o (or_introl eq_refl)) as (SO & LO & NS).
    assert (NF : ~ In o (finished s)) by (intros X; apply NS; apply G, X).
    assert (IO : initialized s o = false). { destruct (initialized s o) eqn:X; [|reflexivity]. exfalso. apply NF. apply G, X. }
    rewrite IO, LO. cbn [negb].
    pose proof (good_enter s o G SO NS) as GE.
    destruct (each_load fuel LS (opens o) (enter s o)) as (s1 & E1 & G1 & R1 & C1); [apply (proj2 (closed o (I o (or_introl eq_refl))))|exact F|exact GE|].
    rewrite E1. cbn [bind]. pose proof G1 as (GG1 & M1 & L1 & nw & fn & ST1 & FN1 & NF1 & NW1). cbn [enter scheduled was_linked started finished] in *.
    assert (NI : ~ In o nw). { rewrite NW1. intros [[]|[X _]]. congruence. }
    assert (GL : good (leave s1 o)).
    { apply good_leave; [exact GG1| |].
      - rewrite ST1. apply in_app_iff. left. apply in_app_iff. right. left. reflexivity.
      - rewrite FN1, in_app_iff, <- NF1. tauto. }
    destruct (IH (leave s1 o)) as (s2 & E2 & G2 & R2 & C2); [exact N2|intros x Hx; apply I; right; exact Hx| |cbn [leave scheduled]; pose proof (left_mono _ _ M1); lia|exact GL|].
    { intros x X. destruct (Q x (or_intror X)) as (A & B & C). cbn [leave scheduled was_linked started]. split; [auto|]. split; [auto|].
      rewrite ST1, !in_app_iff. cbn [In]. rewrite NW1. cbn [In]. intros [[H|[H|[]]]|[[]|[H _]]]; [contradiction|subst; contradiction|congruence]. }
    rewrite E2. exists s2. split; [reflexivity|]. pose proof G2 as (_ & M2 & _). cbn [leave scheduled] in M2.
    split; [|split].
    + apply (grows_trans [o] q s (leave s1 o) s2); [|exact G2|intros x X; apply Q; right; exact X].
      split; [exact GL|]. split; [exact M1|]. split; [exact L1|]. exists (o :: nw), (fn ++ [o]). cbn [leave started finished scheduled].
      rewrite ST1, FN1, <- !app_assoc. split; [reflexivity|]. split; [reflexivity|]. split.
      * intros x. rewrite in_app_iff. cbn [In]. rewrite NF1. tauto.
      * intros x. cbn [In]. rewrite NW1. cbn [In]. tauto.
    + intros x [<-|X] d D; [apply M2, R1, D|eapply R2; eauto].
    + intros x A B. destruct (scheduled s1 x) eqn:X.
      * destruct (C1 x A X) as [D1 D2]. split; [intros d Hd; apply M2, D1, Hd|]. exists o. split; [left; reflexivity|exact D2].
      * destruct (C2 x X B) as (D1 & y & Y & D2). split; [exact D1|]. exists y. split; [right; exact Y|exact D2].
Qed.

Lemma load_ok : forall fuel, load_spec fuel.
Proof.
  induction fuel as [|f IH]; intros root s I F G; [lia|]. cbn [load].
  rewrite (bfs_spec deps root all) by (try apply within_all; try exact I; lia). cbn [bind]. set (bfs := levels (S (length all)) deps [] [root]).
  assert (BM : forall x, In x bfs <-> reach deps root x) by (intros x; apply bfs_members, within_all, I).
  destruct (schedule_all (S f) (link_all s bfs) bfs) as (sc & os & q & E & OS & ND & SC & A & N & C).
  { intros x X. apply BM in X. exact (reach_all _ _ X I). }
  { cbn [link_all scheduled]. lia. }
  { cbn [link_all on_stack]. apply G. }
  cbn [link_all scheduled on_stack] in *. rewrite E. cbn [bind]. set (s1 := with_sched (link_all s bfs) sc os).
  assert (QR : forall x, In x q -> reach deps root x).
  { intros x X. destruct (N x X) as (_ & d & D & R). eapply reach_trans; [apply BM, D|exact R]. }
  assert (G1 : good s1).
  { destruct G as (A1 & A2 & A3 & A4 & A5 & A6 & A7 & A8 & A9). unfold good, s1; cbn. repeat (split; try assumption); try apply A6.
    intros x X. apply SC. left. auto. }
  assert (MS : forall x, scheduled s x = true -> sc x = true) by (intros x X; apply SC; auto).
  assert (ML : forall x, was_linked s x = true -> was_linked s1 x = true).
  { intros x X. cbn [s1 with_sched link_all was_linked]. rewrite X. destruct (mem_b x bfs); reflexivity. }
  destruct q as [|y q'] eqn:QE.
  { cbn [init_queue]. exists s1. split; [reflexivity|]. split; [|split].
    - split; [exact G1|]. split; [exact MS|]. split; [exact ML|]. exists [], []. rewrite !app_nil_r. split; [reflexivity|]. split; [reflexivity|]. split; [tauto|].
      intros x. cbn [In s1 with_sched scheduled]. rewrite SC. cbn [In]. intuition congruence.
    - cbn [s1 with_sched scheduled]. apply A, BM. constructor.
    - intros x X Y. exfalso. cbn [s1 with_sched scheduled] in Y. apply SC in Y as [Y|[]]. congruence. }
  assert (QY : In y q) by (rewrite QE; left; reflexivity). rewrite <- QE in *. clear QE.
  destruct (init_ok f IH q s1) as (s2 & E2 & G2 & R2 & C2).
  - exact ND.
  - intros x X. exact (reach_all _ _ (QR x X) I).
  - intros x X. cbn [s1 with_sched link_all scheduled was_linked started]. split; [apply SC; right; exact X|]. split.
    + rewrite (proj2 (mem_b_In x bfs)); [reflexivity|]. apply BM, QR, X.
    + intros Y. destruct (N x X) as [NX _]. rewrite (proj1 (proj2 (proj2 (proj2 G)))) in NX; [discriminate|exact Y].
  - cbn [s1 with_sched scheduled].
    pose proof (left_strict (scheduled s) sc y MS (reach_all _ _ (QR y QY) I) (proj1 (N y QY)) (proj2 (SC y) (or_intror QY))). lia.
  - exact G1.
  - rewrite E2. exists s2. split; [reflexivity|]. destruct G2 as (GG2 & M2 & L2 & nw & fn & ST2 & FN2 & NF2 & NW2).
    cbn [s1 with_sched link_all scheduled was_linked started finished] in *.
    split; [|split].
    + split; [exact GG2|]. split; [auto|]. split; [intros x X; apply L2; rewrite X; destruct (mem_b x bfs); reflexivity|].
      exists nw, fn. split; [exact ST2|]. split; [exact FN2|]. split; [exact NF2|]. intros x. rewrite NW2. cbn [In].
      pose proof (M2 x) as H1. pose proof (SC x) as H2. pose proof (fun X => proj1 (N x X)) as H3.
      destruct (scheduled s x), (sc x), (scheduled s2 x); intuition congruence.
    + apply M2, A, BM. constructor.
    + intros x X Y. destruct (sc x) eqn:SX.
      * assert (QX : In x q) by (apply SC in SX as [SX|SX]; [congruence|exact SX]). split.
        -- intros d [D|D]; [apply M2, (C x d QX D)|eapply R2; eauto].
        -- eapply involved_reach; [apply QR, QX|]. apply inv_root. left. reflexivity.
      * destruct (C2 x SX Y) as (D1 & o & O & D2). split; [exact D1|]. eapply involved_mono; [|exact D2]. intros r Hr.
        eapply inv_open; [|exact Hr]. eapply involved_reach; [apply QR, O|]. apply inv_root. left. reflexivity.
Qed.
End Graph.

Lemma good_start : good start.
Proof. unfold good, start; cbn. repeat split; try constructor; try (intros; discriminate); try (intros x []); intros []. Qed.
Lemma left_le all sc : (left all sc <= length all)%nat.
Proof. unfold left. induction all as [|x l IH]; cbn [filter length]; [lia|]. destruct (negb (sc x)); cbn [length]; lia. Qed.
Lemma involved_all deps opens roots all : universe deps opens roots all -> forall x, involved deps opens roots x -> In x all.
Proof. intros [R C] x H. induction H; [auto|apply (proj1 (C x IHinvolved)); assumption|apply (proj2 (C x IHinvolved)); assumption]. Qed.

(** everything that is loaded is initialised exactly once *)
Lemma once_ok deps opens roots all fuel : universe deps opens roots all -> (2 * length all + 2 <= fuel)%nat ->
  exists s, each (load fuel deps opens) roots start = Ok s /\ good s /\
    (forall x, In x (started s) <-> involved deps opens roots x) /\ (forall x, In x (finished s) <-> involved deps opens roots x).
Proof.
  intros [R C] F.
  destruct (each_load deps opens all C fuel (load_ok deps opens all C fuel) roots start R) as (s & E & G & A & D).
  { pose proof (left_le all (scheduled start)). lia. }
  { apply good_start. }
  destruct G as (G & M & _ & new & fin & S & FN & NF & NW). cbn [start started finished scheduled app] in *.
  assert (H : forall x, In x new <-> involved deps opens roots x).
  { intros x. rewrite NW. cbn [In]. split.
    - intros [[]|[_ X]]. exact (proj2 (D x eq_refl X)).
    - intros X. right. split; [reflexivity|]. induction X; [auto|apply (proj1 (D x eq_refl IHX)); auto|apply (proj1 (D x eq_refl IHX)); auto]. }
  exists s. split; [exact E|]. split; [exact G|]. split; [intros x; rewrite S; apply H|]. intros x. rewrite FN, <- NF. apply H.
Qed.

(** destruction *)
Lemma destruct_ok : forall l fuel s, destruct_queue s = l -> NoDup l -> (forall x, In x l -> initialized s x = true /\ was_destroyed s x = false) ->
  (length l < fuel)%nat -> exists s', destructObjects fuel s = Ok s' /\ destroyed s' = destroyed s ++ l.
Proof.
  induction l as [|o l IH]; intros fuel s Q N A F; (destruct fuel as [|f]; [cbn in F; lia|]); cbn [destructObjects]; rewrite Q.
  - exists s. split; [reflexivity|]. rewrite app_nil_r. reflexivity.
  - destruct (A o (or_introl eq_refl)) as [I D]. unfold doDestruct. rewrite I, D. cbn [negb orb].
    inversion N as [|? ? N1 N2]; subst.
    match goal with |- exists s', destructObjects f ?x = _ /\ _ => destruct (IH f x) as (s' & E & DE) end.
    + cbn [pop destruct_queue]. rewrite Q. reflexivity.
    + exact N2.
    + intros x X. cbn [pop initialized was_destroyed]. destruct (A x (or_intror X)) as [I' D']. split; [exact I'|]. rewrite set_b_ne; [exact D'|]. intros ->. contradiction.
    + cbn in F. lia.
    + exists s'. split; [exact E|]. rewrite DE. cbn [pop destroyed]. rewrite <- app_assoc. reflexivity.
Qed.
Lemma exit_ok s fuel : good s -> (length (finished s) < fuel)%nat ->
  exists s', destructObjects fuel s = Ok s' /\ destroyed s' = rev (finished s).
Proof.
  intros (_ & _ & N & _ & _ & I & Q & D & E) F. destruct (destruct_ok (rev (finished s)) fuel s Q) as (s' & E' & X).
  - apply NoDup_rev, N.
  - intros x X. split; [apply I; apply in_rev, X|apply D].
  - rewrite rev_length. exact F.
  - exists s'. rewrite E in X. auto.
Qed.

(** the order, if constructors load nothing *)
Lemma plain_queue fuel deps : forall q s, NoDup q -> (forall x, In x q -> initialized s x = false /\ was_linked s x = true) ->
  exists s', init_queue (fun o s => each (load fuel deps no_opens) (no_opens o) s) q s = Ok s' /\ started s' = started s ++ q /\ finished s' = finished s ++ q /\
    scheduled s' = scheduled s.
Proof.
  induction q as [|o q IH]; intros s N A; cbn [init_queue].
  - exists s. rewrite !app_nil_r. auto.
  - destruct (A o (or_introl eq_refl)) as [I L]. rewrite I, L. cbn [negb no_opens each bind]. inversion N as [|? ? N1 N2]; subst.
    destruct (IH (leave (enter s o) o)) as (s' & E & S & F & C); [exact N2| |].
    + intros x X. destruct (A x (or_intror X)) as [I' L']. cbn [leave enter initialized was_linked]. split; [|exact L']. rewrite set_b_ne; [exact I'|]. intros ->. contradiction.
    + exists s'. split; [exact E|]. rewrite S, F, C. cbn [leave enter started finished]. rewrite <- !app_assoc. auto.
Qed.
Definition ordered (deps : Z -> list Z) (l : list Z) : Prop :=
  forall x d, In x l -> In d (deps x) -> ~ reach deps d x -> before l d x.
(** all the scheduled objects are initialised, in this order *)
Definition settled (deps : Z -> list Z) (s : state) : Prop :=
  good s /\ started s = finished s /\ (forall x, scheduled s x = true <-> In x (started s)) /\ ordered deps (started s).
Lemma load_order deps all fuel root s : (forall x, In x all -> incl (deps x) all /\ incl (no_opens x) all) -> In root all ->
  (length all + 2 + left all (scheduled s) <= fuel)%nat -> settled deps s ->
  exists s', load fuel deps no_opens root s = Ok s' /\ settled deps s'.
Proof.
  intros C I F (G & SF & SC & OD). destruct (load_ok deps no_opens all C fuel root s I F G) as (s' & E & (G' & _) & _).
  exists s'. split; [exact E|]. split; [exact G'|]. destruct fuel as [|f]; [lia|]. cbn [load] in E.
  rewrite (bfs_spec deps root all) in E by (try apply (within_all deps no_opens all C); try exact I; lia). cbn [bind] in E.
  set (bfs := levels (S (length all)) deps [] [root]) in E.
  assert (BM : forall x, In x bfs <-> reach deps root x) by (intros x; apply bfs_members, (within_all deps no_opens all C), I).
  destruct (schedule_all deps no_opens all C (S f) (link_all s bfs) bfs) as (sc & os & q & E1 & OS & ND & SC1 & A & N & CL).
  { intros x X. apply BM in X. exact (reach_all deps no_opens all C _ _ X I). }
  { cbn [link_all scheduled]. lia. }
  { cbn [link_all on_stack]. apply G. }
  rewrite E1 in E. cbn [bind link_all scheduled] in *.
  destruct (plain_queue f deps q (with_sched (link_all s bfs) sc os) ND) as (s2 & E2 & S2 & F2 & C2).
  { intros x X. destruct (N x X) as (NX & d & D & R). cbn [with_sched link_all initialized was_linked]. split.
    - destruct (initialized s x) eqn:IX; [|reflexivity]. destruct G as (_ & _ & _ & G4 & G5 & G6 & _). rewrite G4 in NX; [discriminate|]. apply G5, G6, IX.
    - rewrite (proj2 (mem_b_In x bfs)); [reflexivity|]. apply BM. eapply reach_trans; [apply BM, D|exact R]. }
  rewrite E2 in E. injection E as <-. cbn [with_sched link_all started finished scheduled] in *. rewrite S2, F2, C2.
  split; [congruence|]. split.
  - intros x. rewrite SC1, SC, in_app_iff. reflexivity.
  - intros x d X D NR. apply in_app_iff in X as [X|X].
    + apply before_app_l, OD; assumption.
    + destruct (CL x d X D) as [_ [P|[P|P]]]; [|apply before_app_r, P|contradiction]. apply before_mid; [apply SC, P|exact X].
Qed.
Lemma order_ok deps roots all fuel : universe deps no_opens roots all -> (2 * length all + 2 <= fuel)%nat ->
  exists s, each (load fuel deps no_opens) roots start = Ok s /\ settled deps s.
Proof.
  intros [R C] F. assert (S0 : settled deps start).
  { split; [apply good_start|]. split; [reflexivity|]. split; [intros x; cbn; intuition discriminate|]. intros x d []. }
  revert S0. generalize start. induction roots as [|r roots IH]; intros s S0; cbn [each]; [eauto|].
  destruct (load_order deps all fuel r s C) as (s' & E & S'); [apply R; left; reflexivity|pose proof (left_le all (scheduled s)); lia|exact S0|].
  rewrite E. cbn [bind]. apply IH; [|exact S']. intros x X. apply R. right. exact X.
Qed.
(** without cycles the order is transitive *)
Lemma before_trans l a b c : NoDup l -> before l a b -> before l b c -> before l a c.
Proof.
  intros N (p1 & p2 & p3 & ->) (q1 & q2 & q3 & E).
  assert (B : In c p3).
  { clear - N E. assert (G : forall (p q : list Z) r t, NoDup (p ++ b :: r) -> p ++ b :: r = q ++ b :: t -> r = t).
    { induction p as [|x p IH]; intros [|y q] r t ND EQ; cbn [app] in *.
      - congruence.
      - injection EQ as <- ->. inversion ND as [|? ? N1 _]; subst. exfalso. apply N1, in_app_iff. right. left. reflexivity.
      - injection EQ as -> <-. inversion ND as [|? ? N1 _]; subst. exfalso. apply N1, in_app_iff. right. left. reflexivity.
      - injection EQ as -> EQ. inversion ND as [|? ? N1 N2]; subst. eapply IH; [exact N2|exact EQ]. }
    assert (EQ : (p1 ++ a :: p2) ++ b :: p3 = q1 ++ b :: (q2 ++ c :: q3)) by (rewrite <- app_assoc; exact E).
    rewrite (G (p1 ++ a :: p2) q1 p3 (q2 ++ c :: q3)).
    - apply in_app_iff. right. left. reflexivity.
    - rewrite <- app_assoc. exact N.
    - exact EQ. }
  apply in_split in B as (u & v & ->). exists p1, (p2 ++ b :: u), v. rewrite <- app_assoc. reflexivity.
Qed.
Lemma ordered_trans deps l : NoDup l -> ordered deps l -> (forall x, In x l -> ~ needs deps x x) -> (forall x d, In x l -> In d (deps x) -> In d l) ->
  forall x y, In x l -> needs deps x y -> before l y x.
Proof.
  intros N O A C x y X (d & D & R). revert x X D. induction R as [y|z e y E R IH]; intros x X D.
  - apply O; [exact X|exact D|]. intros R. apply (A x X). exists y. auto.
  - eapply before_trans; [exact N| |apply O; [exact X|exact D|intros R'; apply (A x X); exists z; auto]]. apply IH; [apply (C x z X D)|exact E].
Qed.
