From Verif Require Import Base Fork_Model Fork_Spec.
Open Scope Z_scope.

Definition first (nx : option nat) (l : list nat) : option nat := match l with [] => nx | j :: _ => Some j end.
Fixpoint lasto (p : option nat) (l : list nat) : option nat := match l with [] => p | j :: r => lasto (Some j) r end.

Fixpoint chain (h : list node) (p : option nat) (l : list nat) (ts : list triple) (nx : option nat) : Prop :=
  match l, ts with
  | [], [] => True
  | i :: r, t :: u => nth_error h i = Some (Node t (first nx r) p) /\ chain h (Some i) r u nx
  | _, _ => False
  end.

Lemma chain_app h l1 : forall p t1 l2 t2 nx,
  chain h p l1 t1 (first nx l2) -> chain h (lasto p l1) l2 t2 nx -> chain h p (l1 ++ l2) (t1 ++ t2) nx.
Proof.
  induction l1 as [|i r IH]; intros p [|t t1] l2 t2 nx H H'; cbn in *; try easy.
  destruct H as [H1 H2]. split; [|now apply IH].
  rewrite H1. destruct r; cbn; [|easy]. destruct l2; easy.
Qed.

Lemma chain_split h l1 : forall p i ts nx, chain h p (l1 ++ [i]) ts nx ->
  exists t1 t, ts = t1 ++ [t] /\ chain h p l1 t1 (Some i) /\ nth_error h i = Some (Node t nx (lasto p l1)).
Proof.
  induction l1 as [|j r IH]; intros p i [|t ts] nx H; cbn in *; try easy.
  - destruct H as [H1 H2]. destruct ts; [|easy]. exists [], t. now cbn.
  - destruct H as [H1 H2]. destruct (IH _ _ _ _ H2) as (t1 & u & -> & H3 & H4).
    exists (t :: t1), u. cbn. repeat split; auto. rewrite H1. now destruct r.
Qed.

Lemma chain_frame h h' l : forall p ts nx, (forall i, In i l -> nth_error h' i = nth_error h i) -> chain h p l ts nx -> chain h' p l ts nx.
Proof.
  induction l as [|i r IH]; intros p [|t ts] nx F H; cbn in *; try easy.
  destruct H as [H1 H2]. split; [rewrite F; auto|]. apply IH; auto.
Qed.

Lemma chain_length h l : forall p ts nx, chain h p l ts nx -> length ts = length l.
Proof. induction l as [|i r IH]; intros p [|t ts] nx H; cbn in *; try easy. f_equal. eapply IH, H. Qed.

Lemma lasto_app p l i : lasto p (l ++ [i]) = Some i.
Proof. revert p. induction l as [|j r IH]; intros p; cbn; auto. Qed.

Lemma calls_app a b : calls (a ++ b) = calls a ++ calls b.
Proof. induction a as [|[f|] a IH]; cbn; auto. now rewrite IH. Qed.

Lemma walk_next h get l : forall p ts fuel, chain h p l ts None -> (length l <= fuel)%nat ->
  walk fuel h get next (first None l) = Ok (calls (map get ts)).
Proof.
  induction l as [|i r IH]; intros p [|t ts] fuel H L; cbn in *; try easy.
  - now destruct fuel.
  - destruct H as [H1 H2]. destruct fuel as [|fuel]; [lia|]. cbn. rewrite H1. cbn.
    rewrite (IH _ _ fuel H2) by lia. cbn. now destruct (get t).
Qed.

Lemma walk_prev h get l : forall ts nx fuel, chain h None l ts nx -> (length l <= fuel)%nat ->
  walk fuel h get prev (lasto None l) = Ok (calls (map get (rev ts))).
Proof.
  induction l as [|i r IH] using rev_ind; intros ts nx fuel H L.
  - destruct ts; [|easy]. cbn. now destruct fuel.
  - destruct (chain_split _ _ _ _ _ _ H) as (t1 & t & -> & H1 & H2).
    rewrite app_length in L; cbn in L. destruct fuel as [|fuel]; [lia|].
    rewrite lasto_app. cbn [walk]. rewrite H2. cbn [prev fns].
    rewrite (IH _ _ fuel H1) by lia. cbn. rewrite rev_app_distr. cbn. now destruct (get t).
Qed.

Lemma upd_node_ok f : forall h e n, nth_error h e = Some n ->
  exists h', upd_node h e f = Some h' /\ length h' = length h /\ nth_error h' e = Some (f n) /\ forall i, i <> e -> nth_error h' i = nth_error h i.
Proof.
  induction h as [|m h IH]; intros [|e] n H; cbn in *; try easy.
  - injection H as ->. exists (f n :: h). repeat split. intros [|i] Hi; [lia|easy].
  - destruct (IH _ _ H) as (h' & -> & L & E & F). exists (m :: h'). repeat split; cbn; auto.
    intros [|i] Hi; cbn; auto.
Qed.

Definition good (p : process) (own : nat -> list nat) (regs : nat -> list triple) (ids : nat -> Z) : Prop :=
  forall t, NoDup (own t) /\ (forall i, In i (own t) -> (i < length (heap p))%nat) /\ (forall u i, In i (own t) -> In i (own u) -> t = u) /\
    chain (heap p) None (own t) (regs t) None /\ tcbs p t = Tcb (ids t) (first None (own t)) (lasto None (own t)).

Lemma short l n : NoDup l -> (forall i : nat, In i l -> (i < n)%nat) -> (length l <= n)%nat.
Proof.
  intros N H. rewrite <- (seq_length n 0). apply NoDup_incl_length; auto.
  intros i Hi. apply in_seq. specialize (H i Hi). lia.
Qed.

Lemma register_ok p own regs ids t f : good p own regs ids ->
  exists q own', pthread_atfork p t f = Ok q /\ good q own' (fun u => if Nat.eqb u t then regs u ++ [f] else regs u) ids.
Proof.
  intros G. destruct (G t) as (N & B & D & C & E).
  unfold pthread_atfork. rewrite E. cbn [atfork_begin atfork_end tid].
  set (hand := length (heap p)).
  assert (X : exists h, match lasto None (own t) with None => Ok (heap p) | Some e => match upd_node (heap p) e (fun n => Node (fns n) (Some hand) (prev n)) with Some h => Ok h | None => UB end end = Ok h
     /\ length h = length (heap p) /\ (forall i, ~ In i (own t) -> nth_error h i = nth_error (heap p) i)
     /\ chain h None (own t) (regs t) (Some hand)).
  { destruct (own t) as [|a l] eqn:Eo using rev_ind.
    - cbn. exists (heap p). repeat split; auto. 
    - clear IHl. rewrite lasto_app.
      destruct (chain_split _ _ _ _ _ _ C) as (t1 & w & Er & C1 & C2).
      destruct (upd_node_ok (fun n => Node (fns n) (Some hand) (prev n)) _ _ _ C2) as (h & -> & L & Ee & F).
      exists h. repeat split; auto.
      + intros i Hi. apply F. intros ->. apply Hi. apply in_or_app. right. now left.
      + rewrite Er. apply chain_app; cbn.
        * apply chain_frame with (heap p); auto. intros i Hi. apply F. intros ->.
          apply NoDup_remove_2 in N. apply N. now rewrite app_nil_r.
        * split; auto. }
  destruct X as (h & -> & L & F & C'). cbn [bind].
  exists (Proc (h ++ [Node f None (lasto None (own t))]) (set (tcbs p) t (Tcb (ids t) (match first None (own t) with Some b => Some b | None => Some hand end) (Some hand)))),
    (fun u => if Nat.eqb u t then own u ++ [hand] else own u).
  split; [reflexivity|].
  assert (FR : ~ In hand (own t)) by (intros Hi; apply B in Hi; unfold hand in Hi; lia).
  intros u. cbn [heap tcbs]. unfold set.
  assert (LB : forall v i, In i (if Nat.eqb v t then own v ++ [hand] else own v) -> (i < hand)%nat /\ In i (own v) \/ v = t /\ i = hand).
  { intros v i. destruct (G v) as (_ & Bv & _). destruct (Nat.eqb_spec v t) as [->|]; intros Hi.
    - apply in_app_iff in Hi. destruct Hi as [Hi|[<-|[]]]; [left|right]; auto.
    - left. auto. }
  split; [|split; [|split; [|split]]].
  - destruct (G u) as (Nu & _). destruct (Nat.eqb_spec u t) as [->|]; auto.
    apply NoDup_Add with (a := hand) (l := own t); [|split; auto].
    pose proof (Add_app hand (own t) []) as A. now rewrite app_nil_r in A.
  - intros i Hi. rewrite app_length, L. cbn. apply LB in Hi. fold hand. destruct Hi as [[? _]|[_ ->]]; lia.
  - intros v i Hi Hv. apply LB in Hi. apply LB in Hv. destruct (G u) as (_ & _ & Du & _).
    destruct Hi as [[? ?]|[-> ?]], Hv as [[? ?]|[-> ?]]; try lia; eauto.
  - destruct (Nat.eqb_spec u t) as [->|Hut].
    + apply chain_app; cbn.
      * apply chain_frame with h; auto. intros i Hi. apply B in Hi. apply nth_error_app1. lia.
      * split; auto. unfold hand. rewrite <- L, nth_error_app2, Nat.sub_diag; cbn; auto.
    + destruct (G u) as (_ & Bu & Du & Cu & _). apply chain_frame with (heap p); auto.
      intros i Hi. rewrite nth_error_app1 by (rewrite L; auto). apply F. intros Hi'. apply Hut. eauto.
  - destruct (Nat.eqb_spec u t) as [->|Hut]; [|apply G].
    rewrite lasto_app. f_equal. destruct (own t); reflexivity.
Qed.

Lemma create_ok p own regs ids t id : good p own regs ids ->
  good (create p t id) (fun u => if Nat.eqb u t then [] else own u) (fun u => if Nat.eqb u t then [] else regs u) (fun u => if Nat.eqb u t then id else ids u).
Proof.
  intros G u. unfold create, set. cbn. destruct (Nat.eqb_spec u t) as [->|H].
  - repeat split; auto; try easy; constructor.
  - destruct (G u) as (A & B & C & D & E). repeat split; auto.
    intros v i Hi Hv. destruct (Nat.eqb v t); [easy|eauto].
Qed.

Lemma child_ok p own regs ids t id : good p own regs ids ->
  good (Proc (heap p) (set (tcbs p) t (Tcb id (atfork_begin (tcbs p t)) (atfork_end (tcbs p t))))) own regs (fun u => if Nat.eqb u t then id else ids u).
Proof.
  intros G u. destruct (G u) as (A & B & C & D & E). cbn. unfold set.
  repeat split; auto. destruct (Nat.eqb_spec u t) as [->|]; auto. now rewrite E.
Qed.

Definition trace (regs : list triple) (k : kind) (a : answer) : list event :=
  match k with
  | Plain => [Kernel]
  | WithHandlers => calls (map prepare (rev regs)) ++ [Kernel] ++
      match a with Fails _ => [] | InParent _ => calls (map parent regs) | InChild _ => calls (map child regs) end
  end.

Lemma fork_ok p own regs ids k t a : good p own regs ids ->
  exists q, fork k p t a = Ok (returns a, trace (regs t) k a, q) /\ good q own regs (match a with InChild id => fun u => if Nat.eqb u t then id else ids u | _ => ids end).
Proof.
  intros G. destruct (G t) as (N & B & D & C & E).
  pose proof (short _ _ N B) as L.
  assert (W1 : walk (length (heap p)) (heap p) prepare prev (atfork_end (tcbs p t)) = Ok (calls (map prepare (rev (regs t))))).
  { rewrite E. cbn [atfork_end]. eapply walk_prev; eauto. }
  assert (W2 : forall get, walk (length (heap p)) (heap p) get next (atfork_begin (tcbs p t)) = Ok (calls (map get (regs t)))).
  { intros get. rewrite E. cbn [atfork_begin]. eapply walk_next; eauto. }
  unfold fork. destruct k.
  - rewrite W1. cbn [bind]. destruct a as [e|pid|id].
    + eexists. split; [reflexivity|]. auto.
    + rewrite W2. cbn [bind]. eexists. split; [reflexivity|]. auto.
    + cbn [heap tcbs]. unfold set at 1. rewrite Nat.eqb_refl. cbn [atfork_begin]. rewrite W2. cbn [bind].
      eexists. split; [reflexivity|]. now apply child_ok.
  - cbn [bind]. destruct a as [e|pid|id]; cbn [bind]; eexists; (split; [reflexivity|]); auto. now apply child_ok.
Qed.

Lemma run_ok ops : forall p own regs ids, good p own regs ids ->
  exists q own', run p ops = Ok q /\ good q own' (fun t => registered_by t ops (regs t)) (fun t => kernel_tid t ops (ids t)).
Proof.
  induction ops as [|o ops IH]; intros p own regs ids G.
  - exists p, own. split; auto.
  - destruct o as [t id|t f|k t a]; cbn [run].
    + cbn [bind]. destruct (IH _ _ _ _ (create_ok _ _ _ _ t id G)) as (q & own' & R & G').
      exists q, own'. split; auto. intros u. specialize (G' u). cbn [registered_by kernel_tid].
      rewrite (Nat.eqb_sym t u). exact G'.
    + destruct (register_ok _ _ _ _ t f G) as (p' & own1 & -> & G1). cbn [bind].
      destruct (IH _ _ _ _ G1) as (q & own' & R & G').
      exists q, own'. split; auto. intros u. specialize (G' u). cbn [registered_by kernel_tid].
      rewrite (Nat.eqb_sym t u). exact G'.
    + destruct (fork_ok _ _ _ _ k t a G) as (p' & -> & G1). cbn [bind].
      destruct (returns a) as [rv er]. cbn [bind].
      destruct (IH _ _ _ _ G1) as (q & own' & R & G').
      exists q, own'. split; auto. intros u. specialize (G' u). cbn [registered_by kernel_tid].
      destruct a; auto. rewrite (Nat.eqb_sym t u). exact G'.
Qed.

Lemma start_good id : good (start id) (fun _ => []) (fun _ => []) (fun _ => id).
Proof. intros t. cbn. repeat split; auto; try easy; constructor. Qed.

Theorem fork_history id ops : exists p, run (start id) ops = Ok p /\
  (forall t, tid (tcbs p t) = kernel_tid t ops id) /\
  forall k t a, exists q, fork k p t a = Ok (returns a, trace (registered_by t ops []) k a, q) /\
    tid (tcbs q t) = match a with InChild n => n | _ => kernel_tid t ops id end.
Proof.
  destruct (run_ok ops _ _ _ _ (start_good id)) as (p & own & R & G).
  exists p. split; auto. split.
  - intros t. destruct (G t) as (_ & _ & _ & _ & ->). reflexivity.
  - intros k t a. destruct (fork_ok _ _ _ _ k t a G) as (q & -> & G').
    exists q. split; auto. destruct (G' t) as (_ & _ & _ & _ & ->). cbn.
    destruct a; auto. now rewrite Nat.eqb_refl.
Qed.

Lemma only_by_all t ops : forall acc, only_by t ops -> registered_by t ops acc = acc ++ registered ops.
Proof.
  induction ops as [|o ops IH]; intros acc H; cbn; [now rewrite app_nil_r|].
  inversion H as [|? ? H1 H2]; subst. destruct o as [u id|u f|k u a]; cbn in *.
  - destruct (Nat.eqb_spec u t); [easy|]. now apply IH.
  - subst. rewrite Nat.eqb_refl, IH by auto. now rewrite <- app_assoc.
  - now apply IH.
Qed.
