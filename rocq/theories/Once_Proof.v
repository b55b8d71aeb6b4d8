(** Proofs about pthread_once. *)
From Verif Require Import Once_Model.
Open Scope Z_scope.

Definition runner (p : pc) : Prop := p = Before \/ p = InFunc \/ p = After.

Record inv (s : state) : Prop := {
  i_done : (done s = 0 /\ began s = 0 /\ ended s = 0 /\ forall t, ~ runner (at_ s t)) \/
           (done s = onceLocked /\ exists r, runner (at_ s r) /\
              (forall t, runner (at_ s t) -> t = r) /\
              began s = (match at_ s r with Before => 0 | _ => 1 end) /\
              ended s = (match at_ s r with After => 1 | _ => 0 end)) \/
           (done s = onceComplete /\ began s = 1 /\ ended s = 1 /\ forall t, ~ runner (at_ s t));
  i_ret : forall t, returned s t = true -> done s = onceComplete;
  i_loop : forall t e, at_ s t = Loop e ->
           e = 0 \/ e = onceLocked \/ (e = onceComplete /\ done s = onceComplete);
  i_wake : forall t, at_ s t = Wake -> done s = onceComplete;
  i_dead : forall t, at_ s t <> Dead;
  i_sleep : forall t, at_ s t = Sleep ->
            done s = onceLocked \/ exists u, at_ s u = Wake }.

Lemma inv_init : inv init.
Proof.
  constructor; cbn; try discriminate.
  left. repeat split; try reflexivity. intros t [H|[H|H]]; discriminate.
Qed.

(** a thread moves between places that are neither runners nor wakers *)
Lemma inv_move : forall s t p, inv s ->
  ~ runner (at_ s t) -> at_ s t <> Wake -> ~ runner p ->
  (forall e, p = Loop e -> e = 0 \/ e = onceLocked \/ (e = onceComplete /\ done s = onceComplete)) ->
  p <> Wake -> p <> Dead -> (p = Sleep -> done s = onceLocked) ->
  forall ret, (forall u, ret u = true -> returned s u = true \/ done s = onceComplete) ->
  inv {| done := done s; at_ := setf (at_ s) t p; began := began s; ended := ended s; returned := ret |}.
Proof.
  intros s t p I N1 N2 N3 Hl Nw Nd Hs rt Hr.
  assert (RU : forall u, runner (setf (at_ s) t p u) -> runner (at_ s u)).
  { intros u. unfold setf. destruct (Z.eqb_spec u t) as [->|N]; [intros A; contradiction|auto]. }
  constructor; cbn [done at_ began ended returned].
  - destruct (i_done _ I) as [(A & B & C & D)|[(A & r & R & U & B & C)|(A & B & C & D)]].
    + left. repeat split; try assumption. intros u Hu. exact (D u (RU u Hu)).
    + right; left. split; [exact A|]. exists r.
      assert (r <> t) by (intros ->; contradiction).
      rewrite !setf_other by assumption. repeat split; try assumption.
      intros u Hu. exact (U u (RU u Hu)).
    + right; right. repeat split; try assumption. intros u Hu. exact (D u (RU u Hu)).
  - intros u H. destruct (Hr u H) as [A|A]; [exact (i_ret _ I u A)|exact A].
  - intros u e. unfold setf. destruct (Z.eqb_spec u t) as [->|N]; [apply Hl|apply (i_loop _ I)].
  - intros u. unfold setf. destruct (Z.eqb_spec u t) as [->|N]; [intros A; contradiction|apply (i_wake _ I)].
  - intros u. unfold setf. destruct (Z.eqb_spec u t) as [->|N]; [assumption|apply (i_dead _ I)].
  - intros u. unfold setf at 1. destruct (Z.eqb_spec u t) as [->|N].
    + intros A. left. exact (Hs A).
    + intros A. destruct (i_sleep _ I u A) as [B|(v & B)]; [left; exact B|right].
      exists v. rewrite setf_other; [exact B|]. intros ->. contradiction.
Qed.

Lemma done_cases : forall s, inv s -> done s = 0 \/ done s = onceLocked \/ done s = onceComplete.
Proof.
  intros s I. destruct (i_done _ I) as [(A & _)|[(A & _)|(A & _)]]; auto.
Qed.

Lemma step_inv : forall t a s s', inv s -> step t a s = Some s' -> inv s'.
Proof.
  intros t a s s' I H. unfold step in H.
  assert (SAME : forall u, returned s u = true -> returned s u = true \/ done s = onceComplete) by auto.
  assert (NR : forall p, (p = Before \/ p = InFunc \/ p = After -> False) -> ~ runner p) by auto.
  destruct (at_ s t) as [| |e| | | | | |] eqn:P; destruct a; try discriminate.
  - unfold go in H. injection H as <-.
    apply inv_move; try assumption; try (rewrite P); try discriminate; intros [A|[A|A]]; discriminate.
  - unfold go in H. injection H as <-.
    apply inv_move; try assumption; try (rewrite P); try discriminate; try (intros [A|[A|A]]; discriminate).
    intros e E. injection E as <-. destruct (done_cases s I) as [A|[A|A]]; auto.
  - (* Loop, Run *)
    destruct (i_loop _ I t e P) as [E|[E|[E Ed]]]; subst e.
    + cbn in H. destruct (Z.eqb_spec (done s) 0) as [D0|D0].
      * (* the exchange succeeds *)
        unfold go in H. injection H as <-.
        destruct (i_done _ I) as [(_ & B & C & NRs)|[(A & _)|(A & _)]];
          [|rewrite D0 in A; discriminate|rewrite D0 in A; discriminate].
        constructor; cbn [done at_ began ended returned].
        -- right; left. split; [reflexivity|]. exists t. rewrite setf_same.
           repeat split; try assumption; [left; reflexivity|].
           intros u. unfold setf. destruct (Z.eqb_spec u t); [auto|]. intros A. elim (NRs u A).
        -- intros u A. apply (i_ret _ I) in A. rewrite D0 in A. discriminate.
        -- intros u e. unfold setf. destruct (Z.eqb_spec u t); [discriminate|]. intros A.
           destruct (i_loop _ I u e A) as [B1|[B1|[B1 B2]]]; auto. rewrite D0 in B2. discriminate.
        -- intros u. unfold setf. destruct (Z.eqb_spec u t); [discriminate|]. intros A.
           apply (i_wake _ I) in A. rewrite D0 in A; discriminate.
        -- intros u. unfold setf. destruct (Z.eqb_spec u t); [discriminate|apply (i_dead _ I)].
        -- intros u A. left. reflexivity.
      * unfold go in H. injection H as <-.
        apply inv_move; try assumption; try (rewrite P); try discriminate; try (intros [A|[A|A]]; discriminate).
        intros e E. injection E as <-. destruct (done_cases s I) as [A|[A|A]]; auto.
    + cbn in H. destruct (Z.eqb_spec (done s) onceLocked) as [D0|D0]; unfold go in H; injection H as <-;
        apply inv_move; try assumption; try (rewrite P); try discriminate; try (intros [A|[A|A]]; discriminate).
      intros _. exact D0.
    + cbn in H. unfold ret in H. injection H as <-.
      apply inv_move; try assumption; try (rewrite P); try discriminate; try (intros [A|[A|A]]; discriminate).
      intros u _. right; exact Ed.
  - (* weak failure *)
    destruct ((e =? 0) && (done s =? 0)); [|discriminate].
    unfold go in H. injection H as <-.
    apply inv_move; try assumption; try (rewrite P); try discriminate; try (intros [A|[A|A]]; discriminate).
    intros e' E. injection E as <-. auto.
  - (* Before *)
    injection H as <-.
    assert (RT : runner (at_ s t)) by (left; exact P).
    destruct (i_done _ I) as [(_ & _ & _ & D)|[(A & r & R & U & B & C)|(_ & _ & _ & D)]];
      [elim (D t RT)| |elim (D t RT)].
    assert (r = t) by (symmetry; apply U; exact RT). subst r. rewrite P in B, C.
    constructor; cbn [done at_ began ended returned].
    + right; left. split; [exact A|]. exists t. rewrite setf_same. repeat split; try lia.
      * right; left; reflexivity.
      * intros u. unfold setf. destruct (Z.eqb_spec u t); [auto|apply U].
    + apply (i_ret _ I).
    + intros u e. unfold setf. destruct (Z.eqb_spec u t); [discriminate|apply (i_loop _ I)].
    + intros u. unfold setf. destruct (Z.eqb_spec u t); [discriminate|apply (i_wake _ I)].
    + intros u. unfold setf. destruct (Z.eqb_spec u t); [discriminate|apply (i_dead _ I)].
    + intros u _. left; exact A.
  - (* InFunc *)
    injection H as <-.
    assert (RT : runner (at_ s t)) by (right; left; exact P).
    destruct (i_done _ I) as [(_ & _ & _ & D)|[(A & r & R & U & B & C)|(_ & _ & _ & D)]];
      [elim (D t RT)| |elim (D t RT)].
    assert (r = t) by (symmetry; apply U; exact RT). subst r. rewrite P in B, C.
    constructor; cbn [done at_ began ended returned].
    + right; left. split; [exact A|]. exists t. rewrite setf_same. repeat split; try lia.
      * right; right; reflexivity.
      * intros u. unfold setf. destruct (Z.eqb_spec u t); [auto|apply U].
    + apply (i_ret _ I).
    + intros u e. unfold setf. destruct (Z.eqb_spec u t); [discriminate|apply (i_loop _ I)].
    + intros u. unfold setf. destruct (Z.eqb_spec u t); [discriminate|apply (i_wake _ I)].
    + intros u. unfold setf. destruct (Z.eqb_spec u t); [discriminate|apply (i_dead _ I)].
    + intros u _. left; exact A.
  - (* After *)
    unfold go in H. injection H as <-.
    assert (RT : runner (at_ s t)) by (right; right; exact P).
    destruct (i_done _ I) as [(_ & _ & _ & D)|[(A & r & R & U & B & C)|(_ & _ & _ & D)]];
      [elim (D t RT)| |elim (D t RT)].
    assert (r = t) by (symmetry; apply U; exact RT). subst r. rewrite P in B, C.
    constructor; cbn [done at_ began ended returned].
    + right; right. repeat split; try assumption. intros u. unfold setf.
      destruct (Z.eqb_spec u t) as [->|N]; [intros [X|[X|X]]; discriminate|]. intros X. elim (N (U u X)).
    + intros u _. reflexivity.
    + intros u e. unfold setf. destruct (Z.eqb_spec u t); [discriminate|]. intros X.
      destruct (i_loop _ I u e X) as [B1|[B1|[B1 B2]]]; auto.
    + intros u _. reflexivity.
    + intros u. unfold setf. destruct (Z.eqb_spec u t); [discriminate|apply (i_dead _ I)].
    + intros u _. right. exists t. apply setf_same.
  - (* Wake *)
    injection H as <-. pose proof (i_wake _ I t P) as A.
    assert (RU : forall u, runner (wake (setf (at_ s) t Ready u)) -> runner (at_ s u)).
    { intros u. unfold setf. destruct (Z.eqb_spec u t) as [->|N].
      - intros [X|[X|X]]; discriminate.
      - destruct (at_ s u); cbn; intros [X|[X|X]]; try discriminate; unfold runner; auto. }
    constructor; cbn [done at_ began ended returned]; unfold wake_with.
    + destruct (i_done _ I) as [(X & _)|[(X & _)|(_ & B & C & D)]];
        [rewrite A in X; discriminate|rewrite A in X; discriminate|].
      right; right. repeat split; try assumption. intros u Hu. exact (D u (RU u Hu)).
    + intros u _. exact A.
    + intros u e. unfold setf. destruct (Z.eqb_spec u t); [discriminate|].
      destruct (at_ s u) eqn:Pu; cbn; try discriminate. intros X. injection X as <-.
      exact (i_loop _ I u expected Pu).
    + intros u _. exact A.
    + intros u. unfold setf. destruct (Z.eqb_spec u t); [discriminate|].
      pose proof (i_dead _ I u). destruct (at_ s u); cbn; try discriminate. congruence.
    + intros u. unfold setf at 1. destruct (Z.eqb_spec u t); [discriminate|].
      destruct (at_ s u); discriminate.
  - (* Spurious *)
    unfold go in H. injection H as <-.
    apply inv_move; try assumption; try (rewrite P); try discriminate; intros [A|[A|A]]; discriminate.
Qed.

Lemma reachable_inv : forall s, reachable s -> inv s.
Proof.
  intros s [sched H]. exact (run_inv _ _ _ _ step_inv _ _ _ inv_init H).
Qed.
