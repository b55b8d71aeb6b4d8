(** Invariant of condition variables. *)
From Verif Require Import Cond_Model Cond_Spec.
Open Scope Z_scope.

Definition pc_ok (q : Z) (own : bool) (p : pc) : Prop :=
  match p with
  | WLoad _ => own = true
  | WUnlock _ e => own = true /\ 0 <= e <= q
  | WFutex _ e => own = false /\ 0 <= e <= q
  | WSleep _ e => own = false /\ 0 <= e <= q
  | WLock _ e o => own = false /\ 0 <= e <= q /\ (o = Again -> e < q)
  | WCheck _ e o => own = true /\ 0 <= e <= q /\ (o = Again -> e < q)
  | Dead => False
  | _ => True
  end.

Record inv (s : state) : Prop := {
  i_seq : 0 <= seq s < 2 ^ 32;
  i_pc : forall t, pc_ok (seq s) (owns s t) (at_ s t);
  i_b : bcast s <= seq s;
  i_bs : forall t tm e, at_ s t = WSleep tm e -> e < bcast s -> exists u, at_ s u = BWake;
  i_since : forall t tm e, at_ s t = WSleep tm e -> since s t < now s;
  i_order : forall t u tm e tm' e', at_ s t = WSleep tm e -> at_ s u = WSleep tm' e' -> e < e' ->
            since s t < since s u }.

Lemma init_inv : inv init.
Proof. constructor; cbn; try discriminate; try lia. Qed.

Ltac zc u t := destruct (Z.eq_dec u t) as [->|?];
  [rewrite ?setf_same in *|rewrite ?setf_other in * by assumption].

Lemma owns_other : forall s t u o, o = None \/ o = Some t -> u <> t -> owns s t = true \/ owner s = None ->
  owns s u = match o with Some x => x =? u | None => false end.
Proof.
  intros s t u o O N H. unfold owns in *. destruct H as [H|H].
  - destruct (owner s) as [x|]; [|discriminate]. apply Z.eqb_eq in H. subst x.
    destruct O as [->| ->]; [|reflexivity]. destruct (Z.eqb_spec t u); congruence.
  - rewrite H. destruct O as [->| ->]; try reflexivity. destruct (Z.eqb_spec t u); congruence.
Qed.

(** the step changes the place of [t], and possibly who has the mutex, but puts nobody to sleep *)
Lemma move_inv : forall s t p o r, inv s ->
  (o = owner s \/ ((o = None \/ o = Some t) /\ (owns s t = true \/ owner s = None))) ->
  pc_ok (seq s) (match o with Some x => x =? t | None => false end) p ->
  (forall tm e, p <> WSleep tm e) -> at_ s t <> BWake ->
  inv {| seq := seq s; owner := o; at_ := setf (at_ s) t p; result := r;
         since := since s; now := now s + 1; bcast := bcast s |}.
Proof.
  intros s t p o r I O P NS NB. constructor; cbn [seq owner at_ result since now bcast]; try apply I.
  - intros u. unfold owns; cbn [owner]. zc u t; [exact P|].
    pose proof (i_pc _ I u) as Pu. destruct O as [->|[O H]]; [exact Pu|].
    rewrite <- (owns_other s t u o O n H). exact Pu.
  - intros u tm e H L. zc u t; [elim (NS tm e H)|]. destruct (i_bs _ I u tm e H L) as [v Hv].
    exists v. zc v t; [contradiction|exact Hv].
  - intros u tm e H. zc u t; [elim (NS tm e H)|]. pose proof (i_since _ I u tm e H). lia.
  - intros u v tm e tm' e' H H' L. zc u t; [elim (NS _ _ H)|]. zc v t; [elim (NS _ _ H')|].
    exact (i_order _ I u v tm e tm' e' H H' L).
Qed.

Lemma sleep_inv : forall s t tm s', inv s -> at_ s t = WFutex tm (seq s) ->
  sleep s t (WSleep tm (seq s)) = Some s' -> inv s'.
Proof.
  intros s t tm s' I E H. injection H as <-.
  pose proof (i_pc _ I t) as P. rewrite E in P. cbn in P.
  constructor; cbn [seq owner at_ result since now bcast]; try apply I.
  - intros u. unfold owns; cbn [owner]. zc u t; [exact P|apply (i_pc _ I u)].
  - intros u tm' e H L. zc u t; [injection H as <- <-; pose proof (i_b _ I); lia|].
    destruct (i_bs _ I u tm' e H L) as [v Hv]. exists v. zc v t; [congruence|exact Hv].
  - intros u tm' e H. zc u t; [lia|]. pose proof (i_since _ I u tm' e H). lia.
  - intros u v tm1 e tm2 e' H H' L. zc v t.
    + injection H' as <- <-. zc u t; [injection H as <- <-; lia|]. exact (i_since _ I u tm1 e H).
    + zc u t; [|exact (i_order _ I u v tm1 e tm2 e' H H' L)].
      injection H as <- <-. pose proof (i_pc _ I v) as Pv. rewrite H' in Pv. cbn in Pv. lia.
Qed.

Lemma pc_ok_mono : forall q own p, pc_ok q own p -> pc_ok (q + 1) own p.
Proof. intros q own p. destruct p; cbn; try tauto; intros; intuition lia. Qed.

Lemma bump_inv : forall s t b s', inv s -> at_ s t = Ready -> seq s < 2 ^ 32 - 1 ->
  bump s t b = Some s' -> inv s'.
Proof.
  intros s t b s' I E B H. unfold bump in H. pose proof (i_seq _ I).
  rewrite Z.mod_small in H by lia. injection H as <-.
  constructor; cbn [seq owner at_ result since now bcast].
  - lia.
  - intros u. unfold owns; cbn [owner]. zc u t; [destruct b; exact Logic.I|].
    apply pc_ok_mono. apply (i_pc _ I u).
  - pose proof (i_b _ I). destruct b; lia.
  - intros u tm e H' L. zc u t; [destruct b; discriminate|]. destruct b.
    + exists t. rewrite setf_same. reflexivity.
    + destruct (i_bs _ I u tm e H' L) as [v Hv]. exists v. zc v t; [congruence|exact Hv].
  - intros u tm e H'. zc u t; [destruct b; discriminate|]. pose proof (i_since _ I u tm e H'). lia.
  - intros u v tm e tm' e' H1 H2 L. zc u t; [destruct b; discriminate|]. zc v t; [destruct b; discriminate|].
    exact (i_order _ I u v tm e tm' e' H1 H2 L).
Qed.

Lemma woken_ok : forall q own p, pc_ok q own p -> pc_ok q own (woken p).
Proof. intros q own p. destruct p; cbn; try tauto; intros; intuition discriminate. Qed.
Lemma woken_sleep : forall p tm e, woken p <> WSleep tm e.
Proof. intros [] tm' e'; discriminate. Qed.
Lemma woken_other : forall p q, (forall tm e, p <> WSleep tm e) -> woken p = q -> p = q.
Proof. intros [] q H E; cbn in *; try exact E. elim (H tm e); reflexivity. Qed.

Lemma step_inv : forall s t a s', inv s -> step t a s = Some s' ->
  (a = CallSignal \/ a = CallBroadcast -> seq s < 2 ^ 32 - 1) -> inv s'.
Proof.
  intros s t a s' I H B. unfold step in H. pose proof (i_pc _ I t) as P.
  assert (Same : forall p r, pc_ok (seq s) (owns s t) p -> (forall tm e, p <> WSleep tm e) -> at_ s t <> BWake ->
    inv {| seq := seq s; owner := owner s; at_ := setf (at_ s) t p; result := r;
           since := since s; now := now s + 1; bcast := bcast s |}).
  { intros p r Hp Hs Hb. apply move_inv; auto. }
  destruct (at_ s t) as [|tm|tm e|tm e|tm e|tm e o|tm e o| | |] eqn:E; destruct a; try discriminate.
  - destruct (owner s) eqn:O; [discriminate|]. injection H as <-.
    apply move_inv; [exact I|right; auto|exact Logic.I|discriminate|congruence].
  - destruct (owns s t) eqn:O; [|discriminate]. injection H as <-.
    apply move_inv; [exact I|right; auto|exact Logic.I|discriminate|congruence].
  - destruct (owns s t) eqn:O; [|discriminate]. injection H as <-. apply Same; [reflexivity|discriminate|congruence].
  - exact (bump_inv s t false s' I E (B (or_introl eq_refl)) H).
  - exact (bump_inv s t true s' I E (B (or_intror eq_refl)) H).
  - injection H as <-. pose proof (i_seq _ I). apply Same; [cbn in *; split; [exact P|lia]|discriminate|congruence].
  - injection H as <-. cbn in P. apply move_inv; [exact I|right; split; [auto|left; tauto]|cbn; tauto|discriminate|congruence].
  - cbn in P. destruct (Z.eqb_spec (seq s) e) as [<-|N].
    + exact (sleep_inv s t tm s' I E H).
    + injection H as <-. apply Same; [cbn; repeat split; try tauto; intros; lia|discriminate|congruence].
  - destruct tm; [|discriminate]. injection H as <-. cbn in P.
    apply Same; [cbn; repeat split; try tauto; discriminate|discriminate|congruence].
  - destruct tm; [|discriminate]. injection H as <-. cbn in P.
    apply Same; [cbn; repeat split; try tauto; discriminate|discriminate|congruence].
  - injection H as <-. cbn in P. apply Same; [cbn; repeat split; try tauto; discriminate|discriminate|congruence].
  - injection H as <-. cbn in P. apply Same; [cbn; repeat split; try tauto; discriminate|discriminate|congruence].
  - destruct tm; [|discriminate]. injection H as <-. cbn in P.
    apply Same; [cbn; repeat split; try tauto; discriminate|discriminate|congruence].
  - destruct (owner s) eqn:O; [discriminate|]. injection H as <-. cbn in P.
    apply move_inv; [exact I|right; auto| |discriminate|congruence].
    cbn. rewrite Z.eqb_refl. tauto.
  - cbn in P. unfold check in H. destruct o; rewrite ?Z.gtb_ltb in H.
    + destruct (e <? seq s); injection H as <-; (apply Same; [cbn; tauto|discriminate|congruence]).
    + destruct (Z.ltb_spec e (seq s)); [|destruct P as (_ & _ & P); specialize (P eq_refl); lia].
      injection H as <-; (apply Same; [cbn; tauto|discriminate|congruence]).
    + injection H as <-; (apply Same; [cbn; tauto|discriminate|congruence]).
    + injection H as <-; (apply Same; [cbn; tauto|discriminate|congruence]).
  - (* SWake *)
    destruct w as [w|].
    + destruct (at_ s w) as [| | | |tm e| | | | |] eqn:Ew; try discriminate. injection H as <-.
      assert (Nw : w <> t) by congruence.
      assert (I1 : inv {| seq := seq s; owner := owner s; at_ := setf (at_ s) w (WLock tm e Woken); result := result s;
           since := since s; now := now s; bcast := bcast s |}).
      { pose proof (i_pc _ I w) as Pw. rewrite Ew in Pw. cbn in Pw.
        constructor; cbn [seq owner at_ result since now bcast]; try apply I.
        - intros u. unfold owns; cbn [owner]. zc u w; [cbn; repeat split; try tauto; discriminate|apply (i_pc _ I u)].
        - intros u tm' e' H L. zc u w; [discriminate|]. destruct (i_bs _ I u tm' e' H L) as [v Hv].
          exists v. zc v w; [congruence|exact Hv].
        - intros u tm' e' H. zc u w; [discriminate|]. exact (i_since _ I u tm' e' H).
        - intros u v tm1 e1 tm2 e2 H1 H2 L. zc u w; [discriminate|]. zc v w; [discriminate|].
          exact (i_order _ I u v _ _ _ _ H1 H2 L). }
      apply (move_inv _ t Ready (owner s) (setf (result s) t 0) I1); cbn [seq owner at_ result since now bcast]; auto.
      * discriminate.
      * rewrite setf_other by congruence. congruence.
    + injection H as <-. apply Same; [exact Logic.I|discriminate|congruence].
  - (* BWake *)
    injection H as <-. unfold wake_with. constructor; cbn [seq owner at_ result since now bcast]; try apply I.
    + intros u. unfold owns; cbn [owner]. zc u t; [exact Logic.I|]. apply woken_ok, (i_pc _ I u).
    + intros u tm e H. zc u t; [discriminate|]. elim (woken_sleep _ _ _ H).
    + intros u tm e H. zc u t; [discriminate|]. elim (woken_sleep _ _ _ H).
    + intros u v tm e tm' e' H. zc u t; [discriminate|]. elim (woken_sleep _ _ _ H).
Qed.

Lemma reachable_inv : forall chosen s, reachable chosen s -> inv s.
Proof.
  intros chosen s R. induction R as [|s t a s' R IH H Hw Hn B]; [exact init_inv|].
  exact (step_inv s t a s' IH H B).
Qed.
