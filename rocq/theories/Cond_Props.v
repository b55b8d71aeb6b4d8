(** C56: condition variables. *)
From Verif Require Import Cond_Model Cond_Spec Cond_Proof.
Open Scope Z_scope.

(** C56: a wait returns with the mutex held by its caller, whatever its result. *)
Theorem C56_returns_with_mutex_partial : forall chosen s t a s',
  reachable chosen s -> step t a s = Some s' -> at_ s t <> Ready -> at_ s t <> SWake -> at_ s t <> BWake ->
  at_ s' t = Ready -> owner s' = Some t.
Proof.
  intros chosen s t a s' R H N1 N2 N3 Rd. pose proof (i_pc _ (reachable_inv _ _ R) t) as P.
  unfold step in H.
  destruct (at_ s t) as [|tm|tm e|tm e|tm e|tm e o|tm e o| | |] eqn:E; destruct a; try discriminate; try congruence;
    unfold go, go_owner, sleep, check, ret in H;
    repeat match type of H with
    | (if ?x then _ else _) = _ => destruct x
    | match ?x with _ => _ end = _ => destruct x
    end; try discriminate; injection H as <-; cbn [at_ owner] in *; rewrite setf_same in Rd; try discriminate;
    cbn in P; destruct P as [P _]; unfold owns in P; destruct (owner s) as [x|]; try discriminate;
    apply Z.eqb_eq in P; congruence.
Qed.

(** While a thread is in the first or the last part of a wait it has the mutex; while it is
    blocked it has not. *)
Theorem C56_mutex_partial : forall chosen s t, reachable chosen s ->
  match at_ s t with
  | WLoad _ | WUnlock _ _ | WCheck _ _ _ => owner s = Some t
  | WFutex _ _ | WSleep _ _ | WLock _ _ _ => owner s <> Some t
  | _ => True
  end.
Proof.
  intros chosen s t R. pose proof (i_pc _ (reachable_inv _ _ R) t) as P. unfold owns in P.
  destruct (at_ s t); try exact Logic.I; cbn in P;
    try match type of P with _ /\ _ => destruct P as [P _] end; destruct (owner s) as [x|]; try discriminate;
    try (apply Z.eqb_eq in P; congruence); try (apply Z.eqb_neq in P; congruence).
Qed.

(** No assertion fails, as long as there are fewer than 2^32 - 1 signals. *)
Theorem C56_no_abort_partial : forall chosen s t, reachable chosen s -> at_ s t <> Dead.
Proof.
  intros chosen s t R H. pose proof (i_pc _ (reachable_inv _ _ R) t) as P. rewrite H in P. exact P.
Qed.

(** The release of the mutex and the blocking are one with respect to signals: whoever has
    released the mutex in a wait when a signal or a broadcast begins has an older sequence number
    than the one it leaves behind, from then on; if such a thread is not yet asleep it will not
    fall asleep ... *)
Theorem C56_release_and_block_partial : forall chosen s t e u b s',
  reachable chosen s -> blocked_since s t e -> u <> t -> seq s < 2 ^ 32 - 1 ->
  step u (if b : bool then CallBroadcast else CallSignal) s = Some s' ->
  blocked_since s' t e /\ e < seq s'.
Proof.
  intros chosen s t e u b s' R (tm & Bl) N Bd H. pose proof (reachable_inv _ _ R) as I.
  pose proof (i_seq _ I) as Q. pose proof (i_pc _ I t) as P.
  assert (X : s' = match bump s u b with Some x => x | None => s' end /\ at_ s u = Ready).
  { unfold step in H. destruct (at_ s u) eqn:E; destruct b; try discriminate; rewrite H; split; reflexivity. }
  destruct X as [X _]. unfold bump in X. subst s'. unfold blocked_since. cbn [at_ seq].
  rewrite setf_other by congruence. rewrite Z.mod_small by lia.
  split; [exists tm; exact Bl|]. destruct Bl as [Bl|Bl]; rewrite Bl in P; cbn in P; lia.
Qed.
Theorem C56_late_sleeper : forall s t tm e s',
  at_ s t = WFutex tm e -> e <> seq s -> step t Run s = Some s' -> at_ s' t = WLock tm e Again.
Proof.
  intros s t tm e s' E N H. unfold step in H. rewrite E in H.
  destruct (Z.eqb_spec (seq s) e); [congruence|]. injection H as <-. cbn [at_]. apply setf_same.
Qed.

(** ... and if it is asleep, then after a broadcast somebody is about to wake all sleepers, until
    that has happened. *)
Theorem C56_broadcast_partial : forall chosen s t tm e,
  reachable chosen s -> at_ s t = WSleep tm e -> e < bcast s -> exists u, at_ s u = BWake.
Proof. intros chosen s t tm e R. exact (i_bs _ (reachable_inv _ _ R) t tm e). Qed.
Theorem C56_broadcast_wakes_all : forall s u s',
  at_ s u = BWake -> step u Run s = Some s' -> forall t, ~ asleep s' t.
Proof.
  intros s u s' E H t (tm & e & Ht). unfold step in H. rewrite E in H. injection H as <-.
  cbn [at_] in Ht. unfold wake_with in Ht. zc t u; [discriminate|]. elim (woken_sleep _ _ _ Ht).
Qed.

(** If FutexWake wakes the thread that has slept longest, then a signal wakes one of those that
    sleep since before the signal, if there are any. *)
Theorem C56_signal_partial : forall s u w s' t,
  reachable wakes_longest s -> at_ s u = SWake -> wakes_longest s w -> step u (Wake (Some w)) s = Some s' ->
  overdue s t -> exists tm e, at_ s w = WSleep tm e /\ e < seq s /\ at_ s' w = WLock tm e Woken.
Proof.
  intros s u w s' t R E [(tm & e & Ew) L] H (tm' & e' & Et & N).
  pose proof (reachable_inv _ _ R) as I.
  pose proof (i_pc _ I w) as Pw. rewrite Ew in Pw. cbn in Pw.
  pose proof (i_pc _ I t) as Pt. rewrite Et in Pt. cbn in Pt.
  exists tm, e. split; [exact Ew|]. split.
  - destruct (Z.eq_dec e (seq s)) as [->|]; [|lia].
    pose proof (i_order _ I t w tm' e' tm (seq s) Et Ew ltac:(lia)).
    pose proof (L t ltac:(exists tm', e'; exact Et)). lia.
  - unfold step in H. rewrite E, Ew in H. injection H as <-. cbn [at_].
    rewrite setf_other by congruence. rewrite setf_same. rewrite ?Ew. reflexivity.
Qed.

(** A thread that was woken or came too late to sleep returns 0 once it has the mutex, if a signal
    or broadcast began since its wait began (this cannot change: the sequence word only grows);
    and a wait returns 0 only then. *)
Theorem C56_woken_returns : forall s t tm e o,
  at_ s t = WCheck tm e o -> (o = Woken \/ o = Again) -> e < seq s ->
  exists s', step t Run s = Some s' /\ at_ s' t = Ready /\ result s' t = 0.
Proof.
  intros s t tm e o E O L. unfold step. rewrite E. unfold check, ret.
  assert (G : (seq s >? e) = true) by (rewrite Z.gtb_ltb; apply Z.ltb_lt; exact L).
  destruct O as [->| ->]; rewrite G; eexists; (split; [reflexivity|]); cbn [at_ result]; rewrite !setf_same; auto.
Qed.
Theorem C56_zero_only_if_signalled : forall s t tm e o s',
  at_ s t = WCheck tm e o -> step t Run s = Some s' -> at_ s' t = Ready -> result s' t = 0 -> o <> Fail 0 ->
  e < seq s.
Proof.
  intros s t tm e o s' E H Rd Z0 NF. unfold step in H. rewrite E in H. unfold check, ret, go in H.
  destruct o; rewrite ?Z.gtb_ltb in H.
  - destruct (Z.ltb_spec e (seq s)); [assumption|]. injection H as <-. cbn [at_] in Rd. rewrite setf_same in Rd. discriminate.
  - destruct (Z.ltb_spec e (seq s)); [assumption|]. injection H as <-. cbn [at_] in Rd. rewrite setf_same in Rd. discriminate.
  - injection H as <-. cbn [at_] in Rd. rewrite setf_same in Rd. discriminate.
  - injection H as <-. cbn [result] in Z0. rewrite setf_same in Z0. congruence.
Qed.

(** Defect: if FutexWake may wake any sleeper (as it may when threads have different priorities), a
    signal can be lost: it is consumed by a thread that began to wait after the signal, which goes
    back to sleep, and the thread that was waiting before sleeps on. *)
Definition look (s : state) : list pc := map (at_ s) [1; 2; 3].
Lemma run_reach : forall chosen l s s',
  reachable chosen s -> run step l s = Some s' ->
  (forall t w, ~ In (t, Wake w) l) -> (forall t, ~ In (t, CallSignal) l) -> (forall t, ~ In (t, CallBroadcast) l) ->
  reachable chosen s'.
Proof.
  intros chosen. induction l as [|[t a] l IH]; intros s s' R H NW NS NB; cbn in H.
  - injection H as <-. exact R.
  - destruct (step t a s) as [s1|] eqn:E; [|discriminate]. apply (IH s1); auto.
    + eapply reach_step; [exact R|exact E| | |].
      * intros w ->. elim (NW t (Some w)). left; reflexivity.
      * intros ->. elim (NW t None). left; reflexivity.
      * intros [-> | ->]; [elim (NS t)|elim (NB t)]; left; reflexivity.
    + intros t' w X. exact (NW t' w (or_intror X)).
    + intros t' X. exact (NS t' (or_intror X)).
    + intros t' X. exact (NB t' (or_intror X)).
Qed.

Ltac nin := intros; cbn; intuition congruence.

Theorem C56_signal_lost_refuted : exists s0 s,
  (* thread 1 waits, nothing else goes on *)
  reachable wakes_any s0 /\ asleep s0 1 /\ at_ s0 2 = Ready /\ at_ s0 3 = Ready /\
  (* then thread 3 signals, thread 2 waits; in the end both sleep and nobody is about to wake them *)
  reachable wakes_any s /\ asleep s 1 /\ asleep s 2 /\ at_ s 3 = Ready /\
  exists s1, step 3 CallSignal s0 = Some s1 /\
  exists s2, run step [(2, CallLock); (2, CallWait false); (2, Run); (2, Run); (2, Run)] s1 = Some s2 /\
  exists s3, step 3 (Wake (Some 2)) s2 = Some s3 /\
  run step [(2, Run); (2, Run); (2, Run); (2, Run)] s3 = Some s.
Proof.
  assert (X0 : option_map (fun s => (look s, seq s)) (run step [(1, CallLock); (1, CallWait false); (1, Run); (1, Run); (1, Run)] init)
    = Some ([WSleep false 0; Ready; Ready], 0)) by (vm_compute; reflexivity).
  destruct (run step _ init) as [s0|] eqn:E0 in X0; [|discriminate]. cbn [option_map] in X0.
  assert (R0 : reachable wakes_any s0) by (eapply run_reach; [apply reach_init|exact E0|nin|nin|nin]).
  destruct (step 3 CallSignal s0) as [s1|] eqn:E1; [|vm_compute in E0; injection E0 as <-; vm_compute in E1; discriminate].
  assert (Q0 : seq s0 = 0) by congruence.
  assert (R1 : reachable wakes_any s1).
  { eapply reach_step; [exact R0|exact E1|discriminate|discriminate|]. intros _. rewrite Q0. reflexivity. }
  destruct (run step [(2, CallLock); (2, CallWait false); (2, Run); (2, Run); (2, Run)] s1) as [s2|] eqn:E2;
    [|vm_compute in E0; injection E0 as <-; vm_compute in E1; injection E1 as <-; vm_compute in E2; discriminate].
  assert (R2 : reachable wakes_any s2) by (eapply run_reach; [exact R1|exact E2|nin|nin|nin]).
  assert (L2 : at_ s2 2 = WSleep false 1).
  { vm_compute in E0; injection E0 as <-; vm_compute in E1; injection E1 as <-; vm_compute in E2; injection E2 as <-. reflexivity. }
  destruct (step 3 (Wake (Some 2)) s2) as [s3|] eqn:E3;
    [|vm_compute in E0; injection E0 as <-; vm_compute in E1; injection E1 as <-; vm_compute in E2; injection E2 as <-; vm_compute in E3; discriminate].
  assert (R3 : reachable wakes_any s3).
  { eapply reach_step; [exact R2|exact E3| |discriminate|intros [Q|Q]; discriminate].
    intros w Q. injection Q as <-. exists false, 1. exact L2. }
  destruct (run step [(2, Run); (2, Run); (2, Run); (2, Run)] s3) as [s4|] eqn:E4;
    [|vm_compute in E0; injection E0 as <-; vm_compute in E1; injection E1 as <-; vm_compute in E2; injection E2 as <-; vm_compute in E3; injection E3 as <-; vm_compute in E4; discriminate].
  assert (R4 : reachable wakes_any s4) by (eapply run_reach; [exact R3|exact E4|nin|nin|nin]).
  assert (L4 : look s4 = [WSleep false 0; WSleep false 1; Ready]).
  { vm_compute in E0; injection E0 as <-; vm_compute in E1; injection E1 as <-; vm_compute in E2; injection E2 as <-;
    vm_compute in E3; injection E3 as <-; vm_compute in E4; injection E4 as <-. vm_compute. reflexivity. }
  assert (L0 : look s0 = [WSleep false 0; Ready; Ready]) by congruence.
  unfold look in L0, L4. cbn [map] in L0, L4. injection L0 as A1 A2 A3. injection L4 as B1 B2 B3.
  exists s0, s4. split; [exact R0|]. split; [exists false, 0; exact A1|]. split; [exact A2|]. split; [exact A3|].
  split; [exact R4|]. split; [exists false, 0; exact B1|]. split; [exists false, 1; exact B2|]. split; [exact B3|].
  exists s1. split; [exact E1|]. exists s2. split; [exact E2|]. exists s3. split; [exact E3|exact E4].
Qed.

(** Defect: the sequence word is 32 bits wide and compared with [>].  After 2^32 - 1 signals a
    waiter that is woken by the next one does not see it, waits again and runs into an assertion,
    which ends the process. *)
Lemma many_signals : forall n : nat, exists s,
  reachable_any wakes_longest s /\ seq s = Z.of_nat n mod 2 ^ 32 /\ owner s = None /\ forall t, at_ s t = Ready.
Proof.
  induction n as [|n (s & R & Q & O & A)].
  - exists init. split; [apply any_init|]. repeat split; reflexivity.
  - eexists. split.
    { apply (any_step _ {| seq := (seq s + 1) mod 2 ^ 32; owner := owner s; at_ := setf (at_ s) 1 SWake;
                           result := result s; since := since s; now := now s + 1; bcast := bcast s |} 1 (Wake None)).
      - apply (any_step _ s 1 CallSignal); [exact R| |discriminate|discriminate].
        unfold step. rewrite (A 1). reflexivity.
      - unfold step. cbn [at_]. rewrite setf_same. unfold ret. reflexivity.
      - discriminate.
      - intros _ u (tm & e & H). cbn [at_] in H. zc u 1; [discriminate|]. rewrite A in H. discriminate. }
    cbn [seq owner at_]. split; [|split; [exact O|]].
    + rewrite Q. rewrite Nat2Z.inj_succ. rewrite Z.add_mod_idemp_l by lia. reflexivity.
    + intros t. zc t 1; [reflexivity|]. apply A.
Qed.

Lemma any_cons : forall chosen t a s s1, reachable_any chosen s -> step t a s = Some s1 ->
  (forall w, a <> Wake w) -> reachable_any chosen s1.
Proof.
  intros chosen t a s s1 R H N. eapply any_step; [exact R|exact H| |].
  - intros w E. elim (N (Some w) E).
  - intros E. elim (N None E).
Qed.

Theorem C56_wrap_refuted : exists s,
  reachable_any wakes_longest s /\ at_ s 1 = Dead.
Proof.
  destruct (Z_of_nat_complete (2 ^ 32 - 1) ltac:(lia)) as [n Hn].
  destruct (many_signals n) as (s & R & Q & O & A). rewrite <- Hn in Q. rewrite Z.mod_small in Q by lia.
  clear n Hn.
  assert (S1 : exists s1, reachable_any wakes_longest s1 /\ seq s1 = 2 ^ 32 - 1 /\ owner s1 = None /\
     at_ s1 1 = WSleep false (2 ^ 32 - 1) /\ forall t, t <> 1 -> at_ s1 t = Ready).
  { eexists. split.
    - eapply (any_cons _ 1 (Run)); [ | |discriminate]. { eapply (any_cons _ 1 (Run)); [ | |discriminate]. { eapply (any_cons _ 1 (Run)); [ | |discriminate]. { eapply (any_cons _ 1 (CallWait false)); [ | |discriminate]. { eapply (any_cons _ 1 (CallLock)); [ | |discriminate]. { exact R. }
      { unfold step. rewrite (A 1), O. unfold go_owner. reflexivity. } }
      { unfold step, owns. cbn [at_ owner]. rewrite setf_same. cbn [Z.eqb].
        unfold go. reflexivity. } }
      { unfold step. cbn [at_ seq]. rewrite setf_same. unfold go. reflexivity. } }
      { unfold step. cbn [at_ seq]. rewrite setf_same. unfold go_owner. reflexivity. } }
      { unfold step. cbn [at_ seq]. rewrite setf_same, Z.eqb_refl. unfold sleep. reflexivity. }
    - cbn [seq owner at_]. rewrite setf_same, ?Q. repeat split.
      intros t N. rewrite !setf_other by exact N. apply A. }
  clear s R Q O A. destruct S1 as (s & R & Q & O & A1 & A).
  assert (S2 : exists s2, reachable_any wakes_longest s2 /\ seq s2 = 0 /\ owner s2 = None /\
     at_ s2 1 = WSleep false (2 ^ 32 - 1) /\ at_ s2 2 = SWake /\ forall t, t <> 1 -> t <> 2 -> at_ s2 t = Ready).
  { eexists. split.
    - eapply (any_cons _ 2 CallSignal); [exact R| |discriminate].
      unfold step. rewrite (A 2) by lia. unfold bump. reflexivity.
    - cbn [seq owner at_]. rewrite setf_same, ?Q. split; [reflexivity|]. split; [exact O|].
      rewrite setf_other by lia. split; [exact A1|]. split; [reflexivity|].
      intros t N N2. rewrite setf_other by exact N2. apply A; exact N. }
  clear s R Q O A1 A. destruct S2 as (s & R & Q & O & A1 & A2 & A).
  assert (S3 : exists s3, reachable_any wakes_longest s3 /\ seq s3 = 0 /\ owner s3 = None /\
     at_ s3 1 = WLock false (2 ^ 32 - 1) Woken).
  { eexists. split.
    - eapply (any_step _ s 2 (Wake (Some 1))); [exact R| | |].
      + unfold step. rewrite A2, A1. reflexivity.
      + intros w E. injection E as <-. split; [exists false, (2 ^ 32 - 1); exact A1|].
        intros u (tm & e & Hu). destruct (Z.eq_dec u 1) as [->|N1]; [lia|].
        destruct (Z.eq_dec u 2) as [->|N2]; [congruence|]. rewrite (A u N1 N2) in Hu. discriminate.
      + discriminate.
    - cbn [seq owner at_]. rewrite setf_other by lia. rewrite setf_same. repeat split; assumption. }
  clear s R Q O A1 A2 A. destruct S3 as (s & R & Q & O & A1).
  eexists. split.
  - eapply (any_cons _ 1 (Run)); [ | |discriminate]. { eapply (any_cons _ 1 (Run)); [ | |discriminate]. { eapply (any_cons _ 1 (Run)); [ | |discriminate]. { eapply (any_cons _ 1 (Run)); [ | |discriminate]. { eapply (any_cons _ 1 (Run)); [ | |discriminate]. { eapply (any_cons _ 1 (Run)); [ | |discriminate]. { exact R. }
      { unfold step. rewrite A1, O. unfold go_owner. reflexivity. } }
      { unfold step. cbn [at_]. rewrite setf_same. unfold check. cbn [seq]. rewrite ?Q.
      change (0 >? 2 ^ 32 - 1) with false. cbn [negb]. unfold go. reflexivity. } }
      { unfold step. cbn [at_]. rewrite setf_same. unfold go_owner. reflexivity. } }
      { unfold step. cbn [at_ seq]. rewrite setf_same, ?Q.
      change (0 =? 2 ^ 32 - 1) with false. cbn [negb]. unfold go. reflexivity. } }
      { unfold step. cbn [at_ owner]. rewrite setf_same. unfold go_owner. reflexivity. } }
      { unfold step. cbn [at_]. rewrite setf_same. unfold check. cbn [seq]. rewrite ?Q.
      change (0 >? 2 ^ 32 - 1) with false. cbn [negb]. unfold go. reflexivity. }
  - cbn [at_]. rewrite setf_same. reflexivity.
Qed.

(** Non-vacuity: two threads wait, a third one signals; the one that waited first is overdue and the
    signal is about to wake a thread (the hypotheses of C56_signal_partial); the fourth
    broadcasts (those of C56_broadcast_partial). *)
Example C56_signal_example : exists s s',
  reachable wakes_longest s /\ at_ s 3 = SWake /\ wakes_longest s 1 /\ overdue s 1 /\
  step 3 (Wake (Some 1)) s = Some s'.
Proof.
  assert (X0 : option_map (fun s => (look s, seq s, since s 1)) (run step [(1, CallLock); (1, CallWait false); (1, Run); (1, Run); (1, Run)] init)
    = Some ([WSleep false 0; Ready; Ready], 0, 4)) by (vm_compute; reflexivity).
  destruct (run step _ init) as [s0|] eqn:E0 in X0; [|discriminate]. cbn [option_map] in X0.
  assert (R0 : reachable wakes_longest s0) by (eapply run_reach; [apply reach_init|exact E0|nin|nin|nin]).
  assert (Q0 : seq s0 = 0) by congruence.
  assert (L0 : look s0 = [WSleep false 0; Ready; Ready]) by congruence.
  unfold look in L0. cbn [map] in L0. injection L0 as A1 A2 A3.
  assert (AO : forall u, asleep s0 u -> u = 1).
  { intros u (tm & e & H). destruct (Z.eq_dec u 1) as [|N]; [assumption|].
    vm_compute in E0. injection E0 as <-. cbn [at_] in H. exfalso.
    destruct u as [|[p|p|]|p]; try discriminate; congruence. }
  eexists. eexists. split.
  { eapply (reach_step _ s0 3 CallSignal); [exact R0| |discriminate|discriminate|intros _; rewrite Q0; reflexivity].
    unfold step. rewrite A3. unfold bump. reflexivity. }
  cbn [at_ seq since]. split; [apply setf_same|]. split; [|split].
  - split; [exists false, 0; cbn [at_]; rewrite setf_other by lia; exact A1|].
    intros u (tm & e & H). cbn [at_ since] in *. destruct (Z.eq_dec u 3) as [->|N]; [rewrite setf_same in H; discriminate|].
    rewrite setf_other in H by exact N. rewrite (AO u) by (exists tm, e; exact H). lia.
  - exists false, 0. cbn [at_ seq]. rewrite setf_other by lia. split; [exact A1|]. rewrite Q0. discriminate.
  - unfold step. cbn [at_]. rewrite setf_same. rewrite setf_other by lia. rewrite A1. reflexivity.
Qed.
Example C56_broadcast_example : exists s, reachable wakes_longest s /\ at_ s 1 = WSleep true 0 /\ 0 < bcast s.
Proof.
  assert (X0 : option_map (fun s => (look s, seq s)) (run step [(1, CallLock); (1, CallWait true); (1, Run); (1, Run); (1, Run)] init)
    = Some ([WSleep true 0; Ready; Ready], 0)) by (vm_compute; reflexivity).
  destruct (run step _ init) as [s0|] eqn:E0 in X0; [|discriminate]. cbn [option_map] in X0.
  assert (R0 : reachable wakes_longest s0) by (eapply run_reach; [apply reach_init|exact E0|nin|nin|nin]).
  assert (Q0 : seq s0 = 0) by congruence.
  assert (L0 : look s0 = [WSleep true 0; Ready; Ready]) by congruence.
  unfold look in L0. cbn [map] in L0. injection L0 as A1 A2 A3.
  eexists. split.
  { eapply (reach_step _ s0 3 CallBroadcast); [exact R0| |discriminate|discriminate|intros _; rewrite Q0; reflexivity].
    unfold step. rewrite A3. unfold bump. reflexivity. }
  cbn [at_ bcast]. rewrite setf_other by lia. rewrite Q0. split; [exact A1|reflexivity].
Qed.
(** A whole wait: it returns 0 and the caller holds the mutex. *)
Example C56_wait_example :
  option_map (fun s => (look s, owner s, result s 1))
    (run step [(1, CallLock); (1, CallWait false); (1, Run); (1, Run); (1, Run); (3, CallSignal);
               (3, Wake (Some 1)); (1, Run); (1, Run)] init)
  = Some ([Ready; Ready; Ready], Some 1, 0).
Proof. vm_compute. reflexivity. Qed.

Print Assumptions C56_returns_with_mutex_partial.
Print Assumptions C56_mutex_partial.
Print Assumptions C56_no_abort_partial.
Print Assumptions C56_release_and_block_partial.
Print Assumptions C56_late_sleeper.
Print Assumptions C56_broadcast_partial.
Print Assumptions C56_broadcast_wakes_all.
Print Assumptions C56_signal_partial.
Print Assumptions C56_woken_returns.
Print Assumptions C56_zero_only_if_signalled.
Print Assumptions C56_signal_lost_refuted.
Print Assumptions C56_wrap_refuted.
