(** Proofs about semaphores. *)
From Verif Require Import Sem_Model Sem_Spec.
Open Scope Z_scope.

Definition sw (c : Z) (b : bool) : Z := if b then c + semaphoreHasWaiters else c.

Lemma sw_count : forall c b, 0 <= c < 2147483648 -> Z.land (sw c b) semaphoreCountMask = c.
Proof.
  intros c b H. change semaphoreCountMask with (Z.ones 31). rewrite Z.land_ones by lia.
  destruct b; cbn [sw].
  - replace (c + semaphoreHasWaiters) with (c + 1 * 2 ^ 31) by (unfold semaphoreHasWaiters; lia).
    rewrite Z.mod_add by lia. apply Z.mod_small; lia.
  - apply Z.mod_small; lia.
Qed.

Lemma sw_bit : forall c b, 0 <= c < 2147483648 ->
  Z.land (sw c b) semaphoreHasWaiters = if b then semaphoreHasWaiters else 0.
Proof.
  intros c b H. change semaphoreHasWaiters with waitersBit.
  destruct b; cbn [sw]; [apply land_bit_big|apply land_bit_small]; unfold waitersBit; lia.
Qed.

Lemma sw_lor : forall c (b : bool), 0 <= c < 2147483648 ->
  Z.lor c (if b then semaphoreHasWaiters else 0) = sw c b.
Proof.
  intros c b H. destruct b; cbn [sw].
  - change semaphoreHasWaiters with waitersBit. apply lor_bit_small. unfold waitersBit; lia.
  - apply Z.lor_0_r.
Qed.

Lemma sw_inj : forall c b c' b', 0 <= c < 2147483648 -> 0 <= c' < 2147483648 ->
  sw c b = sw c' b' -> c = c' /\ b = b'.
Proof. intros c b c' b' H H'. unfold sw, semaphoreHasWaiters. destruct b, b'; intros; split; lia || reflexivity. Qed.

Definition wf (st : Z) : Prop := exists c b, 0 <= c < 2147483648 /\ st = sw c b.

Definition pinv (b : bool) (p : pc) : Prop :=
  match p with
  | WaitLoop _ st | PostLoop st | TryTest st => wf st
  | WaitFutex _ st => (st = 0 \/ st = semaphoreHasWaiters) /\ b = true
  | WaitSleep _ st => st = semaphoreHasWaiters /\ b = true
  | _ => True
  end.

Definition inv (initial : Z) (s : state) : Prop :=
  exists c b, word s = sw c b /\ 0 <= c < 2147483648 /\ c = initial + posts s - waits s /\
    (forall t, pinv b (at_ s t)) /\
    (forall t tm st, at_ s t = WaitSleep tm st -> c = 0 \/ exists u, at_ s u = PostWake).

Lemma pinv_mono : forall b p, pinv b p -> pinv true p.
Proof. intros b p H. destruct p; cbn in *; tauto. Qed.

(** thread [t] goes on at [p]; the word becomes [sw c' b'] *)
Lemma inv_upd : forall initial s t p c b c' b' rs ps ws,
  (forall u, pinv b (at_ s u)) ->
  (forall u tm st, at_ s u = WaitSleep tm st -> c = 0 \/ exists v, at_ s v = PostWake) ->
  at_ s t <> PostWake -> 0 <= c' < 2147483648 -> c' = initial + ps - ws ->
  b' = b \/ b' = true -> pinv b' p ->
  ((forall u tm st, at_ s u <> WaitSleep tm st) \/ p = PostWake \/ (c = 0 -> c' = 0)) ->
  (forall tm st, p = WaitSleep tm st -> c' = 0) ->
  inv initial {| word := sw c' b'; at_ := setf (at_ s) t p; result := rs; posts := ps; waits := ws |}.
Proof.
  intros initial s t p c b c' b' rs ps ws Pp Sl Nw Rc Ec Eb Hp Hs Hsl.
  exists c', b'. cbn [word at_ posts waits]. split; [reflexivity|]. split; [exact Rc|]. split; [exact Ec|]. split.
  - intros u. unfold setf. destruct (Z.eqb_spec u t) as [->|N]; [exact Hp|].
    destruct Eb as [->| ->]; [apply Pp|exact (pinv_mono _ _ (Pp u))].
  - intros u tm st. unfold setf at 1. destruct (Z.eqb_spec u t) as [->|N]; intros A.
    + left. exact (Hsl tm st A).
    + destruct Hs as [X|[X|X]].
      * elim (X u tm st A).
      * right. exists t. rewrite setf_same. exact X.
      * destruct (Sl u tm st A) as [B|(v & B)]; [left; exact (X B)|right].
        exists v. rewrite setf_other; [exact B|]. intros ->. contradiction.
Qed.

Lemma step_inv : forall initial t a s s', inv initial s -> step t a s = Some s' -> inv initial s'.
Proof.
  intros initial t a s s' (c & b & W & Rc & Ec & Pp & Sl) H.
  assert (WF : wf (word s)) by (exists c, b; auto).
  assert (MOVE : forall p rs, at_ s t <> PostWake -> pinv b p -> (forall tm st, p = WaitSleep tm st -> c = 0) ->
    inv initial {| word := word s; at_ := setf (at_ s) t p; result := rs; posts := posts s; waits := waits s |}).
  { intros p rs N Hp Hs. rewrite W. eapply inv_upd; eauto. }
  assert (MOVE0 : forall p rs, at_ s t <> PostWake -> pinv b p -> (forall tm st, p = WaitSleep tm st -> c = 0) ->
    inv initial {| word := word s; at_ := setf (at_ s) t p; result := rs; posts := posts s + 0; waits := waits s + 0 |}).
  { intros p rs N Hp Hs. rewrite !Z.add_0_r. apply MOVE; assumption. }
  unfold step in H. pose proof (Pp t) as Pt.
  destruct (at_ s t) as [|tm st|tm st|tm st| |st| | |st] eqn:P; destruct a;
    try discriminate; try (destruct tm; discriminate); cbn [pinv] in Pt.
  1-4: unfold go in H; injection H as <-; apply MOVE; try discriminate; cbn;
       first [exact Logic.I | exists 0, false; split; [lia|reflexivity]].
  - (* WaitLoop *)
    assert (H' : wait_turn t tm st s = Some s') by (destruct tm; exact H). clear H.
    destruct Pt as (c1 & b1 & R1 & ->). unfold wait_turn in H'.
    rewrite sw_count in H' by exact R1.
    destruct (Z.eqb_spec c1 0) as [C0|C0].
    + destruct (Z.eqb_spec (word s) (sw c1 b1)) as [E|E]; unfold go in H'; injection H' as <-.
      * rewrite W in E. apply sw_inj in E; try assumption. destruct E as [-> ->]. rewrite C0 in *.
        change semaphoreHasWaiters with (sw 0 true).
        apply (inv_upd initial s t _ 0 b1 0 true); auto; try lia; try (rewrite P; discriminate); try discriminate.
        cbn. split; [destruct b1; [right|left]; reflexivity|reflexivity].
      * apply MOVE; try discriminate. exact WF.
    + destruct (Z.eqb_spec (word s) (sw c1 b1)) as [E|E]; unfold go, ret in H'; injection H' as <-.
      * rewrite W in E. apply sw_inj in E; try assumption. destruct E as [-> ->].
        replace (sw c1 b1 - 1) with (sw (c1 - 1) b1) by (destruct b1; unfold sw; lia).
        apply (inv_upd initial s t _ c1 b1 (c1 - 1) b1); auto; try lia; try (rewrite P; discriminate);
          try exact Logic.I; try discriminate; try (right; right; intros; lia).
      * apply MOVE; try discriminate. exact WF.
  - (* WaitFutex *)
    assert (H' : (if word s =? st then go s t (word s) (WaitSleep tm st)
                  else go s t (word s) (WaitLoop tm st)) = Some s') by (destruct tm; exact H).
    destruct Pt as [Es ->].
    destruct (Z.eqb_spec (word s) st) as [E|E]; unfold go in H'; injection H' as <-.
    + assert (st = semaphoreHasWaiters /\ c = 0).
      { rewrite W in E. unfold sw in E. unfold semaphoreHasWaiters in *.
        destruct Es; subst st; split; lia. }
      apply MOVE; try discriminate; [split; [tauto|reflexivity]|]. intros; tauto.
    + apply MOVE; try discriminate. cbn. destruct Es; subst st.
      * exists 0, false. split; [lia|reflexivity].
      * exists 0, true. split; [lia|reflexivity].
  - destruct tm; [|discriminate]. unfold ret in H. injection H as <-. apply MOVE0; try discriminate. exact Logic.I.
  - destruct tm; [|discriminate]. unfold ret in H. injection H as <-. apply MOVE0; try discriminate. exact Logic.I.
  - (* Spurious *)
    assert (H' : go s t (word s) (WaitLoop tm st) = Some s') by (destruct tm; exact H).
    unfold go in H'. injection H' as <-. apply MOVE; try discriminate. cbn. destruct Pt as [-> _].
    exists 0, true. split; [lia|reflexivity].
  - assert (H' : ret s t (word s) EINTR 0 0 = Some s') by (destruct tm; exact H).
    unfold ret in H'. injection H' as <-. apply MOVE0; try discriminate. exact Logic.I.
  - destruct tm; [|discriminate]. unfold ret in H. injection H as <-. apply MOVE0; try discriminate. exact Logic.I.
  - unfold go in H. injection H as <-. apply MOVE; try discriminate. exact WF.
  - (* PostLoop, Run *)
    destruct Pt as (c1 & b1 & R1 & ->). unfold post_turn in H.
    rewrite sw_count, sw_bit in H by exact R1.
    destruct (Z.gtb_spec (c1 + 1) SEM_VALUE_MAX) as [M|M]; unfold SEM_VALUE_MAX in M.
    + unfold ret in H. injection H as <-. apply MOVE0; try discriminate. exact Logic.I.
    + rewrite sw_lor in H by lia. rewrite andb_true_r in H.
      destruct (Z.eqb_spec (word s) (sw c1 b1)) as [E|E].
      * rewrite W in E. apply sw_inj in E; try assumption. destruct E as [-> ->].
        destruct b1; cbn in H; [|unfold ret in H]; injection H as <-.
        -- apply (inv_upd initial s t _ c1 true (c1 + 1) true); auto; try lia; try (rewrite P; discriminate);
             try exact Logic.I; try discriminate.
        -- apply (inv_upd initial s t _ c1 false (c1 + 1) false); auto; try lia; try (rewrite P; discriminate);
             try exact Logic.I; try discriminate.
           left. intros u tm st A. pose proof (Pp u) as Q. rewrite A in Q. cbn in Q. destruct Q; discriminate.
      * unfold go in H. injection H as <-. apply MOVE; try discriminate. exact WF.
  - (* PostLoop, WeakFail *)
    destruct Pt as (c1 & b1 & R1 & ->). unfold post_turn in H.
    rewrite sw_count, sw_bit in H by exact R1.
    destruct (Z.gtb_spec (c1 + 1) SEM_VALUE_MAX) as [M|M]; unfold SEM_VALUE_MAX in M.
    + unfold ret in H. injection H as <-. apply MOVE0; try discriminate. exact Logic.I.
    + rewrite andb_false_r in H. unfold go in H. injection H as <-. apply MOVE; try discriminate. exact WF.
  - (* PostWake *)
    injection H as <-. exists c, b. cbn [word at_ posts waits]. unfold wake_with. repeat split; try assumption; try lia.
    + intros u. unfold setf. destruct (Z.eqb_spec u t); [exact Logic.I|].
      pose proof (Pp u) as Q. destruct (at_ s u); cbn in *; try assumption.
      destruct Q as [-> _]. exists 0, true. split; [lia|reflexivity].
    + intros u tm st. unfold setf. destruct (Z.eqb_spec u t); [discriminate|].
      destruct (at_ s u); discriminate.
  - unfold go in H. injection H as <-. apply MOVE; try discriminate. exact WF.
  - (* TryTest *)
    destruct Pt as (c1 & b1 & R1 & ->). unfold try_turn in H.
    rewrite sw_bit in H by exact R1.
    destruct b1; cbn in H.
    + unfold ret in H. injection H as <-. apply MOVE0; try discriminate. exact Logic.I.
    + destruct (Z.eqb_spec c1 0) as [C0|C0].
      * unfold ret in H. injection H as <-. apply MOVE0; try discriminate. exact Logic.I.
      * destruct (Z.eqb_spec (word s) c1) as [E|E].
        -- change c1 with (sw c1 false) in E at 1. rewrite W in E. apply sw_inj in E; try assumption.
           destruct E as [-> ->]. unfold ret in H. injection H as <-.
           change (c1 - 1) with (sw (c1 - 1) false).
           apply (inv_upd initial s t _ c1 false (c1 - 1) false); auto; try lia; try (rewrite P; discriminate);
             try exact Logic.I; try discriminate; try (right; right; intros; lia).
        -- unfold go in H. injection H as <-. apply MOVE; try discriminate. exact Logic.I.
Qed.

Lemma reachable_inv : forall initial s, 0 <= initial -> reachable initial s -> inv initial s.
Proof.
  intros initial s N (s0 & sched & E & R). unfold init in E.
  destruct (Z.gtb_spec initial SEM_VALUE_MAX) as [M|M]; [discriminate|]. unfold SEM_VALUE_MAX in M.
  injection E as <-.
  refine (run_inv _ _ _ _ (step_inv initial) _ _ _ _ R).
  exists initial, false. cbn. repeat split; try lia. discriminate.
Qed.
