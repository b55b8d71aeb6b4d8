(** C33, C53: pthread mutexes. *)
From Verif Require Import Mutex_Model Mutex_Spec Mutex_Proof.
Open Scope Z_scope.

(** C33 (first part): at most one thread holds a mutex, for every type and schedule. *)
Theorem C33_mutual_exclusion : forall ty s t u,
  reachable ty s -> holds s t -> holds s u -> t = u.
Proof.
  intros ty s t u R Ht Hu.
  exact (inv_unique ty s t u (reachable_inv _ _ R) (or_introl Ht) (or_introl Hu)).
Qed.

Theorem C33_exclusion_inside : forall ty s t u,
  reachable ty s -> holds s t -> acquiring_or_releasing s u -> t = u.
Proof.
  intros ty s t u R Ht Hu.
  exact (inv_unique ty s t u (reachable_inv _ _ R) (or_introl Ht) (or_intror Hu)).
Qed.

(** No assertion of the mutex code fails when clients unlock only what they hold. *)
Theorem C33_no_abort : forall ty s t d, reachable ty s -> at_ (threads s t) <> Dead d.
Proof.
  intros ty s t d R H. pose proof (i_thread _ _ (reachable_inv _ _ R) t) as T.
  unfold tinv in T. rewrite H in T. tauto.
Qed.

(** C33 (recursion): the mutex stays locked by its holder until it has been unlocked as often as
    locked, and is free when nobody holds it; only a recursive mutex is held more than once. *)
Theorem C33_recursion : forall ty s, reachable ty s ->
  (forall t, holds s t -> Z.land (word s) ownerMask = t) /\
  ((forall t, ~ holds s t /\ ~ acquiring_or_releasing s t) -> word s = 0) /\
  (ty <> Recursive -> forall t, depth (threads s t) <= 1).
Proof.
  intros ty s R. pose proof (reachable_inv _ _ R) as I. split; [|split].
  - intros t H. destruct (i_own _ _ I t (or_introl H)) as (V & (b & E) & _).
    rewrite E. apply enc_owner; exact V.
  - intros H. destruct (i_free _ _ I) as [[E _]|[o [O|O]]]; [exact E| |].
    + destruct (H o) as [A _]. contradiction.
    + destruct (H o) as [_ A]. contradiction.
  - intros N t. destruct (i_thread _ _ I t) as (_ & D & _). exact (D N).
Qed.

(** What a lock operation reports: 0 exactly when the caller now holds the mutex once more. *)
Theorem C33_lock_result : forall ty s t a s',
  step ty t a s = Some s' -> locking s t -> idle s' t ->
  (result (threads s' t) = 0 /\ depth (threads s' t) = depth (threads s t) + 1) \/
  (result (threads s' t) <> 0 /\ depth (threads s' t) = depth (threads s t)).
Proof.
  intros ty s t a s' H L Id. unfold step in H. destruct (negb (valid_tid t)); [discriminate|].
  unfold locking in L. unfold idle in Id. revert Id. revert H L.
  destruct (at_ (threads s t)) as [| tm e | tm | | | e | | | | | d] eqn:P; destruct a;
    intros H L; try contradiction; try discriminate;
    try (destruct tm; discriminate);
    repeat (match type of H with
            | (if ?b then _ else _) = Some _ => destruct b
            | (match ?x with Normal => _ | ErrorCheck => _ | Recursive => _ end) = Some _ => destruct x
            end; try discriminate);
    unfold lock_turn, try_turn in H;
    repeat (match type of H with
            | (if ?b then _ else _) = Some _ => destruct b
            | (match ?x with Normal => _ | ErrorCheck => _ | Recursive => _ end) = Some _ => destruct x
            | (let _ := _ in _) = Some _ => cbn zeta in H
            end; try discriminate);
    unfold go, ret in H; injection H as <-; cbn [threads]; rewrite setf_same; cbn;
    intros Id; try discriminate; auto; right; split; auto; discriminate.
Qed.

(** C33 (deadlock detection): lock and timedlock of a mutex the caller holds return EDEADLK,
    trylock returns EBUSY, unless it is recursive: then all of them succeed. *)
Theorem C33_relock : forall ty s t a s',
  reachable ty s -> holds s t -> locking s t ->
  step ty t a s = Some s' -> idle s' t ->
  result (threads s' t) =
    match ty with
    | Recursive => 0
    | _ => if match at_ (threads s t) with LockLoop _ _ => true | _ => false end
           then EDEADLK else EBUSY
    end.
Proof.
  intros ty s t a s' R Hh L H. pose proof (reachable_inv _ _ R) as I.
  pose proof (i_thread _ _ I t) as T. unfold tinv in T. unfold holds in Hh.
  unfold step in H. destruct (negb (valid_tid t)); [discriminate|].
  unfold locking in L. unfold idle.
  pose proof (proj1 (C33_recursion ty s R) t Hh) as W.
  assert (W0 : word s <> 0).
  { intros E. destruct (i_own _ _ I t (or_introl Hh)) as (V & (b & Eb) & _).
    rewrite E in Eb. exact (enc_nz t b V (eq_sym Eb)). }
  destruct (at_ (threads s t)) as [| tm e | tm | | | e | | | | | d] eqn:P; try contradiction.
  - destruct T as (_ & _ & (Kw & K1 & K2) & _).
    destruct (Z.eqb_spec e 0) as [E0|E0].
    + subst e. assert (N : s' = s' -> at_ (threads s' t) <> Ready).
      { intros _. destruct a; try (destruct tm; discriminate).
        assert (H' : lock_turn ty t tm 0 s = Some s') by (destruct tm; exact H).
        unfold lock_turn in H'. rewrite Z.eqb_refl in H'.
        destruct (Z.eqb_spec (word s) 0); [contradiction|].
        unfold go in H'. injection H' as <-. cbn. rewrite setf_same. discriminate. }
      intros Id. elim (N eq_refl Id).
    + specialize (K1 Hh E0). intros _. destruct a; try (destruct tm; discriminate).
      * assert (H' : lock_turn ty t tm e s = Some s') by (destruct tm; exact H).
        unfold lock_turn in H'. destruct (Z.eqb_spec e 0); [contradiction|].
        rewrite K1, Z.eqb_refl in H'. unfold ret in H'.
        destruct ty; injection H' as <-; cbn; rewrite setf_same; reflexivity.
      * destruct tm; [|discriminate]. rewrite K1, Z.eqb_refl in H.
        destruct (negb (e =? 0)); discriminate.
      * destruct tm; [|discriminate]. rewrite K1, Z.eqb_refl in H.
        destruct (negb (e =? 0)); discriminate.
  - lia.
  - lia.
  - destruct a; try discriminate. unfold go in H. injection H as <-. cbn. rewrite setf_same. discriminate.
  - destruct T as (_ & _ & (Kw & K1 & K2) & _ & E0). specialize (E0 Hh). destruct a; try discriminate.
    intros _. unfold try_turn in H. destruct (Z.eqb_spec e 0) as [E1|_]; [contradiction|].
    rewrite (K1 Hh E0), Z.eqb_refl in H. unfold ret in H.
    destruct ty; injection H as <-; cbn; rewrite setf_same; reflexivity.
  - lia.
Qed.

(** A free mutex can be locked: lock, timedlock and trylock by a thread that is left alone
    return 0 and make it the holder. *)
Theorem C33_free_lock : forall ty s t,
  reachable ty s -> valid_tid t = true -> idle s t -> word s = 0 ->
  forall call, In call [CallLock; CallTimedLock; CallTryLock] ->
  exists s', run (guarded client_rule (step ty))
               ((t, call) :: (t, Run) :: (t, Run) ::
                match call with CallTryLock => [(t, Run)] | _ => [] end) s = Some s' /\
             idle s' t /\ result (threads s' t) = 0 /\ depth (threads s' t) = 1 /\
             Z.land (word s') ownerMask = t.
Proof.
  intros ty s t R V Id W call Hc. pose proof (reachable_inv _ _ R) as I.
  destruct (inv_word _ _ I) as [(_ & Rc & No)|(o & b & Vo & _ & E & _)];
    [|rewrite W in E; elim (enc_nz o b Vo (eq_sym E))].
  assert (D0 : depth (threads s t) = 0).
  { destruct (i_thread _ _ I t) as (D & _).
    assert (~ 0 < depth (threads s t)) by (intros A; apply (No t); left; exact A). lia. }
  unfold idle in Id.
  assert (EL : Z.lor t waitersBit = enc t true).
  { change (Z.lor t waitersBit) with (Z.lor (enc t false) waitersBit). apply enc_lor; exact V. }
  cbn [In] in Hc. destruct Hc as [<-|[<-|[<-|[]]]].
  1,2: eexists; split;
    [cbn [run]; unfold guarded at 1; cbn [client_rule]; rewrite D0; cbn [Z.ltb Z.compare];
     unfold step at 1; rewrite V, Id; cbn [negb go];
     unfold guarded at 1; cbn [client_rule]; unfold step at 1; rewrite V; cbn [negb threads];
     rewrite setf_same; cbn [at_]; unfold lock_turn; cbn [word Z.eqb]; rewrite W; cbn [Z.eqb];
     unfold go; cbn [threads]; rewrite setf_same; cbn [depth result];
     unfold guarded at 1; cbn [client_rule]; unfold step at 1; rewrite V; cbn [negb threads];
     rewrite setf_same; cbn [at_ recursion]; rewrite Rc; cbn [Z.eqb]; unfold ret; cbn [word threads];
     rewrite D0, EL; reflexivity
    |unfold idle; cbn [threads word]; rewrite setf_same; cbn [at_ depth result];
     repeat split; exact (enc_owner t true V)].
  eexists; split;
    [cbn [run]; unfold guarded at 1; cbn [client_rule]; rewrite D0; cbn [Z.ltb Z.compare];
     unfold step at 1; rewrite V, Id; cbn [negb go];
     unfold guarded at 1; cbn [client_rule]; unfold step at 1; rewrite V; cbn [negb threads];
     rewrite setf_same; cbn [at_]; unfold go; cbn [word threads];
     rewrite setf_same, W; cbn [depth result recursion];
     unfold guarded at 1; cbn [client_rule]; unfold step at 1; rewrite V; cbn [negb threads];
     rewrite setf_same; cbn [at_]; unfold try_turn; cbn [word Z.eqb]; unfold go; cbn [threads recursion];
     rewrite setf_same; cbn [depth result];
     unfold guarded at 1; cbn [client_rule]; unfold step at 1; rewrite V; cbn [negb threads];
     rewrite setf_same; cbn [at_ recursion]; rewrite Rc; cbn [Z.eqb]; unfold ret; cbn [word threads];
     rewrite D0; reflexivity
    |unfold idle; cbn [threads word]; rewrite setf_same; cbn [at_ depth result];
     repeat split; exact (enc_owner t false V)].
Qed.

(** C33 (error checking) is false of the code: unlocking an error-checking mutex that another
    thread holds does return EPERM, but it releases the mutex nevertheless. *)
Theorem C33_eperm_refuted : exists sched s,
  run (guarded loose_rule (step ErrorCheck)) sched init = Some s /\
  result (threads s 9) = EPERM /\ idle s 9 /\ holds s 5 /\ word s = 0.
Proof.
  exists [(5, CallLock); (5, Run); (5, Run); (9, CallUnlock); (9, Run); (9, Run)].
  destruct (run (guarded loose_rule (step ErrorCheck)) _ init) as [s|] eqn:E;
    [|vm_compute in E; discriminate].
  exists s. split; [reflexivity|]. vm_compute in E. injection E as <-.
  repeat split; vm_compute; reflexivity.
Qed.

(** The consequence: after the failed unlock a second thread locks the mutex as well. *)
Theorem C33_eperm_exclusion_refuted : exists sched s,
  run (guarded loose_rule (step ErrorCheck)) sched init = Some s /\ holds s 5 /\ holds s 9.
Proof.
  exists [(5, CallLock); (5, Run); (5, Run); (9, CallUnlock); (9, Run); (9, Run);
          (9, CallLock); (9, Run); (9, Run)].
  destruct (run (guarded loose_rule (step ErrorCheck)) _ init) as [s|] eqn:E;
    [|vm_compute in E; discriminate].
  exists s. split; [reflexivity|]. vm_compute in E. injection E as <-.
  split; vm_compute; reflexivity.
Qed.

(** C53: a thread sleeping in lock or timedlock is not forgotten. *)
Theorem C53_no_lost_wakeup : forall ty s t,
  reachable ty s -> sleeping s t ->
  (exists u, about_to_wake s u) \/
  (waiters_bit_set s /\ exists u, u <> t /\ (holds s u \/ acquiring_or_releasing s u)).
Proof.
  intros ty s t R [tm H]. pose proof (reachable_inv _ _ R) as I.
  destruct (i_sleep _ _ I t tm H) as [B|B]; [right|left; exact B].
  split; [exact (testbit_land _ B)|].
  destruct (inv_word _ _ I) as [(E & _)|(o & b & V & O & E & _)].
  - rewrite E in B. elim B; reflexivity.
  - exists o. split; [|exact O]. intros ->.
    pose proof (i_thread _ _ I t) as T. unfold tinv in T. rewrite H in T.
    destruct O as [O|O]; [lia|rewrite H in O; contradiction].
Qed.

Theorem C53_release_wakes : forall ty s t u s',
  reachable ty s -> sleeping s t -> at_ (threads s u) = UnlockXchg ->
  step ty u Run s = Some s' -> exists v, about_to_wake s' v.
Proof.
  intros ty s t u s' R [tm Hs] Hu H. pose proof (reachable_inv _ _ R) as I.
  unfold step in H. destruct (valid_tid u) eqn:V; [|discriminate]. cbn [negb] in H.
  rewrite Hu in H. unfold about_to_wake.
  assert (O : own (threads s u)) by (right; rewrite Hu; exact Logic.I).
  destruct (i_own _ _ I u O) as (_ & (b & Eb) & _).
  pose proof (valid_range _ V) as Vr.
  assert (H' : (if b then go s u 0 (recursion s) UnlockWake
                else ret s u 0 (recursion s) (depth (threads s u)) 0) = Some s').
  { rewrite <- H. unfold unlock_xchg. rewrite Eb, enc_owner, enc_bit by exact V.
    rewrite Z.eqb_refl. cbn [negb].
    destruct (Z.eqb_spec u 0); [lia|]. destruct ty, b; reflexivity. }
  destruct (i_sleep _ _ I t tm Hs) as [B|(v & Hv)].
  - rewrite Eb, enc_bit in B by exact V. destruct b; [|elim B; reflexivity].
    unfold go in H'. injection H' as <-. exists u. cbn. rewrite setf_same. reflexivity.
  - exists v. assert (N : v <> u) by (intros ->; congruence).
    destruct b; unfold go, ret in H'; injection H' as <-; cbn; rewrite setf_other by exact N; exact Hv.
Qed.

Theorem C53_wake_wakes_all : forall ty s u s' t,
  about_to_wake s u -> step ty u Run s = Some s' -> ~ sleeping s' t.
Proof.
  intros ty s u s' t Hu H [b A]. unfold step in H. destruct (negb (valid_tid u)); [discriminate|].
  red in Hu. rewrite Hu in H. injection H as <-. revert A. unfold wake_with. cbn. apply wake_sleep.
Qed.

(** ** Non-vacuity *)
Definition contended : list (Z * act) :=
  [(5, CallTryLock); (5, Run); (5, Run); (5, Run);
   (9, CallTimedLock); (9, Run); (9, Run); (9, Run); (11, CallTryLock); (11, Run); (11, Run)].

Example contended_state : exists s,
  run (guarded client_rule (step Normal)) contended init = Some s /\
  holds s 5 /\ sleeping s 9 /\ waiters_bit_set s /\ idle s 11 /\ result (threads s 11) = EBUSY.
Proof.
  destruct (run (guarded client_rule (step Normal)) contended init) as [s|] eqn:E;
    [|vm_compute in E; discriminate].
  exists s. split; [reflexivity|]. vm_compute in E. injection E as <-.
  repeat split; try (exists true); vm_compute; reflexivity.
Qed.

(** a recursive mutex locked twice and unlocked once is still locked; a third lock and a timed
    lock by somebody else that times out change nothing *)
Example nested : exists s,
  run (guarded client_rule (step Recursive))
    [(5, CallLock); (5, Run); (5, Run); (5, CallTryLock); (5, Run); (5, Run);
     (9, CallTimedLock); (9, Run); (9, Run); (9, Expire); (5, CallUnlock); (5, Run)] init = Some s /\
  holds s 5 /\ recursion s = 1 /\ idle s 9 /\ result (threads s 9) = ETIMEDOUT.
Proof.
  destruct (run (guarded client_rule (step Recursive)) _ init) as [s|] eqn:E;
    [|vm_compute in E; discriminate].
  exists s. split; [reflexivity|]. vm_compute in E. injection E as <-.
  repeat split; vm_compute; reflexivity.
Qed.

(** relocking an error-checking mutex *)
Example relock : exists s,
  run (guarded client_rule (step ErrorCheck))
    [(5, CallLock); (5, Run); (5, Run); (5, CallLock); (5, Run); (5, Run)] init = Some s /\
  idle s 5 /\ result (threads s 5) = EDEADLK /\ depth (threads s 5) = 1.
Proof.
  destruct (run (guarded client_rule (step ErrorCheck)) _ init) as [s|] eqn:E;
    [|vm_compute in E; discriminate].
  exists s. split; [reflexivity|]. vm_compute in E. injection E as <-.
  repeat split; vm_compute; reflexivity.
Qed.

Print Assumptions C33_mutual_exclusion.
Print Assumptions C33_exclusion_inside.
Print Assumptions C33_no_abort.
Print Assumptions C33_recursion.
Print Assumptions C33_lock_result.
Print Assumptions C33_relock.
Print Assumptions C33_free_lock.
Print Assumptions C33_eperm_refuted.
Print Assumptions C33_eperm_exclusion_refuted.
Print Assumptions C53_no_lost_wakeup.
Print Assumptions C53_release_wakes.
Print Assumptions C53_wake_wakes_all.
