(** Reachable states of the model of ending threads. *)
From Verif Require Import Texit_Model Texit_Spec Texit_Proof Tcancel_Proof.
Open Scope Z_scope.

Lemma list_cycle : forall (e : event) l, l <> e :: l.
Proof. intros e l H. apply (f_equal (@length event)) in H. cbn in H. lia. Qed.

(** ** Reachable states *)
Definition Inv (s : state) : Prop := I1 s /\ I2 s /\ I3 s /\ I4 s /\ I5 s /\ I6 s.

Lemma Inv_step : forall t a s s', Inv s -> step t a s = Some s' -> Inv s'.
Proof.
  intros t a s s' (H1 & H2 & H3 & H4 & H5 & H6) H.
  unfold Inv.
  split; [exact (I1_step _ _ _ _ H1 H)|]. split; [exact (I2_step _ _ _ _ H2 H)|].
  split; [exact (I3_step _ _ _ _ H1 H2 H3 H)|]. split; [exact (I4_step _ _ _ _ H1 H3 H4 H)|].
  split; [exact (I5_step _ _ _ _ H1 H5 H)|]. exact (I6_step _ _ _ _ H1 H6 H).
Qed.

Lemma Inv_init : forall m j, Inv (init m j).
Proof.
  intros m j. repeat split; cbn; try discriminate; auto.
  all: try (intros; discriminate).
  all: try (intros NN; elim NN; reflexivity).
  all: try (destruct l2; discriminate).
  all: try (destruct l1; discriminate).
  all: try (intros [? []]).
  elim H; reflexivity.
Qed.

Lemma reach_inv : forall m j s, reachable m j s -> Inv s.
Proof.
  intros m j s [sched H]. exact (run_inv _ _ _ Inv Inv_step _ _ _ (Inv_init m j) H).
Qed.

Lemma guarded_step : forall ok t a s s', guarded ok step t a s = Some s' -> step t a s = Some s'.
Proof. intros ok t a s s' H. unfold guarded in H. destruct (ok s t a); [exact H|discriminate]. Qed.

Lemma guarded_run : forall ok sched s s', run (guarded ok step) sched s = Some s' -> run step sched s = Some s'.
Proof.
  intros ok. induction sched as [|[t a] rest IH]; intros s s' H; cbn in *; [exact H|].
  destruct (guarded ok step t a s) as [s1|] eqn:E; [|discriminate].
  rewrite (guarded_step _ _ _ _ _ E). exact (IH _ _ H).
Qed.

Lemma polite_reach : forall m j s, reachable_polite m j s -> reachable m j s.
Proof. intros m j s [sched H]. exists sched. exact (guarded_run _ _ _ _ H). Qed.

Lemma no_gap_reach : forall m j s, reachable_no_gap m j s -> reachable m j s.
Proof. intros m j s [sched H]. exists sched. exact (guarded_run _ _ _ _ H). Qed.

Lemma reach_I7 : forall j s, reachable false j s -> I7 s.
Proof.
  intros j s [sched H].
  refine (proj2 (run_inv _ _ _ (fun s => Inv s /\ I7 s) _ _ _ _ _ H)).
  - intros t a s0 s1 [A B] E. split; [exact (Inv_step _ _ _ _ A E)|].
    destruct A as (A1 & _ & _ & _ & _ & A6). exact (I7_step _ _ _ _ A1 A6 B E).
  - split; [apply Inv_init|]. constructor; cbn; auto; discriminate.
Qed.

Lemma reach_I8 : forall m j s, reachable_no_gap m j s -> I8 s.
Proof.
  intros m j s [sched H].
  refine (proj2 (run_inv _ _ _ (fun s => Inv s /\ I8 s) _ _ _ _ _ H)).
  - intros t a s0 s1 [A B] E. split; [exact (Inv_step _ _ _ _ A (guarded_step _ _ _ _ _ E))|].
    destruct A as (A1 & _). exact (I8_step _ _ _ _ A1 B E).
  - split; [apply Inv_init|]. constructor; cbn; [intros o [Q|Q]|]; discriminate.
Qed.

Lemma reach_I9 : forall m j s, reachable_polite m j s -> I9 s.
Proof.
  intros m j s [sched H].
  refine (proj2 (run_inv _ _ _ (fun s => Inv s /\ I9 s) _ _ _ _ _ H)).
  - intros t a s0 s1 [A B] E. split; [exact (Inv_step _ _ _ _ A (guarded_step _ _ _ _ _ E))|].
    destruct A as (A1 & _ & _ & A4 & _). exact (I9_step _ _ _ _ A1 A4 B E).
  - split; [apply Inv_init|]. constructor; cbn; auto. discriminate.
Qed.

Lemma reach_step : forall m j t a s s', reachable m j s -> step t a s = Some s' -> reachable m j s'.
Proof.
  intros m j t a s s' [sched H] E. exists (sched ++ [(t, a)]).
  rewrite run_app, H. cbn. rewrite E. reflexivity.
Qed.

(** what holds of every event together with the record before it *)
Lemma suffixes : forall (P : event -> list event -> Prop) m j,
  (forall t a s s' e, reachable m j s -> step t a s = Some s' -> log s' = e :: log s -> P e (log s)) ->
  forall s, reachable m j s -> forall l1 e r, log s = l1 ++ e :: r -> P e r.
Proof.
  intros P m j HP s [sched H].
  refine (proj2 (run_inv _ _ _ (fun s => reachable m j s /\ forall l1 e r, log s = l1 ++ e :: r -> P e r) _ _ _ _ _ H)).
  - intros t a s0 s1 [A B] E. split; [exact (reach_step _ _ _ _ _ _ A E)|].
    intros l1 e r Q. destruct (step_log _ _ _ _ E) as [L|[e0 L]].
    + rewrite L in Q. exact (B _ _ _ Q).
    + destruct l1 as [|e1 l1]; cbn in Q; rewrite L in Q; injection Q as Q1 Q2.
      * subst. exact (HP _ _ _ _ _ A E L).
      * exact (B _ _ _ Q2).
  - split; [exists []; reflexivity|]. intros l1 e r Q. destruct l1; discriminate.
Qed.

(** ** The record at the decisive moments *)
Record I10 (s : state) : Prop := {
  e_did : did s = true -> In EDid (log s);
  e_det : joinable s = true -> forall t, ~ In (EDetach t) (log s) }.

Lemma I10_step : forall t a s s', I10 s -> step t a s = Some s' -> I10 s'.
Proof.
  intros t a s s' [A B] H. cases s H.
  all: constructor; cbn in *; auto; try discriminate.
  all: intros J u [Q|Q]; [discriminate|exact (B J u Q)].
Qed.

Lemma reach_I10 : forall m j s, reachable m j s -> I10 s.
Proof.
  intros m j s [sched H]. refine (run_inv _ _ _ I10 I10_step _ _ _ _ H).
  constructor; cbn; auto. discriminate.
Qed.

Ltac this_event L := try (exfalso; exact (list_cycle _ _ L)); try discriminate L.

Lemma did_event : forall t a s s', step t a s = Some s' -> log s' = EDid :: log s -> tp s = TDid.
Proof. intros t a s s' H L. cases s H. all: this_event L. reflexivity. Qed.

Lemma join_event : forall t a s s' u v, step t a s = Some s' -> log s' = EJoinRet u v :: log s ->
  loc s u = LGot /\ rv s = v.
Proof. intros t a s s' u v H L. cases s H. all: this_event L. injection L as -> ->. auto. Qed.

Lemma exit_event : forall t a s s' k v, step t a s = Some s' -> log s' = EExit k v :: log s ->
  tp s = TSet k v.
Proof. intros t a s s' k v H L. cases s H. all: this_event L. injection L as -> ->. auto. Qed.

Lemma detach_event : forall t a s s' u, step t a s = Some s' -> log s' = EDetach u :: log s ->
  joinable s = true.
Proof. intros t a s s' u H L. cases s H. all: this_event L. reflexivity. Qed.

(** ** The theorems *)
Lemma handlers : forall m j s l1 l2 k v l3, reachable m j s ->
  log s = l1 ++ EDid :: l2 ++ EExit k v :: l3 -> existsb registers l2 = false ->
  exists c d, outstanding l3 = Some (c, d) /\ runs l2 = map Dtor d ++ map Handler c.
Proof.
  intros m j s l1 l2 k v l3 R L F.
  assert (F' : forallb fresh l2 = true).
  { clear -F. induction l2 as [|e l2 IH]; cbn in *; [reflexivity|].
    apply orb_false_iff in F as [F1 F2]. unfold fresh at 1. rewrite F1. exact (IH F2). }
  refine (suffixes (fun e r => e = EDid -> r = l2 ++ EExit k v :: l3 ->
    exists c d, outstanding l3 = Some (c, d) /\ runs l2 = map Dtor d ++ map Handler c) m j _ s R _ _ _ L eq_refl eq_refl).
  clear s R L. intros t a s s' e R E Q -> L.
  pose proof (did_event _ _ _ _ E Q) as T.
  destruct (reach_inv _ _ _ R) as (A1 & _ & A3 & _).
  pose proof (c_lvl _ A1) as V. rewrite T in V.
  destruct (x_all _ A3 _ _ _ _ L) as [_ S].
  destruct (S F') as (c & d & O & N). rewrite V in N. exists c, d. auto.
Qed.

Lemma join_value : forall m j s l1 t v r, reachable m j s -> log s = l1 ++ EJoinRet t v :: r ->
  exists a b k c, r = a ++ EDid :: b ++ EExit k v :: c.
Proof.
  intros m j s l1 t v r R L.
  refine (suffixes (fun e r => e = EJoinRet t v -> exists a b k c, r = a ++ EDid :: b ++ EExit k v :: c)
    m j _ s R _ _ _ L eq_refl).
  clear s R L r l1. intros u a s s' e R E Q ->.
  destruct (join_event _ _ _ _ _ _ E Q) as [G V].
  destruct (reach_inv _ _ _ R) as (_ & _ & _ & A4 & _).
  pose proof (d_got _ A4 _ G) as D.
  destruct (d_did _ A4 D) as (_ & X & _).
  destruct (in_split _ _ (e_did _ (reach_I10 _ _ _ R) D)) as (l1 & l2 & S).
  destruct (d_after _ A4 _ _ S) as (_ & _ & b & k & c & ->).
  exists l1, b, k, c. rewrite S, <- X, V. reflexivity.
Qed.

Lemma after_did : forall m j s l1 r, reachable m j s -> log s = l1 ++ EDid :: r ->
  forallb external l1 = true.
Proof.
  intros m j s l1 r R L. destruct (reach_inv _ _ _ R) as (_ & _ & _ & A4 & _).
  exact (proj1 (d_after _ A4 _ _ L)).
Qed.

Lemma only_when : forall m j s l1 v r, reachable m j s -> log s = l1 ++ EExit Cancelled v :: r ->
  v = CANCELED /\ requested r /\ disabled r = false.
Proof.
  intros m j s l1 v r R L.
  refine (suffixes (fun e r => e = EExit Cancelled v -> v = CANCELED /\ requested r /\ disabled r = false)
    m j _ s R _ _ _ L eq_refl).
  clear s R L r l1. intros u a s s' e R E Q ->.
  pose proof (exit_event _ _ _ _ _ _ E Q) as T.
  destruct (reach_inv _ _ _ R) as (A1 & _ & _ & _ & A5 & _).
  pose proof (c_lvl _ A1) as V. pose proof (k_exit _ A5) as K. rewrite T in *.
  destruct K as (K1 & K2 & K3). auto.
Qed.

Lemma exit_once : forall m j s l1 k v l2 k' v' r, reachable m j s ->
  log s = l1 ++ EExit k v :: l2 ++ EExit k' v' :: r -> False.
Proof.
  intros m j s l1 k v l2 k' v' r R L.
  refine (suffixes (fun e r0 => e = EExit k v -> ~ In (EExit k' v') r0) m j _ s R _ _ _ L eq_refl _).
  2:{ apply in_or_app. right. left. reflexivity. }
  clear s R L. intros u a s s' e R E Q ->.
  pose proof (exit_event _ _ _ _ _ _ E Q) as T.
  destruct (reach_inv _ _ _ R) as (A1 & _ & A3 & _).
  pose proof (c_lvl _ A1) as V. rewrite T in V. exact (x_main _ A3 V _ _).
Qed.

Lemma detach_once : forall m j s l1 t u r, reachable m j s -> log s = l1 ++ EDetach t :: r ->
  ~ In (EDetach u) r.
Proof.
  intros m j s l1 t u r R L.
  refine (suffixes (fun e r0 => e = EDetach t -> ~ In (EDetach u) r0) m j _ s R _ _ _ L eq_refl).
  clear s R L. intros x a s s' e R E Q ->.
  exact (e_det _ (reach_I10 _ _ _ R) (detach_event _ _ _ _ _ E Q) u).
Qed.

Lemma detached_join : forall m j s t u, reachable m j s -> In (EDetach t) (log s) ->
  u <> 0 -> loc s u = LIdle ->
  exists s', step u OJoin s = Some s' /\ log s' = EJoinErr u :: log s.
Proof.
  intros m j s t u R D U L.
  assert (J : joinable s = false).
  { destruct (joinable s) eqn:J; [|reflexivity]. elim (e_det _ (reach_I10 _ _ _ R) J t D). }
  unfold step. destruct (Z.eqb_spec u 0); [contradiction|].
  unfold other_step. rewrite L, J. eexists. split; reflexivity.
Qed.

Lemma not_asleep : forall m j s t, reachable m j s -> In EDid (log s) -> tp s = TDead ->
  loc s t <> LSleep.
Proof.
  intros m j s t R D T L. destruct (reach_inv _ _ _ R) as (_ & _ & _ & A4 & _).
  destruct (d_sleep _ A4 _ L) as [Q|Q]; [exact (d_in _ A4 Q D)|congruence].
Qed.

Lemma polite_dead : forall m j s, reachable_polite m j s -> tp s = TDead -> In EDid (log s).
Proof.
  intros m j s R T. exact (e_did _ (reach_I10 _ _ _ (polite_reach _ _ _ R)) (p_dead _ (reach_I9 _ _ _ R) T)).
Qed.

(** a joiner of a thread whose end is published returns by itself *)
Lemma got_step : forall s t, t <> 0 -> loc s t = LGot ->
  exists s', run step (repeat (t, ARun) 1) s = Some s' /\ log s' = EJoinRet t (rv s) :: log s.
Proof.
  intros s t U L. eexists. split.
  - cbn [run repeat]. unfold step. rewrite (proj2 (Z.eqb_neq t 0) U). unfold other_step. rewrite L. reflexivity.
  - reflexivity.
Qed.

Lemma loop_step : forall s t, t <> 0 -> loc s t = LLoop -> did s = true ->
  exists s', run step (repeat (t, ARun) 2) s = Some s' /\ log s' = EJoinRet t (rv s) :: log s.
Proof.
  intros s t U L D.
  destruct (got_step (w_loc (setf (loc s) t LGot) s) t U (setf_same _ _ _ _)) as (s' & H & G).
  exists s'. split; [|exact G]. cbn [repeat] in *. cbn [run] in *.
  replace (step t ARun s) with (Some (w_loc (setf (loc s) t LGot) s)); [exact H|].
  unfold step. rewrite (proj2 (Z.eqb_neq t 0) U). unfold other_step. rewrite L, D. reflexivity.
Qed.

Lemma wait_step : forall s t, t <> 0 -> loc s t = LWait -> did s = true ->
  exists s', run step (repeat (t, ARun) 3) s = Some s' /\ log s' = EJoinRet t (rv s) :: log s.
Proof.
  intros s t U L D.
  destruct (loop_step (w_loc (setf (loc s) t LLoop) s) t U (setf_same _ _ _ _) D) as (s' & H & G).
  exists s'. split; [|exact G]. cbn [repeat] in *. cbn [run] in *.
  replace (step t ARun s) with (Some (w_loc (setf (loc s) t LLoop) s)); [exact H|].
  unfold step. rewrite (proj2 (Z.eqb_neq t 0) U). unfold other_step. rewrite L, D. reflexivity.
Qed.

Lemma joiner_returns : forall m j s t, reachable m j s -> In EDid (log s) -> t <> 0 ->
  loc s t = LLoop \/ loc s t = LWait \/ loc s t = LGot ->
  exists n s' v, run step (repeat (t, ARun) n) s = Some s' /\ log s' = EJoinRet t v :: log s.
Proof.
  intros m j s t R D U C.
  destruct (reach_inv _ _ _ R) as (_ & _ & _ & A4 & _).
  assert (X : did s = true).
  { destruct (did s) eqn:X; [reflexivity|]. elim (d_in _ A4 X D). }
  destruct C as [C|[C|C]].
  - destruct (loop_step s t U C X) as (s' & H). exists 2%nat, s'. eauto.
  - destruct (wait_step s t U C X) as (s' & H). exists 3%nat, s'. eauto.
  - destruct (got_step s t U C) as (s' & H). exists 1%nat, s'. eauto.
Qed.

(** ** Cancellation takes place *)
Lemma armed : forall m j s, reachable m j s -> lvl s = Main -> inside (tp s) = true ->
  cancelled (log s) -> enabled (log s) = true -> tcb_cancelled (bits s) = true.
Proof.
  intros m j s R V P C E. destruct (reach_inv _ _ _ R) as (_ & _ & _ & _ & _ & A6).
  unfold tcb_cancelled. rewrite (n_en _ A6 V P E), (n_ret _ A6 C). reflexivity.
Qed.

Lemma exits : forall s, exi (bits s) = false -> tp s = TExit Cancelled CANCELED -> sg s = None ->
  exists s', run step (repeat (0, ARun) 2) s = Some s' /\ log s' = EExit Cancelled CANCELED :: log s.
Proof.
  intros s X T G. eexists. split.
  - cbn [repeat run]. unfold step at 1. cbn [Z.eqb]. rewrite G. unfold target_step. rewrite T, X.
    unfold step. cbn. rewrite G. reflexivity.
  - reflexivity.
Qed.

Lemma not_exiting : forall m j s, reachable m j s -> lvl s = Main -> exi (bits s) = false.
Proof.
  intros m j s R V. destruct (reach_inv _ _ _ R) as (A1 & _). rewrite (c_exi _ A1), V. reflexivity.
Qed.

Lemma test_cancels : forall m j s, reachable m j s -> lvl s = Main -> tp s = TRun -> sg s = None ->
  cancelled (log s) -> enabled (log s) = true ->
  exists s', run step ((0, UTest) :: repeat (0, ARun) 2) s = Some s' /\
    log s' = EExit Cancelled CANCELED :: log s.
Proof.
  intros m j s R V T G C E.
  pose proof (armed _ _ _ R V ltac:(rewrite T; reflexivity) C E) as A.
  destruct (exits (do_cancel s) (not_exiting _ _ _ R V) eq_refl G) as (s' & H & L).
  exists s'. split; [|exact L]. change (match step 0 UTest s with Some s' => run step (repeat (0, ARun) 2) s' | None => None end = Some s').
  replace (step 0 UTest s) with (Some (do_cancel s)); [exact H|].
  unfold step. cbn [Z.eqb]. rewrite G. unfold target_step, user_step. rewrite T, V, A. reflexivity.
Qed.

Lemma sys_cancels : forall m j s, reachable m j s -> lvl s = Main -> tp s = TRun -> sg s = None ->
  cancelled (log s) -> enabled (log s) = true ->
  exists s', run step ((0, USys) :: repeat (0, ARun) 4) s = Some s' /\
    log s' = EExit Cancelled CANCELED :: log s.
Proof.
  intros m j s R V T G C E.
  pose proof (armed _ _ _ R V ltac:(rewrite T; reflexivity) C E) as A.
  destruct (exits (do_cancel (w_tp (TRange (bits s)) (w_tp (TLoaded (bits s)) s))) (not_exiting _ _ _ R V) eq_refl G) as (s' & H & L).
  exists s'. split; [|exact L]. cbn [repeat] in *.
  change (match step 0 USys s with Some s' => run step (repeat (0, ARun) 4) s' | None => None end = Some s').
  replace (step 0 USys s) with (Some (w_tp (TLoaded (bits s)) s)).
  2:{ unfold step. cbn [Z.eqb]. rewrite G. unfold target_step, user_step. rewrite T, V. reflexivity. }
  change (match step 0 ARun (w_tp (TLoaded (bits s)) s) with Some s' => run step (repeat (0, ARun) 3) s' | None => None end = Some s').
  replace (step 0 ARun (w_tp (TLoaded (bits s)) s)) with (Some (w_tp (TRange (bits s)) (w_tp (TLoaded (bits s)) s))).
  2:{ unfold step. cbn. rewrite G. reflexivity. }
  change (match step 0 ARun (w_tp (TRange (bits s)) (w_tp (TLoaded (bits s)) s)) with Some s' => run step (repeat (0, ARun) 2) s' | None => None end = Some s').
  replace (step 0 ARun (w_tp (TRange (bits s)) (w_tp (TLoaded (bits s)) s)))
    with (Some (do_cancel (w_tp (TRange (bits s)) (w_tp (TLoaded (bits s)) s)))); [exact H|].
  unfold step. cbn -[tcb_cancelled]. rewrite G, A. reflexivity.
Qed.

Lemma async_arrives : forall j s, reachable false j s -> lvl s = Main -> tp s = TRun ->
  cancelled (log s) -> enabled (log s) = true -> asynchronous (log s) = true ->
  mask s = false /\ (sg s <> None \/ pend s = true \/ exists t, t <> 0 /\ loc s t = LSend).
Proof.
  intros j s R V T C E Y.
  destruct (reach_inv _ _ _ R) as (_ & _ & _ & _ & _ & A6).
  assert (P : inside (tp s) = true) by (rewrite T; reflexivity).
  pose proof (armed _ _ _ R V P C E) as A. unfold tcb_cancelled in A. apply andb_true_iff in A as [A B].
  pose proof (n_asy _ A6 V (or_introl P)) as Q. rewrite Y in Q.
  pose proof (reach_I7 _ _ R) as A7. split.
  - apply (m_mask _ A7 V); [rewrite T; reflexivity|exact A].
  - destruct (m_async _ A7 V) as [X|[X|X]]; auto.
    + rewrite T; reflexivity.
    + unfold tcb_async_cancelled. rewrite A, B, <- Q. reflexivity.
Qed.

Lemma fresh_bits : forall b, cng b = false -> cb_eqb b (set_cng b) = false.
Proof.
  intros b H. unfold cb_eqb, set_cng. cbn. rewrite H. cbn.
  rewrite andb_false_r. reflexivity.
Qed.

Lemma cb_eqb_refl : forall b, cb_eqb b b = true.
Proof. intros [[] [] [] [] []]; reflexivity. Qed.

(** delivery of the signal with asynchronous cancellation *)
Lemma async_delivery : forall j s, reachable false j s -> lvl s = Main -> tp s = TRun ->
  cancelled (log s) -> enabled (log s) = true -> asynchronous (log s) = true ->
  pend s = true -> sg s = None ->
  exists s', run step ((0, Deliver) :: repeat (0, ARun) 3) s = Some s' /\
    log s' = EExit Cancelled CANCELED :: log s.
Proof.
  intros j s R V T C E Y P G.
  destruct (async_arrives _ _ R V T C E Y) as [M _].
  pose proof (not_exiting _ _ _ R V) as X.
  destruct (reach_inv _ _ _ R) as (A1 & _ & _ & _ & _ & A6).
  assert (I : inside (tp s) = true) by (rewrite T; reflexivity).
  pose proof (n_asy _ A6 V (or_introl I)) as Q. rewrite Y in Q.
  assert (K : cng (bits s) = false).
  { apply not_true_iff_false. intros K. destruct (c_cng _ A1 K V) as (v & [Z|Z]); congruence. }
  pose proof (fresh_bits _ K) as K'. clear - V T P G M X Q K'.
  set (s1 := w_sg (Some (bits s)) (w_tp (tp s) (w_pend false s))).
  set (s2 := do_cancel (w_mask true (w_sg None (w_rv CANCELED (w_bits (set_cng (bits s)) s1))))).
  destruct (exits s2) as (s' & H & L); [exact X|reflexivity|reflexivity|].
  exists s'. split; [|exact L].
  change ((0, Deliver) :: repeat (0, ARun) 3) with ((0, Deliver) :: (0, ARun) :: repeat (0, ARun) 2).
  cbn [run].
  replace (step 0 Deliver s) with (Some s1).
  2:{ unfold step. rewrite Z.eqb_refl, G. unfold deliver. rewrite P, M, T, <- Q. subst s1. rewrite T. reflexivity. }
  replace (step 0 ARun s1) with (Some s2); [exact H|].
  unfold step. rewrite Z.eqb_refl. change (sg s1) with (Some (bits s)). cbv iota. f_equal.
  unfold handler_step. change (bits s1) with (bits s). rewrite X, K', cb_eqb_refl. reflexivity.
Qed.

Lemma blocked_arrives : forall j s, reachable_no_gap false j s -> lvl s = Main -> tp s = TKernel ->
  cancelled (log s) -> enabled (log s) = true ->
  mask s = false /\ (pend s = true \/ exists t, t <> 0 /\ loc s t = LSend).
Proof.
  intros j s R V T C E. pose proof (no_gap_reach _ _ _ R) as R0.
  assert (I : inside (tp s) = true) by (rewrite T; reflexivity).
  pose proof (armed _ _ _ R0 V I C E) as A. split.
  - apply (m_mask _ (reach_I7 _ _ R0) V); [rewrite T; reflexivity|].
    unfold tcb_cancelled in A. apply andb_true_iff in A. tauto.
  - exact (b_kern _ (reach_I8 _ _ _ R) T V A).
Qed.

(** delivery of the signal to a thread blocked in a system call *)
Lemma blocked_delivery : forall j s, reachable_no_gap false j s -> lvl s = Main -> tp s = TKernel ->
  cancelled (log s) -> enabled (log s) = true -> pend s = true ->
  exists s', run (guarded no_gap step) ((0, Deliver) :: repeat (0, ARun) 3) s = Some s' /\
    log s' = EExit Cancelled CANCELED :: log s.
Proof.
  intros j s R V T C E P. pose proof (no_gap_reach _ _ _ R) as R0.
  destruct (blocked_arrives _ _ R V T C E) as [M _].
  pose proof (not_exiting _ _ _ R0 V) as X.
  destruct (reach_inv _ _ _ R0) as (A1 & _).
  assert (K : cng (bits s) = false).
  { apply not_true_iff_false. intros K. destruct (c_cng _ A1 K V) as (v & [Z|Z]); congruence. }
  assert (G : sg s = None).
  { destruct (sg s) eqn:G; [|reflexivity]. pose proof (c_sg _ A1) as S. rewrite G in S.
    destruct S as (_ & _ & S). contradiction. }
  pose proof (fresh_bits _ K) as K'. clear - V T P G M X K'.
  set (s1 := w_sg (Some (bits s)) (w_tp (TEnd true) (w_pend false s))).
  set (s2 := do_cancel (w_mask true (w_sg None (w_rv CANCELED (w_bits (set_cng (bits s)) s1))))).
  destruct (exits s2) as (s' & H & L); [exact X|reflexivity|reflexivity|].
  exists s'. split; [|exact L].
  change ((0, Deliver) :: repeat (0, ARun) 3) with ((0, Deliver) :: (0, ARun) :: repeat (0, ARun) 2).
  cbn [run].
  replace (guarded no_gap step 0 Deliver s) with (Some s1).
  2:{ unfold guarded, no_gap, step. rewrite T, Z.eqb_refl, G. unfold deliver. rewrite P, M, T.
      cbn -[s1]. rewrite andb_false_r. reflexivity. }
  replace (guarded no_gap step 0 ARun s1) with (Some s2).
  2:{ unfold guarded, no_gap, step. rewrite Z.eqb_refl. change (sg s1) with (Some (bits s)). cbv iota. f_equal.
      unfold handler_step. change (bits s1) with (bits s). rewrite X, K', cb_eqb_refl. reflexivity. }
  cbn [repeat run] in *.
  exact H.
Qed.

Lemma lifo : forall m j s, reachable m j s -> exists c d, outstanding (log s) = Some (c, d).
Proof. intros m j s R. destruct (reach_inv _ _ _ R) as (_ & A2 & _). exists (cln s), (tls s). exact A2. Qed.

(** ** What goes wrong *)
Lemma dead_stays : forall s t a s', tp s = TDead /\ did s = false /\ sg s = None ->
  step t a s = Some s' -> tp s' = TDead /\ did s' = false /\ sg s' = None.
Proof. intros s t a s' (T & D & G) H. cases s H. all: auto. Qed.

Lemma dead_forever : forall m j s sched s' t v, reachable m j s -> tp s = TDead ->
  ~ In EDid (log s) -> run step sched s = Some s' -> ~ In (EJoinRet t v) (log s').
Proof.
  intros m j s sched s' t v R T N H J.
  assert (D : did s = false).
  { destruct (did s) eqn:D; [|reflexivity]. elim (N (e_did _ (reach_I10 _ _ _ R) D)). }
  assert (G : sg s = None).
  { destruct (reach_inv _ _ _ R) as (A1 & _). pose proof (c_sg _ A1) as G.
    destruct (sg s); [|reflexivity]. destruct G as (_ & G & _). contradiction. }
  assert (D' : tp s' = TDead /\ did s' = false /\ sg s' = None).
  { refine (run_inv _ _ _ (fun s => tp s = TDead /\ did s = false /\ sg s = None) _ _ _ _ (conj T (conj D G)) H).
    intros u a s1 s2 Q E. exact (dead_stays _ _ _ _ Q E). }
  assert (R' : reachable m j s').
  { destruct R as [sc R]. exists (sc ++ sched). rewrite run_app, R. exact H. }
  destruct (in_split _ _ J) as (l1 & l2 & S).
  destruct (join_value _ _ _ _ _ _ _ R' S) as (a & b & k & c & E).
  destruct (reach_inv _ _ _ R') as (_ & _ & _ & A4 & _).
  apply (d_in _ A4 (proj1 (proj2 D'))). rewrite S, E.
  apply in_or_app. right. right. apply in_or_app. right. left. reflexivity.
Qed.

(** a thread in a system call that the signal will not reach any more *)
Definition stranded (s : state) : Prop :=
  tp s = TKernel /\ sg s = None /\ pend s = false /\ trg (bits s) = true /\
  (forall u, loc s u <> LSend) /\ (forall u o, loc s u = LCancel o -> trg o = true).

Definition kernel_returns (a : act) : bool := match a with KDone | KIntr => true | _ => false end.

Lemma stranded_step : forall s t a s', stranded s -> kernel_returns a = false ->
  step t a s = Some s' -> stranded s'.
Proof.
  intros s t a s' (T & G & P & B & N & O) K H. unfold stranded. cases s H.
  all: repeat split; auto.
  all: try (intros u o Q).
  all: try (intros u Q).
  all: try (apply setf_or in Q as [Q|Q]; try discriminate Q; try (exact (N _ Q)); try (exact (O _ _ Q))).
  all: try (injection Q as <-; assumption).
  - destruct old as [a1 a2 a3 a4 a5]. cbn in B. subst a3.
    change (set_trg (Cb a1 a2 true a4 a5)) with (Cb a1 a2 true a4 a5) in Heqb1.
    rewrite cb_eqb_refl in Heqb1. discriminate.
  - exfalso. eapply N. eassumption.
Qed.

Lemma stranded_run : forall sched s s', stranded s ->
  forallb (fun x => negb (kernel_returns (snd x))) sched = true ->
  run step sched s = Some s' -> tp s' = TKernel.
Proof.
  intros sched s s' S K H. assert (Q : stranded s').
  { revert s S K H. induction sched as [|[t a] rest IH]; intros s S K H; cbn in *.
    - injection H as <-. exact S.
    - apply andb_true_iff in K as [K1 K2]. apply negb_true_iff in K1.
      destruct (step t a s) as [s1|] eqn:E; [|discriminate].
      exact (IH _ (stranded_step _ _ _ _ S K1 E) K2 H). }
  exact (proj1 Q).
Qed.
