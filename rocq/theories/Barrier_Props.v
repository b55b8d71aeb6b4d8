(** C36, C54: barriers. *)
From Verif Require Import Barrier_Model Barrier_Spec Barrier_Proof.
Open Scope Z_scope.

(** C36, part 1.  While the generations are no more than the counter word can tell apart, nobody
    returns from pthread_barrier_wait, or is about to, before [count] threads have arrived in its
    generation. *)
Theorem C36_not_early_partial : forall count s, 1 <= count <= 2 ^ 31 -> reachable count s ->
  arrived s <= count * max_generations count ->
  (forall t r, returning s t r -> complete count s (generation count (ticket s t))) /\
  (forall k r, In (k, r) (log s) -> complete count s (generation count k)).
Proof.
  intros count s C R B. destruct (run_inv2 count C s R) as [_ J]. specialize (J B). split.
  - intros t r H. exact (e_pc count s J t r H).
  - intros k r H. exact (e_log count s J k r H).
Qed.

(** C36, part 2.  Every arrival belongs to one call, and the value returned is
    PTHREAD_BARRIER_SERIAL_THREAD for the last arrival of a generation and 0 for the others;
    without any bound on the number of generations. *)
Theorem C36_serial : forall count s, 1 <= count <= 2 ^ 31 -> reachable count s ->
  NoDup (map fst (log s)) /\
  (forall k r, In (k, r) (log s) -> 0 <= k < arrived s /\
     r = if k mod count =? count - 1 then PTHREAD_BARRIER_SERIAL_THREAD else 0).
Proof.
  intros count s C R. destruct (run_inv2 count C s R) as [I _]. split; [exact (i_nodup count s I)|].
  intros k r H. destruct (i_log count s I (k, r) H) as [A B]. cbn in A, B. split; [exact A|].
  unfold last in B. destruct (Z.eqb_spec (k mod count) (count - 1)); tauto.
Qed.

(** hence at most one call per generation is the serial one *)
Theorem C36_one_serial : forall count s k k', 1 <= count <= 2 ^ 31 -> reachable count s ->
  In (k, PTHREAD_BARRIER_SERIAL_THREAD) (log s) -> In (k', PTHREAD_BARRIER_SERIAL_THREAD) (log s) ->
  generation count k = generation count k' -> k = k'.
Proof.
  intros count s k k' C R H H' E. destruct (C36_serial count s C R) as [_ X].
  destruct (X _ _ H) as [_ A]. destruct (X _ _ H') as [_ A'].
  destruct (Z.eqb_spec (k mod count) (count - 1)) as [B|B]; [|discriminate].
  destruct (Z.eqb_spec (k' mod count) (count - 1)) as [B'|B']; [|discriminate].
  unfold generation in E.
  pose proof (Z.div_mod k count ltac:(lia)). pose proof (Z.div_mod k' count ltac:(lia)). congruence.
Qed.

(** No step of the code is undefined. *)
Theorem C36_defined : forall count s t, 1 <= count <= 2 ^ 31 -> reachable count s -> at_ s t <> Undefined.
Proof.
  intros count s t C R E. destruct (run_inv2 count C s R) as [I _].
  pose proof (i_pc count s I t) as X. rewrite E in X. exact X.
Qed.

(** C36, part 3, when no more than [count] threads use the barrier: while a thread sleeps, its
    generation is incomplete or somebody is still about to release it. *)
Theorem C36_no_lost_wakeup_partial : forall users count s t,
  1 <= count <= 2 ^ 31 -> Z.of_nat (length users) <= count -> reachable_by users count s ->
  arrived s < count * max_generations count -> sleeps s t ->
  ~ complete count s (generation count (ticket s t)) \/ exists u, releases s u.
Proof.
  intros users count s t C U R B S. pose proof (run_inv3 count C users U s R) as V.
  pose proof (v_live _ _ _ V B) as L.
  destruct (l_sleep _ _ L t S) as [X|[(u & g & X)|(u & X)]].
  - left. unfold complete, generation. rewrite X.
    pose proof (Z.mod_pos_bound (arrived s) count ltac:(lia)).
    pose proof (Z.div_mod (arrived s) count ltac:(lia)). nia.
  - right. exists u. unfold releases. rewrite X. exact Logic.I.
  - right. exists u. unfold releases. rewrite X. exact Logic.I.
Qed.

(** C36, part 4: every thread of a complete generation can leave: the threads that are in the
    barrier can go on (no new call is needed) so that it returns. *)
Theorem C36_can_leave_partial : forall users count s t,
  1 <= count <= 2 ^ 31 -> Z.of_nat (length users) <= count -> reachable_by users count s ->
  arrived s < count * max_generations count ->
  waits s t -> complete count s (generation count (ticket s t)) ->
  exists sched s', run (step count) sched s = Some s' /\ Forall (fun e => snd e = Run) sched /\
    returning s' t 0.
Proof.
  intros users count s t C U R B W K. exact (can_leave count C users U s t (run_inv3 count C users U s R) B W K).
Qed.

(** the releasing thread itself is never held up *)
Theorem C36_release_possible : forall count s u, releases s u ->
  exists n s', run (step count) (repeat (u, Run) n) s = Some s' /\
    returning s' u PTHREAD_BARRIER_SERIAL_THREAD.
Proof.
  intros count s u H. unfold releases in H. destruct (at_ s u) eqn:P; try contradiction.
  - exists 2%nat. eexists. split.
    + cbn [repeat run]. unfold step at 1. rewrite P. unfold step at 1. cbn [at_]. rewrite setf_same. reflexivity.
    + left. cbn. apply setf_same.
  - exists 1%nat. eexists. split.
    + cbn [repeat run]. unfold step at 1. rewrite P. reflexivity.
    + left. cbn. apply setf_same.
Qed.

(** Refutation of part 3 for more threads than [count]: the release of generation 0 is stored
    after that of generation 1; thread 3 then sleeps although its generation is complete, and
    everybody else has left. *)
Theorem C36_overtaken_refuted : exists s, reachable 2 s /\ sleeps s 3 /\
  complete 2 s (generation 2 (ticket s 3)) /\ forall t, t <> 3 -> idle s t.
Proof.
  set (sched :=
    [(1, CallWait); (1, Run); (1, Run); (2, CallWait); (2, Run); (2, Run);
     (3, CallWait); (3, Run); (3, Run); (4, CallWait); (4, Run); (4, Run);
     (4, Run); (4, Run); (2, Run); (2, Run);
     (3, Run); (3, Run);
     (1, Run); (1, Run); (2, Run); (4, Run)]).
  assert (X : option_map (fun s => (arrived s, ticket s 3, map (at_ s) [1; 2; 3; 4]))
      (run (guarded client_rule (step 2)) sched init) =
    Some (4, 2, [Ready; Ready; SleepSeq 1 1; Ready])) by (vm_compute; reflexivity).
  destruct (run (guarded client_rule (step 2)) sched init) as [s|] eqn:E; [|discriminate].
  exists s. split; [eexists; exact E|]. cbn [option_map map] in X. injection X as X1 X2 X3 X4 X5 X6.
  split; [exists 1, 1; exact X5|]. split; [unfold complete, generation; rewrite X1, X2; vm_compute; discriminate|].
  intros t N. destruct (in_dec Z.eq_dec t [1; 2; 3; 4]) as [Y|Y].
  - cbn in Y. destruct Y as [<-|[<-|[<-|[<-|[]]]]]; try assumption. elim N; reflexivity.
  - refine (run_other_ready _ _ t _ _ _ E _ eq_refl). unfold sched. cbn [map fst]. intros Z1.
    apply Y. clear - Z1. cbn [In] in *. tauto.
Qed.

(** ** Refutation of part 1 when the generations wrap around *)
Definition quiet (g : Z) (s : state) : Prop := exists f k l,
  s = {| waiting := word 3 (3 * g); seq := g; inside := 0; at_ := f; arrived := 3 * g; ticket := k;
         log := l; destroyed := false |} /\ forall t, f t = Ready.

Definition round : list (Z * act) :=
  [(1, CallWait); (1, Run); (1, Run); (2, CallWait); (2, Run); (2, Run);
   (3, CallWait); (3, Run); (3, Run); (3, Run); (3, Run); (3, Run);
   (1, Run); (1, Run); (2, Run); (2, Run); (2, Run)].

Lemma run_cons : forall t a rest s s1 s', client_rule s t a = true -> step 3 t a s = Some s1 ->
  run (guarded client_rule (step 3)) rest s1 = Some s' ->
  run (guarded client_rule (step 3)) ((t, a) :: rest) s = Some s'.
Proof. intros t a rest s s1 s' O E H. cbn [run]. unfold guarded at 1. rewrite O, E. exact H. Qed.

Ltac proj := cbn [at_ waiting seq inside arrived ticket log destroyed setf wake_with wake_seq wake_inside Z.eqb Pos.eqb].
Ltac norm_inside :=
  change (u32 (0 + 1)) with 1; change (u32 (1 + 1)) with 2; change (u32 (2 + 1)) with 3;
  change (u32 (3 - 1)) with 2; change (u32 (2 - 1)) with 1; change (u32 (1 - 1)) with 0.
Ltac done_step :=
  change (0 =? 3 - 1) with false; change (1 =? 3 - 1) with false; change (2 =? 3 - 1) with true;
  change ((0 <? 1) && (1 <? 2 ^ 31)) with true; cbn [andb negb]; cbv iota;
  unfold go, arrive, return_; proj; norm_inside; reflexivity.
Ltac st F ex := eapply run_cons; [reflexivity|unfold step; proj; rewrite ?F; proj; ex; done_step|].

Lemma round_quiet : forall g s, 0 <= g < 2 ^ 30 -> quiet g s ->
  exists s', run (guarded client_rule (step 3)) round s = Some s' /\ quiet (g + 1) s'.
Proof.
  intros g s B (f & k & l & -> & F). assert (C3 : 1 <= 3 <= 2 ^ 31) by lia.
  assert (D0 : (3 * g) mod 3 = 0) by (rewrite Z.mul_comm; apply Z.mod_mul; lia).
  assert (D1 : (3 * g + 1) mod 3 = 1) by (symmetry; apply (Z.mod_unique _ _ g); lia).
  assert (D2 : (3 * g + 1 + 1) mod 3 = 2) by (symmetry; apply (Z.mod_unique _ _ g); lia).
  assert (GE : G 3 = 2 ^ 30) by reflexivity.
  assert (E0 : (3 * g / 3) mod G 3 = g).
  { rewrite Z.mul_comm, Z.div_mul, GE by lia. apply Z.mod_small; lia. }
  assert (E1 : ((3 * g + 1) / 3) mod G 3 = g).
  { rewrite GE. rewrite <- (Z.div_unique (3 * g + 1) 3 g 1) by lia. apply Z.mod_small; lia. }
  assert (E2 : ((3 * g + 1 + 1) / 3) mod G 3 = g).
  { rewrite GE. rewrite <- (Z.div_unique (3 * g + 1 + 1) 3 g 2) by lia. apply Z.mod_small; lia. }
  assert (U1 : u32 (g + 1) = g + 1) by (unfold u32; apply Z.mod_small; lia).
  assert (U2 : u32 (g + 1 - g) = 1) by (replace (g + 1 - g) with 1 by lia; reflexivity).
  eexists. split.
  - unfold round.
    st F idtac. st F idtac.
    st F ltac:(rewrite (turn_word 3 C3), Z.eqb_refl, D0, E0).
    st F idtac. st F idtac.
    st F ltac:(rewrite (turn_word 3 C3), Z.eqb_refl, D1, E1).
    st F idtac. st F idtac.
    st F ltac:(rewrite (turn_word 3 C3), Z.eqb_refl, D2, E2).
    st F ltac:(rewrite U1). st F idtac. st F idtac.
    st F ltac:(rewrite U2). st F idtac.
    st F ltac:(rewrite U2). st F idtac. st F idtac.
    reflexivity.
  - replace (3 * g + 1 + 1 + 1) with (3 * (g + 1)) by lia.
    eexists; eexists; eexists. split; [reflexivity|].
    intros t. unfold setf, wake_with.
    repeat match goal with |- context [if ?b then _ else _] => destruct b end; rewrite ?F; reflexivity.
Qed.

Lemma rounds_quiet : forall n, Z.of_nat n <= 2 ^ 30 ->
  exists s, reachable 3 s /\ quiet (Z.of_nat n) s.
Proof.
  induction n as [|n IH]; intros B.
  - exists init. split; [exists []; reflexivity|]. exists (fun _ => Ready), (fun _ => 0), [].
    split; [reflexivity|]. reflexivity.
  - destruct IH as (s & (sched & R) & Q); [lia|].
    destruct (round_quiet (Z.of_nat n) s) as (s' & R' & Q'); [lia|exact Q|].
    exists s'. split.
    + exists (sched ++ round). rewrite run_app, R. exact R'.
    + replace (Z.of_nat (S n)) with (Z.of_nat n + 1) by lia. exact Q'.
Qed.

(** Three threads meet 2^30 times at a barrier for three; the next one that arrives passes it
    alone. *)
Theorem C36_wrap_refuted : exists s, reachable 3 s /\ returning s 1 0 /\
  ~ complete 3 s (generation 3 (ticket s 1)) /\ (forall t, t <> 1 -> idle s t).
Proof.
  assert (N : exists n, 2 ^ 30 = Z.of_nat n) by exact (Z_of_nat_complete (2 ^ 30) ltac:(lia)).
  destruct N as [n N].
  destruct (rounds_quiet n) as (s & (sched & R) & Q); [lia|].
  rewrite <- N in Q. clear N n. destruct Q as (f & k & l & -> & F).
  assert (C3 : 1 <= 3 <= 2 ^ 31) by lia.
  eexists. split; [|split; [|split]].
  - exists (sched ++ [(1, CallWait); (1, Run); (1, Run); (1, Run)]). rewrite run_app, R.
    st F idtac. st F idtac.
    st F ltac:(rewrite (turn_word 3 C3), Z.eqb_refl; change ((3 * 2 ^ 30) mod 3 =? 3 - 1) with false;
      change ((3 * 2 ^ 30 / 3) mod G 3) with 0).
    st F ltac:(change (u32 (2 ^ 30 - 0)) with (2 ^ 30);
      change ((0 <? 2 ^ 30) && (2 ^ 30 <? 2 ^ 31)) with true).
    reflexivity.
  - left. reflexivity.
  - unfold complete, generation. cbn [ticket arrived]. rewrite setf_same. vm_compute. intros X. elim X; reflexivity.
  - intros t N. unfold idle. cbn [at_]. rewrite !setf_other by exact N. apply F.
Qed.

(** ** C54: pthread_barrier_destroy *)

(** When pthread_barrier_destroy has returned, no thread is still inside pthread_barrier_wait
    with accesses to the barrier ahead of it. *)
Theorem C54_destroy_safe : forall count s, reachable count s -> destroyed s = true ->
  forall t, ~ accesses s t.
Proof. intros count s R D. exact (d_destroyed s (run_inv4 count s R) D). Qed.

(** It loses no wake-up: while it sleeps, a thread is inside or about to wake it. *)
Theorem C54_no_lost_wakeup : forall count s t, reachable count s -> destroy_sleeps s t ->
  (exists u, accesses s u) \/ exists u r, at_ s u = WakeInside r.
Proof.
  intros count s t R H. pose proof (run_inv4 count s R) as V.
  destruct (d_sleep s V t H) as [X|X]; [left|right; exact X].
  destruct (d_in s V) as (L & _ & Y & Z0). destruct L as [|u L]; [cbn in Z0; contradiction|].
  exists u. apply Y. left; reflexivity.
Qed.

Theorem C54_wake_wakes : forall count s u r s' t, at_ s u = WakeInside r -> step count u Run s = Some s' ->
  ~ destroy_sleeps s' t.
Proof.
  intros count s u r s' t P H [e X]. unfold step in H. rewrite P in H. unfold return_ in H. injection H as <-.
  cbn in X. unfold setf, wake_with in X. destruct (Z.eqb t u); [discriminate|]. destruct (at_ s t); discriminate.
Qed.

(** With nobody inside, it returns at once. *)
Theorem C54_returns : forall count s t, reachable count s -> (forall u, ~ accesses s u) -> idle s t ->
  destroyed s = false -> exists s', run (step count) [(t, CallDestroy); (t, Run)] s = Some s' /\
  destroyed s' = true /\ idle s' t.
Proof.
  intros count s t R N I D. pose proof (run_inv4 count s R) as V.
  destruct (d_in s V) as (L & _ & Y & Z0). destruct L as [|u L]; [|elim (N u); apply Y; left; reflexivity].
  eexists. split.
  - cbn [run]. unfold step at 1. rewrite I. unfold go at 1. unfold step at 1. cbn [at_]. rewrite setf_same.
    cbn [inside]. rewrite Z0. reflexivity.
  - cbn. split; [reflexivity|]. unfold idle. cbn. apply setf_same.
Qed.

(** ** Non-vacuity *)
(** three users of a barrier for three: one sleeps, the last is about to release it, one returns
    from the generation before *)
Example busy : exists s, reachable_by [1; 2; 3] 3 s /\ arrived s < 3 * max_generations 3 /\
  sleeps s 1 /\ releases s 3 /\ complete 3 s (generation 3 (ticket s 1)) /\ waits s 2 /\ destroy_sleeps s 9.
Proof.
  set (sched :=
    [(1, CallWait); (1, Run); (1, Run); (1, Run); (1, Run); (2, CallWait); (2, Run); (2, WeakFail); (2, Run);
     (9, CallDestroy); (9, Run); (9, Run); (9, Spurious); (9, Run);
     (3, CallWait); (9, Run); (9, Run); (9, Run); (3, Run); (3, Run)]).
  assert (X : option_map (fun s => (arrived s, ticket s 1, map (at_ s) [1; 2; 3; 9]))
      (run (guarded (users_rule [1; 2; 3]) (step 3)) sched init) =
    Some (3, 0, [SleepSeq 0 0; LoadSeq 0; StoreSeq 0; DestroySleep 3])) by (vm_compute; reflexivity).
  destruct (run (guarded (users_rule [1; 2; 3]) (step 3)) sched init) as [s|] eqn:E; [|discriminate].
  exists s. split; [eexists; exact E|]. cbn [option_map map] in X. injection X as X1 X2 X3 X4 X5 X6.
  unfold sleeps, releases, complete, generation, waits, destroy_sleeps. rewrite X1, X2, X3, X4, X5, X6.
  split; [reflexivity|]. split; [eauto|]. split; [exact Logic.I|]. split; [vm_compute; discriminate|].
  split; [exact Logic.I|eauto].
Qed.

(** two generations of two threads, then destroyed *)
Example whole : exists s, reachable 2 s /\ destroyed s = true /\
  log s = [(2, 0); (3, -1); (0, 0); (1, -1)].
Proof.
  set (sched := 
    [(1, CallWait); (1, Run); (1, Run); (1, Run); (1, Run); (2, CallWait); (2, Run); (2, Run);
     (2, Run); (2, Run); (2, Run); (1, Run); (1, Run); (1, Run);
     (1, CallWait); (1, Run); (1, Run); (1, Run); (1, Run); (2, CallWait); (2, Run); (2, Run);
     (2, Run); (2, Run); (2, Run); (2, CallDestroy); (2, Run); (2, Run); (1, Run); (1, Run); (1, Run); (2, Run)]).
  assert (X : option_map (fun s => (destroyed s, log s)) (run (guarded client_rule (step 2)) sched init) =
    Some (true, [(2, 0); (3, -1); (0, 0); (1, -1)])) by (vm_compute; reflexivity).
  destruct (run (guarded client_rule (step 2)) sched init) as [s|] eqn:E; [|discriminate].
  exists s. split; [eexists; exact E|]. cbn [option_map] in X. injection X as X1 X2. auto.
Qed.

Print Assumptions C36_not_early_partial.
Print Assumptions C36_serial.
Print Assumptions C36_one_serial.
Print Assumptions C36_defined.
Print Assumptions C36_no_lost_wakeup_partial.
Print Assumptions C36_can_leave_partial.
Print Assumptions C36_release_possible.
Print Assumptions C36_overtaken_refuted.
Print Assumptions C36_wrap_refuted.
Print Assumptions C54_destroy_safe.
Print Assumptions C54_no_lost_wakeup.
Print Assumptions C54_wake_wakes.
Print Assumptions C54_returns.
