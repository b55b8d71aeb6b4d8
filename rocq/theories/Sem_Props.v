(** C35: semaphores. *)
From Verif Require Import Sem_Model Sem_Spec Sem_Proof.
Open Scope Z_scope.

(** C35 (conservation): in every reachable state the value is the initial value plus the posts
    minus the waits that have taken effect, and lies between 0 and SEM_VALUE_MAX. *)
Theorem C35_conserved : forall initial s, 0 <= initial -> reachable initial s ->
  getvalue s = initial + posts s - waits s /\ 0 <= getvalue s <= SEM_VALUE_MAX.
Proof.
  intros initial s N R. destruct (reachable_inv initial s N R) as (c & b & W & Rc & Ec & _).
  unfold getvalue. rewrite W, sw_count by exact Rc. unfold SEM_VALUE_MAX. lia.
Qed.

(** What the calls report: a wait that returns 0 has taken effect exactly once in the step in
    which it returns, every other step of a wait takes nothing. *)
Theorem C35_wait_result : forall t a s s', step t a s = Some s' -> waiting s t ->
  posts s' = posts s /\
  ((idle s' t /\ result s' t = 0 /\ waits s' = waits s + 1) \/
   (idle s' t /\ result s' t <> 0 /\ waits s' = waits s) \/
   (waiting s' t /\ waits s' = waits s)).
Proof.
  intros t a s s' H L. unfold step in H. unfold waiting in L. unfold idle, waiting.
  destruct (at_ s t) as [|tm st|tm st|tm st| |st| | |st] eqn:P; try contradiction; destruct a;
    try discriminate; try (destruct tm; discriminate).
  - assert (H' : wait_turn t tm st s = Some s') by (destruct tm; exact H). unfold wait_turn in H'.
    destruct (Z.land st semaphoreCountMask =? 0); cbn zeta in H';
      destruct (word s =? st); unfold go, ret in H'; injection H' as <-; cbn; rewrite !setf_same; cbn;
      split; try lia; auto; left; repeat split; lia.
  - assert (H' : (if word s =? st then go s t (word s) (WaitSleep tm st)
                  else go s t (word s) (WaitLoop tm st)) = Some s') by (destruct tm; exact H).
    destruct (word s =? st); unfold go in H'; injection H' as <-; cbn; rewrite !setf_same; cbn; auto.
  - destruct tm; [|discriminate]. unfold ret in H. injection H as <-. cbn. rewrite !setf_same.
    split; [lia|]. right; left. repeat split; try lia; discriminate.
  - destruct tm; [|discriminate]. unfold ret in H. injection H as <-. cbn. rewrite !setf_same.
    split; [lia|]. right; left. repeat split; try lia; discriminate.
  - assert (H' : go s t (word s) (WaitLoop tm st) = Some s') by (destruct tm; exact H).
    unfold go in H'. injection H' as <-. cbn. rewrite !setf_same. auto.
  - assert (H' : ret s t (word s) EINTR 0 0 = Some s') by (destruct tm; exact H).
    unfold ret in H'. injection H' as <-. cbn. rewrite !setf_same.
    split; [lia|]. right; left. repeat split; try lia; discriminate.
  - destruct tm; [|discriminate]. unfold ret in H. injection H as <-. cbn. rewrite !setf_same.
    split; [lia|]. right; left. repeat split; try lia; discriminate.
  - unfold go in H. injection H as <-. cbn. rewrite !setf_same. auto.
  - unfold try_turn in H. cbn zeta in H.
    destruct (negb (Z.land st semaphoreHasWaiters =? 0) || (st =? 0)); [|destruct (word s =? st)];
      unfold go, ret in H; injection H as <-; cbn; rewrite !setf_same; cbn; split; try lia.
    all: first [right; left; repeat split; try lia; discriminate | left; repeat split; lia | auto].
Qed.

(** A step of sem_post takes effect at most once, a failing one (EOVERFLOW, value already
    SEM_VALUE_MAX) not at all. *)
Theorem C35_post_result : forall initial t a s s', 0 <= initial -> reachable initial s ->
  step t a s = Some s' -> posting s t ->
  waits s' = waits s /\
  ((posts s' = posts s + 1 /\ getvalue s' = getvalue s + 1 /\
      ((idle s' t /\ result s' t = 0) \/ about_to_wake s' t)) \/
   (posts s' = posts s /\ word s' = word s /\
      (posting s' t \/ (idle s' t /\ (result s' t = 0 /\ about_to_wake s t \/
                                      result s' t = EOVERFLOW))))).
Proof.
  intros initial t a s s' N R H L.
  destruct (reachable_inv initial s N R) as (c & b & W & Rc & Ec & Pp & _).
  unfold step in H. unfold posting in L. unfold idle, posting, about_to_wake, getvalue.
  pose proof (Pp t) as Pt.
  destruct (at_ s t) as [|tm st|tm st|tm st| |st| | |st] eqn:P; try contradiction; destruct a; try discriminate.
  - unfold go in H. injection H as <-. cbn [waits posts word at_ result]. rewrite !setf_same.
      split; [reflexivity|right; repeat split; left; exact Logic.I].
  - destruct Pt as (c1 & b1 & R1 & ->). unfold post_turn in H.
    rewrite sw_count, sw_bit in H by exact R1.
    destruct (Z.gtb_spec (c1 + 1) SEM_VALUE_MAX) as [M|M]; unfold SEM_VALUE_MAX in M.
    + unfold ret in H. injection H as <-. cbn [waits posts word at_ result]. rewrite !setf_same. split; [lia|].
      right. repeat split; try lia. right. split; [reflexivity|]. right; reflexivity.
    + rewrite sw_lor in H by lia. rewrite andb_true_r in H.
      destruct (Z.eqb_spec (word s) (sw c1 b1)) as [E|E].
      * assert (V : Z.land (sw (c1 + 1) b1) semaphoreCountMask = Z.land (word s) semaphoreCountMask + 1).
        { rewrite E, !sw_count by lia. reflexivity. }
        destruct b1; cbn in H; [|unfold ret in H]; injection H as <-; cbn [waits posts word at_ result];
          rewrite !setf_same; (split; [lia|]); left; split; try lia; (split; [exact V|]);
          [right; reflexivity|left; split; reflexivity].
      * unfold go in H. injection H as <-. cbn [waits posts word at_ result]. rewrite !setf_same.
      split; [reflexivity|right; repeat split; left; exact Logic.I].
  - destruct Pt as (c1 & b1 & R1 & ->). unfold post_turn in H.
    rewrite sw_count, sw_bit in H by exact R1.
    destruct (Z.gtb_spec (c1 + 1) SEM_VALUE_MAX) as [M|M]; unfold SEM_VALUE_MAX in M.
    + unfold ret in H. injection H as <-. cbn [waits posts word at_ result]. rewrite !setf_same. split; [lia|].
      right. repeat split; try lia. right. split; [reflexivity|]. right; reflexivity.
    + rewrite andb_false_r in H. unfold go in H. injection H as <-. cbn [waits posts word at_ result]. rewrite !setf_same.
      split; [reflexivity|right; repeat split; left; exact Logic.I].
  - injection H as <-. cbn. unfold wake_with. rewrite !setf_same. split; [reflexivity|]. right.
    repeat split; try reflexivity. right. split; [reflexivity|]. left; split; reflexivity.
Qed.

(** A thread sleeps in sem_wait only while the value is 0 or a wake-up of all sleepers is due. *)
Theorem C35_no_lost_wakeup : forall initial s t, 0 <= initial -> reachable initial s -> sleeping s t ->
  getvalue s = 0 \/ exists u, about_to_wake s u.
Proof.
  intros initial s t N R (tm & st & H).
  destruct (reachable_inv initial s N R) as (c & b & W & Rc & Ec & Pp & Sl).
  destruct (Sl t tm st H) as [A|A]; [left|right; exact A].
  unfold getvalue. rewrite W, sw_count by exact Rc. exact A.
Qed.

Theorem C35_wake_wakes_all : forall s u s' t,
  about_to_wake s u -> step u Run s = Some s' -> ~ sleeping s' t.
Proof.
  intros s u s' t P H (tm & st & A). unfold step in H. red in P. rewrite P in H. injection H as <-.
  cbn in A. unfold wake_with in A. destruct (setf (at_ s) u Ready t); discriminate.
Qed.

(** sem_wait alone on a positive semaphore returns 0 and takes one unit. *)
Theorem C35_wait_progress : forall initial s t, 0 <= initial -> reachable initial s ->
  idle s t -> 0 < getvalue s -> exists s',
  run step [(t, CallWait); (t, Run); (t, Run)] s = Some s' /\ idle s' t /\ result s' t = 0 /\
  getvalue s' = getvalue s - 1.
Proof.
  intros initial s t N R Id Pos.
  destruct (reachable_inv initial s N R) as (c & b & W & Rc & Ec & Pp & Sl).
  unfold getvalue in *. rewrite W, sw_count in * by exact Rc. unfold idle in *.
  assert (W0 : sw c b <> 0) by (unfold sw, semaphoreHasWaiters; destruct b; lia).
  eexists. split.
  - cbn [run]. unfold step at 1. rewrite Id. unfold go at 1.
    unfold step at 1. cbn [at_]. rewrite setf_same. unfold wait_turn. cbn [Z.land Z.eqb word].
    rewrite W. destruct (Z.eqb_spec (sw c b) 0); [contradiction|]. unfold go at 1.
    unfold step at 1. cbn [at_]. rewrite setf_same. unfold wait_turn. cbn [word].
    rewrite sw_count by exact Rc. destruct (Z.eqb_spec c 0); [lia|]. rewrite Z.eqb_refl. reflexivity.
  - cbn [at_ result word]. rewrite !setf_same. repeat split.
    replace (sw c b - 1) with (sw (c - 1) b) by (unfold sw; destruct b; lia).
    apply sw_count. lia.
Qed.

(** C35 (trywait), the part that holds: sem_trywait alone on a positive semaphore on which no
    thread has ever had to wait returns 0 and takes one unit; with value 0 it returns EAGAIN. *)
Theorem C35_trywait_partial : forall initial s t, 0 <= initial -> reachable initial s ->
  idle s t -> Z.testbit (word s) 31 = false -> exists s',
  run step [(t, CallTryWait); (t, Run); (t, Run)] s = Some s' /\ idle s' t /\
  (0 < getvalue s -> result s' t = 0 /\ getvalue s' = getvalue s - 1) /\
  (getvalue s = 0 -> result s' t = EAGAIN /\ getvalue s' = 0).
Proof.
  intros initial s t N R Id Bit.
  destruct (reachable_inv initial s N R) as (c & b & W & Rc & Ec & Pp & Sl).
  unfold getvalue in *. rewrite W in *. rewrite sw_count by exact Rc. unfold idle in *.
  assert (b = false) as ->.
  { destruct b; [|reflexivity]. exfalso. unfold sw in Bit.
    change semaphoreHasWaiters with (1 * 2 ^ 31) in Bit.
    assert (X : Z.testbit (c + 1 * 2 ^ 31) 31 = true).
    { apply Z.testbit_true; [lia|]. rewrite Z.div_add by lia. rewrite Z.div_small by lia. reflexivity. }
    congruence. }
  assert (B : Z.land c semaphoreHasWaiters = 0) by exact (sw_bit c false Rc).
  destruct (Z.eq_dec c 0) as [C0|C0].
  - eexists. split.
    + cbn [run]. unfold step at 1. rewrite Id. unfold go at 1.
      unfold step at 1. cbn [at_]. rewrite setf_same. unfold go at 1. cbn [word]. rewrite W. cbn [sw]. rewrite C0.
      unfold step at 1. cbn [at_]. rewrite setf_same. reflexivity.
    + cbn [at_ result word]. rewrite !setf_same. split; [reflexivity|].
      split; [intros; lia|]. intros _. split; [reflexivity|]. cbn [sw]. rewrite C0. reflexivity.
  - eexists. split.
    + cbn [run]. unfold step at 1. rewrite Id. unfold go at 1.
      unfold step at 1. cbn [at_]. rewrite setf_same. unfold go at 1. cbn [word]. rewrite W. cbn [sw].
      unfold step at 1. cbn [at_]. rewrite setf_same. unfold try_turn. rewrite B. cbn [Z.eqb negb orb].
      destruct (Z.eqb_spec c 0); [contradiction|]. cbn [word]. rewrite Z.eqb_refl. reflexivity.
    + cbn [at_ result word]. rewrite !setf_same. repeat split; try lia.
      exact (sw_count (c - 1) false ltac:(lia)).
Qed.

(** ... and the part that does not: once a thread has had to wait, sem_trywait fails with EAGAIN
    although the value is positive, no thread is waiting and nobody else touches the semaphore. *)
Theorem C35_trywait_refuted : exists s s',
  reachable 0 s /\ (forall t, idle s t) /\ getvalue s = 1 /\
  run step [(5, CallTryWait); (5, Run); (5, Run)] s = Some s' /\
  idle s' 5 /\ result s' 5 = EAGAIN /\ getvalue s' = 1.
Proof.
  set (sched := [(9, CallWait); (9, Run); (9, Run); (9, Run); (9, Run); (9, Run);
                 (5, CallPost); (5, Run); (5, Run); (5, Run); (9, Run); (9, Run);
                 (5, CallPost); (5, Run); (5, Run); (5, Run)]).
  destruct (run step sched {| word := 0; at_ := fun _ => Ready; result := fun _ => 0; posts := 0; waits := 0 |})
    as [s|] eqn:E; [|vm_compute in E; discriminate].
  destruct (run step [(5, CallTryWait); (5, Run); (5, Run)] s) as [s'|] eqn:E'.
  - exists s, s'. split; [|split; [|split; [|split; [exact E'|]]]].
    + eexists; exists sched. split; [reflexivity|exact E].
    + clear E'. vm_compute in E. injection E as <-. intros t. unfold idle. cbn [at_]. unfold wake_with, setf, wake.
      repeat (match goal with |- context [if ?b then _ else _] => destruct b end; try reflexivity).
    + clear E'. vm_compute in E. injection E as <-. reflexivity.
    + vm_compute in E. injection E as <-. vm_compute in E'. injection E' as <-.
      repeat split; vm_compute; reflexivity.
  - exfalso. vm_compute in E. injection E as <-. vm_compute in E'. discriminate.
Qed.

(** Once set, the mark never goes away: from then on every sem_trywait that starts fails. *)
Theorem C35_mark_stays : forall t a s s' initial, 0 <= initial -> reachable initial s ->
  step t a s = Some s' -> Z.testbit (word s) 31 = true -> Z.testbit (word s') 31 = true.
Proof.
  intros t a s s' initial N R H B.
  assert (T : forall c b, 0 <= c < 2147483648 -> Z.testbit (sw c b) 31 = b).
  { intros c b Rc. destruct b; cbn [sw].
    - change semaphoreHasWaiters with (1 * 2 ^ 31). apply Z.testbit_true; [lia|].
      rewrite Z.div_add by lia. rewrite Z.div_small by lia. reflexivity.
    - apply Z.testbit_false; [lia|]. rewrite Z.div_small by lia. reflexivity. }
  destruct (reachable_inv initial s N R) as (c & b & W & Rc & Ec & Pp & Sl).
  rewrite W, T in B by exact Rc. subst b.
  assert (TW : Z.testbit (word s) 31 = true) by (rewrite W; apply T; exact Rc).
  pose proof (Pp t) as Pt. unfold step in H.
  destruct (at_ s t) as [|tm st|tm st|tm st| |st| | |st] eqn:P; destruct a;
    try discriminate; try (destruct tm; discriminate); cbn [pinv] in Pt;
    try (unfold go, ret in H; injection H as <-; exact TW);
    try (destruct tm; [|discriminate]; unfold go, ret in H; injection H as <-; exact TW);
    try (destruct tm; unfold go, ret in H; injection H as <-; exact TW).
  - assert (H' : wait_turn t tm st s = Some s') by (destruct tm; exact H). unfold wait_turn in H'.
    destruct Pt as (c1 & b1 & R1 & ->). rewrite sw_count in H' by exact R1. cbn zeta in H'.
    destruct (Z.eqb_spec c1 0) as [C0|C0]; destruct (Z.eqb_spec (word s) (sw c1 b1)) as [E|E];
      unfold go, ret in H'; injection H' as <-; cbn [word]; try exact TW; try reflexivity.
    rewrite W in E. apply sw_inj in E; try assumption. destruct E as [-> <-].
    replace (sw c1 true - 1) with (sw (c1 - 1) true) by (unfold sw; lia). apply T. lia.
  - assert (H' : (if word s =? st then go s t (word s) (WaitSleep tm st)
                  else go s t (word s) (WaitLoop tm st)) = Some s') by (destruct tm; exact H).
    destruct (word s =? st); unfold go in H'; injection H' as <-; exact TW.
  - destruct Pt as (c1 & b1 & R1 & ->). unfold post_turn in H.
    rewrite sw_count, sw_bit in H by exact R1.
    destruct (Z.gtb_spec (c1 + 1) SEM_VALUE_MAX) as [M|M]; unfold SEM_VALUE_MAX in M.
    + unfold ret in H. injection H as <-. exact TW.
    + rewrite sw_lor in H by lia. rewrite andb_true_r in H.
      destruct (Z.eqb_spec (word s) (sw c1 b1)) as [E|E].
      * rewrite W in E. apply sw_inj in E; try assumption. destruct E as [-> <-].
        cbn in H. injection H as <-. cbn [word]. exact (T (c1 + 1) true ltac:(lia)).
      * unfold go in H. injection H as <-. exact TW.
  - destruct Pt as (c1 & b1 & R1 & ->). unfold post_turn in H.
    rewrite andb_false_r in H. cbn zeta in H.
    destruct (Z.land (sw c1 b1) semaphoreCountMask + 1 >? SEM_VALUE_MAX); unfold go, ret in H;
      injection H as <-; exact TW.
  - destruct Pt as (c1 & b1 & R1 & ->). unfold try_turn in H. rewrite sw_bit in H by exact R1.
    destruct b1; cbn in H; [unfold ret in H; injection H as <-; exact TW|].
    destruct (c1 =? 0); [unfold ret in H; injection H as <-; exact TW|].
    destruct (Z.eqb_spec (word s) c1) as [E|E]; [|unfold go in H; injection H as <-; exact TW].
    exfalso. change c1 with (sw c1 false) in E at 1. rewrite W in E. apply sw_inj in E; try assumption.
    destruct E; discriminate.
Qed.

(** ** Non-vacuity: a semaphore of 1 with a waiter that sleeps, a poster about to wake it *)
Example busy : exists s, reachable 1 s /\ sleeping s 9 /\ about_to_wake s 5 /\ getvalue s = 1 /\
  waits s = 1 /\ posts s = 1.
Proof.
  destruct (run step [(7, CallWait); (7, Run); (7, Run); (9, CallWait); (9, Run); (9, Run); (9, Run); (9, Run); (9, Run);
                      (5, CallPost); (5, Run); (5, WeakFail); (5, Run)]
    {| word := 1; at_ := fun _ => Ready; result := fun _ => 0; posts := 0; waits := 0 |}) as [s|] eqn:E;
    [|vm_compute in E; discriminate].
  exists s. split; [eexists; eexists; split; [reflexivity|exact E]|].
  vm_compute in E. injection E as <-.
  split; [exists false, semaphoreHasWaiters; reflexivity|]. repeat split; reflexivity.
Qed.

(** the greatest value cannot be exceeded *)
Example overflow : exists s, reachable SEM_VALUE_MAX s /\ idle s 5 /\ result s 5 = EOVERFLOW /\
  getvalue s = SEM_VALUE_MAX.
Proof.
  destruct (run step [(5, CallPost); (5, Run); (5, Run)]
    {| word := SEM_VALUE_MAX; at_ := fun _ => Ready; result := fun _ => 0; posts := 0; waits := 0 |}) as [s|] eqn:E;
    [|vm_compute in E; discriminate].
  exists s. split; [eexists; eexists; split; [reflexivity|exact E]|].
  vm_compute in E. injection E as <-. repeat split; reflexivity.
Qed.

Print Assumptions C35_conserved.
Print Assumptions C35_wait_result.
Print Assumptions C35_post_result.
Print Assumptions C35_no_lost_wakeup.
Print Assumptions C35_wake_wakes_all.
Print Assumptions C35_wait_progress.
Print Assumptions C35_trywait_partial.
Print Assumptions C35_trywait_refuted.
Print Assumptions C35_mark_stays.
