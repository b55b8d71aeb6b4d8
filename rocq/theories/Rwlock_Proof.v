(** Invariant of the read-write lock. *)
From Verif Require Import Rwlock_Model Rwlock_Spec.
Open Scope Z_scope.

(** ** Words *)
(** the mutex word of a taken mutex: exclusive flag, waiters flag *)
Definition mw (x y : bool) : Z := enc (if x then 1073741825 else 1) y.
(** the reader word: count and waiters flag *)
Definition rw (n : Z) (b : bool) : Z := enc n b.

Lemma mw_owner : forall x y, (Z.land (mw x y) mutex_owner_mask =? 0) = false.
Proof. intros [] []; reflexivity. Qed.
Lemma mw_bit : forall x y, (Z.land (mw x y) mutex_waiters_bit =? 0) = negb y.
Proof. intros [] []; reflexivity. Qed.
Lemma mw_lor : forall x y, Z.lor (mw x y) mutex_waiters_bit = mw x true.
Proof. intros [] []; reflexivity. Qed.
Lemma mw_nz : forall x y, (mw x y =? 0) = false.
Proof. intros [] []; reflexivity. Qed.
Lemma mw_excl : forall x y, (Z.land (mw x y) mutex_excl_bit =? 0) = negb x.
Proof. intros [] []; reflexivity. Qed.
Lemma desired_mw : forall k, desired k = mw (excl k) false.
Proof. intros [[] ?]; reflexivity. Qed.

Lemma rc_bit_eq : rc_waiters_bit = waitersBit. Proof. reflexivity. Qed.
Lemma rc_mask_ones : rc_count_mask = Z.ones 31. Proof. reflexivity. Qed.
Lemma rw_count : forall n b, 0 <= n < 2 ^ 31 -> Z.land (rw n b) rc_count_mask = n.
Proof.
  intros n b H. rewrite rc_mask_ones, Z.land_ones by lia. unfold rw, enc. destruct b.
  - rewrite bit_pow. replace (n + 2 ^ 31) with (n + 1 * 2 ^ 31) by lia.
    rewrite Z.mod_add by lia. apply Z.mod_small; lia.
  - apply Z.mod_small; lia.
Qed.
Lemma rw_bit : forall n b, 0 <= n < 2 ^ 31 -> Z.land (rw n b) rc_waiters_bit = if b then waitersBit else 0.
Proof.
  intros n b H. rewrite rc_bit_eq. unfold rw, enc. destruct b; [apply land_bit_big|apply land_bit_small];
    rewrite bit_pow; lia.
Qed.
Lemma rw_bit0 : forall n b, 0 <= n < 2 ^ 31 -> (Z.land (rw n b) rc_waiters_bit =? 0) = negb b.
Proof. intros n b H. rewrite rw_bit by exact H. destruct b; reflexivity. Qed.
Lemma rw_lor : forall n b, 0 <= n < 2 ^ 31 -> Z.lor (rw n b) rc_waiters_bit = rw n true.
Proof.
  intros n b H. rewrite rc_bit_eq. assert (0 <= n < waitersBit) by (rewrite bit_pow; lia).
  unfold rw, enc. destruct b.
  - rewrite <- lor_bit_small by lia. rewrite <- Z.lor_assoc, Z.lor_diag. reflexivity.
  - apply lor_bit_small; lia.
Qed.
Lemma rw_nz : forall n b, 1 <= n < 2 ^ 31 -> (rw n b =? 0) = false.
Proof. intros n b H. apply Z.eqb_neq. unfold rw, enc, waitersBit. destruct b; lia. Qed.
Lemma rw_inj : forall n b n' b', 0 <= n < 2 ^ 31 -> 0 <= n' < 2 ^ 31 -> rw n b = rw n' b' -> n = n' /\ b = b'.
Proof.
  intros n b n' b' H H' E. unfold rw, enc, waitersBit in E. destruct b, b'; split; try reflexivity; lia.
Qed.
Lemma rw_dec : forall n b, 1 <= n < 2 ^ 31 ->
  Z.lor (Z.land (rw n b) rc_waiters_bit) (Z.land (rw n b) rc_count_mask - 1) = rw (n - 1) b.
Proof.
  intros n b H. rewrite rw_count, rw_bit by lia. destruct b.
  - rewrite Z.lor_comm. exact (rw_lor (n - 1) false ltac:(lia)).
  - reflexivity.
Qed.

Definition wf_m (e : Z) : Prop := e = 0 \/ exists x y, e = mw x y.
Definition wf_rc (e : Z) : Prop := exists n b, 1 <= n < 2 ^ 31 /\ e = rw n b.

(** ** Threads *)
Definition owns (x : thread) : bool :=
  wr x || match at_ x with
          | RcAdd _ | RcTry _ | RcLoad _ | RcLoop _ _ | RcFutex _ _ | RcSleep _ _ | MRelease _ _
          | ULoad true | URelease => true
          | _ => false
          end.
Definition writes (x : thread) : bool :=
  wr x || match at_ x with ULoad true | URelease => true | _ => false end.

(** read locks the thread has beyond those its client sees *)
Definition extra (x : thread) : nat :=
  match at_ x with
  | MRelease _ r | MWake _ r => if r =? 0 then 1%nat else 0%nat
  | ULoad false | ULoop _ => 1%nat
  | _ => 0%nat
  end.

Definition tinv (x : thread) : Prop :=
  counted x = (reads x + extra x)%nat /\
  (writes x = true -> counted x = 0%nat) /\
  match at_ x with
  | MLoop k e => wf_m e
  | MFutex k e | MSleep k e => exists a b, e = mw a b
  | RcAdd k => excl k = false /\ wr x = false
  | RcTry k | RcLoad k => excl k = true /\ wr x = false
  | RcLoop k e | RcFutex k e | RcSleep k e => excl k = true /\ wr x = false /\ wf_rc e
  | MRelease k r | MWake k r => (r = 0 -> excl k = false) /\ wr x = false
  | ULoad w => wr x = false
  | ULoop e => wr x = false /\ wf_rc e
  | UWake | URelease | UMWake => wr x = false
  | Dead => False
  | _ => True
  end.

Definition msleeps (x : thread) : bool := match at_ x with MSleep _ _ => true | _ => false end.
Definition rsleeps (x : thread) : bool := match at_ x with RcSleep _ _ => true | _ => false end.
Definition mwakes (x : thread) : bool := match at_ x with MWake _ _ | UMWake => true | _ => false end.
Definition rwakes (x : thread) : bool := match at_ x with UWake => true | _ => false end.

(** the mutex word matches its owner *)
Definition m_ok (w : Z) (th : Z -> thread) : Prop :=
  (w = 0 /\ forall t, owns (th t) = false) \/
  (exists o x y, owns (th o) = true /\ w = mw x y /\ forall t, owns (th t) = true -> t = o).
Definition rc_ok (w : Z) (th : Z -> thread) : Prop :=
  exists (L : list Z) b, w = rw (Z.of_nat (length L)) b /\ Z.of_nat (length L) < 2 ^ 31 /\
    (b = true -> L <> []) /\ forall t, count_occ Z.eq_dec L t = counted (th t).

Record inv (s : state) : Prop := {
  i_m : m_ok (m s) (threads s);
  i_rc : rc_ok (rc s) (threads s);
  i_wr : forall t, writes (threads s t) = true -> rc s = 0;
  i_t : forall t, tinv (threads s t);
  i_ms : forall t, msleeps (threads s t) = true ->
         (Z.land (m s) mutex_waiters_bit =? 0) = false \/ exists u, mwakes (threads s u) = true;
  i_rs : forall t, rsleeps (threads s t) = true ->
         (Z.land (rc s) rc_waiters_bit =? 0) = false \/ exists u, rwakes (threads s u) = true }.

Lemma init_inv : inv init.
Proof.
  constructor; cbn.
  - left; split; reflexivity.
  - exists [], false. repeat split; try (intros; reflexivity); try (cbn; lia); discriminate.
  - discriminate.
  - intros _. repeat split; discriminate.
  - discriminate.
  - discriminate.
Qed.

Lemma writes_owns : forall x, writes x = true -> owns x = true.
Proof.
  intros x. unfold writes, owns. destruct (wr x); cbn; [reflexivity|].
  destruct (at_ x); intros H; try discriminate; auto. 
Qed.

Lemma m_owner : forall w th t, m_ok w th -> owns (th t) = true ->
  exists x y, w = mw x y /\ forall u, owns (th u) = true -> u = t.
Proof.
  intros w th t [[E N]|(o & x & y & O & E & U)] H; [rewrite N in H; discriminate|].
  exists x, y. split; [exact E|]. intros u Hu. rewrite (U u Hu), (U t H). reflexivity.
Qed.

Lemma m_wf : forall w th, m_ok w th -> wf_m w.
Proof. intros w th [[E _]|(o & x & y & _ & E & _)]; [left|right; exists x, y]; exact E. Qed.

Lemma m_free : forall w th, m_ok w th -> w = 0 -> forall t, owns (th t) = false.
Proof.
  intros w th [[E N]|(o & x & y & _ & E & _)] Z0; [exact N|].
  rewrite E in Z0. apply Z.eqb_eq in Z0. rewrite mw_nz in Z0. discriminate.
Qed.

Lemma rc_wf : forall w th, rc_ok w th -> w = 0 \/ wf_rc w.
Proof.
  intros w th (L & b & E & Hl & Hb & _). destruct L as [|a L].
  - left. destruct b; [elim (Hb eq_refl); reflexivity|exact E].
  - right. exists (Z.of_nat (length (a :: L))), b. cbn [length] in *. split; [lia|exact E].
Qed.

Lemma rc_pos : forall w th t, rc_ok w th -> (0 < counted (th t))%nat -> (w =? 0) = false.
Proof.
  intros w th t (L & b & E & Hl & Hb & Hc) H. rewrite E. apply rw_nz.
  rewrite <- (Hc t) in H. destruct L; [cbn in H; lia|cbn [length] in *; lia].
Qed.

Lemma rc_zero : forall w th t, rc_ok w th -> w = 0 -> counted (th t) = 0%nat.
Proof.
  intros w th t R E. destruct (counted (th t)) eqn:C; [reflexivity|].
  pose proof (rc_pos w th t R ltac:(lia)) as H. rewrite E in H. discriminate.
Qed.

(** ** What the kinds of step preserve *)
Ltac ncase u t := destruct (Z.eq_dec u t) as [->|?];
  [rewrite ?setf_same in *|rewrite ?setf_other in * by assumption].

Lemma rc_ok_same : forall w th t x, rc_ok w th -> counted x = counted (th t) -> rc_ok w (setf th t x).
Proof.
  intros w th t x (L & b & E & Hl & Hb & Hc) C. exists L, b. split; [exact E|]. split; [exact Hl|].
  split; [exact Hb|]. intros u. ncase u t; [rewrite C|]; apply Hc.
Qed.

(** thread [t] moves, the words keep their values *)
Lemma keep : forall s t x, inv s ->
  owns x = owns (threads s t) -> counted x = counted (threads s t) ->
  (writes x = true -> writes (threads s t) = true \/ rc s = 0) -> tinv x ->
  (msleeps x = true -> msleeps (threads s t) = true \/ (Z.land (m s) mutex_waiters_bit =? 0) = false) ->
  (rsleeps x = true -> rsleeps (threads s t) = true \/ (Z.land (rc s) rc_waiters_bit =? 0) = false) ->
  mwakes (threads s t) = false -> rwakes (threads s t) = false ->
  inv {| m := m s; rc := rc s; threads := setf (threads s) t x |}.
Proof.
  intros s t x I O C W T MS RS MW RW. constructor; cbn [m rc threads].
  - destruct (i_m _ I) as [[E N]|(o & a & b & Oo & E & U)].
    + left. split; [exact E|]. intros u. ncase u t; [rewrite O|]; apply N.
    + right. exists o, a, b. split; [ncase o t; [rewrite O|]; exact Oo|]. split; [exact E|].
      intros u Hu. ncase u t; [rewrite O in Hu|]; apply U; exact Hu.
  - apply rc_ok_same; [apply I|exact C].
  - intros u Hu. ncase u t; [destruct (W Hu) as [W'|W']; [exact (i_wr _ I t W')|exact W']|exact (i_wr _ I u Hu)].
  - intros u. ncase u t; [exact T|apply I].
  - intros u Hu.
    assert (D : (Z.land (m s) mutex_waiters_bit =? 0) = false \/ exists v, mwakes (threads s v) = true).
    { ncase u t; [destruct (MS Hu) as [M'|M']; [exact (i_ms _ I t M')|left; exact M']|exact (i_ms _ I u Hu)]. }
    destruct D as [D|[v D]]; [left; exact D|]. right. exists v. ncase v t; [congruence|exact D].
  - intros u Hu.
    assert (D : (Z.land (rc s) rc_waiters_bit =? 0) = false \/ exists v, rwakes (threads s v) = true).
    { ncase u t; [destruct (RS Hu) as [M'|M']; [exact (i_rs _ I t M')|left; exact M']|exact (i_rs _ I u Hu)]. }
    destruct D as [D|[v D]]; [left; exact D|]. right. exists v. ncase v t; [congruence|exact D].
Qed.

(** [t] takes the free mutex *)
Lemma take_m : forall s t x k, inv s -> m s = 0 ->
  owns x = true -> counted x = counted (threads s t) -> writes x = false -> tinv x ->
  msleeps x = false -> rsleeps x = false ->
  mwakes (threads s t) = false -> rwakes (threads s t) = false ->
  inv {| m := desired k; rc := rc s; threads := setf (threads s) t x |}.
Proof.
  intros s t x k I Z0 O C W T MS RS MW RW. pose proof (m_free _ _ (i_m _ I) Z0) as N.
  constructor; cbn [m rc threads].
  - right. exists t, (excl k), false. rewrite setf_same. split; [exact O|]. split; [apply desired_mw|].
    intros u Hu. ncase u t; [reflexivity|]. rewrite N in Hu. discriminate.
  - apply rc_ok_same; [apply I|exact C].
  - intros u Hu. ncase u t; [congruence|]. exact (i_wr _ I u Hu).
  - intros u. ncase u t; [exact T|apply I].
  - intros u Hu. ncase u t; [congruence|]. destruct (i_ms _ I u Hu) as [D|[v D]].
    + rewrite Z0 in D. discriminate.
    + right. exists v. ncase v t; [congruence|exact D].
  - intros u Hu. ncase u t; [congruence|].
    destruct (i_rs _ I u Hu) as [D|[v D]]; [left; exact D|]. right. exists v. ncase v t; [congruence|exact D].
Qed.

(** [t] sets the waiters bit of the mutex word *)
Lemma mark_m : forall s t x a b, inv s -> m s = mw a b ->
  owns x = owns (threads s t) -> counted x = counted (threads s t) ->
  writes x = writes (threads s t) -> tinv x -> rsleeps x = false ->
  rwakes (threads s t) = false ->
  inv {| m := mw a true; rc := rc s; threads := setf (threads s) t x |}.
Proof.
  intros s t x a b I E O C W T RS RW. constructor; cbn [m rc threads].
  - destruct (i_m _ I) as [[E0 N]|(o & a' & b' & Oo & E0 & U)].
    + rewrite E0 in E. destruct a, b; discriminate.
    + right. exists o, a, true. split; [ncase o t; [rewrite O|]; exact Oo|]. split; [reflexivity|].
      intros u Hu. ncase u t; [rewrite O in Hu|]; apply U; exact Hu.
  - apply rc_ok_same; [apply I|exact C].
  - intros u Hu. ncase u t; [rewrite W in Hu|]; exact (i_wr _ I _ Hu).
  - intros u. ncase u t; [exact T|apply I].
  - intros u Hu. left. rewrite mw_bit. reflexivity.
  - intros u Hu. ncase u t; [congruence|].
    destruct (i_rs _ I u Hu) as [D|[v D]]; [left; exact D|]. right. exists v. ncase v t; [congruence|exact D].
Qed.

(** [t] releases the mutex *)
Lemma drop_m : forall s t x, inv s -> owns (threads s t) = true ->
  owns x = false -> counted x = counted (threads s t) -> tinv x ->
  msleeps x = false -> rsleeps x = false ->
  mwakes (threads s t) = false -> rwakes (threads s t) = false ->
  ((Z.land (m s) mutex_waiters_bit =? 0) = false -> mwakes x = true) ->
  inv {| m := 0; rc := rc s; threads := setf (threads s) t x |}.
Proof.
  intros s t x I Ot O C T MS RS MW RW B. destruct (m_owner _ _ _ (i_m _ I) Ot) as (a & b & E & U).
  constructor; cbn [m rc threads].
  - left. split; [reflexivity|]. intros u. ncase u t; [exact O|].
    destruct (owns (threads s u)) eqn:D; [|reflexivity]. elim n; apply U; exact D.
  - apply rc_ok_same; [apply I|exact C].
  - intros u Hu. ncase u t; [apply writes_owns in Hu; congruence|]. exact (i_wr _ I u Hu).
  - intros u. ncase u t; [exact T|apply I].
  - intros u Hu. right. ncase u t; [congruence|]. destruct (i_ms _ I u Hu) as [D|[v D]].
    + exists t. rewrite setf_same. exact (B D).
    + exists v. ncase v t; [congruence|exact D].
  - intros u Hu. ncase u t; [congruence|].
    destruct (i_rs _ I u Hu) as [D|[v D]]; [left; exact D|]. right. exists v. ncase v t; [congruence|exact D].
Qed.

Lemma wake_m_facts : forall x,
  owns (wake_m x) = owns x /\ counted (wake_m x) = counted x /\ writes (wake_m x) = writes x /\
  msleeps (wake_m x) = false /\ rsleeps (wake_m x) = rsleeps x /\ rwakes (wake_m x) = rwakes x /\
  (tinv x -> tinv (wake_m x)).
Proof.
  intros [p w r res c]. do 6 (split; [destruct p; reflexivity|]).
  destruct p; try (intros H; exact H).
  unfold tinv, extra, writes, wf_m. cbn. tauto.
Qed.
Lemma wake_rc_facts : forall x,
  owns (wake_rc x) = owns x /\ counted (wake_rc x) = counted x /\ writes (wake_rc x) = writes x /\
  msleeps (wake_rc x) = msleeps x /\ rsleeps (wake_rc x) = false /\ mwakes (wake_rc x) = mwakes x /\
  (tinv x -> tinv (wake_rc x)).
Proof.
  intros [p w r res c]. do 6 (split; [destruct p; reflexivity|]).
  destruct p; try (intros H; exact H).
  unfold tinv, extra, writes. cbn. tauto.
Qed.

Lemma waking_m : forall s t x, inv s ->
  owns x = owns (threads s t) -> counted x = counted (threads s t) ->
  writes x = writes (threads s t) -> tinv x -> msleeps x = false -> rsleeps x = false ->
  rwakes (threads s t) = false ->
  inv {| m := m s; rc := rc s; threads := setf (wake_with wake_m (threads s)) t x |}.
Proof.
  intros s t x I O C W T MS RS RW. unfold wake_with. constructor; cbn [m rc threads].
  - destruct (i_m _ I) as [[E N]|(o & a & b & Oo & E & U)].
    + left. split; [exact E|]. intros u. ncase u t; [rewrite O; apply N|].
      rewrite (proj1 (wake_m_facts _)). apply N.
    + right. exists o, a, b. split; [ncase o t; [rewrite O; exact Oo|rewrite (proj1 (wake_m_facts _)); exact Oo]|].
      split; [exact E|].
      intros u Hu. ncase u t; [rewrite O in Hu|rewrite (proj1 (wake_m_facts _)) in Hu]; apply U; exact Hu.
  - destruct (i_rc _ I) as (L & b & E & Hl & Hb & Hc). exists L, b. split; [exact E|]. split; [exact Hl|].
    split; [exact Hb|]. intros u. ncase u t; [rewrite C; apply Hc|].
    rewrite (proj1 (proj2 (wake_m_facts _))). apply Hc.
  - intros u Hu. ncase u t; [rewrite W in Hu; exact (i_wr _ I _ Hu)|].
    destruct (wake_m_facts (threads s u)) as (_ & _ & F & _). rewrite F in Hu. exact (i_wr _ I _ Hu).
  - intros u. ncase u t; [exact T|apply (wake_m_facts (threads s u)); apply I].
  - intros u Hu. ncase u t; [congruence|].
    destruct (wake_m_facts (threads s u)) as (_ & _ & _ & F & _). congruence.
  - intros u Hu. ncase u t; [congruence|].
    destruct (wake_m_facts (threads s u)) as (_ & _ & _ & _ & F & _). rewrite F in Hu.
    destruct (i_rs _ I u Hu) as [D|[v D]]; [left; exact D|]. right. exists v. ncase v t; [congruence|].
    destruct (wake_m_facts (threads s v)) as (_ & _ & _ & _ & _ & G & _). rewrite G. exact D.
Qed.

Lemma waking_rc : forall s t x, inv s ->
  owns x = owns (threads s t) -> counted x = counted (threads s t) ->
  writes x = writes (threads s t) -> tinv x -> msleeps x = false -> rsleeps x = false ->
  mwakes (threads s t) = false ->
  inv {| m := m s; rc := rc s; threads := setf (wake_with wake_rc (threads s)) t x |}.
Proof.
  intros s t x I O C W T MS RS RW. unfold wake_with. constructor; cbn [m rc threads].
  - destruct (i_m _ I) as [[E N]|(o & a & b & Oo & E & U)].
    + left. split; [exact E|]. intros u. ncase u t; [rewrite O; apply N|].
      rewrite (proj1 (wake_rc_facts _)). apply N.
    + right. exists o, a, b. split; [ncase o t; [rewrite O; exact Oo|rewrite (proj1 (wake_rc_facts _)); exact Oo]|].
      split; [exact E|].
      intros u Hu. ncase u t; [rewrite O in Hu|rewrite (proj1 (wake_rc_facts _)) in Hu]; apply U; exact Hu.
  - destruct (i_rc _ I) as (L & b & E & Hl & Hb & Hc). exists L, b. split; [exact E|]. split; [exact Hl|].
    split; [exact Hb|]. intros u. ncase u t; [rewrite C; apply Hc|].
    rewrite (proj1 (proj2 (wake_rc_facts _))). apply Hc.
  - intros u Hu. ncase u t; [rewrite W in Hu; exact (i_wr _ I _ Hu)|].
    destruct (wake_rc_facts (threads s u)) as (_ & _ & F & _). rewrite F in Hu. exact (i_wr _ I _ Hu).
  - intros u. ncase u t; [exact T|apply (wake_rc_facts (threads s u)); apply I].
  - intros u Hu. ncase u t; [congruence|].
    destruct (wake_rc_facts (threads s u)) as (_ & _ & _ & F & _). rewrite F in Hu.
    destruct (i_ms _ I u Hu) as [D|[v D]]; [left; exact D|]. right. exists v. ncase v t; [congruence|].
    destruct (wake_rc_facts (threads s v)) as (_ & _ & _ & _ & _ & G & _). rewrite G. exact D.
  - intros u Hu. ncase u t; [congruence|].
    destruct (wake_rc_facts (threads s u)) as (_ & _ & _ & _ & F & _). congruence.
Qed.

Ltac zl := repeat match goal with
  | H : @eq bool _ _ |- _ => clear H
  | H : _ -> _ |- _ => clear H
  | H : _ \/ _ |- _ => clear H
  | H : inv _ |- _ => clear H
  | H : tinv _ |- _ => clear H
  end; lia.

(** [t], who has the mutex as a reader, raises the count *)
Lemma add_rc : forall s t x, inv s -> Z.land (rc s) rc_count_mask < rc_count_mask ->
  owns (threads s t) = true -> writes (threads s t) = false ->
  owns x = true -> counted x = S (counted (threads s t)) -> writes x = false -> tinv x ->
  msleeps x = false -> rsleeps x = false ->
  mwakes (threads s t) = false -> rwakes (threads s t) = false ->
  inv {| m := m s; rc := (rc s + 1) mod 2 ^ 32; threads := setf (threads s) t x |}.
Proof.
  intros s t x I Bd Ot Wt O C W T MS RS MW RW.
  destruct (i_rc _ I) as (L & b & E & Hl & Hb & Hc).
  assert (E' : (rc s + 1) mod 2 ^ 32 = rw (Z.of_nat (length (t :: L))) b).
  { rewrite E in *. rewrite rw_count in Bd by zl. unfold rc_count_mask in Bd.
    replace (rw (Z.of_nat (length L)) b + 1) with (rw (Z.of_nat (length (t :: L))) b)
      by (cbn [length]; unfold rw, enc; destruct b; zl).
    apply Z.mod_small. cbn [length]; unfold rw, enc, waitersBit; destruct b; zl. }
  assert (Hl' : Z.of_nat (length (t :: L)) < 2 ^ 31).
  { rewrite E, rw_count in Bd by zl. unfold rc_count_mask in Bd. cbn [length]. zl. }
  destruct (m_owner _ _ _ (i_m _ I) Ot) as (a & bb & Em & U).
  constructor; cbn [m rc threads]; rewrite ?E'.
  - right. exists t, a, bb. rewrite setf_same. split; [exact O|]. split; [exact Em|].
    intros u Hu. ncase u t; [reflexivity|]. exact (U u Hu).
  - exists (t :: L), b. split; [reflexivity|]. split; [exact Hl'|]. split; [discriminate|].
    intros u. cbn [count_occ]. destruct (Z.eq_dec t u) as [->|N].
    + rewrite setf_same, C, Hc. reflexivity.
    + rewrite setf_other by congruence. apply Hc.
  - intros u Hu. ncase u t; [congruence|]. elim n; apply U, writes_owns, Hu.
  - intros u. ncase u t; [exact T|apply I].
  - intros u Hu. ncase u t; [congruence|].
    destruct (i_ms _ I u Hu) as [D|[v D]]; [left; exact D|]. right. exists v. ncase v t; [congruence|exact D].
  - intros u Hu. ncase u t; [congruence|]. rewrite rw_bit0 by (cbn [length] in *; zl).
    destruct (i_rs _ I u Hu) as [D|[v D]].
    + left. rewrite E, rw_bit0 in D by zl. exact D.
    + right. exists v. ncase v t; [congruence|exact D].
Qed.

(** [t] sets the waiters bit of the reader count *)
Lemma mark_rc : forall s t x n b, inv s -> 1 <= n < 2 ^ 31 -> rc s = rw n b ->
  owns x = owns (threads s t) -> counted x = counted (threads s t) ->
  writes x = false -> tinv x -> msleeps x = false ->
  mwakes (threads s t) = false ->
  inv {| m := m s; rc := rw n true; threads := setf (threads s) t x |}.
Proof.
  intros s t x n b I Hn Er O C W T MS MW.
  constructor; cbn [m rc threads].
  - destruct (i_m _ I) as [[E0 N]|(o & a' & b' & Oo & E0 & U)].
    + left. split; [exact E0|]. intros u. ncase u t; [rewrite O|]; apply N.
    + right. exists o, a', b'. split; [ncase o t; [rewrite O|]; exact Oo|]. split; [exact E0|].
      intros u Hu. ncase u t; [rewrite O in Hu|]; apply U; exact Hu.
  - destruct (i_rc _ I) as (L & b0 & E & Hl & Hb & Hc). rewrite Er in E.
    apply rw_inj in E; [|zl|zl]. destruct E as [-> ->]. exists L, true. split; [reflexivity|].
    split; [exact Hl|]. split; [intros _ ->; cbn in Hn; zl|].
    intros u. ncase u t; [rewrite C|]; apply Hc.
  - intros u Hu. ncase u t; [congruence|]. pose proof (i_wr _ I _ Hu) as D.
    rewrite Er in D. apply Z.eqb_eq in D. rewrite rw_nz in D by zl. discriminate.
  - intros u. ncase u t; [exact T|apply I].
  - intros u Hu. ncase u t; [congruence|].
    destruct (i_ms _ I u Hu) as [D|[v D]]; [left; exact D|]. right. exists v. ncase v t; [congruence|exact D].
  - intros u Hu. left. rewrite rw_bit0 by zl. reflexivity.
Qed.

Lemma count_occ_remove1 : forall (L : list Z) t, (0 < count_occ Z.eq_dec L t)%nat ->
  exists L', length L = S (length L') /\
    forall u, count_occ Z.eq_dec L u = (count_occ Z.eq_dec L' u + if Z.eq_dec t u then 1 else 0)%nat.
Proof.
  intros L t H. apply count_occ_In in H. apply in_split in H as (l1 & l2 & ->).
  exists (l1 ++ l2). split; [rewrite !app_length; cbn [length]; zl|].
  intros u. rewrite !count_occ_app. cbn [count_occ]. destruct (Z.eq_dec t u); zl.
Qed.

(** [t] takes its read lock out of the count *)
Lemma sub_rc : forall s t x n b w', inv s -> 1 <= n < 2 ^ 31 -> rc s = rw n b ->
  w' = rw (n - 1) (if n =? 1 then false else b) ->
  owns x = owns (threads s t) -> (0 < counted (threads s t))%nat -> counted x = pred (counted (threads s t)) ->
  writes x = false -> tinv x -> msleeps x = false -> rsleeps x = false ->
  mwakes (threads s t) = false -> rwakes (threads s t) = false ->
  (n = 1 -> b = true -> rwakes x = true) ->
  inv {| m := m s; rc := w'; threads := setf (threads s) t x |}.
Proof.
  intros s t x n b w' I Hn Er -> O Cp C W T MS RS MW RW B.
  constructor; cbn [m rc threads].
  - destruct (i_m _ I) as [[E0 N]|(o & a' & b' & Oo & E0 & U)].
    + left. split; [exact E0|]. intros u. ncase u t; [rewrite O|]; apply N.
    + right. exists o, a', b'. split; [ncase o t; [rewrite O|]; exact Oo|]. split; [exact E0|].
      intros u Hu. ncase u t; [rewrite O in Hu|]; apply U; exact Hu.
  - destruct (i_rc _ I) as (L & b0 & E & Hl & Hb & Hc). rewrite Er in E.
    apply rw_inj in E; [|zl|zl]. destruct E as [-> ->].
    rewrite <- (Hc t) in Cp. destruct (count_occ_remove1 L t Cp) as (L' & HL & Hc').
    exists L', (if Z.of_nat (length L) =? 1 then false else b0). rewrite HL in *.
    split; [f_equal; zl|]. split; [zl|]. split.
    + destruct (Z.eqb_spec (Z.of_nat (S (length L'))) 1); [discriminate|].
      intros _ ->. cbn in n. zl.
    + intros u. ncase u t.
      * rewrite C, <- Hc, Hc'. destruct (Z.eq_dec t t); [zl|congruence].
      * rewrite <- Hc, Hc'. destruct (Z.eq_dec t u); [congruence|zl].
  - intros u Hu. ncase u t; [congruence|]. pose proof (i_wr _ I _ Hu) as D.
    rewrite Er in D. apply Z.eqb_eq in D. rewrite rw_nz in D by zl. discriminate.
  - intros u. ncase u t; [exact T|apply I].
  - intros u Hu. ncase u t; [congruence|].
    destruct (i_ms _ I u Hu) as [D|[v D]]; [left; exact D|]. right. exists v. ncase v t; [congruence|exact D].
  - intros u Hu. ncase u t; [congruence|]. rewrite rw_bit0 by zl.
    destruct (i_rs _ I u Hu) as [D|[v D]].
    + rewrite Er, rw_bit0 in D by zl. destruct b; [|discriminate].
      destruct (Z.eqb_spec n 1) as [->|]; [|left; reflexivity].
      right. exists t. rewrite setf_same. apply B; reflexivity.
    + right. exists v. ncase v t; [congruence|exact D].
Qed.

(** ** The invariant is preserved *)
Ltac fld := cbn [at_ wr reads result counted orb] in *.
Ltac tsolve := unfold tinv, extra, writes in *; fld; intuition (try discriminate; try congruence; try lia; auto).
Ltac keep_tac I E := apply keep; try (rewrite E); unfold owns, writes, msleeps, rsleeps, mwakes, rwakes, to in *;
  fld; try reflexivity; try exact I; try tauto; try discriminate.

Lemma refused_keep : forall s t k r, inv s ->
  (match at_ (threads s t) with TLoad _ | TCas _ | MFutex _ _ | MSleep _ _ => True | _ => False end) ->
  inv {| m := m s; rc := rc s; threads := setf (threads s) t (refused k r (threads s t)) |}.
Proof.
  intros s t k r I H. pose proof (i_t _ I t) as T.
  destruct (threads s t) as [p w q res c] eqn:E.
  assert (R : exists p' res', refused k r {| at_ := p; wr := w; reads := q; result := res; counted := c |} =
     {| at_ := p'; wr := w; reads := q; result := res'; counted := c |} /\ (p' = Ready \/ exists k', p' = MLoad k')).
  { unfold refused, to. fld. destruct (how k); [eexists _, _; split; [reflexivity|auto]| |eexists _, _; split; [reflexivity|auto]].
    destruct (r =? EBUSY); eexists _, _; (split; [reflexivity|eauto]). }
  destruct R as (p' & res' & -> & Hp').
  assert (X : forall q0, (q0 = Ready \/ exists k', q0 = MLoad k') ->
    tinv {| at_ := q0; wr := w; reads := q; result := res'; counted := c |}).
  { intros q0 Hq. unfold tinv, extra, writes in *. fld.
    destruct Hq as [->|[k' ->]]; destruct p; try contradiction; tauto. }
  apply keep; try exact I; rewrite ?E; unfold owns, writes, msleeps, rsleeps, mwakes, rwakes; fld;
    try (apply X; exact Hp'); try reflexivity;
    destruct Hp' as [->|[k' ->]]; destruct p; try contradiction; try reflexivity; try discriminate; auto.
Qed.

Lemma put_Some : forall s t a b x s', put s t a b x = Some s' ->
  s' = {| m := a; rc := b; threads := setf (threads s) t x |}.
Proof. intros s t a b x s' H. unfold put in H. congruence. Qed.

Lemma go_Some : forall s t p s', go s t p = Some s' ->
  s' = {| m := m s; rc := rc s; threads := setf (threads s) t (to (threads s t) p) |}.
Proof. intros s t p s' H. unfold go, put in H. injection H as <-. reflexivity. Qed.

Lemma granted_write : forall s t k, inv s -> rc s = 0 ->
  (match at_ (threads s t) with RcTry k' | RcLoad k' | RcLoop k' _ => k' = k | _ => False end) ->
  inv {| m := m s; rc := rc s; threads := setf (threads s) t (granted k (threads s t)) |}.
Proof.
  intros s t k I Z0 H. pose proof (i_t _ I t) as T.
  pose proof (rc_zero _ _ t (i_rc _ I) Z0) as C0.
  destruct (threads s t) as [p w q res c] eqn:E. fld. subst c.
  assert (X : excl k = true /\ w = false /\ q = 0%nat).
  { unfold tinv, extra, writes in T. fld. destruct p; try contradiction; subst; intuition lia. }
  destruct X as (X1 & -> & ->).
  apply keep; try exact I; rewrite ?E; unfold owns, writes, msleeps, rsleeps, mwakes, rwakes, granted;
    fld; rewrite ?X1; fld; try reflexivity; try discriminate; auto;
    try (destruct p; try contradiction; reflexivity).
  unfold tinv, extra, writes. fld. auto.
Qed.

Lemma m_turn_inv : forall s t k e s', inv s -> at_ (threads s t) = MLoop k e ->
  m_turn s t k e = Some s' -> inv s'.
Proof.
  intros s t k e s' I Ht H. pose proof (i_t _ I t) as T.
  destruct (threads s t) as [p w q res c] eqn:E. fld. subst p.
  assert (We : wf_m e) by (unfold tinv in T; fld; tauto).
  pose proof (m_wf _ _ (i_m _ I)) as Wm. unfold m_turn in H.
  assert (Loop : inv {| m := m s; rc := rc s; threads := setf (threads s) t (to (threads s t) (MLoop k (m s))) |}).
  { rewrite E. apply keep; try exact I; rewrite ?E; unfold to, owns, writes, msleeps, rsleeps, mwakes, rwakes;
      fld; try reflexivity; try discriminate; auto. unfold tinv, extra, writes in *; fld; tauto. }
  destruct We as [->|(a & b & ->)].
  - cbn [Z.eqb negb] in H. destruct (Z.eqb_spec (m s) 0) as [Z0|N].
    + apply put_Some in H. subst s'.
      assert (Ow : owns (threads s t) = false) by (exact (m_free _ _ (i_m _ I) Z0 t)).
      rewrite E in Ow. unfold owns in Ow. fld. rewrite orb_false_r in Ow. subst w.
      apply take_m; try assumption; rewrite ?E; unfold to, owns, writes, msleeps, rsleeps, mwakes, rwakes; fld;
        try reflexivity; try (destruct (excl k); reflexivity).
      unfold tinv, extra, writes in *; fld. destruct (excl k) eqn:Ek; intuition (try discriminate; auto).
    + apply go_Some in H. subst s'. exact Loop.
  - rewrite mw_nz, mw_owner, mw_bit in H. cbn [negb] in H. destruct b; cbn [negb] in H.
    + apply go_Some in H. subst s'. rewrite E.
      apply keep; try exact I; rewrite ?E; unfold to, owns, writes, msleeps, rsleeps, mwakes, rwakes;
        fld; try reflexivity; try discriminate; auto.
      unfold tinv, extra, writes in *; fld. intuition eauto.
    + destruct (Z.eqb_spec (m s) (mw a false)) as [Em|N].
      * rewrite mw_lor in H. apply put_Some in H. subst s'.
        apply (mark_m s t _ a false); try assumption; rewrite ?E; unfold to, owns, writes, msleeps, rsleeps, mwakes, rwakes;
          fld; try reflexivity.
        unfold tinv, extra, writes in *; fld. intuition eauto.
      * apply go_Some in H. subst s'. exact Loop.
Qed.

Lemma rc_test_inv : forall s t k s', inv s ->
  (at_ (threads s t) = RcLoad k \/ exists e, at_ (threads s t) = RcLoop k e) ->
  rc_test s t k = Some s' -> inv s'.
Proof.
  intros s t k s' I Ht H. unfold rc_test in H. destruct (Z.eqb_spec (rc s) 0) as [Z0|N].
  - apply put_Some in H. subst s'. apply granted_write; try assumption.
    destruct Ht as [->|[e ->]]; reflexivity.
  - apply go_Some in H. subst s'. pose proof (i_t _ I t) as T.
    destruct (rc_wf _ _ (i_rc _ I)) as [?|W]; [contradiction|].
    destruct (threads s t) as [p w q res c] eqn:E. fld.
    apply keep; try exact I; rewrite ?E; unfold to, owns, writes, msleeps, rsleeps, mwakes, rwakes, tinv, extra, writes in *;
      fld; destruct Ht as [->|[e ->]]; try reflexivity; try discriminate; auto; tauto.
Qed.

Lemma rc_turn_inv : forall s t k e s', inv s -> at_ (threads s t) = RcLoop k e ->
  rc_turn s t k e = Some s' -> inv s'.
Proof.
  intros s t k e s' I Ht H. unfold rc_turn in H. pose proof (i_t _ I t) as T.
  assert (We : wf_rc e) by (unfold tinv in T; rewrite Ht in T; tauto).
  destruct We as (n & b & Hn & ->). rewrite rw_count, rw_bit0, rw_lor in H by lia.
  destruct (Z.eqb_spec n 0) as [?|_]; [lia|].
  assert (Tf : tinv (to (threads s t) (RcFutex k (rw n b)))).
  { unfold tinv, extra, writes in *. destruct (threads s t) as [p w q res c]. unfold to. fld. rewrite Ht in T. exact T. }
  destruct b; cbn [negb] in H.
  - apply go_Some in H. subst s'. destruct (threads s t) as [p w q res c] eqn:E. fld. subst p.
    apply keep; try exact I; rewrite ?E; unfold to in *; try exact Tf;
      unfold owns, writes, msleeps, rsleeps, mwakes, rwakes in *;
      fld; try reflexivity; try discriminate; auto.
  - destruct (Z.eqb_spec (rc s) (rw n false)) as [Er|N].
    + apply put_Some in H. subst s'. destruct (threads s t) as [p w q res c] eqn:E. fld. subst p.
      apply (mark_rc s t _ n false); try exact I; try exact Hn; try exact Er; rewrite ?E; unfold to in *; try exact Tf;
        unfold owns, writes, msleeps, rsleeps, mwakes, rwakes in *; fld; try reflexivity.
      unfold tinv in T. fld. destruct T as (_ & _ & _ & -> & _). reflexivity.
    + apply (rc_test_inv s t k); eauto.
Qed.

Lemma unlock_turn_inv : forall s t e weak s', inv s -> at_ (threads s t) = ULoop e ->
  unlock_turn s t e weak = Some s' -> inv s'.
Proof.
  intros s t e weak s' I Ht H. unfold unlock_turn in H. pose proof (i_t _ I t) as T.
  destruct (threads s t) as [p w q res c] eqn:E. fld. subst p.
  assert (X : w = false /\ wf_rc e /\ c = S q).
  { unfold tinv, extra in T. fld. intuition lia. }
  destruct X as (-> & (n & b & Hn & ->) & ->).
  rewrite rw_dec, rw_count, rw_bit0 in H by lia.
  destruct (Z.eqb_spec n 0) as [?|_]; [lia|]. rewrite negb_involutive in H.
  assert (Loop : inv {| m := m s; rc := rc s; threads := setf (threads s) t (to (threads s t) (ULoop (rc s))) |}).
  { destruct (rc_wf _ _ (i_rc _ I)) as [Z0|W].
    - pose proof (rc_zero _ _ t (i_rc _ I) Z0) as C. rewrite E in C. discriminate C.
    - apply keep; try exact I; rewrite ?E; unfold to, owns, writes, msleeps, rsleeps, mwakes, rwakes, tinv, extra, writes in *;
        fld; try reflexivity; try discriminate; auto; tauto. }
  destruct ((n =? 1) && b) eqn:C.
  - apply andb_prop in C as [C1 ->]. apply Z.eqb_eq in C1. subst n.
    destruct ((rc s =? rw 1 true) && negb weak) eqn:S0.
    + apply andb_prop in S0 as [S0 _]. apply Z.eqb_eq in S0. apply put_Some in H. subst s'.
      apply (sub_rc s t _ 1 true); try exact I; try exact Hn; try exact S0; rewrite ?E;
        unfold owns, writes, msleeps, rsleeps, mwakes, rwakes, tinv, extra, writes; fld; cbn [pred];
        try reflexivity; try lia; try discriminate; auto.
      all: repeat split; intros; try discriminate; lia.
    + apply go_Some in H. subst s'. exact Loop.
  - destruct ((rc s =? rw n b) && negb weak) eqn:S0.
    + apply andb_prop in S0 as [S0 _]. apply Z.eqb_eq in S0. apply put_Some in H. subst s'.
      apply (sub_rc s t _ n b); try exact I; try exact Hn; try exact S0; rewrite ?E;
        unfold unlocked, owns, writes, msleeps, rsleeps, mwakes, rwakes, tinv, extra, writes; fld; cbn [pred];
        try reflexivity; try lia; try discriminate; auto.
      all: try (repeat split; intros; try discriminate; lia).
      all: try (intros -> ->; discriminate C).
      destruct (Z.eqb_spec n 1) as [->|]; [|reflexivity]. cbn in C. rewrite C. reflexivity.
    + apply go_Some in H. subst s'. exact Loop.
Qed.

Lemma try_failed_inv : forall s t k s', inv s -> m s <> 0 ->
  (at_ (threads s t) = TLoad k \/ at_ (threads s t) = TCas k) ->
  try_failed s t k (m s) = Some s' -> inv s'.
Proof.
  intros s t k s' I N Ht H. unfold try_failed in H.
  destruct (m_wf _ _ (i_m _ I)) as [?|(a & b & Em)]; [contradiction|].
  rewrite Em, mw_owner, <- Em in H. apply put_Some in H. subst s'.
  apply refused_keep; [exact I|]. destruct Ht as [->| ->]; exact Logic.I.
Qed.

Ltac plain I E := apply keep; try exact I; rewrite ?E;
  unfold to, owns, writes, msleeps, rsleeps, mwakes, rwakes, tinv, extra, writes in *;
  fld; try reflexivity; try discriminate; auto; try tauto.

Lemma finish_MRelease : forall s t k r, inv s -> at_ (threads s t) = MRelease k r ->
  (Z.land (m s) mutex_waiters_bit =? 0) = true ->
  inv {| m := 0; rc := rc s; threads := setf (threads s) t (finish k r (threads s t)) |}.
Proof.
  intros s t k r I Ht B. pose proof (i_t _ I t) as T.
  destruct (threads s t) as [p w q res c] eqn:E. fld. subst p.
  unfold tinv, extra, writes in T. fld. destruct T as (T1 & T2 & T3 & ->).
  assert (X : exists p' q' res', finish k r {| at_ := MRelease k r; wr := false; reads := q; result := res; counted := c |} =
     {| at_ := p'; wr := false; reads := q'; result := res'; counted := c |} /\ c = q' /\ (p' = Ready \/ exists k', p' = MLoad k')).
  { unfold finish, granted, refused, to. fld. destruct (Z.eqb_spec r 0) as [->|].
    - rewrite (T3 eq_refl). fld. eexists _, _, _. split; [reflexivity|]. split; [lia|auto].
    - destruct (how k); [|destruct (r =? EBUSY)|]; eexists _, _, _; (split; [reflexivity|]); (split; [lia|eauto]). }
  destruct X as (p' & q' & res' & -> & -> & Hp').
  apply drop_m; try exact I; rewrite ?E; unfold owns, writes, msleeps, rsleeps, mwakes, rwakes, tinv, extra, writes; fld;
    try reflexivity; try congruence; destruct Hp' as [->|[k' ->]]; try reflexivity; repeat split; auto; lia.
Qed.

Lemma finish_MWake : forall s t k r, inv s -> at_ (threads s t) = MWake k r ->
  inv {| m := m s; rc := rc s; threads := setf (wake_with wake_m (threads s)) t (finish k r (threads s t)) |}.
Proof.
  intros s t k r I Ht. pose proof (i_t _ I t) as T.
  destruct (threads s t) as [p w q res c] eqn:E. fld. subst p.
  unfold tinv, extra, writes in T. fld. destruct T as (T1 & T2 & T3 & ->).
  assert (X : exists p' q' res', finish k r {| at_ := MWake k r; wr := false; reads := q; result := res; counted := c |} =
     {| at_ := p'; wr := false; reads := q'; result := res'; counted := c |} /\ c = q' /\ (p' = Ready \/ exists k', p' = MLoad k')).
  { unfold finish, granted, refused, to. fld. destruct (Z.eqb_spec r 0) as [->|].
    - rewrite (T3 eq_refl). fld. eexists _, _, _. split; [reflexivity|]. split; [lia|auto].
    - destruct (how k); [|destruct (r =? EBUSY)|]; eexists _, _, _; (split; [reflexivity|]); (split; [lia|eauto]). }
  destruct X as (p' & q' & res' & -> & -> & Hp').
  apply waking_m; try exact I; rewrite ?E; unfold owns, writes, msleeps, rsleeps, mwakes, rwakes, tinv, extra, writes; fld;
    try reflexivity; try congruence; destruct Hp' as [->|[k' ->]]; try reflexivity; repeat split; auto; lia.
Qed.

Lemma step_inv : forall t a s s', inv s -> guarded client_rule step t a s = Some s' -> inv s'.
Proof.
  intros t a s s' I H. unfold guarded in H. destruct (client_rule s t a) eqn:Rule; [|discriminate].
  pose proof (i_t _ I t) as T. unfold step in H. unfold client_rule in Rule.
  destruct (at_ (threads s t)) eqn:Ht; destruct a; try discriminate; cbn [negb] in H.
  - (* CallLock *)
    apply go_Some in H. subst s'. destruct (threads s t) as [p w q res c] eqn:E. fld. subst p.
    destruct (how k); plain I E.
  - (* CallUnlock *)
    apply put_Some in H. subst s'. destruct (threads s t) as [p w q res c] eqn:E. fld. subst p.
    unfold tinv, extra, writes in T. fld. destruct w; cbn [orb] in *.
    + plain I E.
    + apply Nat.ltb_lt in Rule. apply keep; try exact I; rewrite ?E;
      unfold to, owns, writes, msleeps, rsleeps, mwakes, rwakes, tinv, extra, writes in *;
      fld; try reflexivity; try discriminate; auto. repeat split; intros; try discriminate; lia.
  - (* TLoad *)
    destruct (Z.eqb_spec (m s) 0) as [Z0|N].
    + apply go_Some in H. subst s'. destruct (threads s t) as [p w q res c] eqn:E. fld. subst p. plain I E.
    + apply (try_failed_inv s t k); auto.
  - (* TCas *)
    destruct (Z.eqb_spec (m s) 0) as [Z0|N].
    + apply put_Some in H. subst s'.
      assert (Ow : owns (threads s t) = false) by (exact (m_free _ _ (i_m _ I) Z0 t)).
      destruct (threads s t) as [p w q res c] eqn:E. fld. subst p.
      unfold owns in Ow. fld. rewrite orb_false_r in Ow. subst w.
      apply take_m; try assumption; rewrite ?E; unfold to, owns, writes, msleeps, rsleeps, mwakes, rwakes; fld;
        try reflexivity; try (destruct (excl k); reflexivity).
      unfold tinv, extra, writes in *; fld. destruct (excl k) eqn:Ek; intuition (try discriminate; auto).
    + apply (try_failed_inv s t k); auto.
  - (* MLoad *)
    apply go_Some in H. subst s'. pose proof (m_wf _ _ (i_m _ I)) as Wm.
    destruct (threads s t) as [p w q res c] eqn:E. fld. subst p. plain I E.
  - (* MLoop *) apply (m_turn_inv s t k e); auto.
  - (* MFutex *)
    destruct (threads s t) as [p w q res c] eqn:E. fld. subst p.
    assert (X : exists a b, e = mw a b) by (unfold tinv in T; fld; tauto). destruct X as (a & b & ->).
    rewrite mw_lor in H. destruct (Z.eqb_spec (m s) (mw a true)) as [Em|N].
    + apply go_Some in H. subst s'. apply keep; try exact I; rewrite ?E;
      unfold to, owns, writes, msleeps, rsleeps, mwakes, rwakes, tinv, extra, writes in *;
      fld; try reflexivity; try discriminate; auto.
      intros _. right. rewrite Em, mw_bit. reflexivity.
    + apply go_Some in H. subst s'. unfold wf_m in *. plain I E.
      unfold wf_m. tauto.
  - (* MFutex Expire *)
    destruct (timed k); [|discriminate]. apply put_Some in H. subst s'. apply refused_keep; [exact I|]. rewrite Ht; exact Logic.I.
  - destruct (timed k); [|discriminate]. apply put_Some in H. subst s'. apply refused_keep; [exact I|]. rewrite Ht; exact Logic.I.
  - (* MSleep Spurious *)
    apply go_Some in H. subst s'. destruct (threads s t) as [p w q res c] eqn:E. fld. subst p. plain I E.
    unfold wf_m. tauto.
  - destruct (timed k); [|discriminate]. apply put_Some in H. subst s'. apply refused_keep; [exact I|]. rewrite Ht; exact Logic.I.
  - (* RcAdd *)
    apply put_Some in H. subst s'. apply Z.ltb_lt in Rule.
    destruct (threads s t) as [p w q res c] eqn:E. fld. subst p.
    unfold tinv, extra, writes in T. fld. destruct T as (T1 & T2 & T3 & ->).
    apply add_rc; try exact I; try exact Rule; rewrite ?E;
      unfold to, owns, writes, msleeps, rsleeps, mwakes, rwakes, tinv, extra, writes in *;
      fld; try reflexivity. cbn [Z.eqb]. repeat split; intros; try discriminate; auto. lia.
  - (* RcTry *)
    destruct (Z.eqb_spec (rc s) 0) as [Z0|N].
    + apply put_Some in H. subst s'. apply granted_write; try assumption. rewrite Ht. reflexivity.
    + apply go_Some in H. subst s'. destruct (threads s t) as [p w q res c] eqn:E. fld. subst p.
      plain I E. cbn [EBUSY Z.eqb]. repeat split; try tauto. intros X. discriminate X.
  - (* RcLoad *) apply (rc_test_inv s t k); auto.
  - (* RcLoop *) apply (rc_turn_inv s t k e); auto.
  - (* RcFutex *)
    destruct (threads s t) as [p w q res c] eqn:E. fld. subst p.
    assert (X : wf_rc e) by (unfold tinv in T; fld; tauto). destruct X as (n & b & Hn & ->).
    rewrite rw_lor in H by lia. destruct (Z.eqb_spec (rc s) (rw n true)) as [Er|N].
    + apply go_Some in H. subst s'. apply keep; try exact I; rewrite ?E;
      unfold to, owns, writes, msleeps, rsleeps, mwakes, rwakes, tinv, extra, writes in *;
      fld; try reflexivity; try discriminate; auto.
      intros _. right. rewrite Er, rw_bit0 by lia. reflexivity.
    + apply go_Some in H. subst s'. plain I E.
  - destruct (timed k); [|discriminate]. apply go_Some in H. subst s'.
    destruct (threads s t) as [p w q res c] eqn:E. fld. subst p.
    plain I E. cbn [ETIMEDOUT Z.eqb]. repeat split; try tauto. intros X. discriminate X.
  - destruct (timed k); [|discriminate]. apply go_Some in H. subst s'.
    destruct (threads s t) as [p w q res c] eqn:E. fld. subst p.
    plain I E. cbn [EINVAL Z.eqb]. repeat split; try tauto. intros X. discriminate X.
  - (* RcSleep *)
    apply go_Some in H. subst s'. destruct (threads s t) as [p w q res c] eqn:E. fld. subst p. plain I E.
  - destruct (timed k); [|discriminate]. apply go_Some in H. subst s'.
    destruct (threads s t) as [p w q res c] eqn:E. fld. subst p.
    plain I E. cbn [ETIMEDOUT Z.eqb]. repeat split; try tauto. intros X. discriminate X.
  - (* MRelease *)
    destruct (Z.land (m s) mutex_waiters_bit =? 0) eqn:B; apply put_Some in H; subst s'.
    + apply finish_MRelease; assumption.
    + destruct (threads s t) as [p w q res c] eqn:E. fld. subst p.
      unfold tinv, extra, writes in T. fld. destruct T as (T1 & T2 & T3 & ->).
      apply drop_m; try exact I; rewrite ?E; unfold to, owns, writes, msleeps, rsleeps, mwakes, rwakes, tinv, extra, writes; fld;
        try reflexivity. repeat split; auto.
  - (* MWake *) injection H as <-. apply finish_MWake; assumption.
  - (* ULoad *)
    destruct (threads s t) as [p w' q res c] eqn:E. fld. subst p.
    destruct (Z.eqb_spec (rc s) 0) as [Z0|N].
    + apply go_Some in H. subst s'.
      pose proof (rc_zero _ _ t (i_rc _ I) Z0) as C0. rewrite E in C0. fld. subst c.
      destruct w; [|unfold tinv, extra in T; fld; lia]. plain I E.
    + apply go_Some in H. subst s'. destruct (rc_wf _ _ (i_rc _ I)) as [?|W]; [contradiction|].
      destruct w.
      * elim N. apply (i_wr _ I t). rewrite E. unfold writes. fld. apply orb_true_r.
      * plain I E.
  - (* ULoop *) apply (unlock_turn_inv s t e false); auto.
  - apply (unlock_turn_inv s t e true); auto.
  - (* UWake *)
    injection H as <-. destruct (threads s t) as [p w q res c] eqn:E. fld. subst p.
    apply waking_rc; try exact I; rewrite ?E; unfold unlocked, owns, writes, msleeps, rsleeps, mwakes, rwakes, tinv, extra, writes in *; fld;
      try reflexivity. tauto.
  - (* URelease *)
    destruct (threads s t) as [p w q res c] eqn:E. fld. subst p.
    unfold tinv, extra, writes in T. fld. destruct T as (T1 & T2 & ->).
    destruct (Z.land (m s) mutex_waiters_bit =? 0) eqn:B; apply put_Some in H; subst s'.
    + apply drop_m; try exact I; rewrite ?E; unfold unlocked, owns, writes, msleeps, rsleeps, mwakes, rwakes, tinv, extra, writes; fld;
        try reflexivity; try congruence. repeat split; auto; discriminate.
    + apply drop_m; try exact I; rewrite ?E; unfold to, owns, writes, msleeps, rsleeps, mwakes, rwakes, tinv, extra, writes; fld;
        try reflexivity. repeat split; auto; discriminate.
  - (* UMWake *)
    injection H as <-. destruct (threads s t) as [p w q res c] eqn:E. fld. subst p.
    apply waking_m; try exact I; rewrite ?E; unfold unlocked, owns, writes, msleeps, rsleeps, mwakes, rwakes, tinv, extra, writes in *; fld;
      try reflexivity. tauto.
Qed.

Lemma reachable_inv : forall s, reachable s -> inv s.
Proof.
  intros s [sched H]. exact (run_inv _ _ (guarded client_rule step) inv step_inv sched init s init_inv H).
Qed.

Lemma owns_has : forall s t, owns (threads s t) = true <-> has_mutex s t.
Proof.
  intros s t. unfold owns, has_mutex. rewrite orb_true_iff.
  destruct (at_ (threads s t)); try destruct w; intuition discriminate.
Qed.
