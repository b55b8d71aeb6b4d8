(** Shared vocabulary of the concurrent models: interleaving executions of any number of
    threads over shared words, sequentially consistent, one atomic operation or system call
    per step.  No mlibc code is modelled here. *)
From Verif Require Export Base.
Open Scope Z_scope.

(** A thread is named by its thread id, the number that mlibc::this_tid() returns for it. *)
Definition setf {L : Type} (f : Z -> L) (t : Z) (x : L) : Z -> L :=
  fun u => if Z.eqb u t then x else f u.

(** [run step sched s]: the state reached from [s] by the schedule [sched], a list of
    (thread, action) pairs; [None] if some step of the schedule is not possible. *)
Fixpoint run {S A : Type} (step : Z -> A -> S -> option S) (sched : list (Z * A)) (s : S)
  : option S :=
  match sched with
  | [] => Some s
  | (t, a) :: rest =>
      match step t a s with
      | Some s' => run step rest s'
      | None => None
      end
  end.

(** the same machine used by clients that keep to the rule [ok] *)
Definition guarded {S A : Type} (ok : S -> Z -> A -> bool) (step : Z -> A -> S -> option S)
  : Z -> A -> S -> option S :=
  fun t a s => if ok s t a then step t a s else None.

(** ** Futex words of mutexes: owner id in the low 30 bits, bit 31 set if there are waiters *)
Definition waitersBit : Z := 2147483648.
Definition ownerMask : Z := 1073741823.

(** thread ids fit in the owner field and are never zero *)
Definition valid_tid (t : Z) : bool := (1 <=? t) && (t <=? ownerMask).

Definition wake_with {L : Type} (wake : L -> L) (f : Z -> L) : Z -> L := fun u => wake (f u).

(** ** Lemmas about executions *)
Lemma run_inv : forall (S A : Type) (step : Z -> A -> S -> option S) (P : S -> Prop),
  (forall t a s s', P s -> step t a s = Some s' -> P s') ->
  forall sched s s', P s -> run step sched s = Some s' -> P s'.
Proof.
  intros S A step P Hstep. induction sched as [|[t a] rest IH]; intros s s' Hp Hr; cbn in Hr.
  - injection Hr as <-; exact Hp.
  - destruct (step t a s) as [s1|] eqn:E; [|discriminate].
    exact (IH s1 s' (Hstep t a s s1 Hp E) Hr).
Qed.

Lemma run_app : forall (S A : Type) (step : Z -> A -> S -> option S) l1 l2 s,
  run step (l1 ++ l2) s = match run step l1 s with Some s' => run step l2 s' | None => None end.
Proof.
  intros S A step. induction l1 as [|[t a] rest IH]; intros l2 s; cbn; [reflexivity|].
  destruct (step t a s); [apply IH|reflexivity].
Qed.

Lemma setf_same : forall L (f : Z -> L) t x, setf f t x t = x.
Proof. intros; unfold setf; rewrite Z.eqb_refl; reflexivity. Qed.

Lemma setf_other : forall L (f : Z -> L) t x u, u <> t -> setf f t x u = f u.
Proof. intros; unfold setf; destruct (Z.eqb_spec u t); [contradiction|reflexivity]. Qed.

(** ** Arithmetic of futex words *)
Definition enc (o : Z) (b : bool) : Z := if b then o + waitersBit else o.

Lemma mask_ones : ownerMask = Z.ones 30. Proof. reflexivity. Qed.
Lemma bit_pow : waitersBit = 2 ^ 31. Proof. reflexivity. Qed.

Lemma land_mask : forall x, Z.land x ownerMask = x mod 2 ^ 30.
Proof. intros; rewrite mask_ones, Z.land_ones; lia. Qed.

Lemma land_bit_small : forall x, 0 <= x < waitersBit -> Z.land x waitersBit = 0.
Proof.
  intros x H. apply Z.bits_inj'. intros n Hn. rewrite Z.land_spec, Z.bits_0, bit_pow.
  destruct (Z.eqb_spec n 31) as [->|N].
  - rewrite (Z.bits_above_log2 x 31).
    + reflexivity.
    + lia.
    + destruct (Z.eq_dec x 0) as [->|]; [cbn; lia|].
      apply Z.log2_lt_pow2; [lia|]. rewrite <- bit_pow; lia.
  - rewrite Z.pow2_bits_false by lia. apply andb_false_r.
Qed.

Lemma lor_bit_small : forall x, 0 <= x < waitersBit -> Z.lor x waitersBit = x + waitersBit.
Proof.
  intros x H. pose proof (land_bit_small x H) as E.
  rewrite (Z.add_nocarry_lxor _ _ E), (Z.lxor_lor _ _ E). reflexivity.
Qed.

Lemma land_bit_big : forall x, 0 <= x < waitersBit ->
  Z.land (x + waitersBit) waitersBit = waitersBit.
Proof.
  intros x H. rewrite <- (lor_bit_small x H), Z.land_lor_distr_l, land_bit_small by exact H.
  reflexivity.
Qed.

Lemma valid_range : forall t, valid_tid t = true -> 1 <= t < 2 ^ 30.
Proof.
  intros t H. unfold valid_tid in H. apply andb_true_iff in H as [A B].
  apply Z.leb_le in A, B. unfold ownerMask in B. lia.
Qed.

Lemma enc_owner : forall o b, valid_tid o = true -> Z.land (enc o b) ownerMask = o.
Proof.
  intros o b H. apply valid_range in H. rewrite land_mask. destruct b; cbn [enc].
  - replace (o + waitersBit) with (o + 2 * 2 ^ 30) by (unfold waitersBit; lia).
    rewrite Z.mod_add by lia. apply Z.mod_small; lia.
  - apply Z.mod_small; lia.
Qed.

Lemma enc_bit : forall o b, valid_tid o = true ->
  Z.land (enc o b) waitersBit = if b then waitersBit else 0.
Proof.
  intros o b H. apply valid_range in H. assert (2 ^ 30 < waitersBit) by (unfold waitersBit; lia).
  destruct b; cbn [enc]; [apply land_bit_big|apply land_bit_small]; lia.
Qed.

Lemma enc_lor : forall o b, valid_tid o = true -> Z.lor (enc o b) waitersBit = enc o true.
Proof.
  intros o b H. apply valid_range in H. assert (2 ^ 30 < waitersBit) by (unfold waitersBit; lia).
  destruct b; cbn [enc].
  - rewrite <- lor_bit_small by lia. rewrite <- Z.lor_assoc, Z.lor_diag. reflexivity.
  - apply lor_bit_small; lia.
Qed.

Lemma enc_nz : forall o b, valid_tid o = true -> enc o b <> 0.
Proof.
  intros o b H. apply valid_range in H. unfold enc, waitersBit; destruct b; lia.
Qed.

Lemma enc_eqb0 : forall o b, valid_tid o = true -> (enc o b =? 0) = false.
Proof. intros; apply Z.eqb_neq, enc_nz; assumption. Qed.
