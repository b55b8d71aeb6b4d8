(** Boolean checkers used only to discharge the hypotheses of the concrete examples. *)
From Verif Require Import Base Mem_Proof Str_Spec.
Open Scope Z_scope.

Fixpoint bytes_chk (m : mem) (p : Z) (l : list Z) : bool :=
  match l with
  | [] => true
  | c :: l' => match m p with Some v => v =? c | None => false end && bytes_chk m (p + 1) l'
  end.
Lemma bytes_chk_ok l : forall m p, bytes_chk m p l = true -> bytes_at m p l.
Proof.
  induction l as [|c l IH]; intros m p H; [intros i Hi; cbn in Hi; lia|].
  cbn in H. apply andb_true_iff in H as [H1 H2]. apply bytes_at_cons. split; [|apply IH, H2].
  destruct (m p); [f_equal; lia|discriminate].
Qed.

Fixpoint mapped_chk (m : mem) (p : Z) (n : nat) : bool :=
  match n with
  | O => true
  | S k => match m p with Some _ => true | None => false end && mapped_chk m (p + 1) k
  end.
Lemma mapped_chk_ok n : forall m p, mapped_chk m p n = true -> mapped m p n.
Proof.
  induction n as [|n IH]; intros m p H i Hi; [lia|]. cbn in H. apply andb_true_iff in H as [H1 H2].
  destruct i as [|i]; [rewrite Z.add_0_r; destruct (m p); congruence|].
  replace (p + Z.of_nat (S i)) with (p + 1 + Z.of_nat i) by lia. apply IH; [exact H2|lia].
Qed.

Definition range_chk (s : list Z) : bool := forallb (fun c => (0 <? c) && (c <? 256)) s.
Lemma range_chk_ok s : range_chk s = true -> Forall (fun c => 0 < c < 256) s.
Proof. intros H. apply Forall_forall. intros c Hc. unfold range_chk in H. rewrite forallb_forall in H. specialize (H c Hc). lia. Qed.

Lemma str_chk_ok m p s : bytes_chk m p (s ++ [0]) && range_chk s = true -> str_at m p s.
Proof. intros H. apply andb_true_iff in H as [H1 H2]. split; [apply bytes_chk_ok, H1|apply range_chk_ok, H2]. Qed.

Definition nstr_chk (m : mem) (p : Z) (n : nat) (s : list Z) : bool :=
  range_chk s && bytes_chk m p s &&
  ((length s =? n)%nat || ((length s <? n)%nat && bytes_chk m (p + Z.of_nat (length s)) [0])).
Lemma nstr_chk_ok m p n s : nstr_chk m p n s = true -> nstr_at m p n s.
Proof.
  unfold nstr_chk. intros H. apply andb_true_iff in H as [H H3]. apply andb_true_iff in H as [H1 H2].
  split; [apply range_chk_ok, H1|]. split; [apply bytes_chk_ok, H2|].
  apply orb_true_iff in H3 as [H3|H3]; [left; lia|right]. apply andb_true_iff in H3 as [H3 H4].
  split; [lia|]. apply bytes_chk_ok in H4. apply bytes_at_cons in H4. tauto.
Qed.

Ltac chk :=
  match goal with
  | |- str_at _ _ _ => apply str_chk_ok; vm_compute; reflexivity
  | |- nstr_at _ _ _ _ => apply nstr_chk_ok; vm_compute; reflexivity
  | |- bytes_at _ _ _ => apply bytes_chk_ok; vm_compute; reflexivity
  | |- mapped _ _ _ => apply mapped_chk_ok; vm_compute; reflexivity
  | |- disjoint _ _ _ _ => unfold disjoint; cbn; lia
  end.
Ltac chks := cbv zeta; repeat match goal with |- _ /\ _ => split end; try chk; try (vm_compute; repeat split; reflexivity).
