(** Proofs about cancellation. *)
From Verif Require Import Texit_Model Texit_Spec Texit_Proof.
Open Scope Z_scope.

(** ** Cancellation happens only when asked for and allowed *)
Definition userish (p : tpc) : bool :=
  match p with
  | TRun | TCall _ _ | TLoaded _ | TRange _ | TKernel | TEnd _ | TChk _ => true
  | _ => false
  end.

Definition cancelling (p : lpc) : bool :=
  match p with LCancel _ | LSend | LCheck => true | _ => false end.

Record I5 (s : state) : Prop := {
  k_trg : trg (bits s) = true -> requested (log s);
  k_pend : pend s = true -> requested (log s);
  k_sg : sg s <> None -> requested (log s) /\ (lvl s = Main -> disabled (log s) = false);
  k_oth : forall u, cancelling (loc s u) = true -> requested (log s);
  k_self : match tp s with TCall CSelf _ => requested (log s) | _ => True end;
  k_exit : match tp s with
           | TExit Cancelled v | TSet Cancelled v | TCall (CExit Cancelled v) _ =>
               v = CANCELED /\ requested (log s) /\ (lvl s = Main -> disabled (log s) = false)
           | _ => True
           end;
  k_dis : lvl s = Main -> disabled (log s) = true -> en (bits s) = false /\ mask s = true;
  k_en : lvl s = Main -> userish (tp s) = true -> en (bits s) = false -> mask s = true;
  k_mask : match tp s with
           | TStart => disabled (log s) = false
           | TMask e => e = en (bits s) /\ (e = true -> lvl s = Main -> disabled (log s) = false)
           | TCall (CState true) _ => lvl s = Main -> disabled (log s) = false
           | _ => True
           end }.

Lemma req_cons : forall e l, requested l -> requested (e :: l).
Proof. intros e l [t H]. exists t. right. exact H. Qed.

Lemma req_now : forall t l, requested (ECancelCall t :: l).
Proof. intros t l. exists t. left. reflexivity. Qed.

Lemma oth_setf : forall (f : Z -> lpc) t p u, cancelling (setf f t p u) = true ->
  cancelling p = true \/ cancelling (f u) = true.
Proof. intros f t p u H. unfold setf in H. destruct (u =? t); auto. Qed.

Lemma oth_wake : forall f u, cancelling (wake_with wake f u) = true -> cancelling (f u) = true.
Proof. intros f u. unfold wake_with, wake. destruct (f u); auto. Qed.

Ltac oth :=
  match goal with
  | E : _ = LCancel _ |- _ => rewrite E
  | E : _ = LSend |- _ => rewrite E
  | E : _ = LCheck |- _ => rewrite E
  end; reflexivity.

Lemma I5_step : forall t a s s', I1 s -> I5 s -> step t a s = Some s' -> I5 s'.
Proof.
  intros t a s s' Hc [A B C D E F G K M] H.
  pose proof (c_lvl _ Hc) as L. pose proof (c_sg _ Hc) as S. pose proof (c_old _ Hc) as O.
  pose proof (c_exi _ Hc) as CE. clear Hc.
  cases s H.
  all: constructor; cbn in *; auto using req_cons, req_now; try discriminate.
  all: try (intros NN; exfalso; apply NN; reflexivity).
  all: try (intros u Q; first [apply oth_setf in Q; destruct Q as [Q|Q]; [try discriminate Q|]
                              | apply oth_wake in Q | idtac];
            try (apply (D u) in Q; auto using req_cons; fail)).
  all: try (apply (D t); oth).
  all: try (intros NN; destruct (C NN); split; auto using req_cons; fail).
  all: try (destruct tpx; auto; destruct c; auto using req_cons; fail).
  all: try (destruct tpx as [| |[| |[]|]| | | | | | |[]|[]| | | | | |]; auto;
            destruct F as (F1 & F2 & F3); split; auto using req_cons; fail).
  all: try (intros _; split; [exact (B eq_refl)|]; intros LM;
            apply not_true_iff_false; intros DQ; destruct (G LM DQ); congruence).
  all: try (intros _; apply req_cons || idtac;
            apply (D t); oth).
  all: try (intros _; apply C; discriminate).
  all: try (intros _; split; [apply B; assumption|]; intros LM;
            apply not_true_iff_false; intros DQ; destruct (G LM DQ); congruence).
  all: try (intros _; split; [apply B; assumption|]; intros LM; discriminate LM).
  all: try (destruct e; auto; fail).
  all: unfold agree in *; try (apply G; intuition congruence).

  all: try (split; [reflexivity|]; first [apply C; discriminate | idtac]).
  all: unfold tcb_cancelled, tcb_async_cancelled in *; eqs; cbn in *.
  all: try (split; [apply A; intuition congruence|]; intros LM;
            first [discriminate LM
                  | apply not_true_iff_false; intros DQ; destruct (G LM DQ); intuition congruence]).
  - destruct (G u Q); auto.
  - congruence.
  - destruct e; [discriminate Q|]. assert (X : en old = false) by (rewrite Heqb1; reflexivity).
    assert (Y : en b = false) by intuition congruence. split; [exact Y|]. exact (K u eq_refl Y).
  - destruct e; [|discriminate]. split; [apply A; intuition congruence | exact M].
  - destruct e; [rewrite (M u) in Q; discriminate|]. split; [reflexivity|]. exact (proj2 (G u Q)).
  - destruct e; [rewrite (M u) in Q; discriminate|]. split; [reflexivity|]. exact (proj2 (G u Q)).
  - intros ->. exact M.
  - exact (proj2 (G u Q)).
  - split; [exact E|]. intros LM. apply not_true_iff_false; intros DQ; destruct (G LM DQ); congruence.
  - destruct M as [M1 M2]. destruct e; [discriminate Q|]. split; [symmetry; exact M1 | reflexivity].
  - intros Y. destruct M as [M1 M2]. rewrite M1, Y. reflexivity.
  - destruct e; [discriminate Q|]. assert (X : en old = false) by (rewrite Heqb1; reflexivity).
    assert (Y : en b = false) by intuition congruence. split; [exact Y|]. exact (K u eq_refl Y).
  - destruct e; [discriminate Q|]. exact (G u Q).
Qed.


(** ** What the flags say about the record *)
Definition sent (p : lpc) : bool := match p with LSend | LCheck => true | _ => false end.

Definition inside (p : tpc) : bool :=
  match p with TMask _ => true | _ => userish p end.

Record I6 (s : state) : Prop := {
  n_ret : cancelled (log s) -> trg (bits s) = true;
  n_sent : forall u, sent (loc s u) = true -> trg (bits s) = true;
  n_old : forall u o, loc s u = LCancel o -> trg o = true -> trg (bits s) = true;
  n_en : lvl s = Main -> inside (tp s) = true -> enabled (log s) = true -> en (bits s) = true;
  n_mask : match tp s with
           | TMask e => e = en (bits s)
           | TCall (CState false) _ => lvl s = Main -> enabled (log s) = false
           | _ => True
           end;
  n_asy : lvl s = Main -> inside (tp s) = true \/ tp s = TStart -> asynchronous (log s) = asy (bits s) }.

Lemma can_cons : forall e l, cancelled (e :: l) -> (exists t, e = ECancelRet t 0) \/ cancelled l.
Proof. intros e l [t [H|H]]; [left; eauto | right; exists t; exact H]. Qed.

Lemma sent_setf : forall (f : Z -> lpc) t p u, sent (setf f t p u) = true ->
  sent p = true \/ sent (f u) = true.
Proof. intros f t p u H. unfold setf in H. destruct (u =? t); auto. Qed.

Lemma sent_wake : forall f u, sent (wake_with wake f u) = true -> sent (f u) = true.
Proof. intros f u. unfold wake_with, wake. destruct (f u); auto. Qed.

Lemma old_wake : forall f u o, wake_with wake f u = LCancel o -> f u = LCancel o.
Proof. intros f u o. unfold wake_with, wake. destruct (f u); congruence. Qed.

Lemma I6_step : forall t a s s', I1 s -> I6 s -> step t a s = Some s' -> I6 s'.
Proof.
  intros t a s s' Hc [A B C D M E] H.
  pose proof (c_lvl _ Hc) as L. pose proof (c_sg _ Hc) as S. pose proof (c_old _ Hc) as O. clear Hc.
  cases s H.
  all: constructor; cbn in *; auto; try discriminate.
  all: try (intros Q; apply can_cons in Q as [[? Q]|Q]; [discriminate Q | exact (A Q)]).
  all: try (intros u Q; first [apply sent_setf in Q; destruct Q as [Q|Q]; [try discriminate Q|]
                              | apply sent_wake in Q]; exact (B u Q)).
  all: try (intros u o Q; first [apply setf_or in Q; destruct Q as [Q|Q]; [try discriminate Q|]
                              | apply old_wake in Q]; exact (C u o Q)).
  all: try (intros _ [Q|Q]; discriminate).
  all: unfold agree in *.
  all: try (destruct e; auto; fail).
  all: try (intros u o Q; apply setf_or in Q as [Q|Q]; [injection Q as <-; auto | exact (C u o Q)]).
  all: try (intros u Q; apply (B t); match goal with X : _ = LSend |- _ => rewrite X; reflexivity end).
  all: try (intros Q; apply (B t);
            match goal with X : _ = LSend |- _ => rewrite X | X : _ = LCheck |- _ => rewrite X end; reflexivity).
  all: try (intros Q; assert (X : trg old = true) by (rewrite Heqb1; reflexivity); intuition (eauto; congruence)).
  all: try (intros _ _; assert (X : asy old = a0) by (rewrite Heqb1; reflexivity); intuition congruence).
  all: try (intros _ _ ->; assert (X : en old = true) by (rewrite Heqb1; reflexivity); intuition congruence).
  - intros LM _ Q. destruct e; [reflexivity|]. rewrite (M LM) in Q. discriminate.
  - intros LM _ Q. destruct e; [exact (D LM eq_refl Q)|discriminate].
Qed.

(** ** Asynchronous cancellation is not lost *)
Definition coming (s : state) : Prop := pend s = true \/ exists u, u <> 0 /\ loc s u = LSend.

Definition calm (p : tpc) : bool :=
  match p with TCall (CExit Cancelled _) _ => false | _ => inside p end.

Record I7 (s : state) : Prop := {
  m_start : tp s = TStart -> mask s = false /\ asy (bits s) = false;
  m_mask : lvl s = Main -> userish (tp s) = true -> en (bits s) = true -> mask s = false;
  m_async : lvl s = Main -> calm (tp s) = true -> tcb_async_cancelled (bits s) = true ->
            sg s <> None \/ coming s }.

Lemma coming_other : forall s t p s', coming s -> pend s' = pend s -> loc s' = setf (loc s) t p ->
  loc s t <> LSend -> coming s'.
Proof.
  intros s t p s' [H|(u & U & H)] P Q N.
  - left. congruence.
  - right. exists u. split; [exact U|]. rewrite Q, setf_other; [exact H|]. intros ->. contradiction.
Qed.

Lemma coming_wake : forall s s', coming s -> pend s' = pend s -> loc s' = wake_with wake (loc s) ->
  coming s'.
Proof.
  intros s s' [H|(u & U & H)] P Q; [left; congruence|].
  right. exists u. split; [exact U|]. rewrite Q. unfold wake_with. rewrite H. reflexivity.
Qed.

Lemma coming_same : forall s s', coming s -> pend s' = pend s -> loc s' = loc s -> coming s'.
Proof. intros s s' [H|(u & U & H)] P Q; [left; congruence|]. right. exists u. rewrite Q. auto. Qed.

(** the handler returns without cancelling only if the thread is already ending *)
Lemma handler_returns : forall c b lv tpx,
  cb_eqb c (set_cng c) || exi c = true -> agree c b -> exi b = negb (is_main lv) ->
  (cng b = true -> lv = Main -> exists v, tpx = TExit Cancelled v \/ tpx = TSet Cancelled v) ->
  lv = Main -> inside tpx = true -> False.
Proof.
  intros c b lv tpx H (_ & _ & G & X & _) CE CC LM U. subst lv. cbn in CE.
  apply orb_true_iff in H as [H|H]; [|congruence].
  apply cb_eqb_true in H. assert (Y : cng c = true) by (rewrite H; reflexivity).
  destruct (CC ltac:(congruence) eq_refl) as [v [->| ->]]; discriminate U.
Qed.

Lemma calm_inside : forall p, calm p = true -> inside p = true.
Proof. intros []; cbn; auto. Qed.

Lemma I7_step : forall t a s s', I1 s -> I6 s -> I7 s -> step t a s = Some s' -> I7 s'.
Proof.
  intros t a s s' Hc H6 [A B C] H.
  pose proof (c_lvl _ Hc) as L. pose proof (c_sg _ Hc) as S. pose proof (c_old _ Hc) as O.
  pose proof (c_exi _ Hc) as CE. pose proof (c_cng _ Hc) as CC. pose proof (n_mask _ H6) as M. clear Hc H6.
  cases s H.
  all: constructor; cbn in *; auto; try discriminate.
  all: try (intros _ _ _; left; discriminate).
  all: try (intros LM Q1 Q2; unfold tcb_async_cancelled in Q2; eqs; cbn in *; congruence).
  all: try (intros LM Q1 Q2; destruct (C LM Q1 Q2) as [X|X]; [left; exact X|right];
            first [eapply coming_other; [exact X|reflexivity|reflexivity|cbn; congruence]
                  | eapply coming_same; [exact X|reflexivity|reflexivity]]; fail).
  all: try (intros LM Q1 Q2; right; left; reflexivity).
  all: try (intros LM Q1 Q2; right; right; exists t; cbn; rewrite setf_same;
            split; [apply Z.eqb_neq; assumption|reflexivity]).
  - intros LM Q1 _. exfalso. apply calm_inside in Q1.
    exact (handler_returns _ _ _ _ Heqb1 (proj1 S) CE CC LM Q1).
  - intros LM Q1 _. exfalso. apply calm_inside in Q1.
    exact (handler_returns _ _ _ _ Heqb1 (proj1 S) CE CC LM Q1).
  - intros _ _ _. apply A. reflexivity.
  - intros _ _ Q. unfold tcb_async_cancelled in Q. eqs. cbn in *. destruct (A eq_refl). congruence.
  - congruence.
  - congruence.
  - intros _ _ Q. unfold tcb_async_cancelled in Q. eqs. cbn in *.
    match goal with X : en old && asy old = false |- _ => rewrite andb_false_iff in X; intuition congruence end.
  - intros _ _ Q. rewrite Q. reflexivity.
  - intros _ Q _. destruct tpx; discriminate.
Qed.

(** ** Blocked system calls *)
Record I8 (s : state) : Prop := {
  b_load : forall o, tp s = TLoaded o \/ tp s = TRange o -> lvl s = Main ->
    tcb_cancelled (bits s) = true -> trg o = true \/ sg s <> None \/ coming s;
  b_kern : tp s = TKernel -> lvl s = Main -> tcb_cancelled (bits s) = true -> coming s }.

Lemma I8_step : forall t a s s', I1 s -> I8 s -> guarded no_gap step t a s = Some s' -> I8 s'.
Proof.
  intros t a s s' Hc [A B] H. unfold guarded, no_gap in H.
  pose proof (c_lvl _ Hc) as L. pose proof (c_sg _ Hc) as S. pose proof (c_old _ Hc) as O.
  pose proof (c_exi _ Hc) as CE. pose proof (c_cng _ Hc) as CC. clear Hc.
  cases s H.
  all: constructor; cbn in *; auto; try discriminate.
  all: try (intros ? [Q|Q]; discriminate).
  all: try (intros ? _ _ _; right; left; discriminate).
  all: try (intros ? Q LM _; exfalso;
            refine (handler_returns _ _ _ _ Heqb1 (proj1 S) CE CC LM _); destruct Q as [-> | ->]; reflexivity).
  all: try (intros ? [Q|Q]; [discriminate|injection Q as <-]; intros LM Q2;
            destruct (A _ (or_introl eq_refl) LM Q2) as [X|[X|X]]; [left; exact X|right; left; exact X|];
            right; right; eapply coming_same; [exact X|reflexivity|reflexivity]).
  all: try (intros ? Q LM Q2; destruct (A _ Q LM Q2) as [X|[X|X]];
            [left; exact X|right; left; exact X|right; right];
            first [eapply coming_other; [exact X|reflexivity|reflexivity|cbn; congruence]
                  | eapply coming_same; [exact X|reflexivity|reflexivity]]; fail).
  all: try (intros Q LM Q2; pose proof (B Q LM Q2) as X;
            first [eapply coming_other; [exact X|reflexivity|reflexivity|cbn; congruence]
                  | eapply coming_same; [exact X|reflexivity|reflexivity]]; fail).
  all: try (intros ? _ _ _; right; right; right; exists t; cbn; rewrite setf_same;
            split; [apply Z.eqb_neq; assumption|reflexivity]).
  all: try (intros _ _ _; right; exists t; cbn; rewrite setf_same;
            split; [apply Z.eqb_neq; assumption|reflexivity]).
  all: try (intros ? _ _ _; right; right; left; reflexivity).
  all: try (intros _ _ _; left; reflexivity).
  all: try (intros ? Q LM Q2; unfold tcb_cancelled in Q2; eqs; cbn in *; congruence).
  all: try (intros Q LM Q2; unfold tcb_cancelled in Q2; eqs; cbn in *; congruence).
  - intros _ LM Q. destruct (A _ (or_intror eq_refl) LM Q) as [X|[X|X]].
    + unfold tcb_cancelled in *. eqs. destruct O as (O1 & _). rewrite X, O1, H in Heqb1. discriminate.
    + elim X; reflexivity.
    + eapply coming_same; [exact X|reflexivity|reflexivity].
  - intros ? Q. destruct tpx; try discriminate. destruct Q; discriminate.
  - intros Q. destruct tpx; discriminate.
  - intros ? [Q|Q]; [injection Q as <-|discriminate]. intros _ Q. unfold tcb_cancelled in Q. eqs. auto.
  - intros. exfalso.
    rewrite orb_false_r in Heqb1.
    congruence.
Qed.

(** ** Termination handlers that keep to the rule *)
Record I9 (s : state) : Prop := {
  p_tp : lvl s <> Main ->
    match tp s with
    | TExit _ _ | TCall (CType true) _ | TCall (CState true) _ | TCall (CExit _ _) _ | TCall CSelf _ => False
    | TLoaded _ | TRange _ | TKernel | TEnd _ | TChk _ => en (bits s) = false
    | _ => True
    end;
  p_dead : tp s = TDead -> did s = true }.

Lemma I9_step : forall t a s s', I1 s -> I4 s -> I9 s -> guarded polite step t a s = Some s' -> I9 s'.
Proof.
  intros t a s s' Hc H4 [A B] H. unfold guarded, polite in H.
  pose proof (c_lvl _ Hc) as L. pose proof (c_sg _ Hc) as S. pose proof (c_old _ Hc) as O.
  pose proof (c_exi _ Hc) as CE. pose proof (d_wake _ H4) as DW. clear Hc H4.
  cases s H.
  all: constructor; cbn in *; auto; try discriminate.
  all: try (intros NN; elim NN; reflexivity).
  all: try congruence.
  all: intros NN; try (elim (A ltac:(discriminate)); fail).
  all: unfold tcb_async_cancelled, tcb_cancelled in *.
  all: try (destruct a0; [exact (A NN)|]).
  all: try (destruct e; [exact (A NN)|]).
  all: try (apply orb_false_iff in Heqb1 as [_ Heqb1]; unfold agree in *; intuition congruence).
  all: try (eqs; cbn in *; specialize (A NN); unfold agree in *; intuition congruence).
  all: rewrite orb_false_r in Heqb0; eqs; congruence.
Qed.

