(** Proofs about the end of threads. *)
From Verif Require Import Texit_Model Texit_Spec.
Open Scope Z_scope.

Lemma cb_eqb_true : forall x y, cb_eqb x y = true -> x = y.
Proof.
  intros [] []; unfold cb_eqb; cbn. rewrite !andb_true_iff, !Bool.eqb_true_iff.
  intros ((((-> & ->) & ->) & ->) & ->). reflexivity.
Qed.

Lemma cb_eqb_refl : forall x, cb_eqb x x = true.
Proof. intros []; unfold cb_eqb; cbn. rewrite !Bool.eqb_reflx. reflexivity. Qed.

(** ** All the cases of a step *)
Ltac split_match H :=
  match type of H with
  | context [match ?x with _ => _ end] =>
      lazymatch x with
      | context [match _ with _ => _ end] => fail
      | _ => destruct x eqn:?
      end
  end.

Ltac eqs :=
  repeat match goal with
  | E : cb_eqb _ _ = true |- _ => apply cb_eqb_true in E
  | E : _ && _ = true |- _ => apply andb_true_iff in E as [? ?]
  | E : negb _ = true |- _ => apply negb_true_iff in E
  | E : negb _ = false |- _ => apply negb_false_iff in E
  end.

Ltac cases s H :=
  destruct s as [b p m j d r x tl cl tpx sgx lv lo lg];
  unfold step, deliver, target_step, user_step, other_step, handler_step, call_step, call_same,
    call_done, call_new, do_cancel in H;
  cbn in H;
  repeat (split_match H; try discriminate H);
  injection H as <-; cbn in *; subst; eqs; subst; try discriminate.

(** ** Control *)
Definition agree (old b : cb) : Prop :=
  en old = en b /\ asy old = asy b /\ cng old = cng b /\ exi old = exi b /\
  (trg old = true -> trg b = true).

Definition is_main (l : level) : bool := match l with Main => true | _ => false end.

Record I1 (s : state) : Prop := {
  c_exi : exi (bits s) = negb (is_main (lvl s));
  c_lvl : match tp s with
          | TStart | TSet _ _ => lvl s = Main
          | TTls => lvl s = InTls
          | TCln => lvl s = InCln
          | TStore | TDid | TWake => lvl s = KeyLoop
          | TDead => lvl s <> Main
          | _ => True
          end;
  c_old : match tp s with TCall _ o | TLoaded o | TRange o => agree o (bits s) | _ => True end;
  c_sg : match sg s with
         | Some o => agree o (bits s) /\ tp s <> TDead /\ tp s <> TKernel
         | None => True
         end;
  c_cng : cng (bits s) = true -> lvl s = Main ->
          exists v, tp s = TExit Cancelled v \/ tp s = TSet Cancelled v }.

Lemma agree_refl : forall b, agree b b.
Proof. intros b; unfold agree; auto. Qed.

Lemma I1_step : forall t a s s', I1 s -> step t a s = Some s' -> I1 s'.
Proof.
  intros t a s s' [A B C D E] H. cases s H.
  all: constructor; cbn in *; unfold agree in *;
    try (intuition (try congruence); fail).
  all: try (intros X Y; try (eexists; left; reflexivity)).
  all: try (destruct (E ltac:(intuition congruence) ltac:(congruence)) as [v1 [Q|Q]];
            first [discriminate | injection Q as -> ->; eauto | injection Q as ->; eauto]).
  all: try (destruct lv; cbn in *; congruence).
  all: try (destruct tpx; cbn in *; intuition congruence).
  all: destruct sgx; cbn in *; intuition congruence.
Qed.


(** ** Events *)
Lemma step_log : forall t a s s', step t a s = Some s' ->
  log s' = log s \/ exists e, log s' = e :: log s.
Proof. intros t a s s' H. cases s H. all: eauto. Qed.

(** ** Handlers *)
Definition I2 (s : state) : Prop := outstanding (log s) = Some (cln s, tls s).

Lemma I2_step : forall t a s s', I2 s -> step t a s = Some s' -> I2 s'.
Proof.
  intros t a s s' A H. unfold I2 in *. cases s H.
  all: rewrite ?A; cbn; rewrite ?Z.eqb_refl; cbn; try reflexivity; try assumption.
Qed.

Definition fresh (e : event) : bool := negb (registers e).

Lemma runs_cons : forall e l, runs (e :: l) =
  runs l ++ match e with ERunTls h => [Dtor h] | ERunCln h => [Handler h] | _ => [] end.
Proof. intros e l. unfold runs. cbn. rewrite flat_map_app. cbn. rewrite app_nil_r. reflexivity. Qed.

Arguments runs : simpl never.

Definition stage (s : state) (l2 l3 : list event) : Prop :=
  forallb fresh l2 = true ->
  exists c d, outstanding l3 = Some (c, d) /\
    match lvl s with
    | Main => False
    | InTls => runs l2 ++ map Dtor (tls s) = map Dtor d /\ cln s = c
    | InCln => runs l2 ++ map Handler (cln s) = map Dtor d ++ map Handler c
    | _ => runs l2 = map Dtor d ++ map Handler c
    end.

Record I3 (s : state) : Prop := {
  x_main : lvl s = Main -> forall k v, ~ In (EExit k v) (log s);
  x_some : lvl s <> Main -> exists a k c, log s = a ++ EExit k (xv s) :: c;
  x_all : forall l2 k v l3, log s = l2 ++ EExit k v :: l3 -> v = xv s /\ stage s l2 l3 }.

Lemma some_cons : forall e l (x : Z), (exists a k c, l = a ++ EExit k x :: c) ->
  exists a k c, e :: l = a ++ EExit k x :: c.
Proof. intros e l x (a & k & c & ->). exists (e :: a), k, c. reflexivity. Qed.

Ltac uncons Q :=
  lazymatch type of Q with
  | _ :: _ = ?l2 ++ _ :: _ =>
      let e0 := fresh "e0" in let q := fresh "q" in
      destruct l2 as [|e0 l2]; cbn in Q; [try discriminate Q | injection Q as q Q; subst e0]
  | _ => idtac
  end.

Lemma I3_step : forall t a s s', I1 s -> I2 s -> I3 s -> step t a s = Some s' -> I3 s'.
Proof.
  intros t a s s' Hc H2 [A B C] H. pose proof (c_lvl _ Hc) as L. clear Hc. cases s H.
  all: constructor; cbn in *;
    [ intros M k0 v0 [K|K]; [first [discriminate K | congruence] | exact (A ltac:(congruence) _ _ K)]
      || (intros M k0 v0 K; first [discriminate M | exact (A ltac:(congruence) _ _ K)])
    | intros M; try (exfalso; apply M; assumption); try congruence;
      first [exact (B ltac:(congruence)) | apply some_cons; exact (B ltac:(congruence)) | idtac]
    | intros l2 k0 v0 l3 Q; uncons Q ].
  all: unfold stage in *; cbn in *.
  all: try exact (C _ _ _ _ Q).
  all: try (destruct (C _ _ _ _ Q) as [Y S]; split; [exact Y|]; intros N; cbn in N; try discriminate N;
            destruct (S N) as (c0 & d0 & O & R); exists c0, d0; split; [exact O|];
            rewrite ?runs_cons; cbn; rewrite ?app_nil_r; try exact R).
  all: try (destruct (C _ _ _ _ Q) as [Y _]; split; [exact Y | discriminate]).
  - exists [], k, lg. reflexivity.
  - injection Q as -> -> <-. split; [reflexivity|]. intros _. exists cl, tl. split; [exact H2|].
    split; reflexivity.
  - exfalso. apply (A eq_refl k0 v0). rewrite Q. apply in_elt.
  - destruct R as [R ->]. cbn in R. rewrite app_nil_r in R. rewrite R. reflexivity.
  - rewrite <- app_assoc. exact R.
  - cbn in R. rewrite app_nil_r in R. exact R.
  - rewrite <- app_assoc. exact R.
Qed.

(** ** The end is published after everything else *)
Record I4 (s : state) : Prop := {
  d_did : did s = true -> (tp s = TWake \/ tp s = TDead) /\ rv s = xv s /\ lvl s = KeyLoop;
  d_in : did s = false -> ~ In EDid (log s);
  d_store : tp s = TDid \/ tp s = TWake -> rv s = xv s;
  d_wake : tp s = TWake -> did s = true;
  d_got : forall t, loc s t = LGot -> did s = true;
  d_sleep : forall t, loc s t = LSleep -> did s = false \/ tp s = TWake;
  d_after : forall l1 r, log s = l1 ++ EDid :: r ->
    forallb external l1 = true /\ did s = true /\
    exists b k c, r = b ++ EExit k (xv s) :: c }.


Lemma setf_or : forall (f : Z -> lpc) t p u q, setf f t p u = q -> p = q \/ f u = q.
Proof. intros f t p u q H. unfold setf in H. destruct (u =? t); auto. Qed.

Lemma wake_sleep : forall f t, wake_with wake f t <> LSleep.
Proof. intros f t. unfold wake_with, wake. destruct (f t); discriminate. Qed.

Lemma wake_got : forall f t, wake_with wake f t = LGot -> f t = LGot.
Proof. intros f t. unfold wake_with, wake. destruct (f t); congruence. Qed.

Lemma I4_step : forall t a s s', I1 s -> I3 s -> I4 s -> step t a s = Some s' -> I4 s'.
Proof.
  intros t a s s' Hc H3 [A B C D E F G] H.
  pose proof (c_lvl _ Hc) as L. pose proof (c_sg _ Hc) as S. pose proof (x_some _ H3) as X.
  pose proof (c_exi _ Hc) as CE. clear Hc H3.
  destruct (did s) eqn:DD.
  - destruct (A eq_refl) as (TT & RR & LV). clear A B C D E.
    assert (TT' : In (tp s) [TWake; TDead]) by (cbn; intuition).
    clear TT. cases s H.
    all: try (destruct TT' as [TT|[TT|[]]]; discriminate).
    all: try (apply orb_false_iff in Heqb1 as [_ Heqb1]; destruct S as ((_ & _ & _ & S & _) & _); congruence).
    all: try (rewrite CE, orb_true_r in Heqb1; discriminate).
    all: constructor; cbn in *; auto.
    all: try discriminate.
    all: try (destruct TT' as [TT|[TT|[]]]; subst; auto; fail).
    all: try (intros t0 Q; first [apply setf_or in Q; destruct Q as [Q|Q]; [discriminate|]; exact (F _ Q)
                                 | elim (wake_sleep _ _ Q)]).
    all: try (intros l1 r0 Q; uncons Q; destruct (G _ _ Q) as (G1 & G2 & G3); auto; fail).
  - clear A. assert (NW : tp s <> TWake) by (intros Q; discriminate (D Q)).
    assert (NG : forall u, loc s u <> LGot) by (intros u Q; discriminate (E u Q)). clear D E F.
    assert (Gn : forall l1 r, log s = l1 ++ EDid :: r -> False).
    { intros l1 r0 Q. apply (B eq_refl). rewrite Q. apply in_elt. }
    clear G. cases s H.
    all: constructor; cbn in *; auto; try discriminate; try congruence.
    all: try (intros t0 Q; first [elim (NG _ Q) | apply setf_or in Q; destruct Q as [Q|Q]; [discriminate|elim (NG _ Q)]]).
    all: try (intros _ [Q|Q]; [discriminate|exact (B eq_refl Q)]).
    all: try (intros l1 r0 Q; uncons Q; elim (Gn _ _ Q)).
    all: try (intros [Q|Q]; discriminate).
    intros l1 r0 Q. destruct l1 as [|e0 l1]; cbn in Q.
    + injection Q as <-. split; [reflexivity|]. split; [reflexivity|]. apply X. discriminate.
    + injection Q as _ Q. elim (Gn _ _ Q).
Qed.

