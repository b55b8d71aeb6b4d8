(** Proofs about pthread mutexes: one inductive invariant of the transition system. *)
From Verif Require Import Mutex_Model Mutex_Spec.
Open Scope Z_scope.

Definition own (th : thread) : Prop :=
  0 < depth th \/
  match at_ th with LockTaken | TryTaken | UnlockDec | UnlockXchg => True | _ => False end.

Definition rexp (th : thread) : Z :=
  match at_ th with
  | LockTaken | TryTaken | UnlockXchg => 0
  | UnlockDec => depth th + 1
  | _ => depth th
  end.

Definition wellformed (e : Z) : Prop := e = 0 \/ exists o b, valid_tid o = true /\ e = enc o b.

Definition knows (t e d : Z) : Prop :=
  wellformed e /\ (0 < d -> e <> 0 -> Z.land e ownerMask = t) /\
  (e <> 0 -> Z.land e ownerMask = t -> 0 < d).

Definition tinv (ty : mtype) (t : Z) (th : thread) : Prop :=
  0 <= depth th < 4294967296 /\ (ty <> Recursive -> depth th <= 1) /\
  match at_ th with
  | LockLoop _ e => knows t e (depth th) /\ depth th < 4294967295
  | TryTest e => knows t e (depth th) /\ depth th < 4294967295 /\ (0 < depth th -> e <> 0)
  | TryLoad => depth th < 4294967295
  | LockSleep _ => depth th = 0
  | LockTaken | TryTaken => depth th = 0
  | UnlockXchg => depth th = 0
  | UnlockDec => depth th < 4294967295 /\ (ty <> Recursive -> depth th = 0)
  | Dead _ => False
  | Ready => True
  | UnlockWake => depth th = 0
  end.

Record inv (ty : mtype) (s : state) : Prop := {
  i_thread : forall t, tinv ty t (threads s t);
  i_own : forall t, own (threads s t) ->
          valid_tid t = true /\ (exists b, word s = enc t b) /\
          recursion s = rexp (threads s t);
  i_free : (word s = 0 /\ recursion s = 0) \/ exists o, own (threads s o);
  i_sleep : forall t b, at_ (threads s t) = LockSleep b ->
            Z.land (word s) waitersBit <> 0 \/ exists u, at_ (threads s u) = UnlockWake }.

Lemma inv_init : forall ty, inv ty init.
Proof.
  intros ty. constructor; cbn.
  - intros t. unfold tinv; cbn. repeat split; lia.
  - intros t [H|H]; cbn in H; [lia|contradiction].
  - left; split; reflexivity.
  - discriminate.
Qed.

Lemma inv_unique : forall ty s t u, inv ty s -> own (threads s t) -> own (threads s u) -> t = u.
Proof.
  intros ty s t u I Ht Hu.
  destruct (i_own _ _ I t Ht) as (Vt & (b & Eb) & _).
  destruct (i_own _ _ I u Hu) as (Vu & (c & Ec) & _).
  rewrite <- (enc_owner t b Vt), <- (enc_owner u c Vu), <- Eb, <- Ec. reflexivity.
Qed.

Lemma inv_word : forall ty s, inv ty s ->
  (word s = 0 /\ recursion s = 0 /\ forall t, ~ own (threads s t)) \/
  exists o b, valid_tid o = true /\ own (threads s o) /\ word s = enc o b /\
              forall t, own (threads s t) -> t = o.
Proof.
  intros ty s I. destruct (i_free _ _ I) as [[E R]|[o O]].
  - left. repeat split; try assumption. intros t Ht.
    destruct (i_own _ _ I t Ht) as (V & (b & Eb) & _). rewrite E in Eb.
    exact (enc_nz t b V (eq_sym Eb)).
  - right. destruct (i_own _ _ I o O) as (V & (b & Eb) & _).
    exists o, b. repeat split; try assumption. intros t Ht. exact (inv_unique _ _ _ _ I Ht O).
Qed.

Lemma inv_upd : forall ty s t w r th', inv ty s -> valid_tid t = true ->
  at_ (threads s t) <> UnlockWake ->
  tinv ty t th' ->
  (forall u, u <> t -> own (threads s u) -> (exists b, w = enc u b) /\ r = recursion s) ->
  (own th' -> (exists b, w = enc t b) /\ r = rexp th') ->
  ((w = 0 /\ r = 0) \/ own th' \/ exists u, u <> t /\ own (threads s u)) ->
  (Z.land (word s) waitersBit <> 0 -> Z.land w waitersBit <> 0 \/ at_ th' = UnlockWake) ->
  (forall b, at_ th' = LockSleep b -> Z.land w waitersBit <> 0) ->
  inv ty {| word := w; recursion := r; threads := setf (threads s) t th' |}.
Proof.
  intros ty s t w r th' I V Nw Ht Hoth Hme Hfree Hsl Hs.
  constructor; cbn [word recursion threads].
  - intros u. unfold setf. destruct (Z.eqb_spec u t) as [->|N]; [exact Ht|apply (i_thread _ _ I)].
  - intros u. unfold setf. destruct (Z.eqb_spec u t) as [->|N]; intros O.
    + destruct (Hme O) as [A B]. repeat split; assumption.
    + destruct (Hoth u N O) as [A B]. destruct (i_own _ _ I u O) as (Vu & _ & R).
      repeat split; try assumption. rewrite B. exact R.
  - destruct Hfree as [A|[A|(u & N & A)]].
    + left; exact A.
    + right. exists t. rewrite setf_same. exact A.
    + right. exists u. rewrite setf_other by exact N. exact A.
  - intros u b. unfold setf at 1. destruct (Z.eqb_spec u t) as [->|N]; intros Hu.
    + left. exact (Hs b Hu).
    + destruct (i_sleep _ _ I u b Hu) as [B|(v & Hv)].
      * destruct (Hsl B) as [C|C]; [left; exact C|right]. exists t. rewrite setf_same. exact C.
      * right. exists v. rewrite setf_other; [exact Hv|]. intros ->. contradiction.
Qed.

Lemma inv_move : forall ty s t th', inv ty s -> valid_tid t = true ->
  at_ (threads s t) <> UnlockWake -> tinv ty t th' ->
  (own th' -> own (threads s t) /\ rexp th' = rexp (threads s t)) ->
  (own (threads s t) -> own th') ->
  (forall b, at_ th' = LockSleep b -> Z.land (word s) waitersBit <> 0) ->
  inv ty {| word := word s; recursion := recursion s; threads := setf (threads s) t th' |}.
Proof.
  intros ty s t th' I V Nw Ht H1 H2 Hs.
  apply inv_upd; try assumption.
  - intros u N O. destruct (i_own _ _ I u O) as (_ & B & _). split; [exact B|reflexivity].
  - intros O. destruct (H1 O) as [A B]. destruct (i_own _ _ I t A) as (_ & Eb & R).
    split; [exact Eb|]. rewrite B. exact R.
  - destruct (i_free _ _ I) as [F|[o O]]; [left; exact F|].
    destruct (Z.eq_dec o t) as [->|N]; [right; left; exact (H2 O)|right; right; exists o; auto].
  - intros B; left; exact B.
Qed.

Lemma inv_acquire : forall ty s t b r th', inv ty s -> valid_tid t = true ->
  at_ (threads s t) <> UnlockWake -> tinv ty t th' -> word s = 0 ->
  own th' -> r = rexp th' -> (forall c, at_ th' <> LockSleep c) ->
  inv ty {| word := enc t b; recursion := r; threads := setf (threads s) t th' |}.
Proof.
  intros ty s t b0 r th' I V Nw Ht W O R Ns.
  destruct (inv_word _ _ I) as [(_ & _ & No)|(o & b & Vo & _ & E & _)].
  - apply inv_upd; try assumption.
    + intros u N Ou. elim (No u Ou).
    + intros _. split; [exists b0; reflexivity|exact R].
    + right; left; exact O.
    + rewrite W. intros B; elim B; reflexivity.
    + intros c E; elim (Ns c E).
  - rewrite W in E. elim (enc_nz o b Vo (eq_sym E)).
Qed.

Lemma inv_owner : forall ty s t r th', inv ty s -> valid_tid t = true ->
  at_ (threads s t) <> UnlockWake -> tinv ty t th' ->
  own (threads s t) -> own th' -> r = rexp th' -> (forall c, at_ th' <> LockSleep c) ->
  inv ty {| word := word s; recursion := r; threads := setf (threads s) t th' |}.
Proof.
  intros ty s t r th' I V Nw Ht O O' R Ns.
  apply inv_upd; try assumption.
  - intros u N Ou. elim N. exact (inv_unique _ _ _ _ I Ou O).
  - intros _. destruct (i_own _ _ I t O) as (_ & B & _). split; assumption.
  - right; left; exact O'.
  - intros B; left; exact B.
  - intros c E; elim (Ns c E).
Qed.

Lemma inv_release : forall ty s t th', inv ty s -> valid_tid t = true ->
  at_ (threads s t) = UnlockXchg -> tinv ty t th' -> ~ own th' ->
  (Z.land (word s) waitersBit <> 0 -> at_ th' = UnlockWake) -> (forall c, at_ th' <> LockSleep c) ->
  inv ty {| word := 0; recursion := recursion s; threads := setf (threads s) t th' |}.
Proof.
  intros ty s t th' I V P Ht No Hw Ns.
  assert (O : own (threads s t)) by (right; rewrite P; exact Logic.I).
  apply inv_upd; try assumption.
  - rewrite P; discriminate.
  - intros u N Ou. elim N. exact (inv_unique _ _ _ _ I Ou O).
  - intros O'. contradiction.
  - left. split; [reflexivity|]. destruct (i_own _ _ I t O) as (_ & _ & R).
    rewrite R. unfold rexp. rewrite P. reflexivity.
  - intros B; right; exact (Hw B).
  - intros c E; elim (Ns c E).
Qed.

Lemma word_wf : forall ty s, inv ty s -> wellformed (word s).
Proof.
  intros ty s I. destruct (inv_word _ _ I) as [(E & _)|(o & b & V & _ & E & _)].
  - left; exact E.
  - right; exists o, b; auto.
Qed.

Lemma word_knows : forall ty s t, inv ty s ->
  (own (threads s t) -> 0 < depth (threads s t)) ->
  knows t (word s) (depth (threads s t)).
Proof.
  intros ty s t I Od. split; [exact (word_wf _ _ I)|].
  destruct (inv_word _ _ I) as [(E & _ & No)|(o & b & V & O & E & U)].
  - split; [intros D|intros N]; [elim (No t); left; exact D|contradiction].
  - split.
    + intros D _. rewrite E, enc_owner by exact V. symmetry. apply U. left; exact D.
    + intros _ A. rewrite E, enc_owner in A by exact V. subst o. exact (Od O).
Qed.

Lemma knows0 : forall t d, knows t 0 d.
Proof. intros; split; [left; reflexivity|]. split; intros; lia. Qed.

Lemma bit_false : forall e, (negb (Z.land e waitersBit =? 0)) = true -> Z.land e waitersBit <> 0.
Proof. intros e H. apply negb_true_iff, Z.eqb_neq in H. exact H. Qed.

Ltac th_simpl := cbn [at_ depth] in *.

(** a thread at a place that owns nothing but by [depth] goes on at another such place *)
Lemma plain_move : forall ty s t th', inv ty s -> valid_tid t = true ->
  at_ (threads s t) <> UnlockWake -> tinv ty t th' -> depth th' = depth (threads s t) ->
  (own (threads s t) -> 0 < depth (threads s t)) -> rexp (threads s t) = depth (threads s t) ->
  (own th' -> 0 < depth th') -> rexp th' = depth th' ->
  (forall b, at_ th' = LockSleep b -> Z.land (word s) waitersBit <> 0) ->
  inv ty {| word := word s; recursion := recursion s; threads := setf (threads s) t th' |}.
Proof.
  intros ty s t th' I V Nw Ht Ed O1 R1 O2 R2 Hs. apply inv_move; try assumption.
  - intros O. specialize (O2 O). split; [left; lia|]. rewrite R2, R1. exact Ed.
  - intros O. specialize (O1 O). left; lia.
Qed.

Ltac plain P := apply plain_move; try assumption; th_simpl;
  try (intros [A|A]; th_simpl; [exact A|try rewrite P in A; contradiction]);
  try (unfold rexp; try rewrite P; reflexivity); try discriminate; try reflexivity.

Lemma lock_turn_inv : forall ty t b e s s', inv ty s -> valid_tid t = true ->
  at_ (threads s t) = LockLoop b e -> lock_turn ty t b e s = Some s' -> inv ty s'.
Proof.
  intros ty t bb e s s' I V P H.
  pose proof (i_thread _ _ I t) as T. unfold tinv in T. rewrite P in T.
  destruct T as (D & D1 & ((Wf & K1 & K2) & D2)).
  assert (Od : own (threads s t) -> 0 < depth (threads s t)).
  { intros [A|A]; [exact A|rewrite P in A; contradiction]. }
  assert (NW : at_ (threads s t) <> UnlockWake) by (rewrite P; discriminate).
  unfold lock_turn, go, ret in H.
  destruct (Z.eqb_spec e 0) as [E0|E0].
  - destruct (Z.eqb_spec (word s) 0) as [W0|W0]; injection H as <-.
    + destruct (inv_word _ _ I) as [(_ & R & No)|(o & b & Vo & _ & E & _)];
        [|rewrite W0 in E; elim (enc_nz o b Vo (eq_sym E))].
      assert (Dz : depth (threads s t) = 0).
      { assert (~ 0 < depth (threads s t)) by (intros A; apply (No t); left; exact A). lia. }
      replace (Z.lor t waitersBit) with (enc t true)
        by (change (Z.lor t waitersBit) with (Z.lor (enc t false) waitersBit);
            symmetry; apply enc_lor; exact V).
      apply inv_acquire; try assumption; th_simpl.
      * unfold tinv; th_simpl. repeat split; lia.
      * right; exact Logic.I.
      * discriminate.
    + plain P. unfold tinv; th_simpl. split; [lia|]. split; [exact D1|]. split; [|exact D2].
      exact (word_knows _ _ _ I Od).
  - destruct (Z.eqb_spec (Z.land e ownerMask) t) as [Ow|Ow].
    + pose proof (K2 E0 Ow) as Dp.
      assert (O : own (threads s t)) by (left; exact Dp).
      assert (EQ : forall r, inv ty {| word := word s; recursion := recursion s;
        threads := setf (threads s) t {| at_ := Ready; depth := depth (threads s t); result := r |} |}).
      { intros r. plain P. unfold tinv; th_simpl. split; [lia|]. split; [exact D1|exact Logic.I]. }
      destruct ty; injection H as <-; try apply EQ.
      apply inv_owner; try assumption; th_simpl.
      * unfold tinv; th_simpl. split; [lia|]. split; [intros A; elim A; reflexivity|exact Logic.I].
      * left; th_simpl; lia.
      * unfold rexp; th_simpl. destruct (i_own _ _ I t O) as (_ & _ & R).
        rewrite R. unfold rexp. rewrite P. unfold u32. apply Z.mod_small. lia.
      * discriminate.
    + assert (Dz : depth (threads s t) = 0).
      { assert (~ 0 < depth (threads s t)) by (intros A; apply Ow; exact (K1 A E0)). lia. }
      destruct (negb (Z.land e waitersBit =? 0)) eqn:B.
      * apply bit_false in B.
        destruct (Z.eqb_spec (word s) e) as [We|We]; injection H as <-.
        -- plain P.
           ++ unfold tinv; th_simpl. split; [lia|]. split; [exact D1|exact Dz].
           ++ intros c _. rewrite We. exact B.
        -- plain P. unfold tinv; th_simpl. split; [lia|]. split; [exact D1|].
           split; [apply knows0|exact D2].
      * destruct (Z.eqb_spec (word s) e) as [We|We]; injection H as <-.
        -- destruct (inv_word _ _ I) as [(Z0 & _)|(o & b & Vo & O & E & U)];
             [elim E0; rewrite <- We; exact Z0|].
           assert (Ed : Z.lor e waitersBit = enc o true).
           { rewrite <- We, E. apply enc_lor; exact Vo. }
           rewrite Ed. apply inv_upd; try assumption; th_simpl.
           ++ unfold tinv; th_simpl. split; [lia|]. split; [exact D1|]. split; [|exact D2].
              split; [right; exists o, true; auto|]. split; [intros; lia|].
              intros _ A. rewrite enc_owner in A by exact Vo. subst o. exact (Od O).
           ++ intros u N Ou. rewrite (U u Ou). split; [exists true; reflexivity|reflexivity].
           ++ intros [A|A]; th_simpl; [lia|contradiction].
           ++ right; right. exists o. split; [|exact O]. intros ->. specialize (Od O). lia.
           ++ intros _. left. rewrite enc_bit by exact Vo. unfold waitersBit; lia.
           ++ discriminate.
        -- plain P. unfold tinv; th_simpl. split; [lia|]. split; [exact D1|]. split; [|exact D2].
           exact (word_knows _ _ _ I Od).
Qed.

Lemma try_turn_inv : forall ty t e s s', inv ty s -> valid_tid t = true ->
  at_ (threads s t) = TryTest e -> try_turn ty t e s = Some s' -> inv ty s'.
Proof.
  intros ty t e s s' I V P H.
  pose proof (i_thread _ _ I t) as T. unfold tinv in T. rewrite P in T.
  destruct T as (D & D1 & ((Wf & K1 & K2) & D2 & _)).
  assert (NW : at_ (threads s t) <> UnlockWake) by (rewrite P; discriminate).
  assert (Fail : forall r, inv ty {| word := word s; recursion := recursion s;
      threads := setf (threads s) t {| at_ := Ready; depth := depth (threads s t); result := r |} |}).
  { intros r. plain P. unfold tinv; th_simpl. split; [lia|]. split; [exact D1|exact Logic.I]. }
  unfold try_turn, go, ret in H.
  destruct (Z.eqb_spec e 0) as [E0|E0].
  - destruct (Z.eqb_spec (word s) 0) as [W0|W0]; injection H as <-; [|apply Fail].
    destruct (inv_word _ _ I) as [(_ & R & No)|(o & b & Vo & _ & E & _)];
      [|rewrite W0 in E; elim (enc_nz o b Vo (eq_sym E))].
    assert (Dz : depth (threads s t) = 0).
    { assert (~ 0 < depth (threads s t)) by (intros A; apply (No t); left; exact A). lia. }
    change t with (enc t false) at 1. apply inv_acquire; try assumption; th_simpl; try discriminate.
    + unfold tinv; th_simpl. repeat split; lia.
    + right; exact Logic.I.
  - destruct (Z.eqb_spec (Z.land e ownerMask) t) as [Ow|Ow]; [|injection H as <-; apply Fail].
    pose proof (K2 E0 Ow) as Dp.
    assert (O : own (threads s t)) by (left; exact Dp).
    destruct ty; injection H as <-; try apply Fail.
    destruct (i_own _ _ I t O) as (_ & _ & R). unfold rexp in R. rewrite P in R.
    apply inv_owner; try assumption; th_simpl; try discriminate.
    + unfold tinv; th_simpl. split; [lia|]. split; [intros A; elim A; reflexivity|exact Logic.I].
    + left; th_simpl; lia.
    + unfold rexp; th_simpl. rewrite R. unfold u32. apply Z.mod_small. lia.
Qed.

Lemma wake_own : forall th, own (wake th) <-> own th.
Proof. intros [p d]. unfold own, wake. destruct p; cbn; tauto. Qed.

Lemma wake_rexp : forall th, rexp (wake th) = rexp th.
Proof. intros [p d]. unfold rexp, wake. destruct p; reflexivity. Qed.

Lemma wake_sleep : forall th b, at_ (wake th) <> LockSleep b.
Proof. intros [p d] b. unfold wake. destruct p; cbn; discriminate. Qed.

Lemma wake_tinv : forall ty t th, tinv ty t th -> tinv ty t (wake th).
Proof.
  intros ty t [p d] (A & B & C). unfold wake, tinv in *. destruct p; cbn in *; auto.
  repeat split; try assumption; try lia. left; reflexivity.
Qed.

Lemma step_inv : forall ty t a s s', inv ty s ->
  guarded client_rule (step ty) t a s = Some s' -> inv ty s'.
Proof.
  intros ty t a s s' I H. unfold guarded in H.
  destruct (client_rule s t a) eqn:C; [|discriminate].
  unfold step in H. destruct (valid_tid t) eqn:V; [|discriminate]. cbn [negb] in H.
  pose proof (i_thread _ _ I t) as T. unfold tinv in T.
  destruct (at_ (threads s t)) as [| tm e | tm | | | e | | | | | d] eqn:P; destruct a;
    try discriminate; cbn [client_rule] in C; destruct T as (D & D1 & T);
    try (destruct tm; discriminate);
    first [assert (NW : at_ (threads s t) <> UnlockWake) by (rewrite P; discriminate)
          |assert (PW : at_ (threads s t) = UnlockWake) by exact P].
  - apply Z.ltb_lt in C. unfold go in H. injection H as <-. plain P.
    unfold tinv; th_simpl. split; [lia|]. split; [exact D1|]. split; [apply knows0|lia].
  - apply Z.ltb_lt in C. unfold go in H. injection H as <-. plain P.
    unfold tinv; th_simpl. split; [lia|]. split; [exact D1|]. split; [apply knows0|lia].
  - apply Z.ltb_lt in C. unfold go in H. injection H as <-. plain P.
    unfold tinv; th_simpl. split; [lia|]. split; [exact D1|lia].
  - (* CallUnlock *)
    apply Z.ltb_lt in C. injection H as <-.
    assert (O : own (threads s t)) by (left; exact C).
    destruct (i_own _ _ I t O) as (_ & _ & R). unfold rexp in R. rewrite P in R.
    apply inv_owner; try assumption; th_simpl; try discriminate.
    + unfold tinv; th_simpl. split; [lia|]. split; [intros A; specialize (D1 A); lia|].
      split; [lia|intros A; specialize (D1 A); lia].
    + right; exact Logic.I.
    + rewrite R. unfold rexp; th_simpl. lia.
  - destruct tm; exact (lock_turn_inv _ _ _ _ _ _ I V P H).
  - (* Expire before the wait *)
    destruct tm; [|discriminate].
    destruct (negb (e =? 0) && negb (Z.land e ownerMask =? t) && negb (Z.land e waitersBit =? 0));
      [|discriminate]. unfold ret in H. injection H as <-. plain P.
    unfold tinv; th_simpl. split; [lia|]. split; [exact D1|exact Logic.I].
  - destruct tm; [|discriminate].
    destruct (negb (e =? 0) && negb (Z.land e ownerMask =? t) && negb (Z.land e waitersBit =? 0));
      [|discriminate]. unfold ret in H. injection H as <-. plain P.
    unfold tinv; th_simpl. split; [lia|]. split; [exact D1|exact Logic.I].
  - (* Spurious *)
    assert (H' : go s t (word s) (recursion s) (LockLoop tm 0) = Some s') by (destruct tm; exact H).
    unfold go in H'. injection H' as <-. plain P.
    unfold tinv; th_simpl. split; [lia|]. split; [exact D1|]. split; [apply knows0|lia].
  - destruct tm; [|discriminate]. unfold ret in H. injection H as <-. plain P.
    unfold tinv; th_simpl. split; [lia|]. split; [exact D1|exact Logic.I].
  - (* LockTaken *)
    assert (O : own (threads s t)) by (right; rewrite P; exact Logic.I).
    destruct (i_own _ _ I t O) as (_ & _ & R). unfold rexp in R. rewrite P in R.
    rewrite R in H. cbn [Z.eqb] in H. unfold ret in H. injection H as <-.
    apply inv_owner; try assumption; th_simpl; try discriminate.
    + unfold tinv; th_simpl. split; [lia|]. split; [lia|exact Logic.I].
    + left; th_simpl; lia.
    + unfold rexp; th_simpl. lia.
  - (* TryLoad *)
    unfold go in H. injection H as <-. plain P.
    unfold tinv; th_simpl. split; [lia|]. split; [exact D1|]. split; [|split; [exact T|]].
    + apply (word_knows _ _ _ I). intros [A|A]; [exact A|rewrite P in A; contradiction].
    + intros A. destruct (i_own _ _ I t (or_introl A)) as (_ & (b & Eb) & _).
      rewrite Eb. exact (enc_nz t b V).
  - exact (try_turn_inv _ _ _ _ _ I V P H).
  - (* TryTaken *)
    assert (O : own (threads s t)) by (right; rewrite P; exact Logic.I).
    destruct (i_own _ _ I t O) as (_ & _ & R). unfold rexp in R. rewrite P in R.
    rewrite R in H. cbn [Z.eqb] in H. unfold ret in H. injection H as <-.
    apply inv_owner; try assumption; th_simpl; try discriminate.
    + unfold tinv; th_simpl. split; [lia|]. split; [lia|exact Logic.I].
    + left; th_simpl; lia.
    + unfold rexp; th_simpl. lia.
  - (* UnlockDec *)
    destruct T as [T T1].
    assert (O : own (threads s t)) by (right; rewrite P; exact Logic.I).
    destruct (i_own _ _ I t O) as (_ & _ & R). unfold rexp in R. rewrite P in R.
    destruct (Z.eqb_spec (recursion s) 0) as [R0|R0]; [lia|].
    unfold go, ret in H.
    destruct (Z.eqb_spec (recursion s - 1) 0) as [R1|R1]; injection H as <-;
      apply inv_owner; try assumption; th_simpl; try discriminate.
    + unfold tinv; th_simpl. split; [lia|]. split; [exact D1|lia].
    + right; exact Logic.I.
    + unfold tinv; th_simpl. split; [lia|]. split; [exact D1|exact Logic.I].
    + left; th_simpl; lia.
    + unfold rexp; th_simpl. lia.
  - (* UnlockXchg *)
    assert (O : own (threads s t)) by (right; rewrite P; exact Logic.I).
    destruct (i_own _ _ I t O) as (_ & (b & Eb) & _).
    pose proof (valid_range _ V) as Vr.
    assert (H' : (if b then go s t 0 (recursion s) UnlockWake
                  else ret s t 0 (recursion s) (depth (threads s t)) 0) = Some s').
    { rewrite <- H. unfold unlock_xchg. rewrite Eb, enc_owner, enc_bit by exact V.
      rewrite Z.eqb_refl. cbn [negb].
      destruct (Z.eqb_spec t 0); [lia|]. destruct ty, b; reflexivity. }
    unfold go, ret in H'. destruct b; injection H' as <-;
      apply inv_release; try assumption; th_simpl; try discriminate.
    + unfold tinv; th_simpl. split; [lia|]. split; [exact D1|exact T].
    + intros [A|A]; th_simpl; [lia|contradiction].
    + reflexivity.
    + unfold tinv; th_simpl. split; [lia|]. split; [exact D1|exact Logic.I].
    + intros [A|A]; th_simpl; [lia|contradiction].
    + rewrite Eb. rewrite enc_bit by exact V. intros B; elim B; reflexivity.
  - (* UnlockWake *)
    injection H as <-. constructor; cbn [word recursion threads]; unfold wake_with.
    + intros u. apply wake_tinv. unfold setf. destruct (Z.eqb_spec u t) as [->|N].
      * unfold tinv; th_simpl. split; [lia|]. split; [exact D1|exact Logic.I].
      * apply (i_thread _ _ I).
    + intros u. rewrite wake_own, wake_rexp. unfold setf. destruct (Z.eqb_spec u t) as [->|N].
      * intros [A|A]; th_simpl; [lia|contradiction].
      * apply (i_own _ _ I).
    + destruct (i_free _ _ I) as [F|[o O]]; [left; exact F|right]. exists o. rewrite wake_own.
      rewrite setf_other; [exact O|]. intros ->.
      destruct O as [A|A]; [lia|rewrite P in A; contradiction].
    + intros u b A. elim (wake_sleep _ _ A).
Qed.

Lemma reachable_inv : forall ty s, reachable ty s -> inv ty s.
Proof.
  intros ty s [sched H].
  exact (run_inv _ _ _ _ (fun t a s0 s1 => step_inv ty t a s0 s1) _ _ _ (inv_init ty) H).
Qed.

Lemma testbit_land : forall w, Z.land w waitersBit <> 0 -> Z.testbit w 31 = true.
Proof.
  intros w H. destruct (Z.testbit w 31) eqn:E; [reflexivity|]. elim H.
  apply Z.bits_inj'. intros n Hn. rewrite Z.land_spec, Z.bits_0, bit_pow.
  destruct (Z.eqb_spec n 31) as [->|N]; [rewrite E; reflexivity|].
  rewrite Z.pow2_bits_false by lia. apply andb_false_r.
Qed.
