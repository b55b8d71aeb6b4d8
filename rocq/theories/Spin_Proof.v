From Verif Require Import Base Spin_Model Spin_Spec.
Open Scope Z_scope.

Definition own (s : state) (t : Z) : bool :=
  match at_ s t with
  | Done Lock 0 | Done Trylock 0 | UnlockStore => true
  | UnlockLoad => held_at_unlock t (trace s)
  | Done Unlock _ => false
  | _ => holds t (trace s)
  end.
(** what is known of a thread at each place *)
Definition place (s : state) (t : Z) : Prop :=
  match at_ s t with
  | LockSpin => holds t (trace s) = false
  | Done Lock r => (r = 0 /\ holds t (trace s) = false) \/ (r = EDEADLK /\ holds t (trace s) = true)
  | Done Trylock r => (r = 0 /\ holds t (trace s) = false) \/ r = EBUSY
  | UnlockLoad => holds t (trace s) = false
  | UnlockStore => holds t (trace s) = false /\ held_at_unlock t (trace s) = true
  | Done Unlock r => holds t (trace s) = false /\ ((r = 0 /\ held_at_unlock t (trace s) = true) \/ (r = EPERM /\ held_at_unlock t (trace s) = false))
  | _ => True
  end.
Definition good (e : event) (r : list event) : Prop :=
  match e with
  | Call _ _ => True
  | Ret t Lock v => (v = 0 /\ holds t r = false) \/ (v = EDEADLK /\ holds t r = true)
  | Ret t Trylock v => (v = 0 /\ holds t r = false) \/ v = EBUSY
  | Ret t Unlock v => (v = 0 /\ held_at_unlock t r = true) \/ (v = EPERM /\ held_at_unlock t r = false)
  end.
Fixpoint all_good (tr : list event) : Prop := match tr with [] => True | e :: r => good e r /\ all_good r end.
Definition inv (s : state) : Prop :=
  (forall t, t <> 0 -> own s t = true <-> word s = t) /\ (forall t, t <> 0 -> place s t) /\ all_good (trace s).

Lemma holds_other t u o r tr : u <> t -> holds t (Ret u o r :: tr) = holds t tr /\ held_at_unlock t (Ret u o r :: tr) = held_at_unlock t tr.
Proof. intros N. apply Z.eqb_neq in N. destruct o; split; auto; cbn; destruct r; auto; now rewrite N. Qed.
Lemma call_other t u o tr : u <> t -> holds t (Call u o :: tr) = holds t tr /\ held_at_unlock t (Call u o :: tr) = held_at_unlock t tr.
Proof. intros N. apply Z.eqb_neq in N. destruct o; split; auto; cbn; now rewrite N. Qed.
Lemma own_ext s s' t : at_ s' t = at_ s t -> holds t (trace s') = holds t (trace s) -> held_at_unlock t (trace s') = held_at_unlock t (trace s) -> own s' t = own s t.
Proof. unfold own. intros -> -> ->. reflexivity. Qed.
Lemma place_ext s s' t : at_ s' t = at_ s t -> holds t (trace s') = holds t (trace s) -> held_at_unlock t (trace s') = held_at_unlock t (trace s) -> place s' t <-> place s t.
Proof. unfold place. intros -> -> ->. reflexivity. Qed.

(** a step of thread [t] that keeps the others as they are *)
Lemma inv_step s s' t : t <> 0 -> inv s ->
  (forall u, u <> t -> at_ s' u = at_ s u /\ holds u (trace s') = holds u (trace s) /\ held_at_unlock u (trace s') = held_at_unlock u (trace s)) ->
  (own s' t = true <-> word s' = t) -> place s' t -> all_good (trace s') ->
  (word s' = word s \/ (word s = 0 /\ word s' = t) \/ (word s = t /\ word s' = 0)) -> inv s'.
Proof.
  intros NZ (I1 & I2 & I3) O OW PL AG W. split; [|split; auto].
  - intros u U. destruct (Z.eq_dec u t) as [->|N]; auto. destruct (O u N) as (A & B & C). rewrite (own_ext s s' u) by auto. rewrite (I1 u U). intuition congruence.
  - intros u U. destruct (Z.eq_dec u t) as [->|N]; auto. destruct (O u N) as (A & B & C). rewrite (place_ext s s' u) by auto. auto.
Qed.

Lemma put_same f t p : put f t p t = p. Proof. unfold put. now rewrite Z.eqb_refl. Qed.
Lemma put_other f t p u : u <> t -> put f t p u = f u. Proof. unfold put. intros N. apply Z.eqb_neq in N. now rewrite N. Qed.

Lemma step_inv t a s : t <> 0 -> inv s -> inv (step t a s).
Proof.
  intros NZ I. pose proof I as (I1 & I2 & I3). specialize (I1 t NZ). specialize (I2 t NZ). unfold own in I1. unfold place in I2.
  assert (K : forall p w, inside t (match a with Move b => b | _ => false end) (at_ s t) (word s) = (p, w) -> (forall o r, at_ s t <> Done o r) -> at_ s t <> Idle ->
     inv (St w (put (at_ s) t p) (trace s))).
  { intros p w E ND NI. apply (inv_step s _ t); auto; cbn [at_ word trace].
    - intros u U. rewrite put_other by auto. auto.
    - unfold own. cbn [at_ word trace]. rewrite put_same. destruct (at_ s t) eqn:A; try congruence; cbn [inside] in E.
      + destruct (Z.eqb_spec (word s) 0) as [W|W]; cbn [andb] in E.
        * destruct (negb _) eqn:NW; [injection E as <- <-; tauto|]. destruct (Z.eqb_spec (word s) t); [congruence|]. injection E as <- <-. exact I1.
        * destruct (Z.eqb_spec (word s) t); injection E as <- <-; exact I1.
      + destruct (Z.eqb_spec (word s) 0); injection E as <- <-; exact I1.
      + destruct (Z.eqb_spec (word s) 0) as [W|W]; injection E as <- <-; [tauto|exact I1].
      + destruct (Z.eqb_spec (word s) t) as [W|W]; injection E as <- <-; [tauto|]. intuition discriminate.
      + injection E as <- <-. intuition (congruence || discriminate).
    - unfold place. cbn [at_ word trace]. rewrite put_same. destruct (at_ s t) eqn:A; try congruence; cbn [inside] in E.
      + destruct (Z.eqb_spec (word s) 0) as [W|W]; cbn [andb] in E.
        * assert (H : holds t (trace s) = false) by (destruct (holds t (trace s)); auto; exfalso; apply NZ; rewrite <- W; symmetry; now apply I1).
          destruct (negb _) eqn:NW; [injection E as <- <-; auto|]. destruct (Z.eqb_spec (word s) t); [congruence|]. injection E as <- <-. exact H.
        * destruct (Z.eqb_spec (word s) t) as [X|X]; injection E as <- <-; [right; split; auto; now apply I1|]. destruct (holds t (trace s)); auto. exfalso. apply X. now apply I1.
      + destruct (Z.eqb_spec (word s) 0); injection E as <- <-; auto.
      + destruct (Z.eqb_spec (word s) 0) as [W|W]; injection E as <- <-; [left|now right]. split; auto. destruct (holds t (trace s)); auto. exfalso. apply NZ. rewrite <- W. symmetry. now apply I1.
      + destruct (Z.eqb_spec (word s) t) as [W|W]; injection E as <- <-; [split; auto; now apply I1|]. split; auto. right. split; auto. destruct (held_at_unlock t (trace s)); auto. exfalso. apply W. now apply I1.
      + injection E as <- <-. destruct I2. split; auto.
    - destruct (at_ s t) eqn:A; try congruence; cbn [inside] in E.
      + destruct (Z.eqb_spec (word s) 0) as [W|W]; cbn [andb] in E.
        * destruct (negb _); [injection E as <- <-; auto|]. destruct (word s =? t); injection E as <- <-; auto.
        * destruct (word s =? t); injection E as <- <-; auto.
      + destruct (word s =? 0); injection E as <- <-; auto.
      + destruct (Z.eqb_spec (word s) 0); injection E as <- <-; auto.
      + destruct (word s =? t); injection E as <- <-; auto.
      + injection E as <- <-. right. right. split; auto. now apply I1. }
  destruct a as [o|weak]; cbn [step].
  - destruct (at_ s t) eqn:A; auto. apply (inv_step s _ t); auto; cbn [at_ word trace].
    + intros u U. rewrite put_other by auto. destruct (call_other u t o (trace s)); auto.
    + unfold own. cbn [at_ word trace]. rewrite put_same. destruct o; cbn; rewrite ?Z.eqb_refl; exact I1.
    + unfold place. cbn [at_ word trace]. rewrite put_same. destruct o; cbn; rewrite ?Z.eqb_refl; auto.
    + cbn. auto.
  - destruct (at_ s t) eqn:A; cycle 1.
    1-5: destruct (inside t weak _ (word s)) as [p w] eqn:E; apply K; auto; congruence.
    + apply (inv_step s _ t); auto; cbn [at_ word trace].
      * intros u U. rewrite put_other by auto. destruct (holds_other u t o r (trace s)); auto.
      * unfold own. cbn [at_ word trace]. rewrite put_same. destruct o.
        -- destruct I2 as [[-> H]|[-> H]]; cbn; rewrite ?Z.eqb_refl; exact I1.
        -- destruct I2 as [[-> H]| ->]; cbn; rewrite ?Z.eqb_refl; exact I1.
        -- destruct I2 as [H _]. cbn. rewrite H. exact I1.
      * unfold place. cbn [at_]. rewrite put_same. exact Logic.I.
      * split; auto. cbn. destruct o; auto. destruct I2; auto.
    + cbn [inside]. apply (inv_step s _ t); auto; cbn [at_ word trace].
      * intros u U. rewrite put_other by auto. auto.
      * unfold own. cbn [at_ word trace]. rewrite put_same. exact I1.
      * unfold place. cbn [at_]. rewrite put_same. exact Logic.I.
Qed.

Lemma run_inv : forall l s, threads l -> inv s -> inv (run l s).
Proof.
  induction l as [|[t a] r IH]; intros s H I; auto. cbn. apply IH.
  - intros u b U. apply (H u b). now right.
  - apply step_inv; auto. apply (H t a). now left.
Qed.
Lemma init_inv : inv init.
Proof. split; [|split]; cbn; auto. intros t NZ. unfold own. cbn. split; [discriminate|congruence]. Qed.
Lemma reachable_inv s : reachable s -> inv s.
Proof. intros (l & H & ->). apply run_inv; auto. apply init_inv. Qed.

Lemma holds_own s t : t <> 0 -> inv s -> holds t (trace s) = true -> word s = t.
Proof.
  intros NZ (I1 & I2 & _) H. apply I1; auto. specialize (I2 t NZ). unfold own, place in *. destruct (at_ s t) as [| | | | | |o r]; auto; try congruence.
  - destruct o; auto; try (destruct I2; congruence). destruct r; auto. destruct r; auto.
Qed.

Lemma all_good_in tr : all_good tr -> forall a e r, tr = a ++ e :: r -> good e r.
Proof.
  induction tr as [|x tr IH]; intros G a e r E; [destruct a; discriminate|]. destruct G as [G1 G2]. destruct a as [|y a]; cbn in E; injection E as -> E; subst; auto.
  eapply IH; eauto.
Qed.

Lemma free_word s t : inv s -> t <> 0 -> (forall u, u <> t -> at_ s u = Idle) -> (forall u, u <> 0 -> holds u (trace s) = false) ->
  (at_ s t = LockTry \/ at_ s t = LockSpin \/ at_ s t = TryTry) -> word s = 0.
Proof.
  intros (I1 & _) NZ O H P. destruct (Z.eq_dec (word s) 0) as [|N]; auto. exfalso. specialize (I1 (word s) N). destruct I1 as [_ I1]. specialize (I1 eq_refl). unfold own in I1.
  destruct (Z.eq_dec (word s) t) as [E|E].
  - rewrite E in I1. destruct P as [P|[P|P]]; rewrite P, H in I1; auto; discriminate.
  - rewrite (O _ E), H in I1; auto. discriminate.
Qed.

Definition rank (p : pc) : nat := match p with Done _ _ => 1 | UnlockStore => 2 | UnlockLoad => 3 | TryTry => 2 | _ => 0 end.
Definition rop (p : pc) : op := match p with Done o _ => o | TryTry => Trylock | _ => Unlock end.
Lemma step_new t a s : exists new, trace (step t a s) = new ++ trace s.
Proof.
  destruct a as [o|w]; cbn [step]; destruct (at_ s t); try (now exists []); try (destruct (inside _ _ _ _); now exists []); eexists [_]; reflexivity.
Qed.
Lemma run_new : forall l s, exists new, trace (run l s) = new ++ trace s.
Proof.
  induction l as [|[t a] r IH]; intros s; [now exists []|]. cbn. destruct (IH (step t a s)) as [n E]. destruct (step_new t a s) as [m F]. exists (n ++ m). rewrite E, F. now rewrite app_assoc.
Qed.
Lemma ranked t : forall l s, (1 <= rank (at_ s t))%nat -> (rank (at_ s t) <= moves t l)%nat ->
  exists r new, trace (run l s) = new ++ trace s /\ In (Ret t (rop (at_ s t)) r) new.
Proof.
  induction l as [|[u a] l IH]; intros s R M; [cbn in M; lia|]. cbn [run].
  assert (SAME : at_ (step u a s) t = at_ s t -> (rank (at_ s t) <= moves t l)%nat -> exists r new, trace (run l (step u a s)) = new ++ trace s /\ In (Ret t (rop (at_ s t)) r) new).
  { intros E L. destruct (IH (step u a s)) as (r & new & T & X); rewrite ?E; auto. destruct (step_new u a s) as [m F]. exists r, (new ++ m). rewrite T, F, app_assoc. split; auto. apply in_or_app. rewrite E in X. auto. }
  cbn [moves] in M. destruct (Z.eqb_spec u t) as [->|N].
  - destruct a as [o|w]; cbn [step] in *.
    + destruct (at_ s t) eqn:A; cbn in R; try lia; apply SAME; auto.
    + assert (MID : forall p' w', (1 <= rank p')%nat -> (S (rank p') <= rank (at_ s t))%nat -> rop p' = rop (at_ s t) ->
         exists r new, trace (run l (St w' (put (at_ s) t p') (trace s))) = new ++ trace s /\ In (Ret t (rop (at_ s t)) r) new).
      { intros p' w' R1 R2 RO. destruct (IH (St w' (put (at_ s) t p') (trace s))) as (r & new & T & X); cbn [at_] in *; rewrite ?put_same in *; [lia|lia|]. exists r, new. rewrite <- RO. auto. }
      clear SAME. destruct (at_ s t) eqn:A; cbn in R; try lia.
      * cbn [inside]. destruct (word s =? 0); apply MID; cbn; auto.
      * cbn [inside]. destruct (word s =? t); apply MID; cbn; auto.
      * cbn [inside]. apply MID; cbn; auto.
      * destruct (run_new l (St (word s) (put (at_ s) t Idle) (Ret t o r :: trace s))) as [new E]. cbn [trace] in E. exists r, (new ++ [Ret t o r]). rewrite E, <- app_assoc. split; auto. apply in_or_app. right. now left.
  - apply SAME.
    + destruct a as [o|w]; cbn [step]; destruct (at_ s u) eqn:A; auto; try (destruct (inside _ _ _ _)); cbn [at_]; now rewrite put_other by auto.
    + destruct a; exact M.
Qed.
