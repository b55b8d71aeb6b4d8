From Verif Require Import Base Utmpx_Model Utmpx_Spec.
Open Scope Z_scope.

Definition inv (s : st) : Prop :=
  live s = blocks (pth s) /\ (match pth s with Default => True | Heap b n => b < next s /\ n <> dflt end) /\ opened s = match file s with Some _ => 1 | None => 0 end.
Lemma same_ok a b : same a b = true <-> a = b.
Proof. unfold same. destruct (list_eq_dec _ _ _); split; congruence. Qed.
Lemma same_no a b : same a b = false <-> a <> b.
Proof. unfold same. destruct (list_eq_dec _ _ _); split; congruence. Qed.

Lemma name_ok s f m : inv s -> exists r, utmpxname s f m = Ok r /\ inv (snd r) /\ file (snd r) = file s /\
  (m = true -> name_of (pth (snd r)) = f) /\ (fst r <> 0 -> snd r = s) /\ (fst r = 0 -> name_of (pth (snd r)) = f).
Proof.
  intros [L [P O]]. unfold utmpxname. destruct (same f (name_of (pth s))) eqn:E; cbn [negb].
  - apply same_ok in E. exists (0, s). cbn [fst snd]. split; [reflexivity|]. split; [now split|]. split; [reflexivity|]. split; [auto|]. split; [congruence|auto].
  - apply same_no in E. destruct (same f dflt) eqn:D.
    + apply same_ok in D. subst f. destruct (pth s) as [|b n] eqn:Q; [now destruct E|]. unfold free. rewrite L. cbn [blocks existsb]. rewrite Z.eqb_refl. cbn [orb bind remove]. destruct (Z.eq_dec b b); [|congruence].
      eexists. split; [reflexivity|]. cbn [fst snd file pth name_of]. split; [split; [reflexivity|split; [exact I|exact O]]|]. split; [reflexivity|]. split; [auto|]. split; [congruence|auto].
    + apply same_no in D. destruct m.
      * destruct (pth s) as [|b n] eqn:Q.
        -- cbn [bind]. rewrite L. eexists. split; [reflexivity|]. cbn [fst snd file pth name_of]. split; [split; [reflexivity|split; [cbn [pth next]; split; [lia|exact D]|exact O]]|]. split; [reflexivity|]. split; [auto|]. split; [congruence|auto].
        -- destruct P as [B N]. unfold free. rewrite L. cbn [blocks existsb]. rewrite Z.eqb_refl. rewrite orb_true_r. cbn [orb bind remove]. destruct (Z.eq_dec b (next s)); [lia|]. destruct (Z.eq_dec b b); [|congruence].
           eexists. split; [reflexivity|]. cbn [fst snd file pth name_of]. split; [split; [reflexivity|split; [cbn [pth next]; split; [lia|exact D]|exact O]]|]. split; [reflexivity|]. split; [auto|]. split; [congruence|auto].
      * exists (-1, s). cbn [fst snd]. split; [reflexivity|]. split; [now split|]. split; [reflexivity|]. split; [discriminate|]. split; [auto|discriminate].
Qed.
Lemma rewind_inv s a : inv s -> inv (setutxent s a) /\ pth (setutxent s a) = pth s.
Proof.
  intros [L [P O]]. unfold setutxent. destruct (file s) as [x|] eqn:F; [split; [split; [exact L|split; [exact P|now rewrite F]]|reflexivity]|].
  destruct (negb _); (split; [|reflexivity]); (split; [exact L|]); (split; [exact P|]); cbn [file opened]; lia.
Qed.
Lemma end_inv s : inv s -> inv (endutxent s) /\ pth (endutxent s) = pth s.
Proof.
  intros [L [P O]]. unfold endutxent. destruct (file s) as [x|] eqn:F; (split; [|reflexivity]); (split; [exact L|]); (split; [exact P|]); cbn [file opened]; rewrite ?F; lia.
Qed.
Lemma get_state s a : snd (getutxent s a) = match file s with None => setutxent s a | Some _ => s end.
Proof. unfold getutxent. cbv zeta. destruct (file match file s with None => setutxent s a | Some _ => s end) as [[? ?]|]; reflexivity. Qed.
Lemma step_ok s c : inv s -> exists s', step s c = Ok s' /\ inv s' /\ (with_memory c -> name_of (pth s') = last_name (name_of (pth s)) [c]).
Proof.
  intros I. destruct c as [f m|a| |a]; cbn [step last_name with_memory].
  - destruct (name_ok s f m I) as [r [E [J [_ [N _]]]]]. rewrite E. cbn [bind]. exists (snd r). auto.
  - destruct (rewind_inv s a I) as [J K]. eexists. split; [reflexivity|]. rewrite K. auto.
  - destruct (end_inv s I) as [J K]. eexists. split; [reflexivity|]. rewrite K. auto.
  - rewrite get_state. eexists. split; [reflexivity|]. destruct (file s); [auto|]. destruct (rewind_inv s a I) as [J K]. rewrite K. auto.
Qed.
Lemma run_ok h : forall s, inv s -> exists s', run s h = Ok s' /\ inv s' /\ (Forall with_memory h -> name_of (pth s') = last_name (name_of (pth s)) h).
Proof.
  induction h as [|c h IH]; intros s I; [exists s; auto|]. cbn [run]. destruct (step_ok s c I) as [s1 [E [J N]]]. rewrite E. cbn [bind]. destruct (IH s1 J) as [s2 [E2 [J2 N2]]]. exists s2.
  split; [exact E2|]. split; [exact J2|]. intros F. inversion F as [|x y W F']; subst. rewrite (N2 F'), (N W). destruct c; reflexivity.
Qed.
Lemma init_inv : inv init.
Proof. repeat split. Qed.
Lemma history_ok h : exists s, run init h = Ok s /\ live s = blocks (pth s) /\ opened s = (match file s with Some _ => 1 | None => 0 end) /\
  (Forall with_memory h -> name_of (pth s) = last_name dflt h).
Proof. destruct (run_ok h init init_inv) as [s [E [[L [_ O]] N]]]. exists s. auto. Qed.
Lemma open_ok s a : file s = None -> opens a -> fst (getutxent s a) = inr (name_of (pth s)).
Proof.
  intros F O. unfold getutxent. cbv zeta. rewrite F. unfold setutxent. rewrite F. assert (E : (if e1 a =? EACCES then e2 a else e1 a) = 0). { destruct O as [O|[O P]]; rewrite O; [reflexivity|]. rewrite Z.eqb_refl. exact P. }
  rewrite E. reflexivity.
Qed.
Lemma fail_ok s a : file s = None -> ~ opens a -> getutxent s a = (inl ENOENT, s).
Proof.
  intros F O. unfold getutxent. cbv zeta. rewrite F. unfold setutxent. rewrite F. assert (E : (if e1 a =? EACCES then e2 a else e1 a) <> 0).
  { intros E. apply O. unfold opens. destruct (Z.eqb_spec (e1 a) EACCES); auto. }
  rewrite (proj2 (Z.eqb_neq _ _) E). cbn [negb file]. destruct s as [p l n f o]. cbn [file] in F. now subst f.
Qed.
Lemma stays_ok s d f a : file s = Some (d, f) -> getutxent s a = (inr f, s).
Proof. intros F. unfold getutxent. cbv zeta. rewrite F. now rewrite F. Qed.
Lemma switch_ok s d old new : inv s -> file s = Some (d, old) -> forall m a, exists r, utmpxname s new m = Ok r /\ fst (getutxent (snd r) a) = inr old.
Proof.
  intros I F m a. destruct (name_ok s new m I) as [r [E [_ [K _]]]]. exists r. split; [exact E|]. rewrite (stays_ok (snd r) d old a); [reflexivity|congruence].
Qed.
Lemma reach h s : run init h = Ok s -> inv s.
Proof. intros E. destruct (run_ok h init init_inv) as [s' [E' [I _]]]. congruence. Qed.
Lemma failed_ok h s f m : run init h = Ok s -> exists r, utmpxname s f m = Ok r /\ file (snd r) = file s /\ (m = true -> fst r = 0) /\ (fst r = 0 -> name_of (pth (snd r)) = f) /\ (fst r <> 0 -> snd r = s).
Proof.
  intros E. destruct (name_ok s f m (reach h s E)) as [r [R [_ [K [_ [N Y]]]]]]. exists r. split; [exact R|]. split; [exact K|]. split; [|auto]. intros ->. revert R. unfold utmpxname.
  destruct (negb _); [|intros R; injection R as <-; reflexivity]. destruct (same f dflt).
  - destruct (free _ _); cbn [bind]; intros R; try discriminate. injection R as <-. reflexivity.
  - destruct (pth s); [|destruct (free _ _)]; cbn [bind]; intros R; try discriminate; injection R as <-; reflexivity.
Qed.
Lemma switch_reach h s d old new m a : run init h = Ok s -> file s = Some (d, old) -> exists r, utmpxname s new m = Ok r /\ fst (getutxent (snd r) a) = inr old.
Proof. intros E F. exact (switch_ok s d old new (reach h s E) F m a). Qed.
