From Verif Require Import Base Mem_Model Mem_Proof Sort_Spec Sort_Model Sort_Proof Linear_Model Linear_Spec.
Open Scope Z_scope.

(** ** lsearch and lfind *)
Lemma scan_ok els : forall cmp t m cur w, array_at m cur w els ->
  (exists i, (i < length els)%nat /\ scan (length els) cmp t m cur w = Ok (cur + Z.of_nat (i * w), true) /\
     cmp (t + i)%nat (nth i els []) = 0 /\ forall j, (j < i)%nat -> cmp (t + j)%nat (nth j els []) <> 0) \/
  (scan (length els) cmp t m cur w = Ok (cur + Z.of_nat (length els * w), false) /\
     forall j, (j < length els)%nat -> cmp (t + j)%nat (nth j els []) <> 0).
Proof.
  induction els as [|e els IH]; intros cmp t m cur w [Hb Hf].
  - right. cbn. split; [rewrite Z.add_0_r; reflexivity|]. intros; lia.
  - inversion Hf; subst. cbn [concat] in Hb. apply bytes_at_app in Hb as [Hb1 Hb2]. cbn [length scan].
    rewrite (loadn_fun _ _ _ e Hb1 eq_refl). cbn [bind]. destruct (Z.eqb_spec (cmp t e) 0) as [E|E].
    + left. exists 0%nat. split; [lia|]. rewrite Nat.mul_0_l, Nat.add_0_r, Z.add_0_r. cbn [nth]. split; [reflexivity|]. split; [exact E|]. intros; lia.
    + destruct (IH cmp (S t) m (cur + Z.of_nat (length e)) (length e)) as [(i & Hi & E1 & E2 & E3)|[E1 E2]]; [split; assumption| |].
      * left. exists (S i). split; [lia|]. split; [rewrite E1; do 2 f_equal; lia|]. cbn [nth].
        replace (t + S i)%nat with (S t + i)%nat by lia. split; [exact E2|].
        intros [|j] Hj; cbn [nth]; [rewrite Nat.add_0_r; exact E|]. replace (t + S j)%nat with (S t + j)%nat by lia. apply E3. lia.
      * right. split; [rewrite E1; do 2 f_equal; lia|].
        intros [|j] Hj; cbn [nth]; [rewrite Nat.add_0_r; exact E|]. replace (t + S j)%nat with (S t + j)%nat by lia. apply E2. lia.
Qed.

Lemma lsearch_found cmp m key base w els i : array_at m base w els -> (i < length els)%nat ->
  cmp i (nth i els []) = 0 -> (forall j, (j < i)%nat -> cmp j (nth j els []) <> 0) ->
  lsearch cmp m key base (length els) w = Ok (m, length els, base + Z.of_nat (i * w)) /\
  lfind cmp m base (length els) w = Ok (Some (base + Z.of_nat (i * w))).
Proof.
  intros Ha Hi Hc Hb. unfold lsearch, lfind.
  destruct (scan_ok els cmp 0 m base w Ha) as [(i' & Hi' & -> & E2 & E3)|[_ E2]]; cbn [bind Nat.add] in *; [|exfalso; eapply E2; eauto].
  assert (i' = i) as ->; [|split; reflexivity].
  destruct (Nat.lt_trichotomy i' i) as [L|[L|L]]; [exfalso; eapply Hb; eauto|exact L|exfalso; eapply E3; eauto].
Qed.

Lemma lsearch_absent cmp m key kb base w els : array_at m base w els ->
  (forall j, (j < length els)%nat -> cmp j (nth j els []) <> 0) ->
  bytes_at m key kb -> length kb = w -> mapped m (base + Z.of_nat (length els * w)) w ->
  disjoint (base + Z.of_nat (length els * w)) w key w ->
  lfind cmp m base (length els) w = Ok None /\
  exists m', lsearch cmp m key base (length els) w = Ok (m', S (length els), base + Z.of_nat (length els * w)) /\
    array_at m' base w (els ++ [kb]) /\ same_outside m m' (base + Z.of_nat (length els * w)) w.
Proof.
  intros Ha Hc Hk <- Hm Hd. unfold lsearch, lfind.
  destruct (scan_ok els cmp 0 m base (length kb) Ha) as [(i' & Hi' & _ & E2 & _)|[-> _]]; cbn [bind Nat.add] in *; [exfalso; eapply Hc; eauto|].
  split; [reflexivity|]. destruct (memcpy_ok m _ key kb Hk Hm Hd) as (m' & -> & Hb & Ho). cbn [bind].
  exists m'. split; [reflexivity|]. split; [|exact Ho].
  assert (Lc : length (concat els) = (length els * length kb)%nat).
  { destruct Ha as [_ Hf]. clear -Hf. induction Hf; cbn; [reflexivity|]. rewrite app_length. lia. }
  destruct Ha as [Hb0 Hf]. split; [|apply Forall_app; split; [exact Hf|repeat constructor]].
  rewrite concat_app. cbn. rewrite app_nil_r. apply bytes_at_app. rewrite Lc. split; [|exact Hb].
  intros j Hj. rewrite Ho by lia. apply Hb0, Hj.
Qed.

(** ** Queues *)
Lemma final_app l1 l2 d : final (l1 ++ l2) d = final l2 (final l1 d).
Proof. revert d; induction l1 as [|a l1 IH]; intros d; cbn; auto. Qed.
Lemma first_app l1 l2 d : first (l1 ++ l2) d = first l1 (first l2 d).
Proof. destruct l1; reflexivity. Qed.
Lemma final_nonempty l d d' : l <> [] -> final l d = final l d'.
Proof. destruct l; [congruence|reflexivity]. Qed.
Lemma first_nonempty l d d' : l <> [] -> first l d = first l d'.
Proof. destruct l; [congruence|reflexivity]. Qed.

Lemma links_app h l1 : forall prev l2 next,
  links h prev (l1 ++ l2) next <-> links h prev l1 (first l2 next) /\ links h (final l1 prev) l2 next.
Proof.
  induction l1 as [|a l1 IH]; intros prev l2 next; cbn; [tauto|]. rewrite IH, first_app. tauto.
Qed.
Lemma links_frame h h' l : forall prev next, (forall x, In x l -> h' x = h x) -> links h prev l next -> links h' prev l next.
Proof.
  induction l as [|a l IH]; intros prev next H; cbn; [auto|]. intros [E L]. split; [rewrite H by (left; reflexivity); exact E|].
  apply IH; [|exact L]. intros x Hx. apply H. right; exact Hx.
Qed.
Lemma put_same h a v : put h a v a = Some v.
Proof. unfold put. rewrite Z.eqb_refl. reflexivity. Qed.
Lemma put_other h a v x : x <> a -> put h a v x = h x.
Proof. intros H. unfold put. destruct (Z.eqb_spec x a); congruence. Qed.
Ltac puts := repeat (rewrite put_same || rewrite put_other by congruence).

(** rotation of a circular queue *)
Lemma circular_rot h l1 l2 : circular h (l1 ++ l2) -> circular h (l2 ++ l1).
Proof.
  intros [N L]. split.
  - apply (Permutation_NoDup (l := l1 ++ l2)); [apply Permutation_app_comm|exact N].
  - destruct l1 as [|a l1]; [rewrite app_nil_r; exact L|]. destruct l2 as [|b l2]; [rewrite app_nil_r in L; exact L|].
    apply links_app in L as [L1 L2]. apply links_app.
    rewrite !final_app in *. cbn [first app final] in *. split; assumption.
Qed.

(** a queue with its ends described by [prev] and [next]: inserting after the head *)
Lemma links_newhead h b l prev prev' next : ~ In b l -> links h prev (b :: l) next ->
  exists f, h b = Some (f, prev) /\ links (put h b (f, prev')) prev' (b :: l) next.
Proof.
  intros N [E L]. exists (first l next). split; [exact E|]. cbn. rewrite put_same. split; [reflexivity|].
  apply (links_frame h); [|exact L]. intros x Hx. apply put_other. congruence.
Qed.

Lemma links_newnext h p : forall l prev next next', ~ In p l -> links h prev (l ++ [p]) next ->
  exists b, h p = Some (next, b) /\ links (put h p (next', b)) prev (l ++ [p]) next'.
Proof.
  induction l as [|a l IH]; intros prev next next' N L.
  - destruct L as [E _]. exists prev. split; [exact E|]. cbn. rewrite put_same. auto.
  - cbn [app links] in L. destruct L as [E L]. destruct (IH (Some a) next next') as (b & Eb & L'); [|exact L|].
    { intros H. apply N. right; exact H. }
    exists b. split; [exact Eb|]. cbn [app links]. split; [|exact L'].
    rewrite put_other by (intros ->; apply N; left; reflexivity). rewrite E, !first_app. reflexivity.
Qed.

Lemma insque_linear h e p l1 l2 : linear h (l1 ++ p :: l2) -> ~ In e (l1 ++ p :: l2) -> h e <> None ->
  exists h', insque h e (Some p) = Ok h' /\ linear h' (l1 ++ p :: e :: l2) /\
    unchanged_except h h' (l1 ++ p :: e :: l2).
Proof.
  intros [N L] Ne He. apply links_app in L as [L1 [Ep L2]]. cbn [first] in L1.
  assert (Nep : e <> p) by (intros ->; apply Ne, in_app_iff; right; left; reflexivity).
  assert (Ne1 : forall x, In x l1 -> x <> e) by (intros x Hx ->; apply Ne, in_app_iff; left; exact Hx).
  assert (Ne2 : forall x, In x l2 -> x <> e) by (intros x Hx ->; apply Ne, in_app_iff; right; right; exact Hx).
  pose proof (NoDup_remove_2 _ _ _ N) as Np. pose proof (NoDup_remove_1 _ _ _ N) as N12.
  assert (Np1 : forall x, In x l1 -> x <> p) by (intros x Hx ->; apply Np, in_app_iff; left; exact Hx).
  assert (Np2 : forall x, In x l2 -> x <> p) by (intros x Hx ->; apply Np, in_app_iff; right; exact Hx).
  assert (N' : NoDup (l1 ++ p :: e :: l2)).
  { apply (Permutation_NoDup (l := e :: l1 ++ p :: l2)); [|constructor; assumption].
    change (Permutation (e :: l1 ++ [p] ++ l2) (l1 ++ [p] ++ e :: l2)). rewrite !app_assoc. apply Permutation_middle. }
  destruct (h e) as [[ef eb]|] eqn:Eh; [|congruence].
  unfold insque, set_forw, set_back, get. rewrite Ep. cbn [bind]. rewrite Eh. cbn [bind]. puts. cbn [bind]. puts. rewrite Ep. cbn [bind]. puts. cbn [bind].
  destruct l2 as [|b l2]; cbn [first].
  - eexists. split; [reflexivity|]. split.
    + split; [exact N'|]. apply links_app. cbn [first]. split.
      * apply (links_frame h); [|exact L1]. intros x Hx. specialize (Ne1 x Hx). specialize (Np1 x Hx). puts. reflexivity.
      * cbn. puts. auto.
    + intros x Hx. rewrite !put_other; [reflexivity| | |]; intros ->; apply Hx; apply in_app_iff; cbn; auto.
  - assert (Nbe : b <> e) by (apply Ne2; left; reflexivity). assert (Nbp : b <> p) by (apply Np2; left; reflexivity).
    assert (Nb2 : ~ In b l2) by (apply NoDup_remove_2 in N12; intros H; apply N12, in_app_iff; right; exact H).
    assert (Nb1 : ~ In b l1) by (apply NoDup_remove_2 in N12; intros H; apply N12, in_app_iff; left; exact H).
    destruct (links_newhead h b l2 (Some p) (Some e) None Nb2 L2) as (f & Eb & L2').
    puts. rewrite Eb. cbn [bind].
    eexists. split; [reflexivity|]. split.
    + split; [exact N'|]. apply links_app. cbn [first]. split.
      * apply (links_frame h); [|exact L1]. intros x Hx. specialize (Ne1 x Hx). specialize (Np1 x Hx).
        assert (x <> b) by (intros ->; contradiction). puts. reflexivity.
      * split; [cbn [first]; puts; reflexivity|]. split; [cbn [first]; puts; reflexivity|].
        apply (links_frame (put h b (f, Some e))); [|exact L2']. intros x Hx. specialize (Ne2 x Hx). specialize (Np2 x Hx).
        unfold put. replace (x =? p) with false by lia. replace (x =? e) with false by lia. reflexivity.
    + intros x Hx. rewrite !put_other; [reflexivity| | | |]; intros ->; apply Hx; apply in_app_iff; cbn; auto.
Qed.

Lemma insque_circular_head h e p l : circular h (p :: l) -> ~ In e (p :: l) -> h e <> None ->
  exists h', insque h e (Some p) = Ok h' /\ circular h' (p :: e :: l) /\ unchanged_except h h' (p :: e :: l).
Proof.
  intros [N L] Ne He. cbn [first final links] in L. destruct L as [Ep L].
  assert (Nep : e <> p) by (intros ->; apply Ne; left; reflexivity).
  assert (Nel : forall x, In x l -> x <> e) by (intros x Hx ->; apply Ne; right; exact Hx).
  inversion N as [|? ? Np Nl]; subst.
  assert (Npl : forall x, In x l -> x <> p) by (intros x Hx ->; contradiction).
  assert (N' : NoDup (p :: e :: l)).
  { constructor; [intros [H|H]; [congruence|contradiction]|]. constructor; [intros H; apply Ne; right; exact H|exact Nl]. }
  destruct (h e) as [[ef eb]|] eqn:Eh; [|congruence].
  unfold insque, set_forw, set_back, get. rewrite Ep. cbn [bind]. rewrite Eh. cbn [bind]. puts. cbn [bind]. puts. rewrite Ep. cbn [bind]. puts. cbn [bind].
  destruct l as [|b l]; cbn [first].
  - puts. cbn [bind]. eexists. split; [reflexivity|]. split.
    + split; [exact N'|]. cbn. puts. auto.
    + intros x Hx. rewrite !put_other; [reflexivity| | | |]; intros ->; apply Hx; cbn; auto.
  - inversion Nl as [|? ? Nb2 _]; subst.
    assert (Nbe : b <> e) by (apply Nel; left; reflexivity). assert (Nbp : b <> p) by (apply Npl; left; reflexivity).
    destruct (links_newhead h b l (Some p) (Some e) (Some p) Nb2 L) as (f & Eb & L2').
    puts. rewrite Eb. cbn [bind]. eexists. split; [reflexivity|]. split.
    + split; [exact N'|]. split; [cbn [first final]; puts; reflexivity|]. split; [cbn [first final]; puts; reflexivity|].
      apply (links_frame (put h b (f, Some e))); [|exact L2']. intros x Hx. specialize (Nel x Hx). specialize (Npl x Hx).
      unfold put. replace (x =? p) with false by lia. replace (x =? e) with false by lia. reflexivity.
    + intros x Hx. rewrite !put_other; [reflexivity| | | |]; intros ->; apply Hx; cbn; auto.
Qed.

Lemma insque_circular h e p l1 l2 : circular h (l1 ++ p :: l2) -> ~ In e (l1 ++ p :: l2) -> h e <> None ->
  exists h', insque h e (Some p) = Ok h' /\ circular h' (l1 ++ p :: e :: l2) /\ unchanged_except h h' (l1 ++ p :: e :: l2).
Proof.
  intros C Ne He. apply circular_rot in C. cbn [app] in C.
  destruct (insque_circular_head h e p (l2 ++ l1) C) as (h' & E & C' & U); [|exact He|].
  { intros H. apply Ne. destruct H as [<-|H]; [apply in_app_iff; right; left; reflexivity|].
    apply in_app_iff in H as [H|H]; apply in_app_iff; [right; right|left]; exact H. }
  exists h'. split; [exact E|]. split; [apply (circular_rot h' (p :: e :: l2) l1), C'|].
  intros x Hx. apply U. intros [<-|[<-|H]]; apply Hx; apply in_app_iff; cbn; auto. apply in_app_iff in H as [H|H]; auto.
Qed.

Lemma remque_linear h e l1 l2 : linear h (l1 ++ e :: l2) ->
  exists h', remque h e = Ok h' /\ linear h' (l1 ++ l2) /\ unchanged_except h h' (l1 ++ l2).
Proof.
  intros [N L]. pose proof (NoDup_remove_1 _ _ _ N) as N12. pose proof (NoDup_remove_2 _ _ _ N) as Ne.
  apply links_app in L as [L1 [Ee L2]]. cbn [first] in L1.
  assert (Ne1 : forall x, In x l1 -> x <> e) by (intros x Hx ->; apply Ne, in_app_iff; left; exact Hx).
  assert (Ne2 : forall x, In x l2 -> x <> e) by (intros x Hx ->; apply Ne, in_app_iff; right; exact Hx).
  assert (A : exists h1, remque_forw h e = Ok h1 /\
              links h1 (final l1 None) l2 None /\ (forall x, ~ In x l2 -> h1 x = h x)).
  { unfold remque_forw, get, set_back, get. rewrite Ee. cbn [bind].
    destruct l2 as [|b l2]; cbn [first]; [exists h; cbn; auto|].
    assert (Nb2 : ~ In b l2) by (apply NoDup_remove_2 in N12; intros H; apply N12, in_app_iff; right; exact H).
    destruct (links_newhead h b l2 (Some e) (final l1 None) None Nb2 L2) as (f & Eb & L2'). cbn [bind]. rewrite Eb. cbn [bind].
    eexists. split; [reflexivity|]. split; [exact L2'|]. intros x Hx. apply put_other. intros ->. apply Hx. left; reflexivity. }
  destruct A as (h1 & E1 & L2' & F1). unfold remque. rewrite E1. cbn [bind]. unfold remque_back, get, set_forw, get.
  rewrite (F1 e) by (intros H; apply (Ne2 e H); reflexivity). rewrite Ee. cbn [bind].
  assert (D : forall x, In x l1 -> ~ In x l2).
  { intros x H1 H2. clear -N12 H1 H2. induction l1 as [|a l1 IH]; [destruct H1|]. cbn in N12. inversion N12; subst.
    destruct H1 as [<-|H1]; [apply H3, in_app_iff; right; exact H2|auto]. }
  assert (L1' : links h1 None l1 (Some e)) by (apply (links_frame h); [intros x Hx; apply F1, D, Hx|exact L1]).
  destruct l1 as [|a0 l0] using rev_ind.
  - cbn [final]. exists h1. split; [reflexivity|]. split; [split; [exact N12|exact L2']|]. intros x Hx. apply F1, Hx.
  - clear IHl0. rewrite final_app in *. cbn [final] in *. cbn [bind].
    assert (Na0 : ~ In a0 l0).
    { rewrite <- app_assoc in N12. cbn in N12. apply NoDup_remove_2 in N12. intros H. apply N12, in_app_iff. left; exact H. }
    destruct (links_newnext h1 a0 l0 None (Some e) (first l2 None) Na0 L1') as (b & Ea & L1'').
    rewrite Ea. cbn [bind]. eexists. split; [reflexivity|]. split; [split; [exact N12|]|].
    + apply links_app. split; [exact L1''|]. rewrite final_app. cbn [final]. apply (links_frame h1); [|exact L2'].
      intros x Hx. apply put_other. intros ->. apply (D a0); [apply in_app_iff; right; left; reflexivity|exact Hx].
    + intros x Hx. rewrite put_other by (intros ->; apply Hx, in_app_iff; left; apply in_app_iff; right; left; reflexivity).
      apply F1. intros H. apply Hx, in_app_iff. right; exact H.
Qed.

Lemma remque_circular_head h e l : circular h (e :: l) -> l <> [] ->
  exists h', remque h e = Ok h' /\ circular h' l /\ unchanged_except h h' l.
Proof.
  intros [N L] Nl. cbn [first final links] in L. destruct L as [Ee L]. inversion N as [|? ? Ne N']; subst.
  assert (Nel : forall x, In x l -> x <> e) by (intros x Hx ->; contradiction).
  destruct l as [|b l]; [congruence|]. inversion N' as [|? ? Nb _]; subst. clear Nl.
  cbn [final first] in *.
  unfold remque, remque_forw, remque_back, set_back, set_forw, get. rewrite Ee. cbn [bind].
  destruct (links_newhead h b l (Some e) (final l (Some b)) (Some e) Nb L) as (f & Eb & L'). rewrite Eb. cbn [bind].
  rewrite put_other by (intros ->; apply Ne; left; reflexivity). rewrite Ee. cbn [bind].
  set (h1 := put h b (f, final l (Some b))) in *.
  destruct (exists_last (l := b :: l) ltac:(discriminate)) as (l0 & z & El).
  assert (Ez : final l (Some b) = Some z) by (change (final l (Some b)) with (final (b :: l) None); rewrite El, final_app; reflexivity).
  rewrite Ez in *. cbn [bind].
  assert (Nz : ~ In z l0).
  { rewrite El in N'. apply NoDup_remove_2 in N'. rewrite app_nil_r in N'. exact N'. }
  rewrite El in L'. destruct (links_newnext h1 z l0 (Some z) (Some e) (Some b) Nz L') as (bk & E1 & L'').
  rewrite E1. cbn [bind]. eexists. split; [reflexivity|]. split.
  - split; [exact N'|]. cbn [final first]. rewrite Ez, El. exact L''.
  - intros x Hx. rewrite put_other by (intros ->; apply Hx; rewrite El; apply in_app_iff; right; left; reflexivity).
    apply put_other. intros ->. apply Hx. left; reflexivity.
Qed.

Lemma remque_circular h e l1 l2 : circular h (l1 ++ e :: l2) -> l1 ++ l2 <> [] ->
  exists h', remque h e = Ok h' /\ circular h' (l1 ++ l2) /\ unchanged_except h h' (l1 ++ l2).
Proof.
  intros C Hn. apply circular_rot in C. cbn [app] in C.
  destruct (remque_circular_head h e (l2 ++ l1) C) as (h' & E & C' & U).
  { intros H. apply Hn. apply app_eq_nil in H as [-> ->]. reflexivity. }
  exists h'. split; [exact E|]. split; [apply circular_rot, C'|]. intros x Hx. apply U. intros H. apply Hx, in_app_iff. apply in_app_iff in H. tauto.
Qed.
