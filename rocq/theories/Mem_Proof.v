(** Proofs about Mem_Model. *)
From Verif Require Import Base Mem_Model.
Open Scope Z_scope.

(** ** Pointwise views of memory *)
Definition meq (m m' : mem) : Prop := forall a, m a = m' a.

(** memory after the first [j] bytes of a copy *)
Definition copied (m0 : mem) (d s : Z) (j : nat) : mem :=
  fun a => if (d <=? a) && (a <? d + Z.of_nat j) then m0 (a - d + s) else m0 a.

(** memory [m] with the bytes [l] written at [p] *)
Definition blit (m : mem) (p : Z) (l : list Z) : mem :=
  fun a => if (p <=? a) && (a <? p + Z.of_nat (length l)) then nth_error l (Z.to_nat (a - p)) else m a.

Lemma load_ok m p : m p <> None -> exists c, load m p = Ok c /\ m p = Some c.
Proof. unfold load. destruct (m p) as [c|]; [eauto|congruence]. Qed.

Lemma store_ok m p v : m p <> None -> store m p v = Ok (upd m p v).
Proof. unfold store. destruct (m p); [reflexivity|congruence]. Qed.

Lemma loadn_ok n : forall m p, mapped m p n ->
  exists l, loadn n m p = Ok l /\ length l = n /\ bytes_at m p l.
Proof.
  induction n as [|n IH]; intros m p Hm; cbn [loadn].
  - exists []. repeat split. intros i Hi; cbn in Hi; lia.
  - destruct (load_ok m p) as [c [Hc Hcv]].
    { specialize (Hm 0%nat ltac:(lia)). rewrite Z.add_0_r in Hm. exact Hm. }
    destruct (IH m (p+1)) as [l [Hl [Hlen Hb]]].
    { intros i Hi. replace (p + 1 + Z.of_nat i) with (p + Z.of_nat (S i)) by lia. apply Hm; lia. }
    rewrite Hc; cbn [bind]. rewrite Hl; cbn [bind].
    exists (c :: l). split; [reflexivity|]. split; [cbn; lia|].
    intros [|i] Hi; cbn [nth_error].
    + rewrite Z.add_0_r. exact Hcv.
    + replace (p + Z.of_nat (S i)) with (p + 1 + Z.of_nat i) by lia. apply Hb. cbn in Hi; lia.
Qed.

Lemma bytes_at_cons m p c l :
  bytes_at m p (c :: l) <-> m p = Some c /\ bytes_at m (p + 1) l.
Proof.
  split.
  - intros H. split.
    + specialize (H 0%nat ltac:(cbn; lia)). rewrite Z.add_0_r in H. exact H.
    + intros i Hi. replace (p + 1 + Z.of_nat i) with (p + Z.of_nat (S i)) by lia.
      apply (H (S i)). cbn; lia.
  - intros [H0 H] [|i] Hi.
    + rewrite Z.add_0_r. exact H0.
    + replace (p + Z.of_nat (S i)) with (p + 1 + Z.of_nat i) by lia. apply H. cbn in Hi; lia.
Qed.

Lemma bytes_at_app m p l1 l2 :
  bytes_at m p (l1 ++ l2) <-> bytes_at m p l1 /\ bytes_at m (p + Z.of_nat (length l1)) l2.
Proof.
  revert p; induction l1 as [|c l1 IH]; intros p; cbn [app length].
  - replace (p + Z.of_nat 0) with p by lia. split; [intros H; split; [intros i Hi; cbn in Hi; lia|exact H]|tauto].
  - rewrite !bytes_at_cons, IH.
    replace (p + Z.of_nat (S (length l1))) with (p + 1 + Z.of_nat (length l1)) by lia. tauto.
Qed.

Lemma bytes_at_mapped m p l : bytes_at m p l -> mapped m p (length l).
Proof.
  intros H i Hi. rewrite (H i Hi). apply nth_error_Some. exact Hi.
Qed.

Lemma mapped_sub m p n q k :
  mapped m p n -> p <= q -> q + Z.of_nat k <= p + Z.of_nat n -> mapped m q k.
Proof.
  intros H Hq Hk i Hi. replace (q + Z.of_nat i) with (p + Z.of_nat (Z.to_nat (q - p) + i)) by lia.
  apply H. lia.
Qed.

Lemma meq_mapped m m' p n : meq m m' -> mapped m p n -> mapped m' p n.
Proof. intros E H i Hi. rewrite <- (E _). apply H, Hi. Qed.

Lemma meq_bytes_at m m' p l : meq m m' -> bytes_at m p l -> bytes_at m' p l.
Proof. intros E H i Hi. rewrite <- (E _). apply H, Hi. Qed.

Lemma meq_refl m : meq m m. Proof. intros a; reflexivity. Qed.
Lemma meq_sym m m' : meq m m' -> meq m' m. Proof. intros H a; symmetry; apply H. Qed.
Lemma meq_trans m1 m2 m3 : meq m1 m2 -> meq m2 m3 -> meq m1 m3.
Proof. intros H1 H2 a; rewrite H1; apply H2. Qed.

Lemma storen_ok l : forall m p, mapped m p (length l) ->
  exists m', storen l m p = Ok m' /\ meq m' (blit m p l).
Proof.
  induction l as [|c l IH]; intros m p Hm; cbn [storen].
  - exists m. split; [reflexivity|]. intros a. unfold blit; cbn [length].
    destruct (p <=? a) eqn:E1; cbn; [|reflexivity].
    destruct (a <? p + 0) eqn:E2; [lia|reflexivity].
  - rewrite store_ok by (specialize (Hm 0%nat ltac:(cbn; lia)); rewrite Z.add_0_r in Hm; exact Hm).
    cbn [bind].
    destruct (IH (upd m p c) (p+1)) as [m' [Hs He]].
    { intros i Hi. unfold upd. destruct (p + 1 + Z.of_nat i =? p) eqn:E; [discriminate|].
      replace (p + 1 + Z.of_nat i) with (p + Z.of_nat (S i)) by lia. apply Hm. cbn; lia. }
    exists m'. split; [exact Hs|]. intros a. rewrite He. unfold blit, upd. cbn [length].
    destruct (p <=? a) eqn:E1.
    + destruct (a =? p) eqn:E2.
      * apply Z.eqb_eq in E2; subst a. replace (p + 1 <=? p) with false by lia. cbn.
        destruct (p <? p + Z.pos (Pos.of_succ_nat (length l))) eqn:E3; [|lia].
        replace (p - p) with 0 by lia. reflexivity.
      * replace (p + 1 <=? a) with true by lia. cbn [andb].
        replace (a <? p + Z.of_nat (S (length l))) with (a <? p + 1 + Z.of_nat (length l)) by
          (destruct (a <? p + 1 + Z.of_nat (length l)) eqn:E4; lia).
        destruct (a <? p + 1 + Z.of_nat (length l)) eqn:E5; [|reflexivity].
        replace (Z.to_nat (a - p)) with (S (Z.to_nat (a - (p + 1)))) by lia. reflexivity.
    + replace (p + 1 <=? a) with false by lia. cbn. destruct (a =? p) eqn:E2; [lia|reflexivity].
Qed.

(** [loadn]/[storen] do not depend on the representation of the memory *)
Lemma loadn_fun n : forall m p l, bytes_at m p l -> length l = n -> loadn n m p = Ok l.
Proof.
  induction n as [|n IH]; intros m p l Hb Hl; destruct l as [|c l]; cbn in Hl; try discriminate; [reflexivity|].
  apply bytes_at_cons in Hb as [H0 H1]. cbn [loadn]. unfold load. rewrite H0. cbn [bind].
  rewrite (IH m (p+1) l H1) by lia. reflexivity.
Qed.

Lemma load_words_ok k w : forall m p, mapped m p (k * w) ->
  exists vs, load_words k w m p = Ok vs /\ length (concat vs) = (k * w)%nat
          /\ Forall (fun v => length v = w) vs /\ bytes_at m p (concat vs).
Proof.
  induction k as [|k IH]; intros m p Hm; cbn [load_words].
  - exists []. repeat split; [constructor|]. intros i Hi; cbn in Hi; lia.
  - destruct (loadn_ok w m p) as [v [Hv [Hlen Hb]]].
    { apply (mapped_sub _ _ _ _ _ Hm); lia. }
    destruct (IH m (p + Z.of_nat w)) as [vs [Hvs [Hl2 [Hf Hb2]]]].
    { apply (mapped_sub _ _ _ _ _ Hm); lia. }
    rewrite Hv; cbn [bind]. rewrite Hvs; cbn [bind].
    exists (v :: vs). split; [reflexivity|]. cbn [concat].
    split; [rewrite app_length; lia|]. split; [constructor; assumption|].
    apply bytes_at_app. split; [exact Hb|]. rewrite Hlen. exact Hb2.
Qed.

Lemma blit_app m p l1 l2 :
  meq (blit (blit m p l1) (p + Z.of_nat (length l1)) l2) (blit m p (l1 ++ l2)).
Proof.
  intros a. unfold blit. rewrite app_length.
  destruct (p <=? a) eqn:E1; cbn [andb].
  - destruct (p + Z.of_nat (length l1) <=? a) eqn:E2; cbn [andb].
    + replace (a <? p + Z.of_nat (length l1)) with false by lia.
      replace (p + Z.of_nat (length l1) + Z.of_nat (length l2)) with (p + Z.of_nat (length l1 + length l2)) by lia.
      destruct (a <? p + Z.of_nat (length l1 + length l2)) eqn:E3; [|reflexivity].
      rewrite nth_error_app2 by lia. f_equal. lia.
    + replace (a <? p + Z.of_nat (length l1)) with true by lia.
      replace (a <? p + Z.of_nat (length l1 + length l2)) with true by lia.
      rewrite nth_error_app1 by lia. reflexivity.
  - replace (p + Z.of_nat (length l1) <=? a) with false by lia. reflexivity.
Qed.

Lemma blit_meq m m' p l : meq m m' -> meq (blit m p l) (blit m' p l).
Proof. intros E a. unfold blit. destruct (_ && _); [reflexivity|apply E]. Qed.

Lemma blit_mapped m p l q k : mapped m q k -> mapped (blit m p l) q k.
Proof.
  intros H i Hi. unfold blit.
  destruct (_ && _) eqn:E; [|apply H, Hi].
  apply andb_true_iff in E. apply nth_error_Some. lia.
Qed.

Lemma store_words_ok w vs : Forall (fun v => length v = w) vs -> forall m p,
  mapped m p (length (concat vs)) ->
  exists m', store_words w vs m p = Ok m' /\ meq m' (blit m p (concat vs)).
Proof.
  induction 1 as [|v vs Hv Hf IH]; intros m p Hm; cbn [store_words concat] in *.
  - exists m. split; [reflexivity|]. intros a. unfold blit; cbn [length].
    destruct (p <=? a) eqn:E1; cbn; [|reflexivity].
    destruct (a <? p + 0) eqn:E2; [lia|reflexivity].
  - rewrite app_length in Hm.
    destruct (storen_ok v m p) as [m1 [Hs1 He1]].
    { apply (mapped_sub _ _ _ _ _ Hm); lia. }
    rewrite Hs1; cbn [bind].
    destruct (IH m1 (p + Z.of_nat w)) as [m2 [Hs2 He2]].
    { eapply meq_mapped; [apply meq_sym, He1|]. apply blit_mapped. apply (mapped_sub _ _ _ _ _ Hm); lia. }
    exists m2. split; [exact Hs2|].
    eapply meq_trans; [exact He2|]. eapply meq_trans; [apply blit_meq, He1|].
    subst w. apply blit_app.
Qed.

Lemma copy_block_ok k w m d s :
  mapped m s (k * w) -> mapped m d (k * w) ->
  exists l m', copy_block k w m d s = Ok m' /\ length l = (k * w)%nat /\ bytes_at m s l
           /\ meq m' (blit m d l).
Proof.
  intros Hs Hd. destruct (load_words_ok k w m s Hs) as [vs [Hv [Hl [Hf Hb]]]].
  destruct (store_words_ok w vs Hf m d) as [m' [Hst He]].
  { rewrite Hl; exact Hd. }
  exists (concat vs), m'. unfold copy_block. rewrite Hv; cbn [bind]. auto.
Qed.

(** ** forward_copy *)
Definition fwd_ok (d s : Z) (n : nat) : Prop := d <= s \/ s + Z.of_nat n <= d.

Definition PInv (m0 : mem) (d s : Z) (n : nat) (st : mem * Z * Z * nat) : Prop :=
  let '(m, d', s', r) := st in
  (r <= n)%nat /\ d' = d + Z.of_nat (n - r) /\ s' = s + Z.of_nat (n - r) /\
  meq m (copied m0 d s (n - r)).

Lemma copied_mapped m0 d s j q k :
  mapped m0 q k -> mapped m0 s j -> mapped (copied m0 d s j) q k.
Proof.
  intros H Hs i Hi. unfold copied. destruct (_ && _) eqn:E; [|apply H, Hi].
  apply andb_true_iff in E.
  replace (q + Z.of_nat i - d + s) with (s + Z.of_nat (Z.to_nat (q + Z.of_nat i - d))) by lia.
  apply Hs. lia.
Qed.

Lemma copy_step m0 d s n k w m d' s' r :
  fwd_ok d s n -> mapped m0 s n -> mapped m0 d n ->
  PInv m0 d s n (m, d', s', r) -> (k * w <= r)%nat ->
  exists m', copy_block k w m d' s' = Ok m' /\
    PInv m0 d s n (m', d' + Z.of_nat (k * w), s' + Z.of_nat (k * w), (r - k * w)%nat).
Proof.
  intros Hok Hs Hd [Hr [Hd' [Hs' Hm]]] Hk.
  destruct (copy_block_ok k w m d' s') as [l [m' [Hc [Hl [Hb He]]]]].
  { eapply meq_mapped; [apply meq_sym, Hm|]. apply copied_mapped.
    - apply (mapped_sub _ _ _ _ _ Hs); lia.
    - apply (mapped_sub _ _ _ _ _ Hs); lia. }
  { eapply meq_mapped; [apply meq_sym, Hm|]. apply copied_mapped.
    - apply (mapped_sub _ _ _ _ _ Hd); lia.
    - apply (mapped_sub _ _ _ _ _ Hs); lia. }
  exists m'. split; [exact Hc|]. unfold PInv. split; [lia|]. split; [lia|]. split; [lia|].
  intros a. rewrite He. unfold blit. rewrite Hl.
  destruct ((d' <=? a) && (a <? d' + Z.of_nat (k * w))) eqn:E.
  - apply andb_true_iff in E. rewrite <- Hb by lia. rewrite Hm. unfold copied.
    replace ((d <=? a) && (a <? d + Z.of_nat (n - (r - k * w)))) with true by lia.
    replace (s' + Z.of_nat (Z.to_nat (a - d'))) with (a - d + s) by lia.
    destruct ((d <=? a - d + s) && (a - d + s <? d + Z.of_nat (n - r))) eqn:E2; [|reflexivity].
    exfalso. destruct Hok; lia.
  - rewrite Hm. unfold copied.
    destruct ((d <=? a) && (a <? d + Z.of_nat (n - r))) eqn:E2.
    + replace ((d <=? a) && (a <? d + Z.of_nat (n - (r - k * w)))) with true by lia. reflexivity.
    + destruct ((d <=? a) && (a <? d + Z.of_nat (n - (r - k * w)))) eqn:E3; [|reflexivity].
      exfalso; lia.
Qed.

Lemma fwd64_ok fuel : forall m0 d s n m d' s' r,
  fwd_ok d s n -> mapped m0 s n -> mapped m0 d n ->
  PInv m0 d s n (m, d', s', r) -> (r < fuel)%nat ->
  exists st, fwd64 fuel m d' s' r = Ok st /\ PInv m0 d s n st /\ (snd st < 64)%nat.
Proof.
  induction fuel as [|f IH]; intros m0 d s n m d' s' r Hok Hs Hd HP Hf; [lia|].
  cbn [fwd64]. destruct (Nat.leb_spec 64 r) as [H64|H64].
  - destruct (copy_step m0 d s n 8 8 m d' s' r Hok Hs Hd HP) as [m' [Hc HP']]; [lia|].
    rewrite Hc; cbn [bind]. change (Z.of_nat (8*8)) with 64 in HP'. change (8*8)%nat with 64%nat in HP'.
    apply (IH m0 d s n m' (d'+64) (s'+64) (r-64)%nat Hok Hs Hd HP'). lia.
  - eexists. split; [reflexivity|]. split; [exact HP|]. exact H64.
Qed.

Lemma fwd_if_ok k w m0 d s n st :
  fwd_ok d s n -> mapped m0 s n -> mapped m0 d n ->
  PInv m0 d s n st -> (snd st < 2 * (k * w))%nat ->
  exists st', fwd_if k w st = Ok st' /\ PInv m0 d s n st' /\ (snd st' < k * w)%nat.
Proof.
  intros Hok Hs Hd HP Hlt. destruct st as [[[m d'] s'] r]. cbn [snd] in Hlt. unfold fwd_if.
  destruct (Nat.leb_spec (k*w) r) as [H|H].
  - destruct (copy_step m0 d s n k w m d' s' r Hok Hs Hd HP H) as [m' [Hc HP']].
    rewrite Hc; cbn [bind]. eexists. split; [reflexivity|]. split; [exact HP'|]. cbn [snd]. lia.
  - eexists. split; [reflexivity|]. split; [exact HP|]. exact H.
Qed.

Lemma forward_copy_ok m d s n :
  fwd_ok d s n -> mapped m s n -> mapped m d n ->
  exists m', forward_copy m d s n = Ok (m', d) /\ meq m' (copied m d s n).
Proof.
  intros Hok Hs Hd. unfold forward_copy.
  destruct (fwd64_ok (S n) m d s n m d s n Hok Hs Hd) as [st0 [H0 [P0 L0]]].
  { unfold PInv. rewrite Nat.sub_diag. split; [lia|]. split; [lia|]. split; [lia|].
    intros a. unfold copied. destruct ((d <=? a) && (a <? d + Z.of_nat 0)) eqn:E; [lia|reflexivity]. }
  { lia. }
  rewrite H0; cbn [bind].
  destruct (fwd_if_ok 4 8 m d s n st0 Hok Hs Hd P0) as [st1 [H1 [P1 L1]]]; [lia|].
  rewrite H1; cbn [bind].
  destruct (fwd_if_ok 2 8 m d s n st1 Hok Hs Hd P1) as [st2 [H2 [P2 L2]]]; [lia|].
  rewrite H2; cbn [bind].
  destruct (fwd_if_ok 1 8 m d s n st2 Hok Hs Hd P2) as [st3 [H3 [P3 L3]]]; [lia|].
  rewrite H3; cbn [bind].
  destruct (fwd_if_ok 1 4 m d s n st3 Hok Hs Hd P3) as [st4 [H4 [P4 L4]]]; [lia|].
  rewrite H4; cbn [bind].
  destruct (fwd_if_ok 1 2 m d s n st4 Hok Hs Hd P4) as [st5 [H5 [P5 L5]]]; [lia|].
  rewrite H5; cbn [bind].
  destruct st5 as [[[m5 d5] s5] r5]. cbn [snd] in L5.
  destruct (Nat.eqb_spec r5 0) as [E|E].
  - exists m5. split; [reflexivity|]. destruct P5 as [_ [_ [_ Hm]]]. subst r5. rewrite Nat.sub_0_r in Hm. exact Hm.
  - assert (r5 = 1%nat) by lia. subst r5.
    destruct (copy_step m d s n 1 1 m5 d5 s5 1%nat Hok Hs Hd P5) as [m' [Hc HP']]; [lia|].
    unfold copy_block in Hc. cbn [load_words loadn Nat.mul] in Hc.
    destruct (load m5 s5) as [c| | |] eqn:El; cbn [bind] in Hc; try discriminate.
    cbn [bind store_words storen] in Hc.
    destruct (store m5 d5 c) as [mm| | |] eqn:Es; cbn [bind] in Hc; try discriminate.
    injection Hc as Hc. subst mm. cbn [bind]. rewrite Es. cbn [bind].
    exists m'. split; [reflexivity|]. destruct HP' as [_ [_ [_ Hm]]].
    replace (n - (1 - 1*1))%nat with n in Hm by lia. exact Hm.
Qed.

(** ** The user-level statements *)
Lemma copied_bytes m d s n l : bytes_at m s l -> length l = n -> bytes_at (copied m d s n) d l.
Proof.
  intros Hb Hl i Hi. unfold copied. replace ((d <=? d + Z.of_nat i) && _) with true by lia.
  replace (d + Z.of_nat i - d + s) with (s + Z.of_nat i) by lia. apply Hb, Hi.
Qed.

Lemma copied_outside m d s n : same_outside m (copied m d s n) d n.
Proof.
  intros a Ha. unfold copied. destruct ((d <=? a) && (a <? d + Z.of_nat n)) eqn:E; [lia|reflexivity].
Qed.

Lemma memcpy_ok m d s l :
  bytes_at m s l -> mapped m d (length l) -> disjoint d (length l) s (length l) ->
  exists m', memcpy m d s (length l) = Ok (m', d) /\ bytes_at m' d l /\ same_outside m m' d (length l).
Proof.
  intros Hb Hd Hdis. destruct (forward_copy_ok m d s (length l)) as [m' [H E]].
  { unfold fwd_ok. destruct Hdis; lia. }
  { apply bytes_at_mapped, Hb. }
  { exact Hd. }
  exists m'. split; [exact H|]. split.
  - eapply meq_bytes_at; [apply meq_sym, E|]. apply copied_bytes; auto.
  - intros a Ha. rewrite E. apply copied_outside, Ha.
Qed.

Lemma mempcpy_ok m d s l :
  bytes_at m s l -> mapped m d (length l) -> disjoint d (length l) s (length l) ->
  exists m', mempcpy m d s (length l) = Ok (m', d + Z.of_nat (length l)) /\ bytes_at m' d l /\ same_outside m m' d (length l).
Proof.
  intros Hb Hd Hdis. destruct (memcpy_ok m d s l Hb Hd Hdis) as [m' [H R]].
  exists m'. unfold mempcpy. rewrite H. cbn [bind]. auto.
Qed.

Lemma back_copy_ok k : forall m d s,
  s < d -> mapped m s k -> mapped m d k ->
  exists m', back_copy k m d s = Ok m' /\ meq m' (copied m d s k).
Proof.
  induction k as [|k IH]; intros m d s Hlt Hs Hd; cbn [back_copy].
  - exists m. split; [reflexivity|]. intros a. unfold copied.
    destruct ((d <=? a) && (a <? d + Z.of_nat 0)) eqn:E; [lia|reflexivity].
  - destruct (load_ok m (s + Z.of_nat k)) as [c [Hc Hcv]]; [apply Hs; lia|].
    rewrite Hc; cbn [bind]. rewrite store_ok by (apply Hd; lia). cbn [bind].
    destruct (IH (upd m (d + Z.of_nat k) c) d s Hlt) as [m' [Hb He]].
    { intros i Hi. unfold upd. destruct (_ =? _); [discriminate|]. apply Hs; lia. }
    { intros i Hi. unfold upd. destruct (_ =? _); [discriminate|]. apply Hd; lia. }
    exists m'. split; [exact Hb|]. intros a. rewrite He. unfold copied, upd.
    destruct ((d <=? a) && (a <? d + Z.of_nat k)) eqn:E1.
    + replace ((d <=? a) && (a <? d + Z.of_nat (S k))) with true by lia.
      destruct (a - d + s =? d + Z.of_nat k) eqn:E2; [lia|reflexivity].
    + destruct (a =? d + Z.of_nat k) eqn:E3.
      * replace ((d <=? a) && (a <? d + Z.of_nat (S k))) with true by lia.
        replace (a - d + s) with (s + Z.of_nat k) by lia. symmetry; exact Hcv.
      * destruct ((d <=? a) && (a <? d + Z.of_nat (S k))) eqn:E4; [lia|reflexivity].
Qed.

Lemma memmove_ok m d s l :
  bytes_at m s l -> mapped m d (length l) ->
  exists m', memmove m d s (length l) = Ok (m', d) /\ bytes_at m' d l /\ same_outside m m' d (length l).
Proof.
  intros Hb Hd. pose proof (bytes_at_mapped _ _ _ Hb) as Hs. unfold memmove.
  assert (HC : forall m', meq m' (copied m d s (length l)) ->
                 bytes_at m' d l /\ same_outside m m' d (length l)).
  { intros m' E. split.
    - eapply meq_bytes_at; [apply meq_sym, E|]. apply copied_bytes; auto.
    - intros a Ha. rewrite E. apply copied_outside, Ha. }
  destruct ((d <? s) || (s + Z.of_nat (length l) <=? d)) eqn:E1.
  - destruct (forward_copy_ok m d s (length l)) as [m' [H E]]; [unfold fwd_ok; lia|exact Hs|exact Hd|].
    exists m'. split; [exact H|]. apply HC, E.
  - destruct (s <? d) eqn:E2.
    + destruct (back_copy_ok (length l) m d s) as [m' [H E]]; [lia|exact Hs|exact Hd|].
      exists m'. rewrite H. cbn [bind]. split; [reflexivity|]. apply HC, E.
    + assert (s = d) by lia. subst s. exists m. split; [reflexivity|]. split; [exact Hb|].
      intros a _. reflexivity.
Qed.

(** ** memset *)
Definition filled (m0 : mem) (d : Z) (j : nat) (b : Z) : mem :=
  fun a => if (d <=? a) && (a <? d + Z.of_nat j) then Some b else m0 a.

Lemma le_patterns_all :
  forallb (fun b => let b := Z.of_nat b in
     (forallb (Z.eqb b) (le_bytes 8 (pattern64 b)) &&
      forallb (Z.eqb b) (le_bytes 4 (pattern32 b)) &&
      forallb (Z.eqb b) (le_bytes 2 (pattern16 b)))) (seq 0 256) = true.
Proof. vm_compute. reflexivity. Qed.

Lemma forallb_repeat b : forall l, forallb (Z.eqb b) l = true -> l = repeat b (length l).
Proof.
  induction l as [|c l IH]; cbn; [reflexivity|]. intros H. apply andb_true_iff in H as [H1 H2].
  apply Z.eqb_eq in H1. rewrite <- IH by exact H2. congruence.
Qed.

Lemma le_bytes_length w : forall v, length (le_bytes w v) = w.
Proof. induction w; intros v; cbn; [reflexivity|]. f_equal. apply IHw. Qed.

Lemma le_pattern b : 0 <= b < 256 ->
  le_bytes 8 (pattern64 b) = repeat b 8 /\ le_bytes 4 (pattern32 b) = repeat b 4 /\
  le_bytes 2 (pattern16 b) = repeat b 2.
Proof.
  intros Hb. pose proof le_patterns_all as H. rewrite forallb_forall in H.
  specialize (H (Z.to_nat b)). cbv zeta in H. rewrite Z2Nat.id in H by lia.
  assert (Hin : In (Z.to_nat b) (seq 0 256)) by (apply in_seq; lia).
  specialize (H Hin). apply andb_true_iff in H as [H H16]. apply andb_true_iff in H as [H64 H32].
  apply forallb_repeat in H64. apply forallb_repeat in H32. apply forallb_repeat in H16.
  rewrite le_bytes_length in *. auto.
Qed.

Lemma blit_repeat m p b k : meq (blit m p (repeat b k)) (filled m p k b).
Proof.
  intros a. unfold blit, filled. rewrite repeat_length.
  destruct ((p <=? a) && (a <? p + Z.of_nat k)) eqn:E; [|reflexivity].
  apply andb_true_iff in E. apply nth_error_repeat. lia.
Qed.

Definition SInv (m0 : mem) (d : Z) (n : nat) (b : Z) (st : mem * Z * nat) : Prop :=
  let '(m, d', r) := st in
  (r <= n)%nat /\ d' = d + Z.of_nat (n - r) /\ meq m (filled m0 d (n - r) b).

Lemma filled_mapped m0 d j b q k : mapped m0 q k -> mapped (filled m0 d j b) q k.
Proof. intros H i Hi. unfold filled. destruct (_ && _); [discriminate|]. apply H, Hi. Qed.

Lemma filled_step m0 d n b m r k :
  (r <= n)%nat -> (k <= r)%nat -> meq m (filled m0 d (n - r) b) ->
  meq (filled m (d + Z.of_nat (n - r)) k b) (filled m0 d (n - (r - k)) b).
Proof.
  intros Hr Hk Hm a. unfold filled at 1. 
  destruct ((d + Z.of_nat (n - r) <=? a) && (a <? d + Z.of_nat (n - r) + Z.of_nat k)) eqn:E.
  - unfold filled. replace ((d <=? a) && (a <? d + Z.of_nat (n - (r - k)))) with true by lia. reflexivity.
  - rewrite Hm. unfold filled.
    destruct ((d <=? a) && (a <? d + Z.of_nat (n - r))) eqn:E2.
    + replace ((d <=? a) && (a <? d + Z.of_nat (n - (r - k)))) with true by lia. reflexivity.
    + destruct ((d <=? a) && (a <? d + Z.of_nat (n - (r - k)))) eqn:E3; [lia|reflexivity].
Qed.

Lemma set_align_ok r : forall m0 d n b m d',
  mapped m0 d n -> SInv m0 d n b (m, d', r) ->
  exists st, set_align r m d' b = Ok st /\ SInv m0 d n b st.
Proof.
  induction r as [|r IH]; intros m0 d n b m d' Hd HS; cbn [set_align].
  - eexists. split; [reflexivity|exact HS].
  - destruct (d' mod 8 =? 0); [eexists; split; [reflexivity|exact HS]|].
    destruct HS as [Hr [Hd' Hm]].
    rewrite store_ok.
    2:{ rewrite Hm. apply (filled_mapped m0 d (n - S r) b d n Hd) with (i := (n - S r)%nat) || idtac.
        subst d'. pose proof (filled_mapped m0 d (n - S r) b d n Hd (n - S r)%nat ltac:(lia)) as H. exact H. }
    cbn [bind]. apply (IH m0 d n b); [exact Hd|].
    split; [lia|]. split; [lia|].
    pose proof (filled_step m0 d n b m (S r) 1 Hr ltac:(lia) Hm) as HF.
    replace (n - (S r - 1))%nat with (n - r)%nat in HF by lia.
    intros a. rewrite <- HF. unfold upd, filled. subst d'.
    destruct (a =? d + Z.of_nat (n - S r)) eqn:E.
    + replace ((d + Z.of_nat (n - S r) <=? a) && (a <? d + Z.of_nat (n - S r) + Z.of_nat 1)) with true by lia. reflexivity.
    + destruct ((d + Z.of_nat (n - S r) <=? a) && (a <? d + Z.of_nat (n - S r) + Z.of_nat 1)) eqn:E2; [lia|reflexivity].
Qed.

Lemma filled_filled m p j k b :
  meq (filled (filled m p j b) (p + Z.of_nat j) k b) (filled m p (j + k) b).
Proof.
  intros a. unfold filled.
  destruct ((p + Z.of_nat j <=? a) && (a <? p + Z.of_nat j + Z.of_nat k)) eqn:E1;
  destruct ((p <=? a) && (a <? p + Z.of_nat (j + k))) eqn:E2; try reflexivity; try lia;
  destruct ((p <=? a) && (a <? p + Z.of_nat j)) eqn:E3; try reflexivity; lia.
Qed.

Lemma filled_meq m m' p k b : meq m m' -> meq (filled m p k b) (filled m' p k b).
Proof. intros E a. unfold filled. destruct (_ && _); [reflexivity|apply E]. Qed.

Lemma set_block_ok k w pat b : le_bytes w pat = repeat b w -> forall m d,
  mapped m d (k * w) ->
  exists m', set_block k w pat m d = Ok m' /\ meq m' (filled m d (k * w) b).
Proof.
  intros Hp. induction k as [|k IH]; intros m d Hm; cbn [set_block].
  - exists m. split; [reflexivity|]. intros a. unfold filled. cbn [Nat.mul].
    destruct ((d <=? a) && (a <? d + Z.of_nat 0)) eqn:E; [lia|reflexivity].
  - destruct (storen_ok (le_bytes w pat) m d) as [m1 [H1 E1]].
    { rewrite Hp, repeat_length. apply (mapped_sub _ _ _ _ _ Hm); lia. }
    rewrite Hp in E1. rewrite H1; cbn [bind].
    assert (E1' : meq m1 (filled m d w b)) by (eapply meq_trans; [exact E1|apply blit_repeat]).
    destruct (IH m1 (d + Z.of_nat w)) as [m2 [H2 E2]].
    { eapply meq_mapped; [apply meq_sym, E1'|]. apply filled_mapped. apply (mapped_sub _ _ _ _ _ Hm); lia. }
    exists m2. split; [exact H2|]. eapply meq_trans; [exact E2|].
    eapply meq_trans; [apply filled_meq, E1'|]. apply filled_filled.
Qed.

Lemma set_step k w pat b m0 d n m d' r :
  le_bytes w pat = repeat b w -> mapped m0 d n -> SInv m0 d n b (m, d', r) -> (k * w <= r)%nat ->
  exists m', set_block k w pat m d' = Ok m' /\ SInv m0 d n b (m', d' + Z.of_nat (k * w), (r - k * w)%nat).
Proof.
  intros Hp Hd [Hr [Hd' Hm]] Hk.
  destruct (set_block_ok k w pat b Hp m d') as [m' [H E]].
  { eapply meq_mapped; [apply meq_sym, Hm|]. apply filled_mapped. apply (mapped_sub _ _ _ _ _ Hd); lia. }
  exists m'. split; [exact H|]. split; [lia|]. split; [lia|].
  eapply meq_trans; [exact E|]. subst d'. apply filled_step; auto.
Qed.

Lemma set64_ok fuel : forall pat b m0 d n m d' r,
  le_bytes 8 pat = repeat b 8 -> mapped m0 d n -> SInv m0 d n b (m, d', r) -> (r < fuel)%nat ->
  exists st, set64 fuel m d' pat r = Ok st /\ SInv m0 d n b st /\ (snd st < 64)%nat.
Proof.
  induction fuel as [|f IH]; intros pat b m0 d n m d' r Hp Hd HS Hf; [lia|].
  cbn [set64]. destruct (Nat.leb_spec 64 r) as [H|H].
  - destruct (set_step 8 8 pat b m0 d n m d' r Hp Hd HS) as [m' [Hc HS']]; [lia|].
    rewrite Hc; cbn [bind]. change (Z.of_nat (8*8)) with 64 in HS'. change (8*8)%nat with 64%nat in HS'.
    apply (IH pat b m0 d n m' (d'+64) (r-64)%nat Hp Hd HS'). lia.
  - eexists. split; [reflexivity|]. split; [exact HS|exact H].
Qed.

Lemma set_if_ok k w pat b m0 d n st :
  le_bytes w pat = repeat b w -> mapped m0 d n -> SInv m0 d n b st -> (snd st < 2 * (k * w))%nat ->
  exists st', set_if k w pat st = Ok st' /\ SInv m0 d n b st' /\ (snd st' < k * w)%nat.
Proof.
  intros Hp Hd HS Hlt. destruct st as [[m d'] r]. cbn [snd] in Hlt. unfold set_if.
  destruct (Nat.leb_spec (k*w) r) as [H|H].
  - destruct (set_step k w pat b m0 d n m d' r Hp Hd HS H) as [m' [Hc HS']].
    rewrite Hc; cbn [bind]. eexists. split; [reflexivity|]. split; [exact HS'|]. cbn [snd]; lia.
  - eexists. split; [reflexivity|]. split; [exact HS|exact H].
Qed.

Lemma memset_ok m d val n :
  mapped m d n ->
  exists m', memset m d val n = Ok (m', d) /\ bytes_at m' d (repeat (val mod 256) n) /\ same_outside m m' d n.
Proof.
  intros Hd. set (b := val mod 256).
  assert (Hb : 0 <= b < 256) by (apply Z.mod_pos_bound; lia).
  destruct (le_pattern b Hb) as [P64 [P32 P16]].
  unfold memset. fold b.
  destruct (set_align_ok n m d n b m d Hd) as [st0 [H0 S0]].
  { split; [lia|]. split; [lia|]. rewrite Nat.sub_diag. intros a. unfold filled.
    destruct ((d <=? a) && (a <? d + Z.of_nat 0)) eqn:E; [lia|reflexivity]. }
  rewrite H0; cbn [bind]. destruct st0 as [[m1 d1] n1].
  destruct (set64_ok (S n1) (pattern64 b) b m d n m1 d1 n1 P64 Hd S0) as [st1 [H1 [S1 L1]]]; [lia|].
  rewrite H1; cbn [bind].
  destruct (set_if_ok 4 8 (pattern64 b) b m d n st1 P64 Hd S1) as [st2 [H2 [S2 L2]]]; [lia|].
  rewrite H2; cbn [bind].
  destruct (set_if_ok 2 8 (pattern64 b) b m d n st2 P64 Hd S2) as [st3 [H3 [S3 L3]]]; [lia|].
  rewrite H3; cbn [bind].
  destruct (set_if_ok 1 8 (pattern64 b) b m d n st3 P64 Hd S3) as [st4 [H4 [S4 L4]]]; [lia|].
  rewrite H4; cbn [bind].
  destruct (set_if_ok 1 4 (pattern32 b) b m d n st4 P32 Hd S4) as [st5 [H5 [S5 L5]]]; [lia|].
  rewrite H5; cbn [bind].
  destruct (set_if_ok 1 2 (pattern16 b) b m d n st5 P16 Hd S5) as [st6 [H6 [S6 L6]]]; [lia|].
  rewrite H6; cbn [bind]. destruct st6 as [[m6 d6] r6]. cbn [snd] in L6.
  assert (HC : forall m', meq m' (filled m d n b) -> bytes_at m' d (repeat b n) /\ same_outside m m' d n).
  { intros m' E. split.
    - intros i Hi. rewrite repeat_length in Hi. rewrite E. unfold filled.
      replace ((d <=? d + Z.of_nat i) && (d + Z.of_nat i <? d + Z.of_nat n)) with true by lia.
      symmetry; apply nth_error_repeat; exact Hi.
    - intros a Ha. rewrite E. unfold filled.
      destruct ((d <=? a) && (a <? d + Z.of_nat n)) eqn:E2; [lia|reflexivity]. }
  destruct (Nat.eqb_spec r6 0) as [E|E].
  - exists m6. split; [reflexivity|]. apply HC. destruct S6 as [_ [_ Hm]]. subst r6.
    rewrite Nat.sub_0_r in Hm. exact Hm.
  - assert (r6 = 1%nat) by lia. subst r6. destruct S6 as [Hr [Hd6 Hm]].
    rewrite store_ok.
    2:{ rewrite Hm. subst d6. apply (filled_mapped m d (n-1) b d n Hd). lia. }
    cbn [bind]. eexists. split; [reflexivity|]. apply HC.
    pose proof (filled_step m d n b m6 1 1 Hr ltac:(lia) Hm) as HF.
    replace (n - (1-1))%nat with n in HF by lia.
    intros a. rewrite <- HF. unfold upd, filled. subst d6.
    destruct (a =? d + Z.of_nat (n - 1)) eqn:E2.
    + replace ((d + Z.of_nat (n - 1) <=? a) && (a <? d + Z.of_nat (n - 1) + Z.of_nat 1)) with true by lia. reflexivity.
    + destruct ((d + Z.of_nat (n - 1) <=? a) && (a <? d + Z.of_nat (n - 1) + Z.of_nat 1)) eqn:E3; [lia|reflexivity].
Qed.

(** ** Helpers for the non-vacuity examples *)
Lemma mem_of_bytes p l : bytes_at (mem_of p l) p l.
Proof.
  intros i Hi. unfold mem_of. replace (p <=? p + Z.of_nat i) with true by lia.
  f_equal. lia.
Qed.

Lemma mem_of_mapped p l q k : p <= q -> q + Z.of_nat k <= p + Z.of_nat (length l) -> mapped (mem_of p l) q k.
Proof. intros H1 H2. apply (mapped_sub _ _ _ _ _ (bytes_at_mapped _ _ _ (mem_of_bytes p l))); lia. Qed.

Lemma mem_of_bytes_sub p l1 l2 l3 q : q = p + Z.of_nat (length l1) ->
  bytes_at (mem_of p (l1 ++ l2 ++ l3)) q l2.
Proof.
  intros ->. pose proof (mem_of_bytes p (l1 ++ l2 ++ l3)) as H.
  apply bytes_at_app in H as [_ H]. apply bytes_at_app in H as [H _]. exact H.
Qed.
