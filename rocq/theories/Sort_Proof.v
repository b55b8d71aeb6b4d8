From Verif Require Import Base Mem_Model Mem_Proof Sort_Model Sort_Spec.
Open Scope Z_scope.

(** ** Arrays indexed by nat *)
Notation el els i := (nth i els ([] : list Z)).

Definition elat (m : mem) (base : Z) (size : nat) (els : list (list Z)) : Prop :=
  forall i, (i < length els)%nat -> bytes_at m (addr base size i) (el els i) /\ length (el els i) = size.

Lemma array_elat els : forall m base size, array_at m base size els <-> elat m base size els.
Proof.
  induction els as [|e els IH]; intros m base size; split.
  - intros _ i Hi. cbn in Hi. lia.
  - intros _. split; [intros i Hi; cbn in Hi; lia|constructor].
  - intros [Hb Hf] i Hi. inversion Hf; subst. cbn [concat] in Hb. apply bytes_at_app in Hb as [Hb1 Hb2].
    destruct i as [|i].
    + cbn [nth]. unfold addr. rewrite Nat.mul_0_l, Z.add_0_r. auto.
    + cbn [nth length] in *. assert (A : array_at m (base + Z.of_nat (length e)) (length e) els) by (split; assumption).
      apply IH in A. specialize (A i ltac:(lia)). unfold addr in *.
      replace (base + Z.of_nat (S i * length e)) with (base + Z.of_nat (length e) + Z.of_nat (i * length e)) by lia. exact A.
  - intros H. pose proof (H 0%nat ltac:(cbn; lia)) as [H0 L0]. cbn [nth] in *. unfold addr in H0.
    rewrite Nat.mul_0_l, Z.add_0_r in H0.
    assert (A : elat m (base + Z.of_nat size) size els).
    { intros i Hi. specialize (H (S i) ltac:(cbn; lia)). cbn [nth] in H. unfold addr in *.
      replace (base + Z.of_nat size + Z.of_nat (i * size)) with (base + Z.of_nat (S i * size)) by lia. exact H. }
    apply IH in A as [A1 A2]. split; [|constructor; assumption]. cbn [concat]. apply bytes_at_app. rewrite L0. auto.
Qed.

Definition lset (els : list (list Z)) (i : nat) (e : list Z) : list (list Z) := firstn i els ++ e :: skipn (S i) els.
Lemma lset_len els i e : (i < length els)%nat -> length (lset els i e) = length els.
Proof. intros. unfold lset. rewrite app_length, firstn_length. cbn [length]. rewrite skipn_length. lia. Qed.
Lemma lset_nth els i e k : (i < length els)%nat -> el (lset els i e) k = if (k =? i)%nat then e else el els k.
Proof.
  intros Hi. unfold lset. destruct (Nat.eqb_spec k i) as [->|Hn].
  - rewrite app_nth2; rewrite firstn_length, Nat.min_l by lia; [|lia]. rewrite Nat.sub_diag. reflexivity.
  - destruct (Nat.lt_ge_cases k i).
    + rewrite app_nth1 by (rewrite firstn_length; lia). rewrite <- (firstn_skipn i els) at 2.
      rewrite app_nth1 by (rewrite firstn_length; lia). reflexivity.
    + rewrite app_nth2; rewrite firstn_length, Nat.min_l by lia; [|lia].
      destruct (k - i)%nat as [|q] eqn:E; [lia|]. cbn [nth].
      rewrite <- (firstn_skipn (S i) els) at 2. rewrite app_nth2 by (rewrite firstn_length; lia).
      rewrite firstn_length, Nat.min_l by lia. f_equal. lia.
Qed.
Definition lswap (els : list (list Z)) (i j : nat) : list (list Z) := lset (lset els i (el els j)) j (el els i).
Lemma lswap_len els i j : (i < length els)%nat -> (j < length els)%nat -> length (lswap els i j) = length els.
Proof. intros. unfold lswap. rewrite lset_len; rewrite lset_len by assumption; auto. Qed.
Lemma lswap_nth els i j k : (i < length els)%nat -> (j < length els)%nat ->
  el (lswap els i j) k = if (k =? j)%nat then el els i else if (k =? i)%nat then el els j else el els k.
Proof.
  intros Hi Hj. unfold lswap. rewrite lset_nth by (rewrite lset_len; assumption).
  destruct (k =? j)%nat; [reflexivity|]. apply lset_nth, Hi.
Qed.
Lemma lswap_perm els i j : (i < length els)%nat -> (j < length els)%nat -> Permutation els (lswap els i j).
Proof.
  intros Hi Hj. apply (Permutation_nth els (lswap els i j) []). cbv zeta. split; [apply lswap_len; assumption|].
  exists (fun k => if (k =? j)%nat then i else if (k =? i)%nat then j else k). split; [|split].
  - intros k Hk. destruct (k =? j)%nat, (k =? i)%nat; assumption.
  - intros a b Ha Hb. destruct (Nat.eqb_spec a j), (Nat.eqb_spec a i), (Nat.eqb_spec b j), (Nat.eqb_spec b i); subst; intros; subst; congruence || lia.
  - intros k Hk. rewrite lswap_nth by assumption. destruct (k =? j)%nat, (k =? i)%nat; reflexivity.
Qed.

(** ** Swapping in memory *)
Definition swapped (m : mem) (p q : Z) (n : nat) : mem := fun a =>
  if (p <=? a) && (a <? p + Z.of_nat n) then m (a - p + q)
  else if (q <=? a) && (a <? q + Z.of_nat n) then m (a - q + p)
  else m a.

Lemma swap_bytes_ok n : forall m p q, mapped m p n -> mapped m q n -> (p = q \/ disjoint p n q n) ->
  exists m', swap_bytes n m p q = Ok m' /\ forall a, m' a = swapped m p q n a.
Proof.
  induction n as [|n IH]; intros m p q Hp Hq Hd.
  - exists m. split; [reflexivity|]. intros a. unfold swapped. 
    replace ((p <=? a) && (a <? p + Z.of_nat 0)) with false by lia.
    replace ((q <=? a) && (a <? q + Z.of_nat 0)) with false by lia. reflexivity.
  - cbn [swap_bytes].
    pose proof (Hp 0%nat ltac:(lia)) as P0. pose proof (Hq 0%nat ltac:(lia)) as Q0. rewrite Z.add_0_r in *.
    destruct (load_ok m p P0) as (x & -> & Ex). destruct (load_ok m q Q0) as (y & -> & Ey). cbn [bind].
    rewrite store_ok by exact P0. cbn [bind].
    assert (Q1 : upd m p y q <> None) by (unfold upd; destruct (q =? p); [discriminate|exact Q0]).
    rewrite store_ok by exact Q1. cbn [bind].
    set (m2 := upd (upd m p y) q x).
    destruct (IH m2 (p + 1) (q + 1)) as (m' & E & Hm).
    + intros i Hi. specialize (Hp (S i) ltac:(lia)). replace (p + 1 + Z.of_nat i) with (p + Z.of_nat (S i)) by lia.
      subst m2. unfold upd. destruct (_ =? q); [discriminate|]. destruct (_ =? p); [discriminate|exact Hp].
    + intros i Hi. specialize (Hq (S i) ltac:(lia)). replace (q + 1 + Z.of_nat i) with (q + Z.of_nat (S i)) by lia.
      subst m2. unfold upd. destruct (_ =? q); [discriminate|]. destruct (_ =? p); [discriminate|exact Hq].
    + unfold disjoint in *. lia.
    + exists m'. split; [exact E|]. intros a. rewrite Hm. unfold swapped. subst m2. unfold upd.
      destruct (Z.eqb_spec a p) as [->|Na].
      * replace ((p + 1 <=? p) && (p <? p + 1 + Z.of_nat n)) with false by lia.
        replace ((p <=? p) && (p <? p + Z.of_nat (S n))) with true by lia.
        rewrite Z.sub_diag, Z.add_0_l.
        destruct Hd as [->|Hd].
        -- replace ((q + 1 <=? q) && (q <? q + 1 + Z.of_nat n)) with false by lia. rewrite Z.eqb_refl. congruence.
        -- unfold disjoint in Hd. replace ((q + 1 <=? p) && (p <? q + 1 + Z.of_nat n)) with false by lia.
           replace (p =? q) with false by lia. congruence.
      * destruct (Z.eqb_spec a q) as [->|Nq].
        -- destruct Hd as [->|Hd]; [congruence|]. unfold disjoint in Hd.
           replace ((p + 1 <=? q) && (q <? p + 1 + Z.of_nat n)) with false by lia.
           replace ((q + 1 <=? q) && (q <? q + 1 + Z.of_nat n)) with false by lia.
           replace ((p <=? q) && (q <? p + Z.of_nat (S n))) with false by lia.
           replace ((q <=? q) && (q <? q + Z.of_nat (S n))) with true by lia.
           rewrite Z.sub_diag, Z.add_0_l. congruence.
        -- replace ((p + 1 <=? a) && (a <? p + 1 + Z.of_nat n)) with ((p <=? a) && (a <? p + Z.of_nat (S n))) by lia.
           replace ((q + 1 <=? a) && (a <? q + 1 + Z.of_nat n)) with ((q <=? a) && (a <? q + Z.of_nat (S n))) by lia.
           replace (a - (p + 1) + (q + 1)) with (a - p + q) by lia. replace (a - (q + 1) + (p + 1)) with (a - q + p) by lia.
           destruct ((p <=? a) && (a <? p + Z.of_nat (S n))) eqn:E1.
           ++ destruct Hd as [->|Hd].
              ** replace (a - q + q =? q) with false by lia. reflexivity.
              ** unfold disjoint in Hd. replace (a - p + q =? q) with false by lia. replace (a - p + q =? p) with false by lia. reflexivity.
           ++ destruct ((q <=? a) && (a <? q + Z.of_nat (S n))) eqn:E2; [|reflexivity].
              destruct Hd as [->|Hd].
              ** lia.
              ** unfold disjoint in Hd. replace (a - q + p =? q) with false by lia. replace (a - q + p =? p) with false by lia. reflexivity.
Qed.

Lemma addr_disjoint base size i j : i <> j -> disjoint (addr base size i) size (addr base size j) size.
Proof.
  intros H. unfold disjoint, addr. destruct (Nat.lt_ge_cases i j) as [L|L].
  - left. assert ((S i) * size <= j * size)%nat by (apply Nat.mul_le_mono_r; lia). lia.
  - right. assert ((S j) * size <= i * size)%nat by (apply Nat.mul_le_mono_r; lia). lia.
Qed.

Definition outside_arr (m m' : mem) (base : Z) (size n : nat) : Prop := same_outside m m' base (n * size).

Lemma swap_idx_ok m base size els i j : elat m base size els -> (i < length els)%nat -> (j < length els)%nat ->
  exists m', swap_idx m base size i j = Ok m' /\ elat m' base size (lswap els i j) /\
             outside_arr m m' base size (length els).
Proof.
  intros H Hi Hj. pose proof (H i Hi) as [Bi Li]. pose proof (H j Hj) as [Bj Lj]. unfold swap_idx.
  destruct (swap_bytes_ok size m (addr base size i) (addr base size j)) as (m' & -> & Hm).
  - rewrite <- Li at 2. apply bytes_at_mapped, Bi.
  - rewrite <- Lj at 2. apply bytes_at_mapped, Bj.
  - destruct (Nat.eq_dec i j) as [->|N]; [left; reflexivity|right; apply addr_disjoint, N].
  - exists m'. split; [reflexivity|]. split.
    + intros k Hk. rewrite lswap_len in Hk by assumption. rewrite lswap_nth by assumption.
      destruct (Nat.eqb_spec k j) as [->|Nj].
      * split; [|exact Li]. intros x Hx. rewrite Hm. unfold swapped.
        destruct (Nat.eq_dec i j) as [->|N].
        -- replace ((_ <=? _) && _) with true by lia. rewrite <- Bj by lia. f_equal. lia.
        -- pose proof (addr_disjoint base size i j N) as D. unfold disjoint in D.
           replace ((addr base size i <=? _) && _) with false by lia.
           replace ((_ <=? _) && _) with true by lia. rewrite <- Bi by lia. f_equal. lia.
      * destruct (Nat.eqb_spec k i) as [->|Ni].
        -- split; [|exact Lj]. intros x Hx. rewrite Hm. unfold swapped.
           replace ((addr base size i <=? _) && _) with true by lia. rewrite <- Bj by lia. f_equal. lia.
        -- pose proof (H k Hk) as [Bk Lk]. split; [|exact Lk]. intros x Hx. rewrite Hm. unfold swapped.
           pose proof (addr_disjoint base size i k ltac:(lia)) as D1. pose proof (addr_disjoint base size j k ltac:(lia)) as D2.
           unfold disjoint in D1, D2.
           replace ((addr base size i <=? _) && _) with false by lia.
           replace ((addr base size j <=? _) && _) with false by lia. apply Bk. lia.
    + intros a Ha. rewrite Hm. unfold swapped, addr in *.
      assert ((S i) * size <= length els * size)%nat by (apply Nat.mul_le_mono_r; lia).
      assert ((S j) * size <= length els * size)%nat by (apply Nat.mul_le_mono_r; lia).
      replace ((base + Z.of_nat (i * size) <=? a) && _) with false by lia.
      replace ((base + Z.of_nat (j * size) <=? a) && _) with false by lia. reflexivity.
Qed.

Lemma elem_load m base size els i : elat m base size els -> (i < length els)%nat ->
  loadn size m (addr base size i) = Ok (el els i).
Proof. intros H Hi. destruct (H i Hi) as [B L]. apply loadn_fun; assumption. Qed.

(** ** Rearrangements of a range *)
Definition rearr (b e : nat) (els els' : list (list Z)) : Prop :=
  length els' = length els /\ Permutation els els' /\
  (forall k, ~ (b <= k < e)%nat -> el els' k = el els k) /\
  (forall k, (b <= k < e)%nat -> exists k', (b <= k' < e)%nat /\ el els' k = el els k').

Lemma rearr_refl b e els : rearr b e els els.
Proof. repeat split; auto. intros k Hk. exists k. auto. Qed.
Lemma rearr_trans b e l1 l2 l3 : rearr b e l1 l2 -> rearr b e l2 l3 -> rearr b e l1 l3.
Proof.
  intros (L1 & P1 & O1 & I1) (L2 & P2 & O2 & I2). repeat split.
  - congruence.
  - eapply perm_trans; eassumption.
  - intros k Hk. rewrite O2, O1 by assumption. reflexivity.
  - intros k Hk. destruct (I2 k Hk) as (k' & Hk' & ->). apply I1, Hk'.
Qed.
Lemma rearr_mono b e b' e' l1 l2 : (b' <= b)%nat -> (e <= e')%nat -> rearr b e l1 l2 -> rearr b' e' l1 l2.
Proof.
  intros Hb He (L & P & O & I). repeat split; auto.
  - intros k Hk. apply O. lia.
  - intros k Hk. destruct (Nat.lt_ge_cases k b) as [H|H]; [exists k; split; [exact Hk|apply O; lia]|].
    destruct (Nat.lt_ge_cases k e) as [H'|H']; [|exists k; split; [exact Hk|apply O; lia]].
    destruct (I k ltac:(lia)) as (k' & Hk' & E). exists k'. split; [lia|exact E].
Qed.
Lemma rearr_swap b e els i j : (b <= i < e)%nat -> (b <= j < e)%nat -> (e <= length els)%nat -> rearr b e els (lswap els i j).
Proof.
  intros Hi Hj He. repeat split.
  - apply lswap_len; lia.
  - apply lswap_perm; lia.
  - intros k Hk. rewrite lswap_nth by lia. replace (k =? j)%nat with false by lia. replace (k =? i)%nat with false by lia. reflexivity.
  - intros k Hk. rewrite lswap_nth by lia. destruct (k =? j)%nat; [exists i; auto|]. destruct (k =? i)%nat; [exists j; auto|exists k; auto].
Qed.

Lemma outside_trans m1 m2 m3 base size n : outside_arr m1 m2 base size n -> outside_arr m2 m3 base size n -> outside_arr m1 m3 base size n.
Proof. intros H1 H2 a Ha. rewrite H2, H1 by exact Ha. reflexivity. Qed.

(** ** Partition *)
Definition part_inv (c : list Z -> list Z -> Z) (els : list (list Z)) (b i j pivot : nat) : Prop :=
  (forall k, (b <= k < i)%nat -> c (el els k) (el els pivot) <= 0) /\
  (forall k, (i <= k < j)%nat -> c (el els k) (el els pivot) > 0).

Lemma part_loop_ok cmp : forall n t m base size els b i j pivot,
  elat m base size els -> (b <= i <= j)%nat -> (pivot - j = n)%nat -> (j <= pivot)%nat -> (pivot < length els)%nat ->
  exists m' i' t' els', part_loop cmp n t m base size i j pivot = Ok (m', i', t') /\
    elat m' base size els' /\ outside_arr m m' base size (length els) /\ rearr b pivot els els' /\
    (i <= i' <= pivot)%nat /\
    (forall c, (forall t a b, cmp t a b = c a b) -> part_inv c els b i j pivot -> part_inv c els' b i' pivot pivot).
Proof.
  induction n as [|n IH]; intros t m base size els b i j pivot He Hij Hn Hj Hp; cbn [part_loop].
  - assert (j = pivot) by lia. subst j. exists m, i, t, els. split; [reflexivity|]. split; [exact He|].
    split; [intros a _; reflexivity|]. split; [apply rearr_refl|]. split; [lia|auto].
  - unfold compare_idx. rewrite (elem_load _ _ _ _ _ He) by lia. cbn [bind].
    rewrite (elem_load _ _ _ _ _ He) by lia. cbn [bind].
    destruct (cmp t (el els j) (el els pivot) <=? 0) eqn:Ec.
    + destruct (swap_idx_ok m base size els i j He) as (m1 & -> & He1 & Ho1); try lia. cbn [bind].
      destruct (IH (S t) m1 base size (lswap els i j) b (S i) (S j) pivot) as (m' & i' & t' & els' & E & He' & Ho' & R & Hi' & Hc); try lia.
      * exact He1.
      * rewrite lswap_len by lia. lia.
      * rewrite lswap_len in Ho' by lia.
        exists m', i', t', els'. split; [exact E|]. split; [exact He'|]. split; [eapply outside_trans; eassumption|].
        split; [eapply rearr_trans; [apply (rearr_swap b pivot els i j); lia|exact R]|]. split; [lia|].
        intros c Hcc [I1 I2]. apply (Hc c Hcc). rewrite Hcc in Ec. split; intros k Hk; rewrite !lswap_nth by lia.
        -- replace (pivot =? j)%nat with false by lia. replace (pivot =? i)%nat with false by lia.
           destruct (Nat.eqb_spec k j) as [->|N1].
           ++ assert (i = j) by lia. subst i. lia.
           ++ destruct (Nat.eqb_spec k i) as [->|N2]; [lia|]. apply I1. lia.
        -- replace (pivot =? j)%nat with false by lia. replace (pivot =? i)%nat with false by lia.
           destruct (Nat.eqb_spec k j) as [->|N1].
           ++ apply I2. lia.
           ++ replace (k =? i)%nat with false by lia. apply I2. lia.
    + destruct (IH (S t) m base size els b i (S j) pivot) as (m' & i' & t' & els' & E & He' & Ho' & R & Hi' & Hc); try lia; [exact He|].
      exists m', i', t', els'. split; [exact E|]. split; [exact He'|]. split; [exact Ho'|]. split; [exact R|]. split; [lia|].
      intros c Hcc [I1 I2]. apply (Hc c Hcc). rewrite Hcc in Ec. split; [exact I1|]. intros k Hk.
      destruct (Nat.eq_dec k j) as [->|]; [lia|]. apply I2. lia.
Qed.

Lemma partition_ok cmp t m base size els b e : elat m base size els -> (b < e)%nat -> (e <= length els)%nat ->
  exists m' i t' els', partition cmp t m base size b e = Ok (m', i, t') /\ elat m' base size els' /\
    outside_arr m m' base size (length els) /\ rearr b e els els' /\ (b <= i < e)%nat /\
    (forall c, (forall t a b, cmp t a b = c a b) ->
       (forall k, (b <= k < i)%nat -> c (el els' k) (el els' i) <= 0) /\
       (forall k, (i < k < e)%nat -> c (el els' k) (el els' i) > 0)).
Proof.
  intros He Hb Hl. unfold partition. replace (b <? e)%nat with true by lia.
  destruct (part_loop_ok cmp (e - 1 - b) t m base size els b b b (e - 1)) as (m1 & i & t1 & els1 & -> & He1 & Ho1 & R1 & Hi & Hc); try lia; [exact He|].
  cbn [bind]. pose proof R1 as (L1 & _ & _ & _).
  destruct (swap_idx_ok m1 base size els1 i (e - 1) He1) as (m2 & -> & He2 & Ho2); try lia. cbn [bind].
  rewrite L1 in Ho2.
  exists m2, i, t1, (lswap els1 i (e - 1)). split; [reflexivity|]. split; [exact He2|]. split; [eapply outside_trans; eassumption|].
  split; [|split; [lia|]].
  - eapply rearr_trans; [eapply rearr_mono; [| |exact R1]; lia|]. apply rearr_swap; lia.
  - intros c Hcc. destruct (Hc c Hcc) as [I1 I2]; [split; intros; lia|].
    assert (Ep : el (lswap els1 i (e - 1)) i = el els1 (e - 1)).
    { rewrite lswap_nth by lia. destruct (Nat.eqb_spec i (e - 1)) as [->|]; [reflexivity|]. rewrite Nat.eqb_refl. reflexivity. }
    rewrite Ep. split; intros k Hk; rewrite lswap_nth by lia.
    + replace (k =? e - 1)%nat with false by lia. replace (k =? i)%nat with false by lia. apply I1. lia.
    + destruct (Nat.eqb_spec k (e - 1)) as [->|].
      * apply I2. lia.
      * replace (k =? i)%nat with false by lia. apply I2. lia.
Qed.

(** ** Quicksort *)
Lemma el_In els k : (k < length els)%nat -> In (el els k) els.
Proof. intros. apply nth_In, H. Qed.

Lemma tp_mono c els l : total_preorder c els -> (forall x, In x l -> In x els) -> total_preorder c l.
Proof. intros [T1 T2] H. split; intros; [apply T1; auto|]. apply (T2 a b d); auto. Qed.

Lemma quick_sort_ok fuel : forall cmp t m base size els b e,
  elat m base size els -> (b <= e)%nat -> (e <= length els)%nat -> (e - b < fuel)%nat ->
  exists m' t' els', quick_sort fuel cmp t m base size b e = Ok (m', t') /\ elat m' base size els' /\
    outside_arr m m' base size (length els) /\ rearr b e els els' /\
    (forall c, (forall t a b, cmp t a b = c a b) -> total_preorder c els ->
       forall i j, (b <= i < j)%nat -> (j < e)%nat -> c (el els' i) (el els' j) <= 0).
Proof.
  induction fuel as [|f IH]; intros cmp t m base size els b e He Hb Hl Hf; [lia|]. cbn [quick_sort].
  replace (e <? b)%nat with false by lia. destruct (e - b <=? 1)%nat eqn:E1.
  - exists m, t, els. split; [reflexivity|]. split; [exact He|]. split; [intros a _; reflexivity|].
    split; [apply rearr_refl|]. intros; lia.
  - destruct (partition_ok cmp t m base size els b e He) as (m1 & p & t1 & l1 & -> & He1 & Ho1 & R1 & Hp & Hc1); try lia.
    cbn [bind]. pose proof R1 as (L1 & P1 & O1 & I1).
    destruct (IH cmp t1 m1 base size l1 b p He1) as (m2 & t2 & l2 & -> & He2 & Ho2 & R2 & S2); try lia.
    cbn [bind]. pose proof R2 as (L2 & P2 & O2 & I2).
    destruct (IH cmp t2 m2 base size l2 (p + 1)%nat e He2) as (m3 & t3 & l3 & -> & He3 & Ho3 & R3 & S3); try lia.
    pose proof R3 as (L3 & P3 & O3 & I3). rewrite L1 in Ho2. rewrite L2, L1 in Ho3.
    exists m3, t3, l3. split; [reflexivity|]. split; [exact He3|].
    split; [eapply outside_trans; [|exact Ho3]; eapply outside_trans; eassumption|].
    split.
    + eapply rearr_trans; [exact R1|]. eapply rearr_trans; [eapply rearr_mono; [| |exact R2]; lia|].
      eapply rearr_mono; [| |exact R3]; lia.
    + intros c Hcc [T1 T2] i j Hij Hj. destruct (Hc1 c Hcc) as [LE GT].
      assert (In1 : forall x, In x l1 -> In x els) by (intros x; apply Permutation_in, Permutation_sym, P1).
      assert (In2 : forall x, In x l2 -> In x els) by (intros x Hx; apply In1; revert Hx; apply Permutation_in, Permutation_sym, P2).
      assert (In3 : forall x, In x l3 -> In x els) by (intros x Hx; apply In2; revert Hx; apply Permutation_in, Permutation_sym, P3).
      assert (TP1 : total_preorder c l1) by (apply (tp_mono c els); [split; assumption|exact In1]).
      assert (TP2 : total_preorder c l2) by (apply (tp_mono c els); [split; assumption|exact In2]).
      assert (Epiv : el l3 p = el l1 p) by (rewrite O3, O2 by lia; reflexivity).
      assert (Lo : forall k, (b <= k < p)%nat -> c (el l3 k) (el l3 p) <= 0).
      { intros k Hk. rewrite Epiv, O3 by lia. destruct (I2 k Hk) as (k' & Hk' & ->). apply LE, Hk'. }
      assert (Hi : forall k, (p < k < e)%nat -> c (el l3 p) (el l3 k) <= 0).
      { intros k Hk. rewrite Epiv. destruct (I3 k ltac:(lia)) as (k' & Hk' & ->). rewrite O2 by lia.
        pose proof (GT k' ltac:(lia)). destruct (T1 (el l1 p) (el l1 k')); [apply In1, el_In; lia|apply In1, el_In; lia|assumption|lia]. }
      destruct (Nat.lt_trichotomy j p) as [H|[->|H]].
      * rewrite !O3 by lia. apply (S2 c Hcc TP1); lia.
      * apply Lo. lia.
      * destruct (Nat.lt_trichotomy i p) as [H'|[->|H']].
        -- apply (T2 _ (el l3 p)); try (apply In3, el_In; lia); [apply Lo; lia|apply Hi; lia].
        -- apply Hi. lia.
        -- apply (S3 c Hcc TP2); lia.
Qed.

Lemma qsort_ok fuel cmp m base count size els : array_at m base size els -> length els = count -> (count < fuel)%nat ->
  exists m' els', qsort fuel cmp m base count size = Ok m' /\ array_at m' base size els' /\ Permutation els els' /\
    same_outside m m' base (count * size) /\
    forall c, (forall t a b, cmp t a b = c a b) -> total_preorder c els -> sorted_by c els'.
Proof.
  intros Ha <- Hf. apply array_elat in Ha. unfold qsort.
  destruct (quick_sort_ok fuel cmp 0 m base size els 0 (length els) Ha) as (m' & t' & els' & -> & He & Ho & (L & P & _) & S); try lia.
  cbn [bind]. exists m', els'. split; [reflexivity|]. split; [apply array_elat, He|]. split; [exact P|]. split; [exact Ho|].
  intros c Hc TP i j a b Hij Ea Eb.
  assert (Hi : (i < length els')%nat) by (apply nth_error_Some; congruence).
  assert (Hj : (j < length els')%nat) by (apply nth_error_Some; congruence).
  apply (nth_error_nth _ _ []) in Ea. apply (nth_error_nth _ _ []) in Eb. subst a b. apply S; auto; lia.
Qed.

(** ** bsearch *)
Lemma bsearch_any fuel : forall cmp t m base size els i j, elat m base size els -> (i <= j <= length els)%nat -> (j - i < fuel)%nat ->
  (bsearch_loop fuel cmp t m base size i j = Ok None) \/
  (exists k t', (i <= k < j)%nat /\ bsearch_loop fuel cmp t m base size i j = Ok (Some (addr base size k)) /\ cmp t' (el els k) = 0).
Proof.
  induction fuel as [|f IH]; intros cmp t m base size els i j He Hij Hf; [lia|]. cbn [bsearch_loop].
  destruct (i <? j)%nat eqn:E; [|left; replace (i =? j)%nat with true by lia; reflexivity].
  set (k := ((j - i) / 2)%nat). assert (Hk : (k < j - i)%nat) by (apply Nat.div_lt; lia).
  rewrite (elem_load _ _ _ els) by (assumption || lia). cbn [bind].
  destruct (cmp t (el els (i + k)) <? 0) eqn:E1; [|destruct (cmp t (el els (i + k)) >? 0) eqn:E2].
  - destruct (IH cmp (S t) m base size els i (i + k)%nat He) as [H|(k' & t' & H1 & H2 & H3)]; try lia; [left; exact H|].
    right. exists k', t'. split; [lia|auto].
  - destruct (IH cmp (S t) m base size els (i + k + 1)%nat j He) as [H|(k' & t' & H1 & H2 & H3)]; try lia; [left; exact H|].
    right. exists k', t'. split; [lia|auto].
  - right. exists (i + k)%nat, t. split; [lia|]. split; [reflexivity|lia].
Qed.

Lemma bsearch_part fuel : forall c t m base size els i j lo hi, elat m base size els -> (i <= j <= length els)%nat -> (j - i < fuel)%nat ->
  partitioned c els lo hi -> (i <= lo)%nat -> (hi <= j)%nat ->
  (lo < hi -> exists k, lo <= k < hi /\ bsearch_loop fuel (fun _ => c) t m base size i j = Ok (Some (addr base size k)))%nat /\
  (lo = hi -> bsearch_loop fuel (fun _ => c) t m base size i j = Ok None).
Proof.
  induction fuel as [|f IH]; intros c t m base size els i j lo hi He Hij Hf Hpt Hlo Hhi; [lia|]. cbn [bsearch_loop].
  pose proof Hpt as [Hb Hp].
  destruct (i <? j)%nat eqn:E; [|replace (i =? j)%nat with true by lia; split; [lia|reflexivity]].
  set (k := ((j - i) / 2)%nat). assert (Hk : (k < j - i)%nat) by (apply Nat.div_lt; lia).
  rewrite (elem_load _ _ _ els) by (assumption || lia). cbn [bind].
  destruct (Hp (i + k)%nat (el els (i + k))) as (P1 & P2 & P3).
  { apply nth_error_nth'. lia. }
  destruct (Nat.lt_ge_cases (i + k) lo) as [C1|C1]; [|destruct (Nat.lt_ge_cases (i + k) hi) as [C2|C2]].
  - specialize (P1 C1). replace (c (el els (i + k)) <? 0) with false by lia. replace (c (el els (i + k)) >? 0) with true by lia.
    apply (IH c (S t) m base size els (i + k + 1)%nat j lo hi He); try lia; assumption.
  - specialize (P2 ltac:(lia)). rewrite P2. cbn [Z.ltb Z.gtb Z.compare]. split; [|lia]. intros _. exists (i + k)%nat. auto.
  - specialize (P3 C2). replace (c (el els (i + k)) <? 0) with true by lia.
    apply (IH c (S t) m base size els i (i + k)%nat lo hi He); try lia; assumption.
Qed.
