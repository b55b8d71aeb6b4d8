From Verif Require Import Base Mem_Proof Str_Spec Str_Proof Str_Model StrSearch_Proof Vstrcmp_Model Vstrcmp_Spec.
Open Scope Z_scope.

Lemma near_spec lim addr : near lim addr = false -> addr mod 4096 <= lim.
Proof.
  unfold near. intros H. rewrite Z.gtb_ltb in H. apply Z.ltb_ge in H.
  change 4095 with (Z.ones 12) in H. rewrite Z.land_ones in H by lia. exact H.
Qed.

Lemma loadv_ok w : forall m p, mapped m p w -> exists l, loadv w m p = Ok l /\ bytes_at m p l /\ length l = w.
Proof.
  induction w as [|w IH]; intros m p H; cbn [loadv].
  - exists []. split; [reflexivity|]. split; [intros i Hi; cbn in Hi; lia|reflexivity].
  - destruct (load_ok m p (mapped_hd _ _ _ H ltac:(lia))) as (c & E & Ec). rewrite E. cbn [bind].
    destruct (IH m (p + 1) (mapped_tl _ _ _ H)) as (l & El & Hl & Ll). rewrite El. cbn [bind].
    exists (c :: l). split; [reflexivity|]. split; [apply bytes_at_cons; tauto|cbn; lia].
Qed.

(** a chunk that does not cross a page is mapped *)
Lemma chunk_mapped m p w lim : paged m -> m p <> None -> near lim p = false -> lim + Z.of_nat w <= 4096 -> mapped m p w.
Proof.
  intros [HP _] H0 HN HL i Hi. apply (HP p); [|exact H0]. apply near_spec in HN.
  pose proof (Z.mod_pos_bound p 4096 ltac:(lia)) as B. pose proof (Z.div_mod p 4096 ltac:(lia)) as D.
  apply (Z.div_unique _ _ _ (p mod 4096 + Z.of_nat i)); lia.
Qed.

Lemma str_mapped m p s : str_at m p s -> m p <> None.
Proof. destruct s; [rewrite str_nil|rewrite str_cons]; intros H; [|destruct H as [H _]]; congruence. Qed.

(** comparing two chunks: the first place where they differ or the first has a null byte *)
Lemma mask_scan m c1 : forall c2 p q a b,
  bytes_at m p c1 -> bytes_at m q c2 -> length c1 = length c2 -> str_at m p a -> str_at m q b ->
  let mask := stop_mask (eq_mask c1 c2) (eq_mask c1 (repeat 0 (length c1))) in
  if existsb id mask then
    exists x y, m (p + Z.of_nat (countr_zero mask)) = Some x /\ m (q + Z.of_nat (countr_zero mask)) = Some y /\ (x - y ?= 0) = lex a b
  else exists a' b', a = c1 ++ a' /\ b = c1 ++ b' /\ lex a b = lex a' b'.
Proof.
  induction c1 as [|x c1 IH]; intros [|y c2] p q a b H1 H2 L Ha Hb; cbn in L; try lia; cbv zeta.
  - cbn. exists a, b. split; [reflexivity|]. split; reflexivity.
  - apply bytes_at_cons in H1 as [E1 H1]. apply bytes_at_cons in H2 as [E2 H2].
    cbn [length repeat eq_mask stop_mask existsb id countr_zero].
    destruct (Z.eqb_spec x y) as [->|N]; cbn [negb orb].
    + destruct (Z.eqb_spec y 0) as [->|N0].
      * cbn [orb countr_zero]. exists 0, 0. rewrite !Z.add_0_r. split; [exact E1|]. split; [exact E2|].
        destruct a as [|u a]; [|apply str_cons in Ha as (Ea & Hu & _); rewrite E1 in Ea; injection Ea as <-; lia].
        destruct b as [|v b]; [reflexivity|apply str_cons in Hb as (Eb & Hu & _); rewrite E2 in Eb; injection Eb as <-; lia].
      * destruct a as [|u a]; [apply str_nil in Ha; rewrite E1 in Ha; injection Ha as ->; lia|].
        destruct b as [|v b]; [apply str_nil in Hb; rewrite E2 in Hb; injection Hb as ->; lia|].
        apply str_cons in Ha as (Ea & Hu & Ha). apply str_cons in Hb as (Eb & Hv & Hb).
        rewrite E1 in Ea. rewrite E2 in Eb. injection Ea as <-. injection Eb as <-.
        cbn [orb]. specialize (IH c2 (p + 1) (q + 1) a b H1 H2 ltac:(lia) Ha Hb). cbv zeta in IH.
        cbn [lex]. rewrite Z.compare_refl.
        destruct (existsb id _).
        -- destruct IH as (s & t & I1 & I2 & I3). exists s, t.
           split; [rewrite <- I1; f_equal; lia|]. split; [rewrite <- I2; f_equal; lia|exact I3].
        -- destruct IH as (a' & b' & -> & -> & I3). exists a', b'. split; [reflexivity|]. split; [reflexivity|exact I3].
    + cbn [orb countr_zero]. exists x, y. rewrite !Z.add_0_r. split; [exact E1|]. split; [exact E2|].
      destruct a as [|u a]; destruct b as [|v b]; cbn [lex].
      * apply str_nil in Ha. apply str_nil in Hb. congruence.
      * apply str_nil in Ha. apply str_cons in Hb as (Eb & Hv & _). rewrite E1 in Ha. rewrite E2 in Eb. injection Ha as ->. injection Eb as <-.
        apply Z.compare_lt_iff. lia.
      * apply str_nil in Hb. apply str_cons in Ha as (Ea & Hu & _). rewrite E1 in Ea. rewrite E2 in Hb. injection Hb as ->. injection Ea as <-.
        apply Z.compare_gt_iff. lia.
      * apply str_cons in Ha as (Ea & Hu & Ha). apply str_cons in Hb as (Eb & Hv & Hb). rewrite E1 in Ea. rewrite E2 in Eb.
        injection Ea as <-. injection Eb as <-.
        destruct (Z.compare_spec x y); [congruence|apply Z.compare_lt_iff; lia|apply Z.compare_gt_iff; lia].
Qed.

(** what a turn has to do *)
Definition turn_ok (turn_ : mem -> Z -> Z -> res turn) (w : nat) : Prop :=
  forall m p q a b, mapped m p w -> mapped m q w -> str_at m p a -> str_at m q b ->
    (exists r, turn_ m p q = Ok (Ret r) /\ (r ?= 0) = lex a b) \/
    (exists c a' b', turn_ m p q = Ok Go /\ length c = w /\ a = c ++ a' /\ b = c ++ b' /\ lex a b = lex a' b').

Lemma turn_mask_ok w : turn_ok (turn_mask w) w.
Proof.
  intros m p q a b Hp Hq Ha Hb. unfold turn_mask.
  destruct (loadv_ok w m p Hp) as (c1 & E1 & H1 & L1). destruct (loadv_ok w m q Hq) as (c2 & E2 & H2 & L2).
  rewrite E1, E2. cbn [bind].
  pose proof (mask_scan m c1 c2 p q a b H1 H2 ltac:(lia) Ha Hb) as S. cbv zeta in S |- *. rewrite L1 in S.
  destruct (existsb id _).
  - left. destruct S as (x & y & I1 & I2 & I3). unfold load. rewrite I1, I2. cbn [bind]. exists (x - y). split; [reflexivity|exact I3].
  - right. destruct S as (a' & b' & -> & -> & I3). exists c1, a', b'. split; [reflexivity|]. split; [exact L1|].
    split; [reflexivity|]. split; [reflexivity|exact I3].
Qed.

(** both invalid: the mask is 0 *)
Lemma istr_invalid c1 : forall c2, existsb id (istr_mask false false c1 c2) = false.
Proof. induction c1 as [|x c1 IH]; intros [|y c2]; try reflexivity. cbn. apply IH. Qed.

Lemma istr_scan m c1 : forall c2 p q a b,
  bytes_at m p c1 -> bytes_at m q c2 -> length c1 = length c2 -> str_at m p a -> str_at m q b ->
  let mask := istr_mask true true c1 c2 in
  if existsb id mask then
    exists x y, m (p + Z.of_nat (countr_zero mask)) = Some x /\ m (q + Z.of_nat (countr_zero mask)) = Some y /\ (x - y ?= 0) = lex a b
  else if existsb (Z.eqb 0) c2 then lex a b = Eq
  else exists a' b', a = c1 ++ a' /\ b = c1 ++ b' /\ lex a b = lex a' b'.
Proof.
  induction c1 as [|x c1 IH]; intros [|y c2] p q a b H1 H2 L Ha Hb; cbn in L; try lia; cbv zeta.
  - cbn. exists a, b. split; [reflexivity|]. split; reflexivity.
  - apply bytes_at_cons in H1 as [E1 H1]. apply bytes_at_cons in H2 as [E2 H2].
    cbn [istr_mask existsb andb].
    assert (HD : x <> y -> exists x0 y0, m (p + Z.of_nat 0) = Some x0 /\ m (q + Z.of_nat 0) = Some y0 /\ (x0 - y0 ?= 0) = lex a b).
    { intros N. exists x, y. cbn [Z.of_nat]. rewrite !Z.add_0_r. split; [exact E1|]. split; [exact E2|].
      destruct a as [|u a]; destruct b as [|v b]; cbn [lex].
      * apply str_nil in Ha. apply str_nil in Hb. congruence.
      * apply str_nil in Ha. apply str_cons in Hb as (Eb & Hv & _). rewrite E1 in Ha. rewrite E2 in Eb. injection Ha as ->. injection Eb as <-.
        apply Z.compare_lt_iff. lia.
      * apply str_nil in Hb. apply str_cons in Ha as (Ea & Hu & _). rewrite E1 in Ea. rewrite E2 in Hb. injection Hb as ->. injection Ea as <-.
        apply Z.compare_gt_iff. lia.
      * apply str_cons in Ha as (Ea & Hu & Ha). apply str_cons in Hb as (Eb & Hv & Hb). rewrite E1 in Ea. rewrite E2 in Eb.
        injection Ea as <-. injection Eb as <-.
        destruct (Z.compare_spec x y); [congruence|apply Z.compare_lt_iff; lia|apply Z.compare_gt_iff; lia]. }
    destruct (Z.eqb_spec x 0) as [->|Nx]; destruct (Z.eqb_spec y 0) as [->|Ny]; cbn [negb andb Bool.eqb id orb countr_zero].
    + rewrite istr_invalid. change (0 =? 0) with true. cbn [orb].
      destruct a as [|u a]; [|apply str_cons in Ha as (Ea & Hu & _); rewrite E1 in Ea; injection Ea as <-; lia].
      destruct b as [|v b]; [reflexivity|apply str_cons in Hb as (Eb & Hu & _); rewrite E2 in Eb; injection Eb as <-; lia].
    + apply HD. congruence.
    + apply HD. congruence.
    + destruct (Z.eqb_spec x y) as [->|N]; cbn [negb orb countr_zero]; [|apply HD; exact N].
      destruct a as [|u a]; [apply str_nil in Ha; rewrite E1 in Ha; injection Ha as ->; lia|].
      destruct b as [|v b]; [apply str_nil in Hb; rewrite E2 in Hb; injection Hb as ->; lia|].
      apply str_cons in Ha as (Ea & Hu & Ha). apply str_cons in Hb as (Eb & Hv & Hb).
      rewrite E1 in Ea. rewrite E2 in Eb. injection Ea as <-. injection Eb as <-.
      specialize (IH c2 (p + 1) (q + 1) a b H1 H2 ltac:(lia) Ha Hb). cbv zeta in IH.
      cbn [lex]. rewrite Z.compare_refl.
      replace (0 =? y) with false by lia. cbn [orb].
      destruct (existsb id _).
      * destruct IH as (s & t & I1 & I2 & I3). exists s, t.
        split; [rewrite <- I1; f_equal; lia|]. split; [rewrite <- I2; f_equal; lia|exact I3].
      * destruct (existsb (Z.eqb 0) c2); [exact IH|].
        destruct IH as (a' & b' & -> & -> & I3). exists a', b'. split; [reflexivity|]. split; [reflexivity|exact I3].
Qed.

Lemma turn_istr_ok w : turn_ok (turn_istr w) w.
Proof.
  intros m p q a b Hp Hq Ha Hb. unfold turn_istr.
  destruct (loadv_ok w m p Hp) as (c1 & E1 & H1 & L1). destruct (loadv_ok w m q Hq) as (c2 & E2 & H2 & L2).
  rewrite E1, E2. cbn [bind].
  pose proof (istr_scan m c1 c2 p q a b H1 H2 ltac:(lia) Ha Hb) as S. cbv zeta in S |- *.
  destruct (existsb id _).
  - left. destruct S as (x & y & I1 & I2 & I3). unfold load. rewrite I1, I2. cbn [bind]. exists (x - y). split; [reflexivity|exact I3].
  - destruct (existsb (Z.eqb 0) c2).
    + left. exists 0. split; [reflexivity|]. now rewrite S.
    + right. destruct S as (a' & b' & -> & -> & I3). exists c1, a', b'. split; [reflexivity|]. split; [exact L1|].
      split; [reflexivity|]. split; [reflexivity|exact I3].
Qed.

Lemma str_tail m p a b : str_at m p (a ++ b) -> str_at m (p + Z.of_nat (length a)) b.
Proof.
  intros [Hb Hf]. rewrite <- app_assoc in Hb. apply bytes_at_app in Hb as [_ Hb].
  apply Forall_app in Hf as [_ Hf]. split; assumption.
Qed.

Lemma vloop_ok turn_ w lim : turn_ok turn_ w -> (0 < w)%nat -> lim + Z.of_nat w <= 4096 ->
  forall fuel inner m p q a b, paged m -> str_at m p a -> str_at m q b ->
    (inner = true -> near lim p = false /\ near lim q = false) -> (length a < fuel)%nat ->
    exists r, vloop turn_ w lim fuel inner m p q = Ok r /\ (r ?= 0) = lex a b.
Proof.
  intros HT Hw HL. induction fuel as [|f IH]; intros inner m p q a b HP Ha Hb HI F; [lia|]. cbn [vloop].
  destruct (inner || (negb (near lim p) && negb (near lim q))) eqn:B.
  - assert (N : near lim p = false /\ near lim q = false).
    { destruct inner; [now apply HI|]. cbn [orb] in B. apply andb_true_iff in B as [B1 B2].
      apply negb_true_iff in B1. apply negb_true_iff in B2. tauto. }
    destruct N as [N1 N2].
    destruct (HT m p q a b) as [(r & E & C)|(c & a' & b' & E & Lc & -> & -> & C)];
      [apply (chunk_mapped _ _ _ lim HP (str_mapped _ _ _ Ha) N1 HL)|apply (chunk_mapped _ _ _ lim HP (str_mapped _ _ _ Hb) N2 HL)|exact Ha|exact Hb| | ].
    + rewrite E. cbn [bind]. exists r. split; [reflexivity|exact C].
    + rewrite E. cbn [bind]. cbv zeta. rewrite C. apply str_tail in Ha. apply str_tail in Hb. rewrite Lc in Ha, Hb.
      rewrite app_length in F.
      destruct (near lim (p + Z.of_nat w) || near lim (q + Z.of_nat w)) eqn:B2.
      * apply IH; [exact HP|exact Ha|exact Hb|discriminate|lia].
      * apply orb_false_iff in B2. apply IH; [exact HP|exact Ha|exact Hb|intros _; exact B2|lia].
  - destruct a as [|x a].
    + apply str_nil in Ha. unfold load. rewrite Ha. cbn [bind]. destruct b as [|y b].
      * apply str_nil in Hb. rewrite Hb. cbn [bind]. exists 0. split; reflexivity.
      * apply str_cons in Hb as (Eb & Hy & _). rewrite Eb. cbn [bind]. replace (0 =? y) with false by lia. cbn [negb].
        exists (0 - y). split; [reflexivity|]. cbn [lex]. apply Z.compare_lt_iff. lia.
    + apply str_cons in Ha as (Ea & Hx & Ha). unfold load. rewrite Ea. cbn [bind]. destruct b as [|y b].
      * apply str_nil in Hb. rewrite Hb. cbn [bind]. replace (x =? 0) with false by lia. cbn [negb].
        exists (x - 0). split; [reflexivity|]. cbn [lex]. apply Z.compare_gt_iff. lia.
      * apply str_cons in Hb as (Eb & Hy & Hb). rewrite Eb. cbn [bind].
        destruct (Z.eqb_spec x y) as [->|N]; cbn [negb].
        -- replace (y =? 0) with false by lia. cbn [lex]. rewrite Z.compare_refl.
           apply IH; [exact HP|exact Ha|exact Hb|discriminate|cbn in F; lia].
        -- exists (x - y). split; [reflexivity|]. cbn [lex].
           destruct (Z.compare_spec x y); [congruence|apply Z.compare_lt_iff; lia|apply Z.compare_gt_iff; lia].
Qed.

Lemma land6 x : (Z.land x 6 =? 6) = true -> Z.testbit x 1 = true /\ Z.testbit x 2 = true.
Proof.
  intros H. apply Z.eqb_eq in H.
  assert (H1 : Z.testbit (Z.land x 6) 1 = true) by now rewrite H.
  assert (H2 : Z.testbit (Z.land x 6) 2 = true) by now rewrite H.
  rewrite Z.land_spec in H1, H2. apply andb_true_iff in H1, H2. tauto.
Qed.

Lemma land6_conv x : Z.testbit x 1 = true -> Z.testbit x 2 = true -> (Z.land x 6 =? 6) = true.
Proof.
  intros H1 H2. apply Z.eqb_eq. apply Z.bits_inj'. intros n Hn. rewrite Z.land_spec.
  assert (C : n = 1 \/ n = 2 \/ (n <> 1 /\ n <> 2)) by lia. destruct C as [->|[->|[N1 N2]]].
  - now rewrite H1.
  - now rewrite H2.
  - assert (E : Z.testbit 6 n = false); [|rewrite E; apply andb_false_r].
    destruct (Z.eq_dec n 0) as [->|]; [reflexivity|]. apply Z.bits_above_log2; [lia|]. change (Z.log2 6) with 2. lia.
Qed.

Lemma resolve_ok c : exists v, resolve c = Ok v /\ executable c v /\ (executable c Avx2 -> v = Avx2).
Proof.
  unfold resolve, has_avx2, xgetbv.
  assert (R : (executable c Avx2 -> False) ->
              exists v, (if has_sse4_2 c then Ok Sse4_2 else if has_sse2 c then Ok Sse2 else Ok Default) = Ok v /\
                        executable c v /\ (executable c Avx2 -> v = Avx2)).
  { intros N. unfold has_sse4_2, has_sse2. destruct (Z.ltb_spec (max_leaf c) 1) as [L|L].
    - exists Default. split; [reflexivity|]. split; [exact I|tauto].
    - destruct (Z.testbit (ecx1 c) 20) eqn:E1.
      + exists Sse4_2. split; [reflexivity|]. split; [split; [exact L|exact E1]|tauto].
      + destruct (Z.testbit (edx1 c) 26) eqn:E2.
        * exists Sse2. split; [reflexivity|]. split; [split; [exact L|exact E2]|tauto].
        * exists Default. split; [reflexivity|]. split; [exact I|tauto]. }
  destruct (Z.ltb_spec (max_leaf c) 7) as [L|L]; cbn [bind].
  - apply R. unfold executable. lia.
  - destruct (Z.testbit (ecx1 c) 27) eqn:E; cbn [negb bind].
    + destruct (Z.land (xcr0 c) 6 =? 6) eqn:X; cbn [negb bind].
      * destruct (Z.testbit (ebx7 c) 5) eqn:A.
        -- apply land6 in X. exists Avx2. split; [reflexivity|]. split; [unfold executable; tauto|reflexivity].
        -- apply R. unfold executable. intros (_ & B & _). congruence.
      * apply R. unfold executable. intros (_ & _ & _ & B1 & B2). rewrite (land6_conv _ B1 B2) in X. discriminate.
    + apply R. unfold executable. intros (_ & _ & B & _). congruence.
Qed.
