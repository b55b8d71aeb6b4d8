(** Proofs about the layout of static TLS. *)
From Verif Require Import Base Tls_Model Tls_Spec.
Open Scope Z_scope.

Lemma w64_small x : 0 <= x < 2 ^ 64 -> w64 x = x.
Proof. apply Z.mod_small. Qed.
Lemma pow_range k : 0 <= k < 62 -> 1 <= 2 ^ k <= 2 ^ 61.
Proof. intros H. split; [pose proof (Z.pow_pos_nonneg 2 k); lia|apply Z.pow_le_mono_r; lia]. Qed.
Lemma land_pow p a : power_of_two a -> Z.land p (w64 (a - 1)) = p mod a.
Proof.
  intros (k & K & ->). pose proof (pow_range k K). rewrite w64_small by lia.
  rewrite <- Z.land_ones by lia. rewrite Z.ones_equiv. reflexivity.
Qed.
Lemma pow_pos a : power_of_two a -> 1 <= a <= 2 ^ 61.
Proof. intros (k & K & ->). apply pow_range, K. Qed.
Lemma pow_divide a b : power_of_two a -> power_of_two b -> a <= b -> (a | b).
Proof.
  intros (k & K & ->) (l & L & ->) H. assert (k <= l). { apply (Z.pow_le_mono_r_iff 2); lia. }
  exists (2 ^ (l - k)). rewrite <- Z.pow_add_r by lia. f_equal. lia.
Qed.
Lemma pow_test a : power_of_two a -> Z.land a (w64 (a - 1)) = 0.
Proof. intros P. rewrite land_pow by exact P. apply Z.mod_same. pose proof (pow_pos a P). lia. Qed.
Lemma round_ok p a : power_of_two a -> 0 <= p -> p + a < 2 ^ 64 -> (a | round p a) /\ p <= round p a < p + a.
Proof.
  intros P H L. pose proof (pow_pos a P) as PP. unfold round. rewrite land_pow by exact P.
  pose proof (Z.mod_pos_bound p a ltac:(lia)) as B. pose proof (Z.div_mod p a ltac:(lia)) as D.
  destruct (Z.eqb_spec (p mod a) 0) as [E|N]; cbn [negb].
  - split; [apply Z.mod_divide; lia|lia].
  - rewrite (w64_small (a - p mod a)) by lia. rewrite w64_small by lia. split; [|lia].
    exists (p / a + 1). lia.
Qed.
Lemma alignUp_ok x a : power_of_two a -> 0 <= x -> x + a < 2 ^ 64 -> (a | alignUp x a) /\ x <= alignUp x a < x + a.
Proof.
  intros P H L. pose proof (pow_pos a P) as PP. destruct P as (k & K & ->). unfold alignUp. rewrite (w64_small (2 ^ k - 1)) by lia. rewrite (w64_small (x + _)) by lia.
  set (y := x + (2 ^ k - 1)).
  assert (E : Z.land y (w64 (Z.lnot (2 ^ k - 1))) = 2 ^ k * (y / 2 ^ k)).
  { transitivity (Z.shiftl (Z.shiftr y k) k).
    - rewrite <- Z.ldiff_ones_r by lia. rewrite Z.ones_equiv. replace (Z.pred (2 ^ k)) with (2 ^ k - 1) by lia.
      apply Z.bits_inj'. intros i I. rewrite Z.land_spec, Z.ldiff_spec. unfold w64. destruct (Z.lt_ge_cases i 64) as [A|A].
      + rewrite Z.mod_pow2_bits_low by lia. rewrite Z.lnot_spec by lia. reflexivity.
      + rewrite Z.mod_pow2_bits_high by lia. rewrite andb_false_r. symmetry.
        replace (Z.testbit y i) with false; [reflexivity|]. symmetry. rewrite <- (Z.mod_small y (2 ^ 64)) by lia. apply Z.mod_pow2_bits_high. lia.
    - rewrite Z.shiftl_mul_pow2, Z.shiftr_div_pow2 by lia. lia. }
  rewrite E. split; [exists (y / 2 ^ k); lia|]. pose proof (Z.div_mod y (2 ^ k) ltac:(lia)). pose proof (Z.mod_pos_bound y (2 ^ k) ltac:(lia)). lia.
Qed.

(** a block's place, counted away from the thread pointer *)
Definition low (above : bool) (x : tobj * Z) : Z := if above then snd x else w64 (- snd x) - size (fst x).
Definition fine (above : bool) (p : Z) (x : tobj * Z) : Prop :=
  wf_tobj (fst x) /\ 0 <= snd x < 2 ^ 64 /\ 0 <= low above x /\ low above x + size (fst x) <= p /\
  (align (fst x) | if above then low above x else low above x + size (fst x)) /\ (above = false -> snd x = w64 (- (low above x + size (fst x)))).
Definition Inv (above : bool) (p : Z) (b : blocks) : Prop :=
  Forall (fine above p) b /\ ForallOrdPairs (fun x y => low above x + size (fst x) <= low above y) b.
Lemma fop_snoc {A} (R : A -> A -> Prop) l y : ForallOrdPairs R l -> Forall (fun x => R x y) l -> ForallOrdPairs R (l ++ [y]).
Proof.
  induction 1 as [|x l H HP IH]; intros F; cbn [app]; [repeat constructor|]. constructor.
  - apply Forall_app. split; [exact H|]. constructor; [exact (Forall_inv F)|constructor].
  - apply IH. exact (Forall_inv_tail F).
Qed.
Lemma fine_weaken above p p' x : p <= p' -> fine above p x -> fine above p' x.
Proof. intros H (A & B & C & D & E). split; [exact A|]. split; [exact B|]. split; [exact C|]. split; [lia|exact E]. Qed.
Lemma neg_neg q : 0 <= q < 2 ^ 64 -> w64 (- w64 (- q)) = q.
Proof.
  intros H. unfold w64. destruct (Z.eq_dec q 0) as [->|N]; [reflexivity|].
  replace ((- q) mod 2 ^ 64) with (2 ^ 64 - q).
  - replace (- (2 ^ 64 - q)) with (q + (-1) * 2 ^ 64) by lia. rewrite Z.mod_add by lia. apply Z.mod_small. lia.
  - symmetry. replace (- q) with ((2 ^ 64 - q) + (-1) * 2 ^ 64) by lia. rewrite Z.mod_add by lia. apply Z.mod_small. lia.
Qed.
Lemma place_ok above p b o : Inv above p b -> wf_tobj o -> 0 <= p < 2 ^ 62 + 64 ->
  let '(p', off) := place above p o in p <= p' < p + size o + align o /\ Inv above p' (b ++ [(o, off)]).
Proof.
  intros [F O] W P. pose proof W as (W1 & W2 & W3). pose proof (pow_pos _ W2) as WP. unfold place. destruct above.
  - destruct (round_ok p (align o) W2) as (R1 & R2 & R3); [lia|lia|]. rewrite w64_small by lia. split; [lia|]. split.
    + apply Forall_app. split; [eapply Forall_impl; [|exact F]; intros x; apply fine_weaken; lia|]. constructor; [|constructor].
      unfold fine, low; cbn [fst snd]. split; [exact W|]. split; [lia|]. split; [lia|]. split; [lia|]. split; [exact R1|discriminate].
    + apply fop_snoc; [exact O|]. eapply Forall_impl; [|exact F]. intros x (_ & _ & _ & D & _). change (low true (o, round p (align o))) with (round p (align o)). lia.
  - rewrite (w64_small (p + size o)) by lia. destruct (round_ok (p + size o) (align o) W2) as (R1 & R2 & R3); [lia|lia|]. set (q := round (p + size o) (align o)) in *.
    assert (LO : low false (o, w64 (- q)) = q - size o) by (unfold low; cbn [fst snd]; rewrite neg_neg by lia; reflexivity).
    split; [lia|]. split.
    + apply Forall_app. split; [eapply Forall_impl; [|exact F]; intros x; apply fine_weaken; lia|]. constructor; [|constructor].
      unfold fine. rewrite LO. cbn [fst snd]. split; [exact W|]. split; [apply Z.mod_pos_bound; lia|]. split; [lia|]. split; [lia|].
      split; [replace (q - size o + size o) with q by lia; exact R1|]. intros _. f_equal. lia.
    + apply fop_snoc; [exact O|]. eapply Forall_impl; [|exact F]. intros x (_ & _ & _ & D & _). rewrite LO. lia.
Qed.

Lemma total_nonneg objs : Forall wf_tobj objs -> 0 <= total objs.
Proof. induction 1 as [|o os (A & B & C) F IH]; cbn [total fold_right]; [lia|]. pose proof (pow_pos _ B). unfold total in IH. lia. Qed.
Definition nonzero (o : tobj) : bool := negb (size o =? 0).
Lemma place_initial_ok above : forall objs p b, Forall wf_tobj objs -> Inv above p b -> 0 <= p -> p + total objs < 2 ^ 62 ->
  let '(p', b') := place_initial above objs p b in 0 <= p' <= p + total objs /\ Inv above p' b' /\ map fst b' = map fst b ++ filter nonzero objs.
Proof.
  induction objs as [|o os IH]; intros p b W I P T; cbn [place_initial].
  - cbn. rewrite app_nil_r. split; [lia|]. auto.
  - pose proof (Forall_inv W) as Wo. pose proof (Forall_inv_tail W) as Ws. pose proof (total_nonneg os Ws) as TN.
    cbn [total fold_right] in T. fold (total os) in T. pose proof Wo as (W1 & W2 & W3). pose proof (pow_pos _ W2) as WP.
    cbn [filter total fold_right]. fold (total os). unfold nonzero at 1.
    destruct (Z.eqb_spec (size o) 0) as [Z0|NZ]; cbn [negb].
    + specialize (IH p b Ws I P ltac:(lia)). destruct (place_initial above os p b) as [p' b']. destruct IH as (A & B & C). split; [lia|]. auto.
    + pose proof (place_ok above p b o I Wo ltac:(lia)) as PO. destruct (place above p o) as [p1 off]. destruct PO as [P1 P2].
      specialize (IH p1 (b ++ [(o, off)]) Ws P2 ltac:(lia) ltac:(lia)). destruct (place_initial above os p1 (b ++ [(o, off)])) as [p' b'].
      destruct IH as (A & B & C). split; [lia|]. split; [exact B|]. rewrite C, map_app, <- app_assoc. reflexivity.
Qed.
Lemma maximum_ok : forall objs m, Forall wf_tobj objs -> power_of_two m ->
  exists m', maximum objs m = Ok m' /\ power_of_two m' /\ m <= m' /\ Forall (fun o => align o <= m') objs.
Proof.
  induction objs as [|o os IH]; intros m W M; cbn [maximum].
  - exists m. split; [reflexivity|]. split; [exact M|]. split; [lia|constructor].
  - pose proof (Forall_inv W) as (W1 & W2 & W3). pose proof (Forall_inv_tail W) as Ws. rewrite pow_test by exact W2. cbn [Z.eqb negb].
    destruct (IH (if m <? align o then align o else m) Ws) as (m' & E & P & L & F); [destruct (m <? align o); assumption|].
    exists m'. split; [exact E|]. split; [exact P|]. destruct (Z.ltb_spec m (align o)); (split; [lia|]); constructor; auto; lia.
Qed.
(** the state of the layout *)
Definition sound (above : bool) (first : list tobj) (t : tls) : Prop :=
  0 <= ptr t <= limit t /\ limit t < 2 ^ 62 + 64 /\ power_of_two (max_align t) /\ 16 <= max_align t /\ Forall (fun o => align o <= max_align t) first /\
  Inv above (ptr t) (placed t).
Lemma initial_ok above objs : Forall wf_tobj objs -> total objs < 2 ^ 62 ->
  exists t, initial above objs = Ok t /\ sound above objs t /\ map fst (placed t) = filter nonzero objs /\ limit t = ptr t + 64.
Proof.
  intros W T. unfold initial. destruct (maximum_ok objs 16 W) as (m & E & P & L & F); [exists 4; lia|]. rewrite E. cbn [bind].
  pose proof (place_initial_ok above objs 0 [] W) as PI. destruct (place_initial above objs 0 []) as [p b].
  destruct PI as (A & B & C); [split; constructor|lia|lia|]. eexists. split; [reflexivity|]. cbn [ptr limit max_align placed]. split; [|split].
  - unfold sound; cbn [ptr limit max_align placed]. rewrite w64_small by lia. do 5 (split; [first [lia|assumption]|]). exact B.
  - rewrite C. reflexivity.
  - apply w64_small. lia.
Qed.
Definition late (o : tobj) : bool := nonzero o && static o.
Lemma later_ok above first : forall objs t, Forall wf_tobj objs -> sound above first t ->
  (exists t', later above objs t = Ok t' /\ sound above first t' /\ limit t' = limit t /\ map fst (placed t') = map fst (placed t) ++ filter late objs) \/
  (later above objs t = Abort /\ limit t < ptr t + total (filter late objs)).
Proof.
  induction objs as [|o os IH]; intros t W S; cbn [later].
  - left. exists t. cbn. rewrite app_nil_r. auto.
  - pose proof (Forall_inv W) as Wo. pose proof (Forall_inv_tail W) as Ws. pose proof Wo as (W1 & W2 & W3). pose proof (pow_pos _ W2) as WP.
    rewrite pow_test by exact W2. cbn [Z.eqb negb]. cbn [filter]. replace (late o) with (negb (size o =? 0) && static o) by reflexivity.
    destruct (Z.eqb_spec (size o) 0) as [Z0|NZ]; cbn [negb orb andb].
    + exact (IH t Ws S).
    + destruct (static o) eqn:ST; cbn [negb].
      2:{ exact (IH t Ws S). }
      assert (TN : 0 <= total (filter late os)). { apply total_nonneg. apply Forall_forall. intros x X. apply filter_In in X as [X _]. rewrite Forall_forall in Ws. auto. }
      destruct S as (S1 & S2 & S3 & S4 & S5 & S6). cbn [total fold_right]. fold (total (filter late os)).
      pose proof (place_ok above (ptr t) (placed t) o S6 Wo ltac:(lia)) as PO. destruct (place above (ptr t) o) as [p off]. destruct PO as [P1 P2].
      destruct (Z.ltb_spec (limit t) p) as [L|L].
      * right. split; [reflexivity|]. lia.
      * match goal with |- context [later above os ?x] => destruct (IH x Ws) as [(t' & E & A & B & C)|[E A]] end.
        -- unfold sound; cbn [ptr limit max_align placed]. do 5 (split; [first [lia|assumption]|]). exact P2.
        -- left. exists t'. split; [exact E|]. split; [exact A|]. split; [exact B|]. rewrite C. cbn [placed]. rewrite map_app, <- app_assoc. reflexivity.
        -- right. split; [exact E|]. cbn [ptr limit] in A. lia.
Qed.

(** the TCB and the blocks of a thread *)
Lemma tcb_ok above sz al first t a : wf_tcb sz al -> sound above first t -> 0 <= a -> a + alloc_size sz al t < 2 ^ 64 ->
  exists tcb, tcb_address above sz al t a = Ok tcb /\ (al | tcb) /\ inside (tcb, sz) (a, alloc_size sz al t) /\
    if above then (max_align t | tcb + sz) /\ (al | tcb + sz) /\ tcb + sz + limit t <= a + alloc_size sz al t
    else (Z.max al (max_align t) | tcb) /\ a <= tcb - limit t.
Proof.
  intros (A1 & A2 & A3 & A4) (S1 & S2 & S3 & S4 & S5 & S6) HA HL. pose proof (pow_pos _ A1) as PA. pose proof (pow_pos _ S3) as PM.
  assert (MX : power_of_two (Z.max al (max_align t))) by (destruct (Z.max_spec al (max_align t)) as [[_ ->]|[_ ->]]; assumption).
  pose proof (pow_pos _ MX) as PX. unfold alloc_size in *. rewrite w64_small in * by lia. unfold tcb_address. destruct above.
  - destruct (Z.ltb_spec al (max_align t)) as [L|L].
    + rewrite (w64_small (a + sz)) by lia. destruct (alignUp_ok (a + sz) (max_align t) S3) as (U1 & U2 & U3); [lia|lia|].
      set (x := alignUp (a + sz) (max_align t)) in *. rewrite (w64_small (x - sz)) by lia. rewrite !land_pow by assumption.
      assert (D : (al | x)) by (eapply Z.divide_trans; [|exact U1]; apply pow_divide; auto; lia).
      assert (Dt : (al | x - sz)) by (apply Z.divide_sub_r; assumption).
      apply Z.mod_divide in U1 as U1'; [|lia]. rewrite U1'. cbn [Z.eqb negb]. rewrite w64_small by lia.
      replace (x - sz + sz) with x by lia. rewrite Z.eqb_refl. cbn [negb]. apply Z.mod_divide in Dt as Dt'; [|lia]. rewrite Dt'. cbn [Z.eqb negb].
      exists (x - sz). split; [reflexivity|]. split; [exact Dt|]. unfold inside; cbn [fst snd]. split; [lia|].
      replace (x - sz + sz) with x by lia. split; [exact U1|]. split; [exact D|]. lia.
    + destruct (alignUp_ok a al A1) as (U1 & U2 & U3); [lia|lia|]. set (x := alignUp a al) in *. rewrite (w64_small (x + sz)) by lia. rewrite !land_pow by assumption.
      assert (Dm : (max_align t | x + sz)).
      { apply (Z.divide_trans _ al); [apply pow_divide; auto|]. apply Z.divide_add_r; assumption. }
      apply Z.mod_divide in Dm as Dm'; [|lia]. rewrite Dm'. cbn [Z.eqb negb]. rewrite (Z.eqb_refl (x + sz)). cbn [negb]. apply Z.mod_divide in U1 as U1'; [|lia]. rewrite U1'. cbn [Z.eqb negb].
      exists x. split; [reflexivity|]. split; [exact U1|]. unfold inside; cbn [fst snd]. split; [lia|]. split; [exact Dm|]. split; [apply Z.divide_add_r; assumption|]. lia.
  - rewrite (w64_small (a + limit t)) by lia. destruct (alignUp_ok (a + limit t) (Z.max al (max_align t)) MX) as (U1 & U2 & U3); [lia|lia|].
    set (x := alignUp (a + limit t) (Z.max al (max_align t))) in *. rewrite land_pow by assumption.
    assert (D : (al | x)) by (eapply Z.divide_trans; [|exact U1]; apply pow_divide; auto; lia).
    apply Z.mod_divide in D as D'; [|lia]. rewrite D'. cbn [Z.eqb negb]. exists x. split; [reflexivity|]. split; [exact D|]. unfold inside; cbn [fst snd]. split; [lia|]. split; [exact U1|lia].
Qed.
Lemma address_above sz tcb lim p x : fine true p x -> p <= lim -> 0 <= tcb -> 0 <= sz -> tcb + sz + lim < 2 ^ 64 -> block_address true sz tcb (snd x) = tcb + sz + low true x.
Proof. intros (W & A & B & C & D & E) L. intros. unfold block_address, low in *. destruct W as (W1 & _). apply w64_small. lia. Qed.
Lemma address_below sz tcb lim p x : fine false p x -> p <= lim -> lim <= tcb < 2 ^ 64 -> block_address false sz tcb (snd x) = tcb - (low false x + size (fst x)).
Proof.
  intros (W & A & B & C & D & E) L T. unfold block_address. rewrite (E eq_refl). destruct W as (W1 & _). unfold w64. rewrite Z.add_mod_idemp_r by lia.
  apply Z.mod_small. lia.
Qed.
Lemma fop_map {A B} (R : A -> A -> Prop) (S : B -> B -> Prop) (P : A -> Prop) (f : A -> B) l : Forall P l -> (forall x y, P x -> P y -> R x y -> S (f x) (f y)) ->
  ForallOrdPairs R l -> ForallOrdPairs S (map f l).
Proof.
  intros F H O. induction O as [|x l HF HP IH]; cbn [map]; constructor; [|apply IH; exact (Forall_inv_tail F)].
  apply Forall_map. pose proof (Forall_inv F) as Px. pose proof (Forall_inv_tail F) as Pl. rewrite Forall_forall in *. intros y Y. apply H; auto.
Qed.
Lemma layout_ok above sz al first t a : wf_tcb sz al -> sound above first t -> 0 <= a -> a + alloc_size sz al t < 2 ^ 64 ->
  exists tcb, tcb_address above sz al t a = Ok tcb /\ (al | tcb) /\ inside (tcb, sz) (a, alloc_size sz al t) /\
    ForallOrdPairs apart (pieces above sz tcb (placed t)) /\
    Forall (fun p => apart p (tcb, sz) /\ inside p (a, alloc_size sz al t)) (pieces above sz tcb (placed t)) /\
    forall o off, In (o, off) (placed t) -> In o first \/ align o <= Z.max al 16 -> (align o | block_address above sz tcb off).
Proof.
  intros WT S HA HL. destruct (tcb_ok above sz al first t a WT S HA HL) as (tcb & E & D & IN & R). exists tcb. split; [exact E|]. split; [exact D|]. split; [exact IN|].
  destruct S as (S1 & S2 & S3 & S4 & S5 & F & O). destruct WT as (T1 & T2 & T3 & T4). unfold inside in IN; cbn [fst snd] in IN.
  assert (SMALL : forall o, In o first \/ align o <= Z.max al 16 -> align o <= Z.max al (max_align t)).
  { intros o [H|H]; [rewrite Forall_forall in S5; apply S5 in H; lia|lia]. }
  unfold pieces. destruct above.
  - destruct R as (R1 & R2 & R3).
    assert (AD : forall x, fine true (ptr t) x -> block_address true sz tcb (snd x) = tcb + sz + low true x).
    { intros x X. apply (address_above sz tcb (limit t) (ptr t)); auto; lia. }
    split; [|split].
    + eapply fop_map; [exact F| |exact O]. cbn beta. intros x y X Y H. unfold apart; cbn [fst snd]. rewrite !AD by assumption. lia.
    + apply Forall_map. eapply Forall_impl; [|exact F]. intros x X. cbn beta. rewrite AD by exact X. destruct X as ((X1 & _) & X2 & X3 & X4 & _).
      unfold apart, inside; cbn [fst snd]. lia.
    + intros o off H C. rewrite Forall_forall in F. specialize (F _ H). pose proof (AD _ F) as EA. cbn [snd] in EA. rewrite EA.
      destruct F as ((_ & X1 & _) & _ & _ & _ & X5 & _). cbn [fst] in *. apply Z.divide_add_r; [|exact X5].
      destruct (Z.le_gt_cases (align o) (max_align t)) as [L|L]; [eapply Z.divide_trans; [apply pow_divide; [exact X1|exact S3|exact L]|exact R1]|].
      eapply Z.divide_trans; [apply pow_divide; [exact X1|exact T1|]|exact R2]. apply SMALL in C. lia.
  - destruct R as (R1 & R3).
    assert (AD : forall x, fine false (ptr t) x -> block_address false sz tcb (snd x) = tcb - (low false x + size (fst x))).
    { intros x X. apply (address_below sz tcb (limit t) (ptr t)); auto; lia. }
    split; [|split].
    + eapply fop_map; [exact F| |exact O]. cbn beta. intros x y X Y H. unfold apart; cbn [fst snd]. rewrite !AD by assumption. lia.
    + apply Forall_map. eapply Forall_impl; [|exact F]. intros x X. cbn beta. rewrite AD by exact X. destruct X as ((X1 & _) & X2 & X3 & X4 & _).
      unfold apart, inside; cbn [fst snd]. lia.
    + intros o off H C. rewrite Forall_forall in F. specialize (F _ H). pose proof (AD _ F) as EA. cbn [snd] in EA. rewrite EA.
      destruct F as ((_ & X1 & _) & _ & _ & _ & X5 & _). cbn [fst] in *. apply Z.divide_sub_r; [|exact X5].
      eapply Z.divide_trans; [|exact R1]. apply pow_divide; [exact X1| |apply SMALL, C].
      destruct (Z.max_spec al (max_align t)) as [[_ ->]|[_ ->]]; assumption.
Qed.
