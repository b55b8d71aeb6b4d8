(** Proofs about random and its state functions. *)
From Verif Require Import Random_Model Random_Spec.
Open Scope Z_scope.

Definition get0 (l : list Z) (k : nat) : Z := nth k l 0.

Lemma set_nth_ok : forall l k v, (k < length l)%nat -> exists l', set_nth k v l = Some l' /\ length l' = length l /\
  (forall m, get0 l' m = if (m =? k)%nat then v else get0 l m).
Proof.
  induction l as [|c l IH]; intros k v H; [cbn in H; lia|]. destruct k as [|k]; cbn [set_nth].
  - eexists. split; [reflexivity|]. split; [reflexivity|]. intros [|m]; reflexivity.
  - cbn [length] in H. destruct (IH k v ltac:(lia)) as (l' & E & L & G). rewrite E. cbn [option_map].
    eexists. split; [reflexivity|]. split; [cbn [length]; lia|]. intros [|m]; [reflexivity|]. exact (G m).
Qed.
Lemma get_ok l k : (k < length l)%nat -> nth_error l k = Some (get0 l k).
Proof. intros H. apply nth_error_nth'. exact H. Qed.

(** addition on the ring of [n] slots *)
Definition wrap (n a : nat) : nat := if (a <? n)%nat then a else (a - n)%nat.

Definition known (n : nat) : Prop := n = 7%nat \/ n = 15%nat \/ n = 31%nat \/ n = 63%nat.
(** the words [l] of an array with variables n, i, j hold the generator [g] *)
Definition holds (l : list Z) (n i j : nat) (g : gen) : Prop :=
  (i < 63)%nat /\ (j < 63)%nat /\
  match g with
  | Small v => n = 0%nat /\ (2 <= length l)%nat /\ get0 l 1 = v
  | Lagged sep q =>
      known n /\ sep = separation n /\ length q = n /\ (n + 1 <= length l)%nat /\ (i < n)%nat /\ j = wrap n (i + n - sep) /\
      (forall k, (k < n)%nat -> get0 q k = get0 l (1 + wrap n (i + k))) /\ (forall k, (k < n)%nat -> 0 <= get0 q k < 2 ^ 32)
  end.

Lemma known_sep n : known n -> (0 < separation n < n)%nat.
Proof. intros [->|[->|[->| ->]]]; cbn; lia. Qed.

(** random *)
Lemma lcg31_eq x : lcg31 x = (1103515245 * x + 12345) mod 2 ^ 31.
Proof.
  unfold lcg31. change 2147483647 with (Z.ones 31). rewrite Z.land_ones by lia.
  rewrite <- Znumtheory.Zmod_div_mod; [reflexivity|reflexivity|reflexivity|]. exists 2. reflexivity.
Qed.
Lemma nth_tl_app q v k n : length q = S n -> (k <= n)%nat ->
  get0 (tl q ++ [v]) k = if (k =? n)%nat then v else get0 q (k + 1).
Proof.
  intros L H. unfold get0. destruct q as [|c q]; [discriminate|]. cbn [tl]. injection L as L.
  destruct (Nat.eqb_spec k n) as [->|N].
  - rewrite app_nth2 by lia. rewrite L, Nat.sub_diag. reflexivity.
  - rewrite app_nth1 by lia. rewrite Nat.add_1_r. reflexivity.
Qed.

(** the relation with the ideal world *)
Record rel (cap : Z -> nat) (w : world) (s : state) : Prop := {
  r_cur : cur s = current w;
  r_len : forall a, length (arrays s a) = cap a;
  r_here : exists g, gens w (current w) = Some g /\ holds (arrays s (current w)) (n s) (i s) (j s) g;
  r_there : forall a g, a <> current w -> gens w a = Some g -> exists n i j,
    holds (arrays s a) n i j g /\ get0 (arrays s a) 0 = Z.of_nat n * 65536 + Z.of_nat i * 256 + Z.of_nat j;
  r_cap : forall a g, gens w a = Some g -> (2 <= cap a)%nat }.

Lemma holds_small l n i j g : holds l n i j g -> (n <= 63 /\ i < 63 /\ j < 63 /\ 2 <= length l)%nat.
Proof. intros (A & B & C). destruct g; [lia|]. destruct C as ([->|[->|[->| ->]]] & C); lia. Qed.
(** the first word is not part of the generator *)
Lemma holds_ext l l' n i j g : holds l n i j g -> length l' = length l -> (forall k, (0 < k)%nat -> get0 l' k = get0 l k) -> holds l' n i j g.
Proof.
  intros (A & B & C) L G. split; [exact A|]. split; [exact B|]. destruct g.
  - rewrite L, G by lia. exact C.
  - destruct C as (C1 & C2 & C3 & C4 & C5 & C6 & C7 & C8). repeat (split; [auto; lia|]). split; [|exact C8].
    intros k K. rewrite G by lia. apply C7, K.
Qed.

Lemma set_ok s k v : (k < length (arrays s (cur s)))%nat -> exists s', set s k v = Some s' /\
  cur s' = cur s /\ n s' = n s /\ i s' = i s /\ j s' = j s /\
  (forall a, length (arrays s' a) = length (arrays s a)) /\
  (forall a, a <> cur s -> arrays s' a = arrays s a) /\
  (forall m, get0 (arrays s' (cur s)) m = if (m =? k)%nat then v else get0 (arrays s (cur s)) m).
Proof.
  intros H. destruct (set_nth_ok _ _ v H) as (l & E & L & G). unfold set. rewrite E.
  eexists. split; [reflexivity|]. cbn [cur n i j arrays]. repeat (split; [reflexivity|]). split; [|split].
  - intros a. destruct (Z.eqb_spec a (cur s)) as [->|]; [exact L|reflexivity].
  - intros a N. destruct (Z.eqb_spec a (cur s)); [contradiction|reflexivity].
  - intros m. rewrite Z.eqb_refl. apply G.
Qed.

Lemma header n i j : (i < 256)%nat -> (j < 256)%nat ->
  Z.lor (Z.lor (Z.shiftl (Z.of_nat n) 16) (Z.shiftl (Z.of_nat i) 8)) (Z.of_nat j) = Z.of_nat n * 65536 + Z.of_nat i * 256 + Z.of_nat j.
Proof.
  intros I J.
  assert (A : forall a b k, 0 <= k -> 0 <= b < 2 ^ k -> Z.lor (Z.shiftl a k) b = Z.shiftl a k + b).
  { intros a b k K B. symmetry. rewrite <- Z.lxor_lor; [apply Z.add_nocarry_lxor|];
    apply Z.bits_inj'; intros m M; rewrite Z.land_spec, Z.bits_0;
    (destruct (Z.lt_ge_cases m k) as [Lt|Ge]; [rewrite Z.shiftl_spec_low by lia; reflexivity|]);
    rewrite andb_false_iff; right; rewrite <- (Z.mod_small b (2 ^ k)) by lia; apply Z.mod_pow2_bits_high; lia. }
  rewrite (A (Z.of_nat n) (Z.shiftl (Z.of_nat i) 8) 16) by (try rewrite Z.shiftl_mul_pow2; lia).
  replace (Z.shiftl (Z.of_nat n) 16 + Z.shiftl (Z.of_nat i) 8) with (Z.shiftl (Z.of_nat n * 256 + Z.of_nat i) 8)
    by (rewrite !Z.shiftl_mul_pow2 by lia; ring).
  rewrite A by lia. rewrite Z.shiftl_mul_pow2 by lia. ring.
Qed.
Lemma unheader n i j : (i < 256)%nat -> (j < 256)%nat -> let w := Z.of_nat n * 65536 + Z.of_nat i * 256 + Z.of_nat j in
  Z.to_nat (Z.shiftr w 16) = n /\ Z.to_nat (Z.land (Z.shiftr w 8) 255) = i /\ Z.to_nat (Z.land w 255) = j.
Proof.
  intros I J w. change 255 with (Z.ones 8). rewrite !Z.land_ones, !Z.shiftr_div_pow2 by lia. change (2 ^ 16) with 65536. change (2 ^ 8) with 256.
  assert (E1 : w / 65536 = Z.of_nat n).
  { subst w. rewrite <- Z.add_assoc, Z.div_add_l, Z.div_small by lia. lia. }
  assert (E2 : w / 256 = Z.of_nat n * 256 + Z.of_nat i).
  { subst w. replace (Z.of_nat n * 65536 + Z.of_nat i * 256 + Z.of_nat j) with ((Z.of_nat n * 256 + Z.of_nat i) * 256 + Z.of_nat j) by ring.
    rewrite Z.div_add_l, Z.div_small by lia. lia. }
  assert (E3 : w mod 256 = Z.of_nat j).
  { subst w. replace (Z.of_nat n * 65536 + Z.of_nat i * 256 + Z.of_nat j) with (Z.of_nat j + (Z.of_nat n * 256 + Z.of_nat i) * 256) by ring.
    rewrite Z.mod_add, Z.mod_small by lia. reflexivity. }
  rewrite E1, E2, E3. rewrite (Z.add_comm (Z.of_nat n * 256)), Z.mod_add, Z.mod_small by lia. lia.
Qed.

(** a state whose variables have been saved: all generators are in their arrays *)
Record saved (cap : Z -> nat) (w : world) (s : state) : Prop := {
  v_len : forall a, length (arrays s a) = cap a;
  v_i : (i s < 63)%nat; v_j : (j s < 63)%nat;
  v_all : forall a g, gens w a = Some g -> exists n i j,
    holds (arrays s a) n i j g /\ get0 (arrays s a) 0 = Z.of_nat n * 65536 + Z.of_nat i * 256 + Z.of_nat j;
  v_cap : forall a g, gens w a = Some g -> (2 <= cap a)%nat }.

Lemma savestate_ok cap w s : rel cap w s -> exists s', savestate s = Some (s', current w) /\ saved cap w s' /\ rel cap w s' /\ i s' = i s /\ j s' = j s.
Proof.
  intros [RC RL (g & RG & RH) RT RP]. unfold savestate. pose proof (holds_small _ _ _ _ _ RH) as (HN & HI & HJ & HL).
  rewrite header by lia.
  destruct (set_ok s 0 (Z.of_nat (n s) * 65536 + Z.of_nat (i s) * 256 + Z.of_nat (j s))) as (s' & E & C & N & I & J & L & O & G).
  { rewrite RC. lia. }
  rewrite E. cbn [option_map]. rewrite RC in *. exists s'. split; [reflexivity|].
  assert (H' : holds (arrays s' (current w)) (n s) (i s) (j s) g).
  { eapply holds_ext; [exact RH|apply L|]. intros k K. rewrite G. destruct (Nat.eqb_spec k 0); [lia|reflexivity]. }
  split; [|split; [|auto]].
  - constructor.
    + intros a. rewrite L. apply RL.
    + lia.
    + lia.
    + intros a g' Ha. destruct (Z.eq_dec a (current w)) as [->|Ne].
      * rewrite RG in Ha. injection Ha as <-. exists (n s), (i s), (j s). split; [exact H'|]. rewrite G. reflexivity.
      * rewrite O by exact Ne. apply (RT a g' Ne Ha).
    + exact RP.
  - constructor.
    + congruence.
    + intros a. rewrite L. apply RL.
    + exists g. split; [exact RG|]. rewrite N, I, J. exact H'.
    + intros a g' Ne Ha. rewrite O by exact Ne. apply (RT a g' Ne Ha).
    + exact RP.
Qed.

(** setstate *)
Lemma setstate_ok cap w s a g : rel cap w s -> gens w a = Some g ->
  exists s', setstate s a = Some (s', Some (current w)) /\ rel cap {| gens := gens w; current := a |} s'.
Proof.
  intros R Ha. destruct (savestate_ok _ _ _ R) as (s1 & E & [VL VI VJ VA VC] & R1 & _). unfold setstate, loadstate. rewrite E.
  pose proof (VC a g Ha) as C2. rewrite (get_ok (arrays s1 a) 0) by (rewrite VL; lia). cbn [option_map].
  destruct (VA a g Ha) as (n0 & i0 & j0 & H & W). rewrite W.
  pose proof (holds_small _ _ _ _ _ H) as (_ & I & J & _).
  destruct (unheader n0 i0 j0 ltac:(lia) ltac:(lia)) as (-> & -> & ->).
  eexists. split; [reflexivity|]. constructor; cbn [with_vars cur n i j arrays gens current].
  - reflexivity.
  - exact VL.
  - exists g. auto.
  - intros b g' _ Hb. apply (VA b g' Hb).
  - exact VC.
Qed.

(** random *)
Lemma random_ok cap w s g : rel cap w s -> gens w (current w) = Some g ->
  exists s', random s = Some (s', snd (next g)) /\ rel cap (put w (current w) (fst (next g))) s'.
Proof.
  intros [RC RL (g0 & RG & RH) RT RP] Hg. rewrite Hg in RG. injection RG as <-.
  destruct RH as (HI & HJ & H). unfold random. destruct g as [v|sep q].
  - destruct H as (N0 & L2 & V). rewrite N0. unfold get. rewrite RC, get_ok by lia. rewrite V, lcg31_eq.
    destruct (set_ok s 1 ((1103515245 * v + 12345) mod 2 ^ 31)) as (s' & E & C & N & I & J & L & O & G); [rewrite RC; lia|].
    rewrite E. cbn [option_map next fst snd]. exists s'. split; [reflexivity|]. rewrite RC in *.
    constructor; cbn [put gens current].
    + congruence.
    + intros a. rewrite L. apply RL.
    + rewrite Z.eqb_refl. eexists. split; [reflexivity|]. rewrite N, I, J. split; [exact HI|]. split; [exact HJ|].
      split; [exact N0|]. split; [rewrite L; exact L2|]. rewrite G. reflexivity.
    + intros a g Ne. destruct (Z.eqb_spec a (current w)); [contradiction|]. intros Ha. rewrite O by exact Ne. apply (RT a g Ne Ha).
    + intros a g. destruct (Z.eqb_spec a (current w)) as [->|]; [intros _; apply (RP _ _ Hg)|apply RP].
  - destruct H as (KN & SE & LQ & LL & IN & JE & Q & QR). pose proof (known_sep _ KN) as SB.
    destruct (n s) as [|n0] eqn:EN; [lia|]. set (n' := S n0) in *.
    assert (JN : (j s < n')%nat) by (rewrite JE; unfold wrap; destruct (Nat.ltb_spec (i s + n' - sep) n'); lia).
    unfold get. rewrite RC, !get_ok by lia.
    assert (Q0 : get0 (arrays s (current w)) (1 + i s) = get0 q 0).
    { rewrite Q by lia. f_equal. unfold wrap. destruct (Nat.ltb_spec (i s + 0) n'); lia. }
    assert (QS : get0 (arrays s (current w)) (1 + j s) = get0 q (n' - sep)).
    { rewrite Q by lia. f_equal. rewrite JE. f_equal. f_equal. lia. }
    rewrite Q0, QS. change (1 + i s)%nat with (S (i s)). set (v := (get0 q 0 + get0 q (n' - sep)) mod 2 ^ 32).
    destruct (set_ok s (S (i s)) v) as (s' & E & C & N & I & J & L & O & G); [rewrite RC; lia|].
    rewrite E. cbn [next fst snd]. rewrite LQ. change (nth 0 q 0) with (get0 q 0). change (nth (n' - sep) q 0) with (get0 q (n' - sep)). fold v.
    rewrite Z.shiftr_div_pow2 by lia. change (2 ^ 1) with 2.
    eexists. split; [reflexivity|]. rewrite RC in *. rewrite N, I, J, EN. fold n'.
    assert (VB : 0 <= v < 2 ^ 32) by (apply Z.mod_pos_bound; reflexivity).
    constructor; cbn [with_vars put gens current cur n i j arrays].
    + congruence.
    + intros a. rewrite L. apply RL.
    + rewrite Z.eqb_refl. eexists. split; [reflexivity|].
      split; [destruct (Nat.eqb_spec (i s + 1) n'); destruct KN as [X|[X|[X|X]]]; lia|].
      split; [destruct (Nat.eqb_spec (j s + 1) n'); destruct KN as [X|[X|[X|X]]]; lia|].
      split; [exact KN|]. split; [exact SE|].
      split; [rewrite app_length; destruct q; cbn [tl length] in *; lia|]. split; [rewrite L; exact LL|].
      split; [destruct (Nat.eqb_spec (i s + 1) n'); lia|].
      split.
      { unfold wrap in *. rewrite JE. clear - SB IN SE.
        repeat match goal with |- context [(?a <? ?b)%nat] => destruct (Nat.ltb_spec a b) | |- context [(?a =? ?b)%nat] => destruct (Nat.eqb_spec a b) end; lia. }
      split.
      * intros k K. rewrite (nth_tl_app q v k n0 LQ) by lia. rewrite G.
        destruct (Nat.eqb_spec k n0) as [->|NK].
        -- replace (1 + wrap n' ((if (i s + 1 =? n')%nat then 0 else i s + 1) + n0))%nat with (S (i s)).
           { rewrite Nat.eqb_refl. reflexivity. }
           unfold wrap. destruct (Nat.eqb_spec (i s + 1) n'); match goal with |- context [(?a <? ?b)%nat] => destruct (Nat.ltb_spec a b) end; lia.
        -- rewrite Q by lia.
           assert (EW : wrap n' ((if (i s + 1 =? n')%nat then 0 else i s + 1) + k) = wrap n' (i s + (k + 1)) /\ wrap n' (i s + (k + 1)) <> i s).
           { unfold wrap. destruct (Nat.eqb_spec (i s + 1) n'); repeat match goal with |- context [(?a <? ?b)%nat] => destruct (Nat.ltb_spec a b) end; lia. }
           destruct EW as [-> EW]. cbn [plus]. destruct (Nat.eqb_spec (S (wrap n' (i s + (k + 1)))) (S (i s))); [lia|reflexivity].
      * intros k K. rewrite (nth_tl_app q v k n0 LQ) by lia. destruct (Nat.eqb_spec k n0); [exact VB|apply QR; lia].
    + intros a g Ne. destruct (Z.eqb_spec a (current w)); [contradiction|]. intros Ha. rewrite O by exact Ne. apply (RT a g Ne Ha).
    + intros a g. destruct (Z.eqb_spec a (current w)) as [->|]; [intros _; apply (RP _ _ Hg)|apply RP].
Qed.

(** srandom *)
Lemma values_length n : forall seed, length (values n seed) = n.
Proof. induction n as [|n IH]; intros seed; [reflexivity|]. cbn [values length]. rewrite IH. reflexivity. Qed.
Lemma values_range n : forall seed k, (k < n)%nat -> 0 <= get0 (values n seed) k < 2 ^ 32.
Proof.
  induction n as [|n IH]; intros seed k K; [lia|]. cbn [values]. cbv zeta. destruct k as [|k]; [|apply IH; lia].
  unfold get0. cbn [nth]. pose proof (Z.mod_pos_bound (6364136223846793005 * seed + 1) (2 ^ 64) eq_refl) as B.
  split; [apply Z.div_pos; lia|apply Z.div_lt_upper_bound; lia].
Qed.
Lemma fill_ok left : forall s seed k, (1 + k + left <= length (arrays s (cur s)))%nat ->
  exists s', fill left s seed k = Some s' /\ cur s' = cur s /\ n s' = n s /\ i s' = i s /\ j s' = j s /\
    (forall a, length (arrays s' a) = length (arrays s a)) /\ (forall a, a <> cur s -> arrays s' a = arrays s a) /\
    (forall m, get0 (arrays s' (cur s)) m =
      if (1 + k <=? m)%nat && (m <? 1 + k + left)%nat then get0 (values left seed) (m - 1 - k) else get0 (arrays s (cur s)) m).
Proof.
  induction left as [|l IH]; intros s seed k H; cbn [fill values].
  - exists s. repeat (split; [reflexivity|]). intros m.
    destruct (Nat.leb_spec (1 + k) m), (Nat.ltb_spec m (1 + k + 0)); try reflexivity. lia.
  - change ((6364136223846793005 * seed + 1) mod 2 ^ 64) with (lcg64 seed). cbv zeta.
    destruct (set_ok s (1 + k) (Z.shiftr (lcg64 seed) 32)) as (s1 & E & C & N & I & J & L & O & G); [lia|].
    rewrite E. destruct (IH s1 (lcg64 seed) (k + 1)%nat) as (s2 & E2 & C2 & N2 & I2 & J2 & L2 & O2 & G2); [rewrite C, L; lia|].
    rewrite E2. exists s2. rewrite C in *. split; [reflexivity|]. do 4 (split; [congruence|]). split; [|split].
    + intros a. rewrite L2. apply L.
    + intros a Ne. rewrite O2 by exact Ne. apply O, Ne.
    + intros m. rewrite G2, G. rewrite Z.shiftr_div_pow2 by lia.
      destruct (Nat.leb_spec (1 + (k + 1)) m), (Nat.ltb_spec m (1 + (k + 1) + l)), (Nat.leb_spec (1 + k) m), (Nat.ltb_spec m (1 + k + S l)),
        (Nat.eqb_spec m (1 + k)); try lia; cbn [andb]; try reflexivity.
      * replace (m - 1 - k)%nat with (S (m - 1 - (k + 1))) by lia. reflexivity.
      * subst m. replace (1 + k - 1 - k)%nat with 0%nat by lia. reflexivity.
Qed.
Lemma bits_1 m : m <> 0 -> Z.testbit 1 m = false.
Proof. intros H. change 1 with (2 ^ 0). apply Z.pow2_bits_false. lia. Qed.
Lemma lor1 v : 0 <= v -> Z.lor v 1 = if Z.even v then v + 1 else v.
Proof.
  intros H. destruct (Z.even v) eqn:E.
  - assert (A : Z.land v 1 = 0).
    { apply Z.bits_inj'. intros m M. rewrite Z.land_spec, Z.bits_0. destruct (Z.eq_dec m 0) as [->|Ne].
      - rewrite Z.bit0_odd, <- Z.negb_even, E. reflexivity.
      - rewrite bits_1 by exact Ne. apply andb_false_r. }
    rewrite <- Z.lxor_lor by exact A. symmetry. apply Z.add_nocarry_lxor, A.
  - apply Z.bits_inj'. intros m M. rewrite Z.lor_spec. destruct (Z.eq_dec m 0) as [->|Ne].
    + rewrite Z.bit0_odd, <- Z.negb_even, E. reflexivity.
    + rewrite bits_1 by exact Ne. apply orb_false_r.
Qed.
Lemma get0_rot (l : list Z) sep k : (sep <= length l)%nat -> (k < length l)%nat ->
  get0 (skipn sep l ++ firstn sep l) k = get0 l (wrap (length l) (sep + k)).
Proof.
  intros S K. unfold get0, wrap. destruct (Nat.ltb_spec (sep + k) (length l)).
  - rewrite app_nth1 by (rewrite skipn_length; lia).
    transitivity (nth (sep + k) (firstn sep l ++ skipn sep l) 0); [|rewrite firstn_skipn; reflexivity].
    rewrite app_nth2 by (rewrite firstn_length; lia). f_equal. rewrite firstn_length. lia.
  - rewrite app_nth2 by (rewrite skipn_length; lia). rewrite skipn_length.
    transitivity (nth (sep + k - length l) (firstn sep l ++ skipn sep l) 0); [|rewrite firstn_skipn; reflexivity].
    rewrite app_nth1 by (rewrite firstn_length; lia). f_equal. lia.
Qed.

Definition degree_ok (n : nat) : Prop := n = 0%nat \/ known n.
Lemma srandom_ok s seed : degree_ok (n s) -> (i s < 63)%nat -> (j s < 63)%nat -> 0 <= seed < 2 ^ 32 ->
  (2 <= length (arrays s (cur s)))%nat -> (n s + 1 <= length (arrays s (cur s)))%nat ->
  exists s', srandom s seed = Some s' /\ cur s' = cur s /\ n s' = n s /\
    (forall a, length (arrays s' a) = length (arrays s a)) /\ (forall a, a <> cur s -> arrays s' a = arrays s a) /\
    holds (arrays s' (cur s)) (n s') (i s') (j s') (seeded (n s) seed).
Proof.
  intros D HI HJ HS L2 LN. unfold srandom. destruct (n s) as [|n0] eqn:EN.
  - destruct (set_ok s 1 seed) as (s' & E & C & N & I & J & L & O & G); [exact L2|]. rewrite E. exists s'.
    split; [reflexivity|]. rewrite N, I, J, EN. do 4 (split; [first [assumption|reflexivity]|]).
    split; [exact HI|]. split; [exact HJ|]. split; [reflexivity|]. split; [rewrite L; exact L2|]. rewrite G. reflexivity.
  - destruct D as [D|KN]; [discriminate|]. pose proof (known_sep _ KN) as SB. set (n' := S n0) in *.
    set (s0 := with_vars s (cur s) n' (if (n' =? 31)%nat || (n' =? 7)%nat then 3%nat else 1%nat) 0).
    destruct (fill_ok n' s0 seed 0) as (s1 & E & C & N & I & J & L & O & G); [cbn [s0 with_vars arrays cur]; lia|].
    change (n s0) with n'. rewrite E. unfold get. rewrite C. cbn [s0 with_vars cur] in *.
    rewrite get_ok by (rewrite L; cbn [s0 with_vars arrays]; lia).
    destruct (set_ok s1 1 (Z.lor (get0 (arrays s1 (cur s)) 1) 1)) as (s2 & E2 & C2 & N2 & I2 & J2 & L3 & O2 & G2);
      [rewrite C, L; cbn [s0 with_vars arrays]; lia|].
    rewrite E2. exists s2. rewrite C in *. split; [reflexivity|]. split; [congruence|]. split; [rewrite N2, N; reflexivity|].
    split; [intros a; rewrite L3, L; reflexivity|]. split; [intros a Ne; rewrite O2, O by exact Ne; reflexivity|].
    rewrite N2, I2, J2, N, I, J. cbn [s0 with_vars n i j]. change (if (n' =? 31)%nat || (n' =? 7)%nat then 3%nat else 1%nat) with (separation n').
    unfold seeded. fold n'. change (match n' with O => _ | S _ => ?x end) with x.
    set (l := make_odd (values n' seed)).
    assert (LV : length l = n') by (subst l; unfold n'; cbn [values make_odd length]; cbv zeta; rewrite values_length; reflexivity).
    assert (GL : forall k, (k < n')%nat -> get0 (arrays s2 (cur s)) (1 + k) = get0 l k).
    { intros k K. rewrite G2, !G. destruct k as [|k].
      - cbn [plus Nat.eqb]. unfold n' at 1 2. cbn [Nat.leb Nat.ltb andb plus Nat.sub]. rewrite lor1.
        + subst l n'. cbn [values make_odd]. cbv zeta. reflexivity.
        + pose proof (values_range (S n0) seed 0 ltac:(lia)) as B. unfold n'. lia.
      - destruct (Nat.eqb_spec (1 + S k) 1); [lia|].
        destruct (Nat.leb_spec (1 + 0) (1 + S k)), (Nat.ltb_spec (1 + S k) (1 + 0 + n')); try lia. cbn [andb].
        replace (1 + S k - 1 - 0)%nat with (S k) by lia. subst l n'. cbn [values make_odd]. cbv zeta. reflexivity. }
    assert (RL : forall k, (k < n')%nat -> 0 <= get0 l k < 2 ^ 32).
    { intros k K. pose proof (values_range n' seed k K) as B. subst l. unfold n' in *. cbn [values make_odd] in *. cbv zeta in *.
      destruct k as [|k]; [|exact B]. unfold get0 in *. cbn [nth] in *. destruct (Z.even _) eqn:EV; [|exact B].
      apply Z.even_spec in EV as [h EV]. rewrite EV in *. lia. }
    cbv zeta. split; [destruct KN as [X|[X|[X|X]]]; rewrite X; cbn; lia|]. split; [lia|].
    split; [exact KN|]. split; [reflexivity|].
    split; [rewrite app_length, skipn_length, firstn_length; lia|]. split; [rewrite L3, L; cbn [s0 with_vars arrays]; lia|].
    split; [lia|]. split; [unfold wrap; destruct (Nat.ltb_spec (separation n' + n' - separation n') n'); lia|].
    split.
    + intros k K. rewrite get0_rot by lia. rewrite LV. rewrite GL; [reflexivity|].
      unfold wrap. destruct (Nat.ltb_spec (separation n' + k) n'); lia.
    + intros k K. rewrite get0_rot by lia. rewrite LV. apply RL. unfold wrap. destruct (Nat.ltb_spec (separation n' + k) n'); lia.
Qed.
Lemma degree_known size : degree_ok (degree size).
Proof. unfold degree_ok, known, degree. destruct (size <? 32), (size <? 64), (size <? 128), (size <? 256); auto 6. Qed.
Lemma degree_cap size c : 8 <= size -> size <= 4 * Z.of_nat c -> (2 <= c /\ degree size + 1 <= c)%nat.
Proof.
  intros A B. unfold degree. destruct (Z.ltb_spec size 32), (Z.ltb_spec size 64), (Z.ltb_spec size 128), (Z.ltb_spec size 256); lia.
Qed.
Lemma holds_degree l n i j g : holds l n i j g -> degree_ok n /\ size_of g = n /\ (n + 1 <= length l)%nat.
Proof. intros (_ & _ & H). destruct g; cbn [size_of]; [split; [left; tauto|lia]|]. destruct H as (K & _ & L & LL & _). split; [right; exact K|auto]. Qed.

Lemma srandom_rel cap w s seed g : rel cap w s -> gens w (current w) = Some g -> 0 <= seed < 2 ^ 32 ->
  exists s', srandom s seed = Some s' /\ rel cap (put w (current w) (seeded (size_of g) seed)) s'.
Proof.
  intros [RC RL (g0 & RG & RH) RT RP] Hg HS. rewrite Hg in RG. injection RG as <-.
  pose proof (holds_small _ _ _ _ _ RH) as (_ & HI & HJ & L2). destruct (holds_degree _ _ _ _ _ RH) as (D & SZ & LL).
  destruct (srandom_ok s seed D HI HJ HS) as (s' & E & C & N & L & O & H); [rewrite RC; lia|rewrite RC; lia|].
  exists s'. split; [exact E|]. rewrite SZ, RC in *. constructor; cbn [put gens current].
  - congruence.
  - intros a. rewrite L. apply RL.
  - rewrite Z.eqb_refl. eauto.
  - intros a g' Ne. destruct (Z.eqb_spec a (current w)); [contradiction|]. intros Ha. rewrite O by exact Ne. apply (RT a g' Ne Ha).
  - intros a g'. destruct (Z.eqb_spec a (current w)) as [->|]; [intros _; apply (RP _ _ Hg)|apply RP].
Qed.

(** initstate *)
Lemma initstate_ok cap w s seed a size : rel cap w s -> 8 <= size -> size <= 4 * Z.of_nat (cap a) -> 0 <= seed < 2 ^ 32 ->
  exists s', initstate s seed a size = Some (s', Some (current w)) /\ rel cap (put w a (seeded (degree size) seed)) s'.
Proof.
  intros R S8 SC HS. unfold initstate. destruct (Z.ltb_spec size 8); [lia|].
  destruct (savestate_ok _ _ _ R) as (s1 & E & [VL VI VJ VA VC] & _ & _). rewrite E.
  change (if (size <? 32)%Z then 0%nat else if (size <? 64)%Z then 7%nat else if (size <? 128)%Z then 15%nat else if (size <? 256)%Z then 31%nat else 63%nat)
    with (degree size).
  destruct (degree_cap size (cap a) S8 SC) as [C2 CN].
  set (s2 := with_vars s1 a (degree size) (i s1) (j s1)).
  destruct (srandom_ok s2 seed (degree_known size) VI VJ HS) as (s3 & E3 & C3 & N3 & L3 & O3 & H3);
    [cbn [s2 with_vars arrays cur]; rewrite VL; lia|cbn [s2 with_vars arrays cur n]; rewrite VL; lia|].
  rewrite E3. cbn [s2 with_vars cur n arrays] in *.
  assert (R3 : rel cap (put w a (seeded (degree size) seed)) s3).
  { constructor; cbn [put gens current].
    - exact C3.
    - intros b. rewrite L3. apply VL.
    - rewrite Z.eqb_refl. eauto.
    - intros b g Ne. destruct (Z.eqb_spec b a); [contradiction|]. intros Hb. rewrite O3 by exact Ne. apply (VA b g Hb).
    - intros b g. destruct (Z.eqb_spec b a) as [->|]; [intros _; exact C2|apply VC]. }
  destruct (savestate_ok _ _ _ R3) as (s4 & E4 & _ & R4 & _). rewrite E4. cbn [option_map fst]. eauto.
Qed.

(** all calls *)
Lemma step_ok cap w s o w' r : rel cap w s -> ideal_step cap w o = Some (w', r) -> exists s', step s o = Some (s', r) /\ rel cap w' s'.
Proof.
  intros R H. destruct o as [|seed|seed a size|a]; cbn [ideal_step step] in *.
  - destruct (gens w (current w)) as [g|] eqn:Hg; [|discriminate]. destruct (random_ok _ _ _ _ R Hg) as (s' & E & R').
    destruct (next g) as [g' v]. cbn [fst snd] in *. injection H as <- <-. rewrite E. exists s'. auto.
  - destruct (gens w (current w)) as [g|] eqn:Hg; [|discriminate].
    destruct (Z.leb_spec 0 seed), (Z.ltb_spec seed (2 ^ 32)); cbn [andb] in H; try discriminate. injection H as <- <-.
    destruct (srandom_rel _ _ _ seed _ R Hg ltac:(lia)) as (s' & E & R'). rewrite E. exists s'. auto.
  - destruct (Z.ltb_spec size 8).
    + injection H as <- <-. unfold initstate. destruct (Z.ltb_spec size 8); [|lia]. exists s. auto.
    + destruct (Z.leb_spec size (4 * Z.of_nat (cap a))), (Z.leb_spec 0 seed), (Z.ltb_spec seed (2 ^ 32)); cbn [andb] in H; try discriminate.
      injection H as <- <-. destruct (initstate_ok _ _ _ seed a size R) as (s' & E & R'); try lia. rewrite E. exists s'. auto.
  - destruct (gens w a) as [g|] eqn:Ha; [|discriminate]. injection H as <- <-.
    destruct (setstate_ok _ _ _ _ _ R Ha) as (s' & E & R'). rewrite E. exists s'. auto.
Qed.
Lemma run_ok cap os : forall w s w' rs, rel cap w s -> ideal_run cap w os = Some (w', rs) -> exists s', run s os = Some (s', rs) /\ rel cap w' s'.
Proof.
  induction os as [|o os IH]; intros w s w' rs R H; cbn [ideal_run run] in *.
  - injection H as <- <-. exists s. auto.
  - destruct (ideal_step cap w o) as [[w1 r]|] eqn:E; [|discriminate]. destruct (step_ok _ _ _ _ _ _ R E) as (s1 & E1 & R1). rewrite E1.
    destruct (ideal_run cap w1 os) as [[w2 rs2]|] eqn:E2; [|discriminate]. injection H as <- <-.
    destruct (IH _ _ _ _ R1 E2) as (s2 & E3 & R2). rewrite E3. exists s2. auto.
Qed.
Lemma values_31 : make_odd (values 31 1) = tl init_table.
Proof. vm_compute. reflexivity. Qed.
Lemma start_ok mem : rel (caps mem) initial (start mem).
Proof.
  constructor; cbn [start initial cur current gens arrays n i j].
  - reflexivity.
  - intros a. unfold caps. destruct (a =? 0); reflexivity.
  - cbn [Z.eqb]. eexists. split; [reflexivity|]. split; [lia|]. split; [lia|]. cbn [seeded]. cbv zeta. rewrite values_31.
    split; [right; right; left; reflexivity|]. split; [reflexivity|]. split; [reflexivity|]. split; [cbn; lia|]. split; [lia|].
    split; [reflexivity|].
    assert (X : forallb (fun k => (get0 (skipn (separation 31) (tl init_table) ++ firstn (separation 31) (tl init_table)) k
      =? get0 init_table (1 + wrap 31 (3 + k)))
      && (0 <=? get0 init_table (1 + wrap 31 (3 + k))) && (get0 init_table (1 + wrap 31 (3 + k)) <? 2 ^ 32)) (seq 0 31) = true) by (vm_compute; reflexivity).
    rewrite forallb_forall in X.
    split; intros k K; specialize (X k); rewrite in_seq in X; specialize (X ltac:(lia));
      apply andb_true_iff in X as [X X3]; apply andb_true_iff in X as [X1 X2].
    + apply Z.eqb_eq, X1.
    + apply Z.eqb_eq in X1. rewrite X1. apply Z.leb_le in X2. apply Z.ltb_lt in X3. lia.
  - intros a g Ne. destruct (Z.eqb_spec a 0); [contradiction|discriminate].
  - intros a g. unfold caps. destruct (a =? 0); [lia|discriminate].
Qed.
(** ranges *)
Definition num_ok (r : result) : Prop := match r with Num v => 0 <= v < 2 ^ 31 | Array _ => True end.
Definition gen_ok (g : gen) : Prop := match g with Small _ => True | Lagged _ q => Forall (fun v => 0 <= v < 2 ^ 32) q end.
Lemma next_range g : 0 <= snd (next g) < 2 ^ 31.
Proof.
  destruct g; cbn [next snd]; [apply Z.mod_pos_bound; reflexivity|].
  pose proof (Z.mod_pos_bound (nth 0 q 0 + nth (length q - sep) q 0) (2 ^ 32) eq_refl).
  split; [apply Z.div_pos; lia|apply Z.div_lt_upper_bound; lia].
Qed.
Lemma run_range cap os : forall w w' rs, ideal_run cap w os = Some (w', rs) -> Forall num_ok rs.
Proof.
  induction os as [|o os IH]; intros w w' rs H; cbn [ideal_run] in H; [injection H as _ <-; constructor|].
  destruct (ideal_step cap w o) as [[w1 r]|] eqn:E; [|discriminate]. destruct (ideal_run cap w1 os) as [[w2 rs2]|] eqn:E2; [|discriminate].
  injection H as _ <-. constructor; [|apply (IH _ _ _ E2)]. destruct o; cbn [ideal_step] in E.
  - destruct (gens w (current w)) as [g|]; [|discriminate]. pose proof (next_range g). destruct (next g). injection E as _ <-. exact H.
  - destruct (gens w (current w)); [|discriminate]. destruct (_ && _); [|discriminate]. injection E as _ <-. cbn. lia.
  - destruct (size <? 8); [injection E as _ <-; exact I|]. destruct (_ && _); [|discriminate]. injection E as _ <-. exact I.
  - destruct (gens w a); [|discriminate]. injection E as _ <-. exact I.
Qed.
(** a generator is not changed while another array is current *)
Lemma elsewhere_step cap a w o w' r : current w <> a -> elsewhere a o -> ideal_step cap w o = Some (w', r) ->
  gens w' a = gens w a /\ current w' <> a.
Proof.
  intros C X E. destruct o; cbn [ideal_step elsewhere] in *.
  - destruct (gens w (current w)) as [g|]; [|discriminate]. destruct (next g). injection E as <- _. cbn [put gens current].
    destruct (Z.eqb_spec a (current w)); [congruence|auto].
  - destruct (gens w (current w)) as [g|]; [|discriminate]. destruct (_ && _); [|discriminate]. injection E as <- _. cbn [put gens current].
    destruct (Z.eqb_spec a (current w)); [congruence|auto].
  - destruct (size <? 8); [injection E as <- _; auto|]. destruct (_ && _); [|discriminate]. injection E as <- _. cbn [put gens current].
    destruct (Z.eqb_spec a a0); [congruence|auto].
  - destruct (gens w a0); [|discriminate]. injection E as <- _. auto.
Qed.
Lemma elsewhere_run cap a os : forall w w' rs, current w <> a -> Forall (elsewhere a) os -> ideal_run cap w os = Some (w', rs) ->
  gens w' a = gens w a /\ current w' <> a.
Proof.
  induction os as [|o os IH]; intros w w' rs C X E; cbn [ideal_run] in E; [injection E as <- _; auto|].
  destruct (ideal_step cap w o) as [[w1 r]|] eqn:E1; [|discriminate]. destruct (ideal_run cap w1 os) as [[w2 rs2]|] eqn:E2; [|discriminate].
  injection E as <- _. inversion X as [|? ? X1 X2]; subst.
  destruct (elsewhere_step _ _ _ _ _ _ C X1 E1) as [G1 C1]. destruct (IH _ _ _ C1 X2 E2) as [G2 C2]. split; congruence.
Qed.
Lemma randoms_same cap k : forall w1 w2, gens w1 (current w1) = gens w2 (current w2) ->
  option_map snd (ideal_run cap w1 (repeat Random k)) = option_map snd (ideal_run cap w2 (repeat Random k)).
Proof.
  induction k as [|k IH]; intros w1 w2 H; [reflexivity|]. cbn [repeat ideal_run ideal_step]. rewrite H.
  destruct (gens w2 (current w2)) as [g|]; [|reflexivity]. destruct (next g) as [g' v].
  specialize (IH (put w1 (current w1) g') (put w2 (current w2) g')). cbn [put gens current] in IH. rewrite !Z.eqb_refl in IH. specialize (IH eq_refl).
  destruct (ideal_run cap (put w1 (current w1) g') (repeat Random k)) as [[? ?]|], (ideal_run cap (put w2 (current w2) g') (repeat Random k)) as [[? ?]|];
    cbn [option_map snd] in *; try discriminate; [|reflexivity]. injection IH as ->. reflexivity.
Qed.
Lemma ideal_run_app cap os1 : forall w os2, ideal_run cap w (os1 ++ os2) =
  match ideal_run cap w os1 with
  | None => None
  | Some (w1, rs1) => option_map (fun '(w2, rs2) => (w2, rs1 ++ rs2)) (ideal_run cap w1 os2)
  end.
Proof.
  induction os1 as [|o os1 IH]; intros w os2; cbn [app ideal_run].
  - destruct (ideal_run cap w os2) as [[? ?]|]; reflexivity.
  - destruct (ideal_step cap w o) as [[w1 r]|]; [|reflexivity]. rewrite IH. destruct (ideal_run cap w1 os1) as [[w2 rs]|]; [|reflexivity].
    cbn [option_map]. destruct (ideal_run cap w2 os2) as [[? ?]|]; reflexivity.
Qed.
