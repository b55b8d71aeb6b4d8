(** Proofs about Casestr_Model *)
From Coq Require Import Lia.
From Verif Require Import Base Mem_Model Mem_Proof Str_Model Str_Spec Str_Proof StrSearch_Proof.
From Verif Require Import Ctype_Model Ctype_Spec Ctype_Proof Strtol_Spec Casestr_Model Casestr_Spec.
Open Scope Z_scope.

(** ** case-insensitive comparison *)
Lemma lower_zero c : 0 <= c < 256 -> (lower_of c = 0 <-> c = 0).
Proof. unfold lower_of. destruct ((65 <=? c) && (c <=? 90)) eqn:E; lia. Qed.
Lemma lower_byte c : 0 <= c < 256 -> 0 <= lower_of c < 256.
Proof. unfold lower_of. destruct ((65 <=? c) && (c <=? 90)) eqn:E; lia. Qed.

(** [low] lowers the bytes satisfying [D] *)
Definition lowers (D : Z -> Prop) (low : Z -> res Z) : Prop :=
  forall c, D c -> 0 <= c < 256 -> exists v, low (schar c) = Ok v /\ v mod 256 = lower_of c.

Lemma nth_skip_map i (a : list Z) : (i < length a)%nat ->
  map lower_of (skipn i a) = lower_of (nth i a 0) :: map lower_of (skipn (S i) a).
Proof. intros H. now rewrite (nth_skip a i H). Qed.

Lemma casecmp_loop_ok D low fuel : lowers D low -> D 0 -> forall m p q a b i, str_at m p a -> str_at m q b ->
  Forall D a -> Forall D b ->
  (i <= length a)%nat -> (i <= length b)%nat -> (length a - i < fuel)%nat ->
  exists r, casecmp_loop low fuel m p q i = Ok r /\ (r ?= 0) = lex_nocase (skipn i a) (skipn i b).
Proof.
  intros HL D0. induction fuel as [|f IH]; intros m p q a b i Ha Hb Da Db Hia Hib Hf; [lia|]. cbn [casecmp_loop].
  rewrite (str_load _ _ _ i Ha Hia), (str_load _ _ _ i Hb Hib). cbn [bind].
  assert (Pa : D (nth i a 0) /\ 0 <= nth i a 0 < 256).
  { destruct (Nat.eq_dec i (length a)) as [->|]. rewrite str_end; split; [auto|lia].
    pose proof (str_pos _ _ _ i Ha ltac:(lia)). rewrite Forall_forall in Da. split; [apply Da, nth_In; lia|lia]. }
  assert (Pb : D (nth i b 0) /\ 0 <= nth i b 0 < 256).
  { destruct (Nat.eq_dec i (length b)) as [->|]. rewrite str_end; split; [auto|lia].
    pose proof (str_pos _ _ _ i Hb ltac:(lia)). rewrite Forall_forall in Db. split; [apply Db, nth_In; lia|lia]. }
  destruct (HL _ (proj1 Pa) (proj2 Pa)) as [va [-> Ea]]. destruct (HL _ (proj1 Pb) (proj2 Pb)) as [vb [-> Eb]].
  cbn [bind]. cbv zeta. rewrite Ea, Eb. clear va vb Ea Eb.
  pose proof (lower_zero _ (proj2 Pa)) as Za. pose proof (lower_zero _ (proj2 Pb)) as Zb.
  pose proof (lower_byte _ (proj2 Pa)) as Ba. pose proof (lower_byte _ (proj2 Pb)) as Bb.
  unfold lex_nocase.
  destruct (Nat.eq_dec i (length a)) as [Ea|Ea], (Nat.eq_dec i (length b)) as [Eb|Eb].
  - rewrite !nth_overflow in * by lia. exists 0. cbn. rewrite !skipn_all2 by lia. auto.
  - pose proof (str_pos _ _ _ i Hb ltac:(lia)). rewrite (nth_overflow a) in * by lia. change (lower_of 0) with 0 in *.
    replace ((0 =? 0) && (lower_of (nth i b 0) =? 0)) with false by lia. replace (0 <? _) with true by lia.
    exists (-1). split; [reflexivity|]. rewrite (skipn_all2 a) by lia. rewrite (nth_skip_map i b) by lia. reflexivity.
  - pose proof (str_pos _ _ _ i Ha ltac:(lia)). rewrite (nth_overflow b) in * by lia. change (lower_of 0) with 0 in *.
    replace ((lower_of (nth i a 0) =? 0) && (0 =? 0)) with false by lia. replace (_ <? 0) with false by lia.
    replace (_ >? 0) with true by lia.
    exists 1. split; [reflexivity|]. rewrite (skipn_all2 b) by lia. rewrite (nth_skip_map i a) by lia. reflexivity.
  - pose proof (str_pos _ _ _ i Ha ltac:(lia)). pose proof (str_pos _ _ _ i Hb ltac:(lia)).
    replace ((lower_of (nth i a 0) =? 0) && (lower_of (nth i b 0) =? 0)) with false by lia.
    rewrite (nth_skip_map i a), (nth_skip_map i b) by lia. cbn [lex].
    destruct (Z.compare_spec (lower_of (nth i a 0)) (lower_of (nth i b 0))) as [E|Hc|Hc].
    + replace (_ <? _) with false by lia. replace (_ >? _) with false by lia. apply IH; try assumption; lia.
    + replace (_ <? _) with true by lia. exists (-1). auto.
    + replace (_ <? _) with false by lia. replace (_ >? _) with true by lia. exists 1. auto.
Qed.

Lemma ncasecmp_loop_ok D low k : lowers D low -> D 0 -> forall m p q a b n i, nstr_at m p n a -> nstr_at m q n b ->
  Forall D a -> Forall D b ->
  (i <= length a)%nat -> (i <= length b)%nat -> (k + i = n)%nat ->
  exists r, ncasecmp_loop low k m p q i = Ok r /\ (r ?= 0) = lex_nocase (skipn i a) (skipn i b).
Proof.
  intros HL D0. induction k as [|k IH]; intros m p q a b n i Ha Hb Da Db Hia Hib Hk; cbn [ncasecmp_loop];
    pose proof (nstr_len _ _ _ _ Ha) as La; pose proof (nstr_len _ _ _ _ Hb) as Lb; unfold lex_nocase.
  - exists 0. rewrite !skipn_all2 by lia. auto.
  - assert (Pa : load m (p + Z.of_nat i) = Ok (nth i a 0) /\ D (nth i a 0) /\ 0 <= nth i a 0 < 256 /\ ((i < length a)%nat -> 0 < nth i a 0)).
    { destruct (Nat.eq_dec i (length a)) as [E|].
      - subst i. rewrite (nstr_end _ _ _ _ Ha) by lia. rewrite str_end. repeat split; auto; lia.
      - destruct (nstr_load _ _ _ _ i Ha ltac:(lia)) as [-> H]. rewrite Forall_forall in Da.
        repeat split; try lia. apply Da, nth_In; lia. }
    assert (Pb : load m (q + Z.of_nat i) = Ok (nth i b 0) /\ D (nth i b 0) /\ 0 <= nth i b 0 < 256 /\ ((i < length b)%nat -> 0 < nth i b 0)).
    { destruct (Nat.eq_dec i (length b)) as [E|].
      - subst i. rewrite (nstr_end _ _ _ _ Hb) by lia. rewrite str_end. repeat split; auto; lia.
      - destruct (nstr_load _ _ _ _ i Hb ltac:(lia)) as [-> H]. rewrite Forall_forall in Db.
        repeat split; try lia. apply Db, nth_In; lia. }
    destruct Pa as [-> [Pa [Ra Na]]]. destruct Pb as [-> [Pb [Rb Nb]]]. cbn [bind].
    destruct (HL _ Pa Ra) as [va [-> Ea]]. destruct (HL _ Pb Rb) as [vb [-> Eb]].
    cbn [bind]. cbv zeta. rewrite Ea, Eb. clear va vb Ea Eb.
    pose proof (lower_zero _ Ra) as Za. pose proof (lower_zero _ Rb) as Zb.
    pose proof (lower_byte _ Ra) as Ba. pose proof (lower_byte _ Rb) as Bb.
    destruct (Nat.eq_dec i (length a)) as [Ea|Ea], (Nat.eq_dec i (length b)) as [Eb|Eb].
    + rewrite !nth_overflow in * by lia. exists 0. cbn. rewrite !skipn_all2 by lia. auto.
    + rewrite (nth_overflow a) in * by lia. change (lower_of 0) with 0 in *.
      replace ((0 =? 0) && (lower_of (nth i b 0) =? 0)) with false by lia. replace (0 <? _) with true by lia.
      exists (-1). split; [reflexivity|]. rewrite (skipn_all2 a) by lia. rewrite (nth_skip_map i b) by lia. reflexivity.
    + rewrite (nth_overflow b) in * by lia. change (lower_of 0) with 0 in *.
      replace ((lower_of (nth i a 0) =? 0) && (0 =? 0)) with false by lia. replace (_ <? 0) with false by lia.
      replace (_ >? 0) with true by lia.
      exists 1. split; [reflexivity|]. rewrite (skipn_all2 b) by lia. rewrite (nth_skip_map i a) by lia. reflexivity.
    + replace ((lower_of (nth i a 0) =? 0) && (lower_of (nth i b 0) =? 0)) with false by lia.
      rewrite (nth_skip_map i a), (nth_skip_map i b) by lia. cbn [lex].
      destruct (Z.compare_spec (lower_of (nth i a 0)) (lower_of (nth i b 0))) as [E|Hc|Hc].
      * replace (_ <? _) with false by lia. replace (_ >? _) with false by lia.
        apply (IH m p q a b n); try assumption; lia.
      * replace (_ <? _) with true by lia. exists (-1). auto.
      * replace (_ <? _) with false by lia. replace (_ >? _) with true by lia. exists 1. auto.
Qed.

Lemma str_unique m p a : forall b, str_at m p a -> str_at m p b -> a = b.
Proof.
  revert p. induction a as [|x a IH]; intros p [|y b] Ha Hb; auto.
  - apply str_nil in Ha. apply str_cons in Hb. destruct Hb as [Hb [Hc _]]. rewrite Ha in Hb. injection Hb as <-. lia.
  - apply str_nil in Hb. apply str_cons in Ha. destruct Ha as [Ha [Hc _]]. rewrite Hb in Ha. injection Ha as <-. lia.
  - apply str_cons in Ha. apply str_cons in Hb. destruct Ha as [Ha [_ Ha']]. destruct Hb as [Hb [_ Hb']].
    rewrite Ha in Hb. injection Hb as <-. f_equal. eapply IH; eauto.
Qed.

Lemma nstr_unique m p n a b : nstr_at m p n a -> nstr_at m p n b -> a = b.
Proof.
  intros Ha Hb. pose proof (strnlen_ok _ _ _ _ Ha) as Ea. pose proof (strnlen_ok _ _ _ _ Hb) as Eb.
  rewrite Ea in Eb. injection Eb as Eb.
  apply nth_ext with (d := 0) (d' := 0); auto. intros i Hi.
  destruct (nstr_load _ _ _ _ i Ha Hi) as [E1 _]. destruct (nstr_load _ _ _ _ i Hb ltac:(lia)) as [E2 _].
  rewrite E1 in E2. now injection E2.
Qed.

Lemma lex_refl a : lex a a = Eq. Proof. now apply lex_eq. Qed.

Lemma strcasecmp_gen D l fuel m p q a b : lowers D (tolower l) -> D 0 -> str_at m p a -> str_at m q b ->
  Forall D a -> Forall D b -> (length a < fuel)%nat ->
  exists r, strcasecmp l fuel m p q = Ok r /\ (r ?= 0) = lex_nocase a b.
Proof.
  intros HL D0 Ha Hb Da Db Hf. unfold strcasecmp. destruct (Z.eqb_spec p q) as [->|N].
  - exists 0. split; auto. rewrite (str_unique _ _ _ _ Ha Hb). symmetry. apply lex_refl.
  - destruct (casecmp_loop_ok D (tolower l) fuel HL D0 m p q a b 0 Ha Hb Da Db) as [r Hr]; try lia. eauto.
Qed.

Lemma strncasecmp_gen D l m p q a b n : lowers D (tolower_l (l_ascii l) l) -> D 0 -> nstr_at m p n a -> nstr_at m q n b ->
  Forall D a -> Forall D b ->
  exists r, strncasecmp l m p q n = Ok r /\ (r ?= 0) = lex_nocase a b.
Proof.
  intros HL D0 Ha Hb Da Db. unfold strncasecmp. destruct (Z.eqb_spec p q) as [->|N]; cbn [orb].
  - exists 0. split; auto. rewrite (nstr_unique _ _ _ _ _ Ha Hb). symmetry. apply lex_refl.
  - destruct (Nat.eqb_spec n 0) as [->|N'].
    + exists 0. split; auto. pose proof (nstr_len _ _ _ _ Ha) as La. pose proof (nstr_len _ _ _ _ Hb) as Lb.
      destruct a; [|cbn in La; lia]. destruct b; [|cbn in Lb; lia]. reflexivity.
    + destruct (ncasecmp_loop_ok D (tolower_l (l_ascii l) l) n HL D0 m p q a b n 0 Ha Hb Da Db) as [r Hr]; try lia. eauto.
Qed.

(** the C locale *)
Lemma c_lowers_all : forallb (fun c => match tolower c_locale (schar c), tolower_l true c_locale (schar c) with
  | Ok v, Ok w => (v mod 256 =? lower_of c) && (w mod 256 =? lower_of c) | _, _ => false end) (upto 256) = true.
Proof. vm_compute. reflexivity. Qed.

Lemma c_lowers : lowers (fun _ => True) (tolower c_locale) /\ lowers (fun _ => True) (tolower_l true c_locale).
Proof.
  assert (A := one (fun c => match tolower c_locale (schar c), tolower_l true c_locale (schar c) with
  | Ok v, Ok w => (v mod 256 =? lower_of c) && (w mod 256 =? lower_of c) | _, _ => false end) 256 c_lowers_all).
  cbv beta in A.
  split; intros c _ H; specialize (A c ltac:(lia));
  destruct (tolower c_locale (schar c)) as [v| | |]; try discriminate;
  destruct (tolower_l true c_locale (schar c)) as [w| | |]; try discriminate;
  apply Bool.andb_true_iff in A; destruct A as [A B]; apply Z.eqb_eq in A, B; eauto.
Qed.

Lemma forall_true (a : list Z) : Forall (fun _ => True) a.
Proof. apply Forall_forall; auto. Qed.

(** UTF-8 locales whose case table treats ASCII as usual *)
Lemma utf8_lowers l : l_ascii l = false -> (forall c, 0 <= c < 128 -> towlower l c = Ok (lower_of c)) ->
  lowers (fun c => c < 128) (tolower_l (l_ascii l) l).
Proof.
  intros A T c Hc Hb. unfold tolower_l. rewrite A. unfold schar. rewrite (proj2 (Z.ltb_lt c 128)) by lia.
  rewrite Z.mod_small by lia. rewrite promote_utf8 by lia. rewrite (proj2 (Z.leb_le c 127)) by lia.
  rewrite T by lia. cbn [bind]. eexists. split; [reflexivity|].
  pose proof (lower_byte c Hb). unfold to_int. rewrite (proj2 (Z.ltb_lt (lower_of c) (2 ^ 31))) by lia.
  apply Z.mod_small. lia.
Qed.

(** ** strcasestr *)
Lemma occurs_first (pat s : list Z) i : occurs pat s i <-> (i <= length s)%nat /\ firstn (length pat) (skipn i s) = pat.
Proof.
  split.
  - intros [a [b [-> <-]]]. split. rewrite app_length; lia.
    rewrite skipn_app, skipn_all, Nat.sub_diag. cbn [skipn app]. rewrite firstn_app, firstn_all, Nat.sub_diag.
    cbn. now rewrite app_nil_r.
  - intros [Hi E]. exists (firstn i s), (skipn (length pat) (skipn i s)). split.
    + rewrite <- E at 1. rewrite firstn_skipn. now rewrite firstn_skipn.
    + rewrite firstn_length. lia.
Qed.

Lemma str_skipn m p s i : str_at m p s -> (i <= length s)%nat -> str_at m (p + Z.of_nat i) (skipn i s).
Proof.
  revert p s. induction i as [|i IH]; intros p s H Hi.
  - cbn [skipn]. now rewrite Z.add_0_r.
  - destruct s as [|c s]; [cbn in Hi; lia|]. apply str_cons in H. destruct H as [_ [_ H]]. cbn [skipn].
    replace (p + Z.of_nat (S i)) with (p + 1 + Z.of_nat i) by lia. apply IH; auto. cbn in Hi; lia.
Qed.

Lemma casestr_loop_ok D l fuel : lowers D (tolower_l (l_ascii l) l) -> D 0 ->
  forall m p q s pat i, str_at m p s -> str_at m q pat -> Forall D s -> Forall D pat -> pat <> [] \/ s <> [] ->
  (i <= length s)%nat -> (i = 0 \/ pat <> [])%nat -> (length s - i < fuel)%nat ->
  (forall k, (k < i)%nat -> ~ occurs (map lower_of pat) (map lower_of s) k) ->
  exists r, casestr_loop l fuel m (p + Z.of_nat i) q (length pat) = Ok r /\
            leftmost (map lower_of pat) (map lower_of s) p r.
Proof.
  intros HL D0. induction fuel as [|f IH]; intros m p q s pat i Hs Hq Ds Dp Hne Hi Hi0 Hf Hk; [lia|].
  cbn [casestr_loop]. rewrite (str_load _ _ _ i Hs Hi). cbn [bind].
  destruct (Nat.eq_dec i (length s)) as [E|E].
  - subst i. rewrite str_end. cbn [Z.eqb]. exists None. split; [reflexivity|]. intros k Ho.
    destruct (le_lt_dec (length s) k) as [H|H]; [|apply (Hk k H Ho)].
    assert (pat <> []). { destruct Hi0 as [Hi0|Hi0]; auto. destruct Hne as [?|Hne]; auto. destruct s; cbn in Hi0; congruence. }
    apply occurs_nth in Ho as [Hl _]. rewrite !map_length in Hl. destruct pat; [congruence|cbn in Hl; lia].
  - pose proof (str_pos _ _ _ i Hs ltac:(lia)). replace (nth i s 0 =? 0) with false by lia.
    pose proof (str_nstr _ _ _ (length pat) (str_skipn _ _ _ _ Hs Hi)) as Na.
    pose proof (str_nstr _ _ _ (length pat) Hq) as Nb. rewrite firstn_all in Nb.
    destruct (strncasecmp_gen D l m _ q _ _ _ HL D0 Na Nb) as [r [Er Cr]]; auto.
    { apply Forall_forall. intros x Hx. rewrite Forall_forall in Ds. apply Ds.
      rewrite <- (firstn_skipn i s). apply in_or_app. right.
      rewrite <- (firstn_skipn (length pat) (skipn i s)). apply in_or_app. now left. }
    rewrite Er. cbn [bind].
    assert (K : r = 0 <-> occurs (map lower_of pat) (map lower_of s) i).
    { rewrite occurs_first, !map_length, skipn_map, firstn_map. unfold lex_nocase in Cr.
      split.
      - intros ->. cbn in Cr. symmetry in Cr. apply lex_eq in Cr. split; [lia|exact Cr].
      - intros [_ Eq]. rewrite Eq, lex_refl in Cr. now apply Z.compare_eq_iff in Cr. }
    destruct (Z.eqb_spec r 0) as [E0|E0].
    + eexists. split; [reflexivity|]. exists i. split; [reflexivity|]. split; [apply K; auto|exact Hk].
    + replace (p + Z.of_nat i + 1) with (p + Z.of_nat (S i)) by lia.
      assert (pat <> []). { intros ->. apply E0, K. exists (map lower_of (firstn i s)), (map lower_of (skipn i s)). cbn.
        rewrite <- map_app, firstn_skipn. split; auto. rewrite map_length, firstn_length. lia. }
      apply IH; try assumption; try lia. right; auto.
      intros k Hk'. destruct (Nat.eq_dec k i) as [->|]; [|apply Hk; lia]. intros Ho. apply E0, K, Ho.
Qed.

Lemma strcasestr_gen D l fuel m p q s pat : lowers D (tolower_l (l_ascii l) l) -> D 0 -> str_at m p s -> str_at m q pat ->
  Forall D s -> Forall D pat -> pat <> [] \/ s <> [] -> (length s < fuel)%nat -> (length pat < fuel)%nat ->
  exists r, strcasestr l fuel m p q = Ok r /\ leftmost (map lower_of pat) (map lower_of s) p r.
Proof.
  intros HL D0 Hs Hq Ds Dp Hne H1 H2. unfold strcasestr. rewrite (strlen_ok _ _ _ _ Hq H2). cbn [bind].
  destruct (casestr_loop_ok D l fuel HL D0 m p q s pat 0 Hs Hq Ds Dp Hne) as [r Hr]; auto; try lia.
  rewrite Z.add_0_r in Hr. eauto.
Qed.

(** ** memccpy *)
Lemma memccpy_loop_ok t l : forall m d s, bytes_at m s l -> mapped m d (length l) -> disjoint d (length l) s (length l) ->
  exists m' r, memccpy_loop (length l) m d s t = Ok (m', r) /\
    match r with
    | Some e => exists i, first_ix (eq t) l i /\ e = d + Z.of_nat (S i) /\ written m m' d (firstn (S i) l)
    | None => ~ In t l /\ written m m' d l
    end.
Proof.
  induction l as [|c l IH]; intros m d s Hb Hm Hd; cbn [length memccpy_loop].
  - exists m, None. split; auto. split; [intros []|apply written_nil].
  - apply bytes_at_cons in Hb. destruct Hb as [Hc Hb]. unfold load. rewrite Hc. cbn [bind].
    rewrite store_ok by (apply (mapped_hd _ _ _ Hm); cbn; lia). cbn [bind].
    destruct (Z.eqb_spec c t) as [->|N].
    + exists (upd m d t), (Some (d + 1)). split; auto. exists 0%nat. split; [|split; [lia|]].
      * split. exists t; auto. intros j c' Hj; lia.
      * cbn [firstn]. apply written_cons, written_nil.
    + destruct (IH (upd m d c) (d + 1) (s + 1)) as [m' [r [E P]]].
      * apply upd_bytes; auto. unfold disjoint in Hd. cbn [length] in Hd. lia.
      * apply upd_mapped. cbn [length] in Hm. now apply mapped_tl.
      * unfold disjoint in *. cbn [length] in Hd. lia.
      * exists m', r. split; auto. destruct r as [e|].
        -- destruct P as [i [[[c' [F1 F2]] F3] [-> W]]]. exists (S i). split; [|split; [lia|]].
           ++ split. exists c'; auto. intros j c'' Hj Hn. destruct j; cbn in Hn. injection Hn as <-; auto.
              apply (F3 j); auto; lia.
           ++ change (firstn (S (S i)) (c :: l)) with (c :: firstn (S i) l). apply written_cons; auto.
        -- destruct P as [P W]. split. intros [->|I]; tauto. apply written_cons; auto.
Qed.

(** ** strdup *)
Lemma dup_ok alloc m src s p m1 : malloc_like alloc -> bytes_at m src s -> Forall (fun c => 0 < c < 256) s ->
  alloc (length s + 1)%nat m = Some (p, m1) ->
  exists m', dup_bytes alloc m src (length s) = Ok (m', Some p, false) /\ str_at m' p s /\
             same_outside m m' p (length s + 1) /\ (forall i, (i <= length s)%nat -> m (p + Z.of_nat i) = None).
Proof.
  intros HA Hb Hn E. destruct (HA _ _ _ _ E) as [Hm [Hf Ho]]. unfold dup_bytes. rewrite E.
  assert (Hdis : disjoint p (length s) src (length s)).
  { unfold disjoint. destruct (Nat.eq_dec (length s) 0) as [Z0|Z0]; [rewrite Z0 in *; lia|].
    destruct (Z_le_gt_dec (p + Z.of_nat (length s)) src); [auto|]. destruct (Z_le_gt_dec (src + Z.of_nat (length s)) p); [auto|].
    exfalso. destruct (Z_le_gt_dec p src).
    - pose proof (Hf (Z.to_nat (src - p)) ltac:(lia)) as F. rewrite Z2Nat.id in F by lia.
      replace (p + (src - p)) with (src + Z.of_nat 0) in F by lia. rewrite (Hb 0%nat ltac:(lia)) in F.
      apply nth_error_None in F. lia.
    - pose proof (Hf 0%nat ltac:(lia)) as F. rewrite Z.add_0_r in F. pose proof (Hb (Z.to_nat (p - src)) ltac:(lia)) as G.
      rewrite Z2Nat.id in G by lia. replace (src + (p - src)) with p in G by lia. rewrite F in G. symmetry in G.
      apply nth_error_None in G. lia. }
  assert (Hb1 : bytes_at m1 src s).
  { intros i Hi. rewrite <- (Hb i Hi). apply Ho. intro C. pose proof (Hf (Z.to_nat (src + Z.of_nat i - p)) ltac:(lia)) as F.
    rewrite Z2Nat.id in F by lia. replace (p + (src + Z.of_nat i - p)) with (src + Z.of_nat i) in F by lia.
    rewrite (Hb i Hi) in F. apply nth_error_None in F. lia. }
  destruct (memcpy_ok m1 p src s Hb1) as [m2 [E2 [B2 O2]]]; auto.
  { intros i Hi. apply Hm. lia. }
  rewrite E2. cbn [bind].
  rewrite store_ok.
  2: { rewrite O2 by lia. apply Hm. lia. }
  cbn [bind]. eexists. split; [reflexivity|]. split; [|split].
  - split; [|exact Hn]. apply bytes_at_app. split.
    + apply upd_bytes; auto. lia.
    + intros i Hi. cbn in Hi. assert (i = 0%nat) as -> by lia. cbn. rewrite Z.add_0_r. unfold upd. now rewrite Z.eqb_refl.
  - intros a Ha. unfold upd. destruct (Z.eqb_spec a (p + Z.of_nat (length s))) as [->|]; [lia|].
    rewrite O2 by lia. apply Ho. lia.
  - intros i Hi. apply Hf. lia.
Qed.

(** ** ffs *)
Lemma shiftl1_land i b : 0 <= b -> (Z.land i (Z.shiftl 1 b) =? 0) = negb (Z.testbit i b).
Proof.
  intros Hb. destruct (Z.testbit i b) eqn:T; cbn [negb].
  - apply Z.eqb_neq. intro E. assert (H : Z.testbit (Z.land i (Z.shiftl 1 b)) b = false) by (rewrite E; apply Z.testbit_0_l).
    rewrite Z.land_spec, T, Z.shiftl_spec in H by lia. rewrite Z.sub_diag in H. discriminate.
  - apply Z.eqb_eq. apply Z.bits_inj'. intros n Hn. rewrite Z.land_spec, Z.testbit_0_l.
    rewrite Z.shiftl_mul_pow2 by lia. rewrite Z.mul_1_l. destruct (Z.eq_dec n b) as [->|N].
    now rewrite T. rewrite Z.pow2_bits_false by lia. apply Bool.andb_false_r.
Qed.

Lemma mod_pow2_step i b : 0 <= b -> i mod 2 ^ b = 0 -> i mod 2 ^ (b + 1) = if Z.testbit i b then 2 ^ b else 0.
Proof.
  intros Hb H. assert (P : 0 < 2 ^ b) by (apply Z.pow_pos_nonneg; lia).
  rewrite Z.pow_add_r, Z.pow_1_r by lia. rewrite Z.rem_mul_r by lia. rewrite H, Z.testbit_eqb by lia.
  pose proof (Z.mod_pos_bound (i / 2 ^ b) 2 ltac:(lia)).
  destruct (Z.eqb_spec ((i / 2 ^ b) mod 2) 1) as [->|N]; [lia|]. replace ((i / 2 ^ b) mod 2) with 0 by lia. lia.
Qed.

Lemma ffs_loop_ok k : forall i b, 0 <= b -> i mod 2 ^ b = 0 ->
  let r := ffs_loop k i b in
  (r = 0 /\ i mod 2 ^ (b + Z.of_nat k) = 0) \/ (b + 1 <= r <= b + Z.of_nat k /\ i mod 2 ^ (r - 1) = 0 /\ i mod 2 ^ r <> 0).
Proof.
  induction k as [|k IH]; intros i b Hb H; cbn [ffs_loop]; cbv zeta.
  - left. now rewrite Z.add_0_r.
  - rewrite shiftl1_land by lia. rewrite Bool.negb_involutive. pose proof (mod_pow2_step i b Hb H) as S1.
    destruct (Z.testbit i b) eqn:T.
    + right. replace (b + 1 - 1) with b by lia. split; [lia|]. split; auto. rewrite S1.
      assert (0 < 2 ^ b) by (apply Z.pow_pos_nonneg; lia). lia.
    + specialize (IH i (b + 1) ltac:(lia) S1). cbv zeta in IH.
      replace (b + 1 + Z.of_nat k) with (b + Z.of_nat (S k)) in IH by lia.
      destruct IH as [IH|IH]; [left; auto|right]. split; [lia|tauto].
Qed.
