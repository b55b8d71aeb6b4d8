From Coq Require Import Sorted.
From Verif Require Import Base Mem_Proof Str_Spec Str_Client Str_Proof StrSearch_Proof StrTok_Proof.
From Verif Require Import Wcs_Model Wcs_Spec Wcs_Client.
Open Scope Z_scope.

Lemma w_cons m p c s : wstr_at m p (c :: s) <-> m p = Some c /\ c <> 0 /\ wstr_at m (p + 1) s.
Proof. unfold wstr_at. cbn [app]. rewrite bytes_at_cons, Forall_cons_iff. tauto. Qed.

Lemma w_nil m p : wstr_at m p [] <-> m p = Some 0.
Proof.
  unfold wstr_at. cbn [app]. rewrite bytes_at_cons. split; [tauto|].
  intros H. split; [|constructor]. split; [exact H|]. intros i Hi; cbn in Hi; lia.
Qed.

Lemma w_app m p a b : wstr_at m p (a ++ b) -> wstr_at m (p + Z.of_nat (length a)) b.
Proof.
  intros [Hb Hf]. rewrite <- app_assoc in Hb. apply bytes_at_app in Hb as [_ Hb].
  apply Forall_app in Hf as [_ Hf]. split; assumption.
Qed.

Lemma w_load_cons m p c s : wstr_at m p (c :: s) -> load m p = Ok c /\ (c =? 0) = false /\ wstr_at m (p + 1) s.
Proof.
  intros H. apply w_cons in H as (H0 & Hc & Hs). unfold load. rewrite H0. split; [reflexivity|].
  split; [now apply Z.eqb_neq|exact Hs].
Qed.

Lemma w_load_nil m p : wstr_at m p [] -> load m p = Ok 0.
Proof. intros H. apply w_nil in H. unfold load. now rewrite H. Qed.

Lemma upd_w m p c q s : wstr_at m q s -> ~ (q <= p <= q + Z.of_nat (length s)) -> wstr_at (upd m p c) q s.
Proof. intros [Hb Hf] Hn. split; [|exact Hf]. apply upd_bytes; [exact Hb|]. rewrite app_length; cbn; lia. Qed.

(** lengths *)
Lemma wcslen_loop_ok s : forall fuel m p n, wstr_at m p s -> (length s < fuel)%nat ->
  wcslen_loop fuel m p n = Ok (n + length s)%nat.
Proof.
  induction s as [|c s IH]; intros [|f] m p n H F; cbn [length] in F; try lia; cbn [wcslen_loop].
  - rewrite (w_load_nil _ _ H). cbn [bind]. change (0 =? 0) with true. cbn match. f_equal. cbn. lia.
  - apply w_load_cons in H as (E & E0 & Hs). rewrite E. cbn [bind]. rewrite E0, (IH f m (p + 1) (S n) Hs) by lia.
    f_equal. cbn [length]. lia.
Qed.

Lemma wcslen_ok fuel m p s : wstr_at m p s -> (length s < fuel)%nat -> wcslen fuel m p = Ok (length s).
Proof. intros H F. unfold wcslen. now rewrite (wcslen_loop_ok s). Qed.

(** filling and copying *)
Lemma wmemset_ok n : forall m d c, mapped m d n -> exists m', wmemset n m d c = Ok m' /\ written m m' d (repeat c n).
Proof.
  induction n as [|n IH]; intros m d c H; cbn [wmemset repeat].
  - exists m. split; [reflexivity|apply written_nil].
  - rewrite store_ok by (apply (mapped_hd _ _ _ H); lia). cbn [bind].
    destruct (IH (upd m d c) (d + 1) c) as (m' & E & W); [apply upd_mapped, mapped_tl, H|].
    exists m'. split; [exact E|]. apply written_cons, W.
Qed.

Lemma wcscpy_ok s : forall fuel m d p, wstr_at m p s -> mapped m d (length s + 1) ->
  disjoint d (length s + 1) p (length s + 1) -> (length s < fuel)%nat ->
  exists m', wcscpy fuel m d p = Ok m' /\ written m m' d (s ++ [0]).
Proof.
  induction s as [|c s IH]; intros [|f] m d p H HM HD F; cbn [length] in F; try lia; cbn [wcscpy].
  - rewrite (w_load_nil _ _ H). cbn [bind]. rewrite store_ok by (apply (mapped_hd _ _ _ HM); lia). cbn [bind].
    exists (upd m d 0). split; [reflexivity|]. cbn [app]. apply written_cons, written_nil.
  - pose proof (w_load_cons _ _ _ _ H) as (E & E0 & Hs). rewrite E. cbn [bind].
    rewrite store_ok by (apply (mapped_hd _ _ _ HM); lia). cbn [bind]. rewrite E0.
    destruct (IH f (upd m d c) (d + 1) (p + 1)) as (m' & Em & W).
    + apply upd_w; [exact Hs|]. unfold disjoint in HD. cbn [length] in *. lia.
    + apply upd_mapped. apply mapped_tl. exact HM.
    + unfold disjoint in *. cbn [length] in *. lia.
    + lia.
    + exists m'. split; [exact Em|]. cbn [app]. apply written_cons, W.
Qed.

Lemma wn_cons m p n c s : wnstr_at m p n (c :: s) -> exists n', n = S n' /\ m p = Some c /\ c <> 0 /\ wnstr_at m (p + 1) n' s.
Proof.
  intros (Hf & Hb & He). apply bytes_at_cons in Hb as [H0 Hb]. inversion Hf. subst. cbn [length] in He.
  destruct n as [|n]; [lia|]. exists n. split; [reflexivity|]. split; [exact H0|]. split; [assumption|].
  split; [assumption|]. split; [exact Hb|]. destruct He as [He|[He1 He2]]; [left; lia|right].
  split; [lia|]. replace (p + 1 + Z.of_nat (length s)) with (p + Z.of_nat (S (length s))) by lia. exact He2.
Qed.

Lemma wn_nil m p n : wnstr_at m p n [] -> n = O \/ m p = Some 0.
Proof.
  intros (_ & _ & [H|[_ H]]); [left; cbn in H; lia|right]. cbn [length] in H. now rewrite Z.add_0_r in H.
Qed.

Lemma upd_wn m p c q n s : wnstr_at m q n s -> ~ (q <= p < q + Z.of_nat n) -> wnstr_at (upd m p c) q n s.
Proof.
  intros (Hf & Hb & He) Hn. split; [exact Hf|]. split; [apply upd_bytes; [exact Hb|]|].
  - destruct He as [He|[He _]]; lia.
  - destruct He as [He|[He1 He2]]; [left; exact He|right]. split; [exact He1|].
    unfold upd. replace (_ =? _) with false by lia. exact He2.
Qed.

Lemma wcsncpy_ok s : forall n m d p, wnstr_at m p n s -> mapped m d n -> disjoint d n p n ->
  exists m', wcsncpy n m d p = Ok m' /\ written m m' d (s ++ repeat 0 (n - length s)).
Proof.
  induction s as [|c s IH]; intros n m d p H HM HD.
  - cbn [app length]. rewrite Nat.sub_0_r. destruct n as [|n]; cbn [wcsncpy].
    + apply (wmemset_ok 0 m d 0 HM).
    + destruct (wn_nil _ _ _ H) as [E|E]; [lia|]. unfold load. rewrite E. cbn [bind].
      change (0 =? 0) with true. cbn match. apply (wmemset_ok (S n) m d 0 HM).
  - apply wn_cons in H as (n' & -> & E & Hc & Hs). cbn [wcsncpy]. unfold load. rewrite E. cbn [bind].
    rewrite (proj2 (Z.eqb_neq c 0) Hc). rewrite store_ok by (apply (mapped_hd _ _ _ HM); lia). cbn [bind].
    destruct (IH n' (upd m d c) (d + 1) (p + 1)) as (m' & Em & W).
    + apply upd_wn; [exact Hs|]. unfold disjoint in HD. lia.
    + apply upd_mapped, mapped_tl, HM.
    + unfold disjoint in *. lia.
    + exists m'. split; [exact Em|]. cbn [app length]. apply written_cons.
      replace (S n' - S (length s))%nat with (n' - length s)%nat by lia. exact W.
Qed.

Lemma wcscat_ok fuel m d p s t : wstr_at m d t -> wstr_at m p s -> mapped m d (length t + length s + 1) ->
  disjoint d (length t + length s + 1) p (length s + 1) -> (length t < fuel)%nat -> (length s < fuel)%nat ->
  exists m', wcscat fuel m d p = Ok m' /\ written m m' (d + Z.of_nat (length t)) (s ++ [0]) /\ wstr_at m' d (t ++ s).
Proof.
  intros Ht Hs HM HD F1 F2. unfold wcscat. rewrite (wcslen_ok _ _ _ _ Ht F1). cbn [bind].
  destruct (wcscpy_ok s fuel m (d + Z.of_nat (length t)) p Hs) as (m' & E & W).
  - apply (mapped_sub _ _ _ _ _ HM); lia.
  - unfold disjoint in *. lia.
  - exact F2.
  - exists m'. split; [exact E|]. split; [exact W|]. destruct Ht as [Hb Hf]. destruct Hs as [_ Hf2]. split.
    + rewrite <- app_assoc. apply bytes_at_app. split; [|apply W].
      apply bytes_at_app in Hb as [Hb _]. eapply written_bytes; [exact W|exact Hb|]. unfold disjoint. lia.
    + apply Forall_app. tauto.
Qed.

Lemma wncat_loop_ok s : forall k m d p, wstr_at m p s -> mapped m d (length (firstn k s)) ->
  disjoint d (length (firstn k s)) p (length s + 1) ->
  exists m', wncat_loop k m d p = Ok (m', d + Z.of_nat (length (firstn k s))) /\ written m m' d (firstn k s).
Proof.
  induction s as [|c s IH]; intros k m d p H HM HD.
  - rewrite firstn_nil. cbn [length]. rewrite Z.add_0_r.
    destruct k; cbn [wncat_loop]; rewrite (w_load_nil _ _ H); cbn [bind]; change (0 =? 0) with true; cbn match;
      exists m; (split; [reflexivity|apply written_nil]).
  - pose proof (w_load_cons _ _ _ _ H) as (E & E0 & Hs). destruct k as [|k]; cbn [wncat_loop firstn length].
    + rewrite E. cbn [bind]. rewrite E0. rewrite Z.add_0_r. exists m. split; [reflexivity|apply written_nil].
    + rewrite E. cbn [bind]. rewrite E0. cbn [firstn length] in *. rewrite store_ok by (apply (mapped_hd _ _ _ HM); lia). cbn [bind].
      destruct (IH k (upd m d c) (d + 1) (p + 1)) as (m' & Em & W).
      * apply upd_w; [exact Hs|]. unfold disjoint in HD. lia.
      * apply upd_mapped, mapped_tl, HM.
      * unfold disjoint in *. lia.
      * exists m'. split; [rewrite Em; do 2 f_equal; lia|]. apply written_cons, W.
Qed.

Lemma wcsncat_ok fuel m d p s t n : wstr_at m d t -> wstr_at m p s -> mapped m d (length t + length (firstn n s) + 1) ->
  disjoint d (length t + length (firstn n s) + 1) p (length s + 1) -> (length t < fuel)%nat ->
  exists m', wcsncat fuel m d p n = Ok m' /\ written m m' (d + Z.of_nat (length t)) (firstn n s ++ [0]) /\
             wstr_at m' d (t ++ firstn n s).
Proof.
  intros Ht Hs HM HD F1. unfold wcsncat. rewrite (wcslen_ok _ _ _ _ Ht F1). cbn [bind].
  destruct (wncat_loop_ok s n m (d + Z.of_nat (length t)) p Hs) as (m1 & E & W1).
  - apply (mapped_sub _ _ _ _ _ HM); lia.
  - unfold disjoint in *. lia.
  - rewrite E. cbn [bind]. rewrite store_ok.
    2: { assert (HM1 : mapped m1 d (length t + length (firstn n s) + 1)) by (eapply written_mapped; [exact W1|exact HM]).
         specialize (HM1 (length t + length (firstn n s))%nat ltac:(lia)).
         replace (d + Z.of_nat (length t) + Z.of_nat (length (firstn n s))) with
           (d + Z.of_nat (length t + length (firstn n s))) by lia. exact HM1. }
    eexists. split; [reflexivity|].
    assert (W : written m (upd m1 (d + Z.of_nat (length t) + Z.of_nat (length (firstn n s))) 0)
                  (d + Z.of_nat (length t)) (firstn n s ++ [0])).
    { eapply written_app; [exact W1|]. apply written_cons, written_nil. }
    split; [exact W|]. destruct Ht as [Hb Hf]. destruct Hs as [_ Hf2]. split.
    + rewrite <- app_assoc. apply bytes_at_app. split; [|apply W].
      apply bytes_at_app in Hb as [Hb _]. eapply written_bytes; [exact W|exact Hb|]. unfold disjoint. lia.
    + apply Forall_app. split; [exact Hf|]. apply Forall_forall. intros x Hx. rewrite Forall_forall in Hf2. apply Hf2.
      rewrite <- (firstn_skipn n s). apply in_or_app. now left.
Qed.

(** comparing *)
Lemma wcscmp_ok a : forall fuel m p q b, wstr_at m p a -> wstr_at m q b ->
  (forall x y, In x (a ++ [0]) -> In y (b ++ [0]) -> wchar (x - y)) -> (length a < fuel)%nat ->
  exists r, wcscmp fuel m p q = Ok r /\ (r ?= 0) = lex (a ++ [0]) (b ++ [0]).
Proof.
  induction a as [|x a IH]; intros [|f] m p q b Ha Hb HR F; cbn [length] in F; try lia; cbn [wcscmp].
  - rewrite (w_load_nil _ _ Ha). cbn [bind]. destruct b as [|y b].
    + rewrite (w_load_nil _ _ Hb). exists 0. split; reflexivity.
    + apply w_load_cons in Hb as (E & E0 & _). rewrite E. cbn [bind].
      assert (R : wchar (0 - y)) by (apply HR; now left). unfold wchar in R.
      rewrite (Z.eqb_sym 0 y), E0. cbn [andb].
      replace (-2147483648 <=? 0 - y) with true by lia. replace (0 - y <=? 2147483647) with true by lia.
      exists (0 - y). split; [reflexivity|]. cbn [app lex]. apply Z.eqb_neq in E0.
      destruct (Z.compare_spec 0 y); destruct (Z.compare_spec (0 - y) 0); try reflexivity; exfalso; lia.
  - apply w_load_cons in Ha as (E & E0 & Ha). rewrite E. cbn [bind]. destruct b as [|y b].
    + rewrite (w_load_nil _ _ Hb). cbn [bind]. rewrite E0. cbn [andb].
      assert (R : wchar (x - 0)) by (apply HR; now left). unfold wchar in R.
      replace (-2147483648 <=? x - 0) with true by lia. replace (x - 0 <=? 2147483647) with true by lia.
      exists (x - 0). split; [reflexivity|]. cbn [app lex]. apply Z.eqb_neq in E0.
      destruct (Z.compare_spec x 0); destruct (Z.compare_spec (x - 0) 0); try reflexivity; exfalso; lia.
    + apply w_load_cons in Hb as (E' & E0' & Hb). rewrite E'. cbn [bind]. rewrite E0, E0'. cbn [negb andb].
      destruct (Z.eqb_spec x y) as [->|N]; cbn [andb].
      * destruct (IH f m (p + 1) (q + 1) b Ha Hb) as (r & Er & C).
        { intros u v Hu Hv. apply HR; now right. } { lia. }
        exists r. split; [exact Er|]. cbn [app lex]. rewrite Z.compare_refl. exact C.
      * assert (R : wchar (x - y)) by (apply HR; now left). unfold wchar in R.
        replace (-2147483648 <=? x - y) with true by lia. replace (x - y <=? 2147483647) with true by lia.
        exists (x - y). split; [reflexivity|]. cbn [app lex].
        destruct (Z.compare_spec x y); destruct (Z.compare_spec (x - y) 0); try reflexivity; exfalso; lia.
Qed.

Lemma wcmp_ok x y : x <> y -> ((if x <? y then -1 else if x >? y then 1 else 0) ?= 0) = (x ?= y).
Proof.
  intros N. destruct (Z.ltb_spec x y) as [H|H].
  - rewrite (proj2 (Z.compare_lt_iff x y) H). reflexivity.
  - rewrite Z.gtb_ltb. replace (y <? x) with true by lia. rewrite (proj2 (Z.compare_gt_iff x y)) by lia. reflexivity.
Qed.

Lemma wcsncmp_ok a : forall n m p q b, wnstr_at m p n a -> wnstr_at m q n b ->
  exists r, wcsncmp n m p q = Ok r /\ (r ?= 0) = lex (seen n a) (seen n b).
Proof.
  induction a as [|x a IH]; intros n m p q b Ha Hb.
  - destruct n as [|n]; [exists 0; split; reflexivity|]. cbn [wcsncmp].
    destruct (wn_nil _ _ _ Ha) as [E|E]; [lia|]. unfold load at 1. rewrite E. cbn [bind].
    destruct b as [|y b].
    + destruct (wn_nil _ _ _ Hb) as [E'|E']; [lia|]. unfold load. rewrite E'. cbn [bind].
      exists 0. split; [reflexivity|]. unfold seen. cbn [app firstn lex]. rewrite firstn_nil. reflexivity.
    + apply wn_cons in Hb as (n' & En & E' & Hy & _). injection En as <-. unfold load. rewrite E'. cbn [bind].
      replace (0 =? y) with false by lia. cbn [andb]. eexists. split; [reflexivity|].
      unfold seen. cbn [app firstn lex]. rewrite wcmp_ok by lia. destruct (0 ?= y) eqn:C; try reflexivity.
      apply Z.compare_eq in C. lia.
  - apply wn_cons in Ha as (n' & -> & E & Hx & Ha). cbn [wcsncmp]. unfold load at 1. rewrite E. cbn [bind].
    destruct b as [|y b].
    + destruct (wn_nil _ _ _ Hb) as [E'|E']; [lia|]. unfold load. rewrite E'. cbn [bind].
      replace (x =? 0) with false by lia. cbn [andb]. eexists. split; [reflexivity|].
      unfold seen. cbn [app firstn lex]. rewrite wcmp_ok by lia. destruct (x ?= 0) eqn:C; try reflexivity.
      apply Z.compare_eq in C. lia.
    + apply wn_cons in Hb as (n'' & En & E' & Hy & Hb). injection En as <-. unfold load at 1. rewrite E'. cbn [bind].
      replace (x =? 0) with false by lia. replace (y =? 0) with false by lia. cbn [negb andb].
      destruct (Z.eqb_spec x y) as [->|N]; cbn [andb].
      * destruct (IH n' m (p + 1) (q + 1) b Ha Hb) as (r & Er & C). exists r. split; [exact Er|].
        unfold seen in *. cbn [app firstn lex]. rewrite Z.compare_refl. exact C.
      * eexists. split; [reflexivity|]. unfold seen. cbn [app firstn lex]. rewrite wcmp_ok by exact N.
        destruct (x ?= y) eqn:C; try reflexivity. apply Z.compare_eq in C. lia.
Qed.

Lemma wmemcmp_ok a : forall m p q b, bytes_at m p a -> bytes_at m q b -> length a = length b ->
  exists r, wmemcmp (length a) m p q = Ok r /\ (r ?= 0) = lex a b.
Proof.
  induction a as [|x a IH]; intros m p q [|y b] Ha Hb L; cbn in L; try lia; cbn [length wmemcmp].
  - exists 0. split; reflexivity.
  - apply bytes_at_cons in Ha as [E Ha]. apply bytes_at_cons in Hb as [E' Hb].
    unfold load. rewrite E, E'. cbn [bind lex].
    destruct (Z.compare_spec x y) as [->|C|C].
    + rewrite Z.gtb_ltb, Z.ltb_irrefl. apply IH; [assumption|assumption|lia].
    + replace (x <? y) with true by lia. eexists. split; reflexivity.
    + replace (x <? y) with false by lia. replace (x >? y) with true by lia. eexists. split; reflexivity.
Qed.

(** searching *)
Lemma first_here (P : Z -> Prop) c l : P c -> first_ix P (c :: l) 0.
Proof. intros H. split; [exists c; split; [reflexivity|exact H]|]. intros j d Hj. lia. Qed.

Lemma first_later (P : Z -> Prop) c l i : ~ P c -> first_ix P l i -> first_ix P (c :: l) (S i).
Proof.
  intros H [H1 H2]. split; [exact H1|]. intros [|j] d Hj E; [injection E as <-; exact H|].
  apply (H2 j d); [lia|exact E].
Qed.

Lemma found_later p r (P : Z -> Prop) c l : ~ P c -> found_first (p + 1) r P l -> found_first p r P (c :: l).
Proof.
  intros H F. destruct r as [q|]; cbn in *.
  - destruct F as (i & -> & F). exists (S i). split; [lia|]. now apply first_later.
  - intros d [<-|Hd]; [exact H|now apply F].
Qed.

Lemma found_here p (P : Z -> Prop) c l : P c -> found_first p (Some p) P (c :: l).
Proof. intros H. exists 0%nat. split; [lia|now apply first_here]. Qed.

Lemma wmemchr_ok l : forall m p c, bytes_at m p l ->
  exists r, wmemchr (length l) m p c = Ok r /\ found_first p r (eq c) l.
Proof.
  induction l as [|x l IH]; intros m p c H; cbn [length wmemchr].
  - exists None. split; [reflexivity|]. intros d [].
  - apply bytes_at_cons in H as [E H]. unfold load. rewrite E. cbn [bind].
    destruct (Z.eqb_spec x c) as [->|N].
    + exists (Some p). split; [reflexivity|]. now apply found_here.
    + destruct (IH m (p + 1) c H) as (r & Er & F). exists r. split; [exact Er|]. apply found_later; [congruence|exact F].
Qed.

Lemma wcschr_loop_ok s : forall fuel m p c, wstr_at m p s -> c <> 0 -> (length s < fuel)%nat ->
  exists r, wcschr_loop fuel m p c = Ok r /\ found_first p r (eq c) (s ++ [0]).
Proof.
  induction s as [|x s IH]; intros [|f] m p c H Hc F; cbn [length] in F; try lia; cbn [wcschr_loop app].
  - rewrite (w_load_nil _ _ H). cbn [bind]. change (0 =? 0) with true. cbn [negb andb].
    exists None. split; [reflexivity|]. intros d [<-|[]]. congruence.
  - apply w_load_cons in H as (E & E0 & H). rewrite E. cbn [bind]. rewrite E0. cbn [negb andb].
    destruct (Z.eqb_spec x c) as [->|N]; cbn [negb].
    + exists (Some p). split; [reflexivity|]. now apply found_here.
    + destruct (IH f m (p + 1) c H Hc) as (r & Er & Fr); [lia|]. exists r. split; [exact Er|].
      apply found_later; [congruence|exact Fr].
Qed.

Lemma first_end s : Forall (fun c => c <> 0) s -> first_ix (eq 0) (s ++ [0]) (length s).
Proof.
  induction 1 as [|c s Hc _ IH]; cbn [app length]; [now apply first_here|]. apply first_later; [congruence|exact IH].
Qed.

Lemma wcschr_ok fuel m p s c : wstr_at m p s -> (length s < fuel)%nat ->
  exists r, wcschr fuel m p c = Ok r /\ found_first p r (eq c) (s ++ [0]).
Proof.
  intros H F. unfold wcschr. destruct (Z.eqb_spec c 0) as [->|N].
  - rewrite (wcslen_ok _ _ _ _ H F). cbn [bind]. eexists. split; [reflexivity|].
    exists (length s). split; [reflexivity|]. apply first_end, H.
  - now apply wcschr_loop_ok.
Qed.

(** whether a character is in a set *)
Lemma wcschr_in fuel m q ds c : wstr_at m q ds -> (length ds < fuel)%nat -> c <> 0 ->
  exists r, wcschr fuel m q c = Ok r /\ (match r with Some _ => true | None => false end) = isd ds c.
Proof.
  intros H F Hc. destruct (wcschr_ok fuel m q ds c H F) as (r & E & Hr). exists r. split; [exact E|].
  unfold isd. destruct r as [a|]; cbn in Hr; symmetry.
  - apply existsb_in. destruct Hr as (i & _ & ((d & Hd & <-) & _)).
    apply nth_error_In in Hd. apply in_app_or in Hd. destruct Hd as [Hd|[Hd|[]]]; [exact Hd|congruence].
  - apply existsb_nin. intros K. apply (Hr c); [apply in_or_app; now left|reflexivity].
Qed.

Lemma wspan_ok want g s : forall fuel m p q ds, wstr_at m p s -> wstr_at m q ds ->
  (length s < fuel)%nat -> (length ds < g)%nat ->
  exists a b, s = a ++ b /\ Forall (fun c => isd ds c = want) a /\
    (b = [] \/ exists c b', b = c :: b' /\ isd ds c = negb want) /\
    wspan_loop want g fuel m p q = Ok (p + Z.of_nat (length a)).
Proof.
  induction s as [|c s IH]; intros [|f] m p q ds H Hq F G; cbn [length] in F; try lia; cbn [wspan_loop].
  - rewrite (w_load_nil _ _ H). cbn [bind]. change (0 =? 0) with true. cbn match.
    exists [], []. split; [reflexivity|]. split; [constructor|]. split; [now left|]. cbn. f_equal. lia.
  - apply w_load_cons in H as (E & E0 & H). rewrite E. cbn [bind]. rewrite E0. apply Z.eqb_neq in E0.
    destruct (wcschr_in g m q ds c Hq G E0) as (r & Er & Hr). rewrite Er. cbn [bind]. rewrite Hr.
    destruct (Bool.eqb (isd ds c) want) eqn:B.
    + apply eqb_prop in B. destruct (IH f m (p + 1) q ds H Hq) as (a & b & -> & Ha & Hb & Hk); [lia|exact G|].
      exists (c :: a), b. split; [reflexivity|]. split; [constructor; assumption|]. split; [exact Hb|].
      rewrite Hk. f_equal. cbn [length]. lia.
    + exists [], (c :: s). split; [reflexivity|]. split; [constructor|]. split; [|cbn; f_equal; lia].
      right. exists c, s. split; [reflexivity|]. apply eqb_false_iff in B. destruct (isd ds c), want; cbn; congruence.
Qed.

(** wcsspn and wcscspn: the length of the longest prefix in, or outside, the set *)
Definition prefix_of (want : bool) (ds s : list Z) (k : nat) : Prop :=
  exists a b, s = a ++ b /\ length a = k /\ Forall (fun c => isd ds c = want) a /\
    (b = [] \/ exists c b', b = c :: b' /\ isd ds c = negb want).

Lemma wcsspn_ok fuel m p q s ds : wstr_at m p s -> wstr_at m q ds -> (length s < fuel)%nat -> (length ds < fuel)%nat ->
  exists k, wcsspn fuel m p q = Ok k /\ prefix_of true ds s k.
Proof.
  intros H Hq F G. unfold wcsspn. destruct (wspan_ok true fuel s fuel m p q ds H Hq F G) as (a & b & -> & Ha & Hb & E).
  rewrite E. cbn [bind]. exists (length a). split; [f_equal; lia|]. exists a, b. tauto.
Qed.

Lemma prefix_none ds s : Forall (fun c => isd ds c = false) s -> prefix_of false ds s (length s).
Proof. intros H. exists s, []. rewrite app_nil_r. tauto. Qed.

Lemma wcscspn_ok fuel m p q s ds : wstr_at m p s -> wstr_at m q ds -> (length s < fuel)%nat -> (length ds < fuel)%nat ->
  exists k, wcscspn fuel m p q = Ok k /\ prefix_of false ds s k.
Proof.
  intros H Hq F G. unfold wcscspn. destruct ds as [|d ds].
  - rewrite (w_load_nil _ _ Hq). cbn [bind]. change (0 =? 0) with true. cbn match.
    rewrite (wcslen_ok _ _ _ _ H F). exists (length s). split; [reflexivity|].
    apply prefix_none. apply Forall_forall. intros c _. reflexivity.
  - pose proof (w_load_cons _ _ _ _ Hq) as (E & E0 & Hq'). rewrite E. cbn [bind]. rewrite E0. apply Z.eqb_neq in E0.
    destruct ds as [|d2 ds].
    + rewrite (w_load_nil _ _ Hq'). cbn [bind]. change (0 =? 0) with true. cbn match.
      destruct (wcschr_ok fuel m p s d H F) as (r & Er & Hr). rewrite Er. cbn [bind].
      destruct r as [a|]; cbn in Hr.
      * destruct Hr as (i & -> & (c & Hc & <-) & Hm). exists i. split; [f_equal; lia|].
        assert (Hi : (i < length s)%nat).
        { assert (L : (i < length (s ++ [0%Z]))%nat) by (apply nth_error_Some; congruence).
          rewrite app_length in L. cbn in L. destruct (Nat.eq_dec i (length s)) as [->|]; [|lia].
          rewrite nth_error_app2, Nat.sub_diag in Hc by lia. cbn in Hc. congruence. }
        rewrite nth_error_app1 in Hc by exact Hi.
        destruct (nth_error_split _ _ Hc) as (a & b & -> & <-).
        exists a, (d :: b). split; [reflexivity|]. split; [reflexivity|]. split.
        -- apply Forall_forall. intros x Hx. apply In_nth_error in Hx as (j & Hj).
           assert (Lj : (j < length a)%nat) by (apply nth_error_Some; congruence).
           unfold isd. cbn. rewrite orb_false_r. apply Z.eqb_neq. intros ->.
           refine (Hm j d Lj _ eq_refl). rewrite nth_error_app1 by (rewrite app_length; lia). now rewrite nth_error_app1.
        -- right. exists d, b. split; [reflexivity|]. unfold isd. cbn. now rewrite Z.eqb_refl.
      * rewrite (wcslen_ok _ _ _ _ H F). exists (length s). split; [reflexivity|].
        apply prefix_none. apply Forall_forall. intros c Hc. unfold isd. cbn. rewrite orb_false_r. apply Z.eqb_neq. intros ->.
        apply (Hr d); [apply in_or_app; now left|reflexivity].
    + apply w_load_cons in Hq' as (E1 & E2 & _). rewrite E1. cbn [bind]. rewrite E2.
      destruct (wspan_ok false fuel s fuel m p q (d :: d2 :: ds) H Hq F G) as (a & b & -> & Ha & Hb & Es).
      rewrite Es. cbn [bind]. exists (length a). split; [f_equal; lia|]. exists a, b. tauto.
Qed.

Lemma wcspbrk_ok g s : forall fuel m p q ds, wstr_at m p s -> wstr_at m q ds ->
  (length s < fuel)%nat -> (length ds < g)%nat ->
  exists r, wcspbrk g fuel m p q = Ok r /\ found_first p r (fun c => In c ds) s.
Proof.
  induction s as [|c s IH]; intros [|f] m p q ds H Hq F G; cbn [length] in F; try lia; cbn [wcspbrk].
  - rewrite (w_load_nil _ _ H). exists None. split; [reflexivity|]. intros d [].
  - apply w_load_cons in H as (E & E0 & H). rewrite E. cbn [bind]. rewrite E0. apply Z.eqb_neq in E0.
    destruct (wcschr_in g m q ds c Hq G E0) as (r & Er & Hr). rewrite Er. cbn [bind]. unfold isd in Hr.
    destruct r as [a|].
    + exists (Some p). split; [reflexivity|]. apply found_here. apply existsb_in. now symmetry.
    + destruct (IH f m (p + 1) q ds H Hq) as (r & Es & Fr); [lia|exact G|]. exists r. split; [exact Es|].
      apply found_later; [|exact Fr]. apply existsb_nin. now symmetry.
Qed.

Lemma w_load m p s i : wstr_at m p s -> (i <= length s)%nat -> load m (p + Z.of_nat i) = Ok (nth i (s ++ [0]) 0).
Proof.
  intros [H _] Hi. apply (bytes_load _ _ _ _ H). rewrite app_length. cbn. lia.
Qed.

Lemma wcsrchr_loop_ok m p s c : wstr_at m p s -> forall k, (k <= length s + 1)%nat ->
  exists r, wcsrchr_loop k m p c = Ok r /\
    match r with
    | Some q => exists i, (i < k)%nat /\ q = p + Z.of_nat i /\ nth i (s ++ [0]) 0 = c /\
                  forall j, (i < j < k)%nat -> nth j (s ++ [0]) 0 <> c
    | None => forall j, (j < k)%nat -> nth j (s ++ [0]) 0 <> c
    end.
Proof.
  intros H. induction k as [|k IH]; intros Hk; cbn [wcsrchr_loop].
  - exists None. split; [reflexivity|]. intros j Hj. lia.
  - rewrite (w_load _ _ _ _ H) by lia. cbn [bind]. destruct (Z.eqb_spec (nth k (s ++ [0]) 0) c) as [E|N].
    + eexists. split; [reflexivity|]. exists k. split; [lia|]. split; [reflexivity|]. split; [exact E|]. intros j Hj. lia.
    + destruct IH as (r & Er & Hr); [lia|]. exists r. split; [exact Er|]. destruct r as [q|].
      * destruct Hr as (i & Hi & Hq & Hc & Hm). exists i. split; [lia|]. split; [exact Hq|]. split; [exact Hc|].
        intros j Hj. destruct (Nat.eq_dec j k) as [->|]; [exact N|]. apply Hm. lia.
      * intros j Hj. destruct (Nat.eq_dec j k) as [->|]; [exact N|]. apply Hr. lia.
Qed.

Lemma wcsrchr_ok fuel m p s c : wstr_at m p s -> (length s < fuel)%nat ->
  exists r, wcsrchr fuel m p c = Ok r /\
    match r with
    | Some q => exists i, q = p + Z.of_nat i /\ last_ix (eq c) (s ++ [0]) i
    | None => ~ In c (s ++ [0])
    end.
Proof.
  intros H F. unfold wcsrchr. rewrite (wcslen_ok _ _ _ _ H F). cbn [bind].
  destruct (wcsrchr_loop_ok m p s c H (S (length s))) as (r & E & Hr); [lia|]. exists r. split; [exact E|].
  assert (L : length (s ++ [0]) = S (length s)) by (rewrite app_length; cbn; lia).
  destruct r as [q|].
  - destruct Hr as (i & Hi & Hq & Hc & Hm). exists i. split; [exact Hq|]. split.
    + exists c. split; [|reflexivity]. rewrite <- Hc. apply nth_error_nth'. lia.
    + intros j d Hj Hd <-. assert (Lj : (j < length (s ++ [0%Z]))%nat) by (apply nth_error_Some; congruence).
      apply (Hm j); [lia|]. now apply nth_error_nth.
  - intros K. apply In_nth with (d := 0) in K as (j & Hj & K). apply (Hr j); [lia|exact K].
Qed.

(** substrings *)
Definition starts (pat s : list Z) : Prop := exists b, s = pat ++ b.

Lemma wmatch_ok pat : forall fuel m p q s, wstr_at m p s -> wstr_at m q pat -> (length pat < fuel)%nat ->
  exists b, wmatch fuel m p q = Ok b /\ (b = true <-> starts pat s).
Proof.
  induction pat as [|y pat IH]; intros [|f] m p q s H Hq F; cbn [length] in F; try lia; cbn [wmatch].
  - rewrite (w_load_nil _ _ Hq). exists true. split; [reflexivity|]. split; [intros _; now exists s|reflexivity].
  - apply w_load_cons in Hq as (E & E0 & Hq). rewrite E. cbn [bind]. rewrite E0. apply Z.eqb_neq in E0.
    destruct s as [|x s].
    + rewrite (w_load_nil _ _ H). cbn [bind]. replace (0 =? y) with false by lia.
      exists false. split; [reflexivity|]. split; [discriminate|]. intros [b K]. discriminate.
    + apply w_load_cons in H as (E' & _ & H). rewrite E'. cbn [bind]. destruct (Z.eqb_spec x y) as [->|N].
      * destruct (IH f m (p + 1) (q + 1) s H Hq) as (b & Eb & I); [lia|]. exists b. split; [exact Eb|]. rewrite I.
        split; intros [z K]; [exists z; now rewrite K|injection K as K; now exists z].
      * exists false. split; [reflexivity|]. split; [discriminate|]. intros [b K]. injection K as K _. congruence.
Qed.

Lemma occurs_0 pat s : occurs pat s 0 <-> starts pat s.
Proof.
  split.
  - intros (a & b & -> & L). destruct a; [now exists b|discriminate].
  - intros [b ->]. now exists [], b.
Qed.

Lemma occurs_S pat c s i : occurs pat (c :: s) (S i) <-> occurs pat s i.
Proof.
  split.
  - intros (a & b & E & L). destruct a as [|x a]; [discriminate|]. injection E as -> ->. injection L as L. now exists a, b.
  - intros (a & b & -> & L). exists (c :: a), b. cbn. rewrite L. tauto.
Qed.

Lemma wcsstr_ok g pat s : forall fuel m p q, wstr_at m p s -> wstr_at m q pat -> s <> [] \/ pat <> [] ->
  (length s < fuel)%nat -> (length pat < g)%nat ->
  exists r, wcsstr g fuel m p q = Ok r /\ leftmost pat s p r.
Proof.
  induction s as [|c s IH]; intros [|f] m p q H Hq N F G; cbn [length] in F; try lia; cbn [wcsstr].
  - rewrite (w_load_nil _ _ H). exists None. split; [reflexivity|]. intros i (a & b & E & _).
    destruct a; [|discriminate]. destruct pat; [|discriminate]. destruct N; congruence.
  - pose proof (w_load_cons _ _ _ _ H) as (E & E0 & Hs). rewrite E. cbn [bind]. rewrite E0.
    destruct (wmatch_ok pat g m p q (c :: s) H Hq G) as (b & Eb & I). rewrite Eb. cbn [bind]. destruct b.
    + exists (Some p). split; [reflexivity|]. exists 0%nat. split; [lia|]. split; [apply occurs_0, I; reflexivity|].
      intros j Hj. lia.
    + assert (NS : ~ starts pat (c :: s)) by (intros K; apply I in K; discriminate).
      assert (Np : pat <> []) by (intros ->; apply NS; now exists (c :: s)).
      destruct (IH f m (p + 1) q Hs Hq) as (r & Er & L); [now right|lia|exact G|].
      exists r. split; [exact Er|]. destruct r as [a|]; cbn in *.
      * destruct L as (i & -> & O & Min). exists (S i). split; [lia|]. split; [now apply occurs_S|].
        intros [|j] Hj; [rewrite occurs_0; exact NS|]. rewrite occurs_S. apply Min. lia.
      * intros [|i]; [rewrite occurs_0; exact NS|]. rewrite occurs_S. apply L.
Qed.

(** tokens *)
Lemma w_cut m p a c b : wstr_at m p (a ++ c :: b) ->
  m (p + Z.of_nat (length a)) = Some c /\ c <> 0 /\
  wstr_at (upd m (p + Z.of_nat (length a)) 0) p a /\
  wstr_at (upd m (p + Z.of_nat (length a)) 0) (p + Z.of_nat (length a) + 1) b.
Proof.
  intros Hs. pose proof (w_app _ _ _ _ Hs) as Ht. apply w_cons in Ht as [H0 [Hc Ht]].
  split; [exact H0|]. split; [exact Hc|]. split.
  - destruct Hs as [Hb Hf]. rewrite <- app_assoc in Hb. apply bytes_at_app in Hb as [Hb _].
    apply Forall_app in Hf as [Hf _]. split; [|exact Hf]. apply bytes_at_app. split.
    + apply upd_bytes; [exact Hb|lia].
    + apply bytes_at_cons. split; [unfold upd; rewrite Z.eqb_refl; reflexivity|]. intros i Hi; cbn in Hi; lia.
  - apply upd_w; [exact Ht|lia].
Qed.

Lemma odc_w m m' p b ds q s : only_delims_changed m m' p b ds -> wstr_at m q s ->
  disjoint p (length b) q (length s + 1) -> wstr_at m' q s.
Proof.
  intros H [Hb Hf] Hd. split; [|exact Hf]. intros i Hi. rewrite <- (Hb i Hi).
  assert (HE : forall x y : option Z, ~ x <> y -> x = y).
  { intros x y Hxy. destruct x as [x|], y as [y|]; try reflexivity; try (exfalso; apply Hxy; discriminate).
    destruct (Z.eq_dec x y) as [->|Hn]; [reflexivity|]. exfalso. apply Hxy. congruence. }
  apply HE. intros Hx. apply H in Hx as [j [d [Hj [Ex _]]]]. rewrite app_length in Hi. cbn in Hi.
  unfold disjoint in Hd. lia.
Qed.

Lemma wcstok_step fuel m p q s ds : wstr_at m p s -> wstr_at m q ds -> (length s < fuel)%nat -> (length ds < fuel)%nat ->
  exists d a, Forall (fun c => isd ds c = true) d /\ Forall (fun c => isd ds c = false) a /\
  ((s = d ++ a /\ forall st sv, (match st with Some x => Some x | None => sv end) = Some p ->
      wcstok fuel m st q sv =
      Ok (m, None, match a with [] => None | _ => Some (p + Z.of_nat (length d)) end)) \/
  (exists c b, s = d ++ a ++ c :: b /\ a <> [] /\ isd ds c = true /\
     forall st sv, (match st with Some x => Some x | None => sv end) = Some p ->
     wcstok fuel m st q sv =
       Ok (upd m (p + Z.of_nat (length d) + Z.of_nat (length a)) 0,
           Some (p + Z.of_nat (length d) + Z.of_nat (length a) + 1), Some (p + Z.of_nat (length d))))).
Proof.
  intros Hs Hq Hf Hg.
  destruct (wcsspn_ok fuel m p q s ds Hs Hq Hf Hg) as (k & Ek & d & r & -> & <- & Hd & Hr).
  pose proof (w_app _ _ _ _ Hs) as Hr'. rewrite app_length in Hf.
  destruct r as [|c0 r0] eqn:ER.
  - exists d, []. split; [exact Hd|]. split; [constructor|]. left. split; [reflexivity|].
    intros st sv Hst. unfold wcstok. rewrite Hst, Ek. cbn [bind]. cbv zeta. rewrite (w_load_nil _ _ Hr'). reflexivity.
  - destruct Hr as [Hr|(c1 & r1 & Hr & Hc1)]; [discriminate|]. injection Hr as <- <-.
    pose proof (w_load_cons _ _ _ _ Hr') as (E & E0 & _).
    destruct (wcscspn_ok fuel m (p + Z.of_nat (length d)) q (c0 :: r0) ds Hr' Hq) as (k & Ek2 & a & b & Er & <- & Ha & Hb); [lia|exact Hg|].
    assert (Na : a <> []).
    { intros ->. cbn [app] in Er. destruct Hb as [->|(c & b' & -> & Hc)]; [discriminate|]. injection Er as -> _.
      cbn in *. congruence. }
    exists d, a. split; [exact Hd|]. split; [exact Ha|]. rewrite Er in Hr' |- *. destruct Hb as [->|(c & b' & -> & Hc)].
    + left. split; [now rewrite app_nil_r|]. intros st sv Hst. unfold wcstok. rewrite Hst, Ek. cbn [bind]. cbv zeta.
      rewrite E. cbn [bind]. rewrite E0, Ek2. cbn [bind].
      apply w_app in Hr' as Hn. rewrite (w_load_nil _ _ Hn). cbn [bind]. change (0 =? 0) with true. cbn match.
      destruct a; [contradiction|reflexivity].
    + right. exists c, b'. split; [reflexivity|]. split; [exact Na|]. split; [exact Hc|].
      intros st sv Hst. unfold wcstok. rewrite Hst, Ek. cbn [bind]. cbv zeta. rewrite E. cbn [bind]. rewrite E0, Ek2. cbn [bind].
      destruct (w_cut _ _ _ _ _ Hr') as (H0 & Hcz & _). unfold load, store. rewrite H0. cbn [bind].
      rewrite (proj2 (Z.eqb_neq c 0) Hcz). reflexivity.
Qed.

Lemma wcstok_all_ok n : forall calls fuel m p q s ds st sv, (length s <= n)%nat ->
  (match st with Some x => Some x | None => sv end) = Some p ->
  wstr_at m p s -> wstr_at m q ds -> disjoint p (length s + 1) q (length ds + 1) ->
  (length s < fuel)%nat -> (length ds < fuel)%nat -> (length (tokens ds s) < calls)%nat ->
  exists m' ts, wcstok_all calls fuel m st q sv = Ok (m', None, ts) /\
    Forall2 (fun t f => wstr_at m' t f /\ in_place p s t f) ts (tokens ds s) /\
    StronglySorted Z.lt ts /\ only_delims_changed m m' p s ds.
Proof.
  induction n as [|n IH]; intros calls fuel m p q s ds st sv Hn Hst Hs Hq Hd Hf Hcf Hcalls;
    (destruct calls as [|calls]; [lia|]); cbn [wcstok_all];
    (destruct (wcstok_step fuel m p q s ds Hs Hq Hf Hcf) as [d [a [Hda [Ha [[-> E]|[c [b [-> [Hne [Hc E]]]]]]]]]]);
    rewrite (E st sv Hst); cbn [bind].
  1,3: (rewrite (tokens_delims ds d a Hda), (tokens_run ds a Ha) in *; destruct a as [|c a];
     [ exists m, []; split; [reflexivity|]; split; [constructor|]; split; [constructor|apply odc_refl]
     | cbn in Hcalls; destruct calls as [|calls]; [lia|]; cbn [wcstok_all bind wcstok];
       exists m, [p + Z.of_nat (length d)]; split; [reflexivity|]; split; [|split; [repeat constructor|apply odc_refl]];
       constructor; [|constructor]; split; [apply (w_app _ _ _ _ Hs)|]; exists d, []; rewrite app_nil_r; split; reflexivity]).
  - rewrite !app_length in Hn; cbn in Hn; lia.
  - rewrite (tokens_delims ds d _ Hda), (tokens_cut ds a c b Ha Hne Hc) in *. cbn [length] in Hcalls.
    rewrite !app_length in *. cbn [length] in *.
    destruct (w_cut m (p + Z.of_nat (length d)) a c b (w_app _ _ _ _ Hs)) as (_ & _ & HA & HB).
    set (p' := p + Z.of_nat (length d)) in *.
    destruct (IH calls fuel (upd m (p' + Z.of_nat (length a)) 0) (p' + Z.of_nat (length a) + 1) q b ds None
                 (Some (p' + Z.of_nat (length a) + 1))) as [m' [ts [E' [F [S O]]]]].
    + lia.
    + reflexivity.
    + exact HB.
    + apply upd_w; [exact Hq|]. unfold disjoint in Hd; lia.
    + unfold disjoint in *; lia.
    + lia.
    + exact Hcf.
    + lia.
    + rewrite E'. cbn [bind]. exists m', (p' :: ts). split; [reflexivity|].
      assert (EL : p + Z.of_nat (length (d ++ a)) = p' + Z.of_nat (length a)) by (rewrite app_length; lia).
      split; [|split].
      * constructor.
        -- split; [|exists d, (c :: b); split; reflexivity].
           eapply odc_w; [exact O|exact HA|]. unfold disjoint; lia.
        -- eapply Forall2_weaken; [|exact F]. cbn. intros t f [H1 H2]. split; [exact H1|].
           rewrite app_assoc. apply in_place_cut. rewrite EL. exact H2.
      * constructor; [exact S|]. clear - F. revert F. generalize (tokens ds b). intros fs F.
        induction F as [|t f ts fs [_ H] F IHF]; constructor; [|exact IHF].
        apply in_place_ge in H. lia.
      * rewrite app_assoc. apply odc_step; [assumption|]. rewrite EL. exact O.
Qed.

Lemma first_prefix (P : Z -> Prop) a : forall l c b, Forall (fun x => ~ P x) a -> l = a ++ c :: b -> P c -> first_ix P l (length a).
Proof.
  induction a as [|x a IH]; intros l c b H -> Hc; cbn [app length]; [now apply first_here|].
  inversion H. subst. apply first_later; [assumption|]. now apply (IH _ c b).
Qed.

Lemma wcsspn_first fuel m p q s ds : wstr_at m p s -> wstr_at m q ds -> (length s < fuel)%nat -> (length ds < fuel)%nat ->
  exists k, wcsspn fuel m p q = Ok k /\ first_ix (fun c => ~ In c ds) (s ++ [0]) k.
Proof.
  intros H Hq F G. destruct (wcsspn_ok fuel m p q s ds H Hq F G) as (k & E & a & b & -> & <- & Ha & Hb).
  exists (length a). split; [exact E|].
  assert (Ha' : Forall (fun x => ~ ~ In x ds) a).
  { eapply Forall_impl; [|exact Ha]. cbn. intros x Hx K. apply K. now apply existsb_in. }
  destruct Hb as [->|(c & b' & -> & Hc)].
  - apply (first_prefix _ a _ 0 []); [exact Ha'|now rewrite app_nil_r|].
    intros K. destruct Hq as [_ Hf]. rewrite Forall_forall in Hf. exact (Hf 0 K eq_refl).
  - apply (first_prefix _ a _ c (b' ++ [0])); [exact Ha'|now rewrite <- app_assoc|]. now apply existsb_nin.
Qed.

Lemma wcscspn_first fuel m p q s ds : wstr_at m p s -> wstr_at m q ds -> (length s < fuel)%nat -> (length ds < fuel)%nat ->
  exists k, wcscspn fuel m p q = Ok k /\ first_ix (fun c => In c ds \/ c = 0) (s ++ [0]) k.
Proof.
  intros H Hq F G. destruct (wcscspn_ok fuel m p q s ds H Hq F G) as (k & E & a & b & -> & <- & Ha & Hb).
  exists (length a). split; [exact E|].
  assert (Ha' : Forall (fun x => ~ (In x ds \/ x = 0)) a).
  { destruct H as [_ Hf]. apply Forall_app in Hf as [Hf _]. rewrite Forall_forall in *. intros x Hx [K|K].
    - apply existsb_in in K. specialize (Ha x Hx). unfold isd in Ha. congruence.
    - exact (Hf x Hx K). }
  destruct Hb as [->|(c & b' & -> & Hc)].
  - apply (first_prefix _ a _ 0 []); [exact Ha'|now rewrite app_nil_r|now right].
  - apply (first_prefix _ a _ c (b' ++ [0])); [exact Ha'|now rewrite <- app_assoc|]. left. now apply existsb_in.
Qed.

Lemma lex_terminated a : forall b, Forall (fun c => 0 < c) a -> Forall (fun c => 0 < c) b ->
  lex (a ++ [0]) (b ++ [0]) = lex a b.
Proof.
  induction a as [|x a IH]; intros [|y b] Ha Hb; cbn [app lex].
  - reflexivity.
  - inversion Hb. subst. destruct (Z.compare_spec 0 y); (reflexivity || lia).
  - inversion Ha. subst. destruct (Z.compare_spec x 0); (reflexivity || lia).
  - inversion Ha. inversion Hb. subst. now rewrite IH by assumption.
Qed.

Lemma wcscmp_positive fuel m p q a b : wstr_at m p a -> wstr_at m q b ->
  Forall (fun c => 0 < c <= 2147483647) a -> Forall (fun c => 0 < c <= 2147483647) b -> (length a < fuel)%nat ->
  exists r, wcscmp fuel m p q = Ok r /\ (r ?= 0) = lex a b.
Proof.
  intros Ha Hb Pa Pb F. destruct (wcscmp_ok a fuel m p q b Ha Hb) as (r & E & C); [|exact F|].
  - rewrite Forall_forall in *. intros x y Hx Hy. unfold wchar.
    apply in_app_or in Hx. apply in_app_or in Hy.
    assert (0 <= x <= 2147483647) by (destruct Hx as [Hx|[<-|[]]]; [specialize (Pa x Hx)|]; lia).
    assert (0 <= y <= 2147483647) by (destruct Hy as [Hy|[<-|[]]]; [specialize (Pb y Hy)|]; lia). lia.
  - exists r. split; [exact E|]. rewrite C. apply lex_terminated; eapply Forall_impl; try eassumption; cbn; intros; lia.
Qed.
