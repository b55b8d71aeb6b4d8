From Verif Require Import Base Mem_Model Mem_Proof Str_Model Str_Spec.
Open Scope Z_scope.

Ltac okeq :=
  repeat match goal with
  | |- Ok _ = Ok _ => apply f_equal
  | |- Some _ = Some _ => apply f_equal
  | |- (_, _) = (_, _) => apply f_equal2
  end; try reflexivity; try lia.

(** ** Reading strings *)
Lemma str_load m p s i : str_at m p s -> (i <= length s)%nat -> load m (p + Z.of_nat i) = Ok (nth i s 0).
Proof.
  intros [Hb _] Hi. unfold load. rewrite Hb by (rewrite app_length; cbn; lia).
  destruct (Nat.eq_dec i (length s)) as [->|Hn].
  - rewrite nth_error_app2, Nat.sub_diag by lia. cbn. rewrite nth_overflow by lia. reflexivity.
  - rewrite nth_error_app1 by lia. rewrite nth_error_nth' with (d := 0) by lia. reflexivity.
Qed.

Lemma str_pos m p s i : str_at m p s -> (i < length s)%nat -> 0 < nth i s 0 < 256.
Proof. intros [_ Hf] Hi. rewrite Forall_forall in Hf. apply Hf, nth_In, Hi. Qed.

Lemma str_end s : nth (length s) s 0 = 0.
Proof. apply nth_overflow; lia. Qed.

Lemma bytes_load m p l i : bytes_at m p l -> (i < length l)%nat -> load m (p + Z.of_nat i) = Ok (nth i l 0).
Proof.
  intros Hb Hi. unfold load. rewrite Hb by lia. rewrite nth_error_nth' with (d := 0) by lia. reflexivity.
Qed.

Lemma strlen_loop_ok fuel : forall m p s i, str_at m p s -> (i <= length s)%nat -> (length s - i < fuel)%nat ->
  strlen_loop fuel m p i = Ok (length s).
Proof.
  induction fuel as [|f IH]; intros m p s i Hs Hi Hf; [lia|]. cbn [strlen_loop].
  rewrite (str_load m p s i Hs Hi). cbn [bind].
  destruct (Nat.eq_dec i (length s)) as [->|Hn].
  - rewrite str_end. reflexivity.
  - pose proof (str_pos m p s i Hs ltac:(lia)). replace (nth i s 0 =? 0) with false by lia.
    apply IH; [exact Hs|lia|lia].
Qed.

Lemma strlen_ok fuel m p s : str_at m p s -> (length s < fuel)%nat -> strlen fuel m p = Ok (length s).
Proof. intros. apply strlen_loop_ok; [assumption|lia|lia]. Qed.

(** bounded reading *)
Lemma nstr_load m p n s i : nstr_at m p n s -> (i < length s)%nat -> load m (p + Z.of_nat i) = Ok (nth i s 0) /\ 0 < nth i s 0 < 256.
Proof.
  intros [Hf [Hb _]] Hi. split; [apply (bytes_load _ _ _ _ Hb Hi)|].
  rewrite Forall_forall in Hf. apply Hf, nth_In, Hi.
Qed.

Lemma nstr_end m p n s : nstr_at m p n s -> (length s < n)%nat -> load m (p + Z.of_nat (length s)) = Ok 0.
Proof. intros [_ [_ [H|[_ H]]]] Hl; [lia|]. unfold load. rewrite H. reflexivity. Qed.

Lemma nstr_len m p n s : nstr_at m p n s -> (length s <= n)%nat.
Proof. intros [_ [_ [H|[H _]]]]; lia. Qed.

Lemma strnlen_loop_ok k : forall m p s n i, nstr_at m p n s -> (i <= length s)%nat -> (k + i = n)%nat ->
  strnlen_loop k m p i = Ok (length s).
Proof.
  induction k as [|k IH]; intros m p s n i Hs Hi Hk; cbn [strnlen_loop]; pose proof (nstr_len _ _ _ _ Hs).
  - f_equal; lia.
  - destruct (Nat.eq_dec i (length s)) as [->|Hn].
    + rewrite (nstr_end _ _ _ _ Hs) by lia. reflexivity.
    + destruct (nstr_load _ _ _ _ i Hs ltac:(lia)) as [-> ?]. cbn [bind].
      replace (nth i s 0 =? 0) with false by lia. apply (IH m p s n); [exact Hs|lia|lia].
Qed.

Lemma strnlen_ok m p s n : nstr_at m p n s -> strnlen m p n = Ok (length s).
Proof. intros. apply (strnlen_loop_ok n m p s n 0); [assumption|lia|lia]. Qed.

Lemma str_nstr m p s n : str_at m p s -> nstr_at m p n (firstn n s).
Proof.
  intros [Hb Hf]. split; [|split].
  - rewrite <- (firstn_skipn n s) in Hf. apply Forall_app in Hf. tauto.
  - rewrite <- (firstn_skipn n s), <- app_assoc in Hb. apply bytes_at_app in Hb. tauto.
  - destruct (le_lt_dec n (length s)) as [H|H].
    + left. rewrite firstn_length. lia.
    + right. rewrite firstn_all2 by lia. split; [lia|]. rewrite Hb by (rewrite app_length; cbn; lia).
      rewrite nth_error_app2, Nat.sub_diag by lia. reflexivity.
Qed.

(** ** Writing *)
Lemma written_nil m p : written m m p [].
Proof. split; [intros i Hi; cbn in Hi; lia|intros a _; reflexivity]. Qed.

Lemma written_cons m m' p c l : written (upd m p c) m' (p + 1) l -> written m m' p (c :: l).
Proof.
  intros [Hb Ho]. split.
  - apply bytes_at_cons. split; [|exact Hb]. rewrite Ho by lia. unfold upd. rewrite Z.eqb_refl. reflexivity.
  - intros a Ha. cbn [length] in Ha. rewrite Ho by lia. unfold upd. replace (a =? p) with false by lia. reflexivity.
Qed.

Lemma written_app m m1 m2 p l1 l2 : written m m1 p l1 -> written m1 m2 (p + Z.of_nat (length l1)) l2 ->
  written m m2 p (l1 ++ l2).
Proof.
  intros [Hb1 Ho1] [Hb2 Ho2]. split.
  - apply bytes_at_app. split; [|exact Hb2]. intros i Hi. rewrite Ho2 by lia. apply Hb1, Hi.
  - intros a Ha. rewrite app_length in Ha. rewrite Ho2 by lia. apply Ho1. lia.
Qed.

Lemma written_bytes m m' p l q k : written m m' p l -> bytes_at m q k ->
  disjoint p (length l) q (length k) -> bytes_at m' q k.
Proof. intros [_ Ho] Hq Hd i Hi. rewrite Ho; [apply Hq, Hi|]. destruct Hd; lia. Qed.

Lemma written_str m m' p l q s : written m m' p l -> str_at m q s ->
  disjoint p (length l) q (length s + 1) -> str_at m' q s.
Proof.
  intros Hw [Hb Hf] Hd. split; [|exact Hf]. eapply written_bytes; [exact Hw|exact Hb|].
  rewrite app_length. exact Hd.
Qed.

Lemma written_mapped m m' p l q k : written m m' p l -> mapped m q k -> mapped m' q k.
Proof.
  intros [Hb Ho] Hm i Hi.
  destruct (Z_lt_le_dec (q + Z.of_nat i) p) as [H1|H1]; [rewrite Ho by lia; apply Hm, Hi|].
  destruct (Z_lt_le_dec (q + Z.of_nat i) (p + Z.of_nat (length l))) as [H2|H2].
  - replace (q + Z.of_nat i) with (p + Z.of_nat (Z.to_nat (q + Z.of_nat i - p))) by lia.
    apply (bytes_at_mapped _ _ _ Hb). lia.
  - rewrite Ho by lia. apply Hm, Hi.
Qed.

Lemma upd_mapped m p c q k : mapped m q k -> mapped (upd m p c) q k.
Proof. intros H i Hi. unfold upd. destruct (_ =? _); [discriminate|apply H, Hi]. Qed.

Lemma upd_bytes m p c q l : bytes_at m q l -> ~ (q <= p < q + Z.of_nat (length l)) -> bytes_at (upd m p c) q l.
Proof. intros H Hn i Hi. unfold upd. replace (_ =? _) with false by lia. apply H, Hi. Qed.

Lemma upd_str m p c q s : str_at m q s -> ~ (q <= p <= q + Z.of_nat (length s)) -> str_at (upd m p c) q s.
Proof. intros [Hb Hf] Hn. split; [|exact Hf]. apply upd_bytes; [exact Hb|]. rewrite app_length; cbn; lia. Qed.

Lemma upd_nstr m p c q n s : nstr_at m q n s -> ~ (q <= p <= q + Z.of_nat (length s)) -> nstr_at (upd m p c) q n s.
Proof.
  intros [Hf [Hb He]] Hn. split; [exact Hf|]. split; [apply upd_bytes; [exact Hb|lia]|].
  destruct He as [He|[He1 He2]]; [left; exact He|right]. split; [exact He1|].
  unfold upd. replace (_ =? _) with false by lia. exact He2.
Qed.

Lemma mapped_hd m p n : mapped m p n -> (0 < n)%nat -> m p <> None.
Proof. intros H Hn. specialize (H 0%nat Hn). rewrite Z.add_0_r in H. exact H. Qed.

Lemma mapped_tl m p n : mapped m p (S n) -> mapped m (p + 1) n.
Proof. intros H. apply (mapped_sub _ _ _ _ _ H); lia. Qed.

Lemma str_cons m p c s : str_at m p (c :: s) <-> m p = Some c /\ 0 < c < 256 /\ str_at m (p + 1) s.
Proof.
  unfold str_at. cbn [app]. rewrite bytes_at_cons, Forall_cons_iff. tauto.
Qed.

Lemma str_nil m p : str_at m p [] <-> m p = Some 0.
Proof.
  unfold str_at. cbn [app]. rewrite bytes_at_cons. split; [tauto|].
  intros H. split; [|constructor]. split; [exact H|]. intros i Hi; cbn in Hi; lia.
Qed.

Lemma written_str_at m m' p s : written m m' p (s ++ [0]) -> Forall (fun c => 0 < c < 256) s -> str_at m' p s.
Proof. intros [Hb _] Hf. split; assumption. Qed.

(** ** Copying *)
Lemma strcpy_loop_ok s : forall fuel m d p, str_at m p s -> mapped m d (length s + 1) ->
  disjoint d (length s + 1) p (length s + 1) -> (length s < fuel)%nat ->
  exists m', strcpy_loop fuel m d p = Ok m' /\ written m m' d (s ++ [0]).
Proof.
  induction s as [|c s IH]; intros fuel m d p Hs Hd Hdis Hf; destruct fuel as [|f]; try lia; cbn [strcpy_loop].
  - apply str_nil in Hs. unfold load. rewrite Hs. cbn [bind Z.eqb].
    rewrite store_ok by (apply (mapped_hd _ _ _ Hd); cbn; lia). eexists. split; [reflexivity|].
    apply written_cons, written_nil.
  - apply str_cons in Hs as [H0 [Hc Hs]]. unfold load. rewrite H0. cbn [bind].
    replace (c =? 0) with false by lia.
    cbn [length Nat.add] in *.
    rewrite store_ok by (apply (mapped_hd _ _ _ Hd); lia). cbn [bind].
    destruct (IH f (upd m d c) (d + 1) (p + 1)) as [m' [E W]].
    + apply upd_str; [exact Hs|]. destruct Hdis; lia.
    + apply upd_mapped, mapped_tl, Hd.
    + unfold disjoint in *. lia.
    + lia.
    + exists m'. split; [exact E|]. apply written_cons, W.
Qed.

Lemma strcpy_ok fuel m d p s : str_at m p s -> mapped m d (length s + 1) ->
  disjoint d (length s + 1) p (length s + 1) -> (length s < fuel)%nat ->
  exists m', strcpy fuel m d p = Ok (m', d) /\ written m m' d (s ++ [0]).
Proof.
  intros Hs Hd Hdis Hf. destruct (strcpy_loop_ok s fuel m d p Hs Hd Hdis Hf) as [m' [E W]].
  exists m'. unfold strcpy. rewrite E. auto.
Qed.

(** the copy loop of strncpy/strncat with one more readable byte than [n] (see the refutation for why) *)
Lemma ncopy_loop_ok s : forall n m d p, nstr_at m p (S n) s -> (length s <= n)%nat ->
  mapped m d (length s) -> disjoint d (length s) p (length s + 1) ->
  exists m', ncopy_loop n m d p = Ok (m', d + Z.of_nat (length s), (n - length s)%nat) /\ written m m' d s.
Proof.
  induction s as [|c s IH]; intros n m d p Hs Hle Hd Hdis.
  - pose proof (nstr_end _ _ _ _ Hs ltac:(cbn; lia)) as HL. cbn in HL. rewrite Z.add_0_r in HL.
    exists m. destruct n; cbn [ncopy_loop]; rewrite HL; cbn [bind Z.eqb length]; (split; [|apply written_nil]);
    okeq.
  - cbn [length] in *. destruct n as [|n]; [lia|]. cbn [ncopy_loop].
    destruct (nstr_load _ _ _ _ 0 Hs ltac:(cbn; lia)) as [HL Hc]. cbn in HL, Hc. rewrite Z.add_0_r in HL.
    rewrite HL. cbn [bind]. replace (c =? 0) with false by lia.
    rewrite store_ok by (apply (mapped_hd _ _ _ Hd); lia). cbn [bind].
    destruct (IH n (upd m d c) (d + 1) (p + 1)) as [m' [E W]].
    + apply upd_nstr; [|destruct Hdis; lia].
      destruct Hs as [Hf [Hb He]]. split; [inversion Hf; assumption|]. split; [apply bytes_at_cons in Hb; tauto|].
      destruct He as [He|[He1 He2]]; [left; cbn in He; lia|right]. split; [cbn in He1; lia|].
      cbn [length] in He2. rewrite <- He2. f_equal. lia.
    + lia.
    + apply upd_mapped, mapped_tl, Hd.
    + unfold disjoint in *. lia.
    + exists m'. split; [|apply written_cons, W]. rewrite E. okeq.
Qed.

(** same loop when the source is longer than [n]: stops after [n] bytes having read byte [n] *)
Lemma ncopy_loop_trunc n : forall s m d p, bytes_at m p s -> Forall (fun c => 0 < c < 256) s -> length s = S n ->
  mapped m d n -> disjoint d n p (S n) ->
  exists m', ncopy_loop n m d p = Ok (m', d + Z.of_nat n, 0%nat) /\ written m m' d (firstn n s).
Proof.
  induction n as [|n IH]; intros s m d p Hb Hf Hl Hd Hdis; (destruct s as [|c s]; [discriminate|]); cbn in Hl;
    apply bytes_at_cons in Hb as [H0 Hb]; inversion Hf as [|? ? Hc Hf']; subst; cbn [ncopy_loop firstn];
    unfold load; rewrite H0; cbn [bind]; replace (c =? 0) with false by lia.
  - exists m. split; [okeq|apply written_nil].
  - rewrite store_ok by (apply (mapped_hd _ _ _ Hd); lia). cbn [bind].
    destruct (IH s (upd m d c) (d + 1) (p + 1)) as [m' [E W]].
    + apply upd_bytes; [exact Hb|]. destruct Hdis; lia.
    + assumption.
    + lia.
    + apply upd_mapped, mapped_tl, Hd.
    + unfold disjoint in *; lia.
    + exists m'. split; [|apply written_cons, W]. unfold load in E. rewrite E. okeq.
Qed.

Lemma zero_loop_ok k : forall m d, mapped m d k ->
  exists m', zero_loop k m d = Ok m' /\ written m m' d (repeat 0 k).
Proof.
  induction k as [|k IH]; intros m d Hd; cbn [zero_loop repeat].
  - exists m. split; [reflexivity|apply written_nil].
  - rewrite store_ok by (apply (mapped_hd _ _ _ Hd); lia). cbn [bind].
    destruct (IH (upd m d 0) (d + 1)) as [m' [E W]]; [apply upd_mapped, mapped_tl, Hd|].
    exists m'. split; [exact E|apply written_cons, W].
Qed.

(** one lemma for both cases: source is a NUL-terminated string *)
Lemma ncopy_str s n m d p : str_at m p s -> mapped m d (length (firstn n s)) ->
  disjoint d (length (firstn n s)) p (length s + 1) ->
  exists m', ncopy_loop n m d p = Ok (m', d + Z.of_nat (length (firstn n s)), (n - length s)%nat) /\
    written m m' d (firstn n s).
Proof.
  intros Hs Hd Hdis. destruct (le_lt_dec (length s) n) as [H|H].
  - rewrite firstn_all2 in * by lia. apply ncopy_loop_ok; [|lia|exact Hd|exact Hdis].
    pose proof (str_nstr m p s (S n) Hs) as HN. rewrite firstn_all2 in HN by lia. exact HN.
  - assert (Hl : length (firstn n s) = n) by (rewrite firstn_length; lia). rewrite Hl in *.
    pose proof (str_nstr m p s (S n) Hs) as [Hf [Hb _]].
    destruct (ncopy_loop_trunc n (firstn (S n) s) m d p) as [m' [E W]].
    + exact Hb.
    + exact Hf.
    + rewrite firstn_length; lia.
    + exact Hd.
    + unfold disjoint in *; lia.
    + exists m'. rewrite E. split; [okeq|].
      rewrite firstn_firstn, Nat.min_l in W by lia. exact W.
Qed.

Lemma strncpy_ok m d p s n : str_at m p s -> mapped m d n -> disjoint d n p (length s + 1) ->
  exists m', strncpy m d p n = Ok (m', d) /\ written m m' d (firstn n s ++ repeat 0 (n - length s)).
Proof.
  intros Hs Hd Hdis.
  assert (Hl : (length (firstn n s) <= n)%nat) by (rewrite firstn_length; lia).
  destruct (ncopy_str s n m d p Hs) as [m1 [E1 W1]].
  { apply (mapped_sub _ _ _ _ _ Hd); lia. } { unfold disjoint in *; lia. }
  unfold strncpy. rewrite E1. cbn [bind].
  destruct (zero_loop_ok (n - length s) m1 (d + Z.of_nat (length (firstn n s)))) as [m2 [E2 W2]].
  { apply (written_mapped _ _ _ _ _ _ W1). apply (mapped_sub _ _ _ _ _ Hd); [lia|].
    rewrite firstn_length. lia. }
  rewrite E2. cbn [bind]. exists m2. split; [reflexivity|]. eapply written_app; eassumption.
Qed.

Lemma strcat_ok fuel m d p s t : str_at m d t -> str_at m p s ->
  mapped m d (length t + length s + 1) -> disjoint d (length t + length s + 1) p (length s + 1) ->
  (length t + length s < fuel)%nat ->
  exists m', strcat fuel m d p = Ok (m', d) /\ written m m' (d + Z.of_nat (length t)) (s ++ [0])
             /\ str_at m' d (t ++ s).
Proof.
  intros Ht Hs Hd Hdis Hf. unfold strcat. rewrite (strlen_ok fuel m d t Ht) by lia. cbn [bind].
  destruct (strcpy_ok fuel m (d + Z.of_nat (length t)) p s Hs) as [m' [E W]].
  { apply (mapped_sub _ _ _ _ _ Hd); lia. } { unfold disjoint in *; lia. } { lia. }
  rewrite E. cbn [bind]. exists m'. split; [reflexivity|]. split; [exact W|].
  destruct Ht as [Hbt Hft], Hs as [Hbs Hfs]. split; [|apply Forall_app; auto].
  rewrite <- app_assoc. apply bytes_at_app. destruct W as [Wb Wo]. split; [|exact Wb].
  apply bytes_at_app in Hbt as [Hbt _].
  intros i Hi. rewrite Wo by lia. apply Hbt, Hi.
Qed.

Lemma strncat_ok fuel m d p s t n : str_at m d t -> str_at m p s ->
  mapped m d (length t + length (firstn n s) + 1) ->
  disjoint d (length t + length (firstn n s) + 1) p (length s + 1) ->
  (length t < fuel)%nat ->
  exists m', strncat fuel m d p n = Ok (m', d) /\ written m m' (d + Z.of_nat (length t)) (firstn n s ++ [0])
             /\ str_at m' d (t ++ firstn n s).
Proof.
  intros Ht Hs Hd Hdis Hf. unfold strncat. rewrite (strlen_ok fuel m d t Ht) by lia. cbn [bind].
  destruct (ncopy_str s n m (d + Z.of_nat (length t)) p Hs) as [m1 [E1 W1]].
  { apply (mapped_sub _ _ _ _ _ Hd); lia. } { unfold disjoint in *; lia. }
  rewrite E1. cbn [bind].
  rewrite store_ok.
  2:{ assert (HM : mapped m1 (d + Z.of_nat (length t) + Z.of_nat (length (firstn n s))) 1).
      { apply (written_mapped _ _ _ _ _ _ W1). apply (mapped_sub _ _ _ _ _ Hd); lia. }
      apply (mapped_hd _ _ _ HM). lia. }
  cbn [bind].
  assert (W : written m (upd m1 (d + Z.of_nat (length t) + Z.of_nat (length (firstn n s))) 0)
                (d + Z.of_nat (length t)) (firstn n s ++ [0])).
  { eapply written_app; [exact W1|]. apply written_cons, written_nil. }
  eexists. split; [reflexivity|]. split; [exact W|].
  destruct Ht as [Hbt Hft], Hs as [Hbs Hfs]. split.
  - rewrite <- app_assoc. apply bytes_at_app. destruct W as [Wb Wo]. split; [|exact Wb].
    apply bytes_at_app in Hbt as [Hbt _].
    intros i Hi. rewrite Wo by lia. apply Hbt, Hi.
  - apply Forall_app. split; [exact Hft|]. rewrite <- (firstn_skipn n s) in Hfs. apply Forall_app in Hfs. tauto.
Qed.

Lemma stpcpy_ok fuel m d p s : str_at m p s -> mapped m d (length s + 1) ->
  disjoint d (length s + 1) p (length s + 1) -> (length s < fuel)%nat ->
  exists m', stpcpy fuel m d p = Ok (m', d + Z.of_nat (length s)) /\ written m m' d (s ++ [0]).
Proof.
  intros Hs Hd Hdis Hf. unfold stpcpy. rewrite (strlen_ok fuel m p s Hs Hf). cbn [bind].
  assert (HL : length (s ++ [0]) = (length s + 1)%nat) by (rewrite app_length; reflexivity).
  destruct (memcpy_ok m d p (s ++ [0])) as [m' [E [B O]]].
  { apply Hs. } { rewrite HL; exact Hd. } { rewrite HL; exact Hdis. }
  rewrite HL in E. rewrite E. cbn [bind]. exists m'. split; [reflexivity|]. split; assumption.
Qed.

Lemma stpncpy_ok fuel m d p s n : str_at m p s -> mapped m d n -> disjoint d n p (length s + 1) ->
  (length s < fuel)%nat ->
  exists m', stpncpy fuel m d p n = Ok (m', d + Z.of_nat (length (firstn n s))) /\
    written m m' d (firstn n s ++ repeat 0 (n - length s)).
Proof.
  intros Hs Hd Hdis Hf. unfold stpncpy. rewrite (strlen_ok fuel m p s Hs Hf). cbn [bind].
  assert (HL : length (firstn n s) = (if (length s <=? n)%nat then length s else n)).
  { rewrite firstn_length. destruct (Nat.leb_spec (length s) n); lia. }
  rewrite <- HL.
  destruct (memcpy_ok m d p (firstn n s)) as [m1 [E1 [B1 O1]]].
  { apply (str_nstr m p s n Hs). }
  { apply (mapped_sub _ _ _ _ _ Hd); [lia|]. rewrite firstn_length. lia. }
  { rewrite firstn_length. unfold disjoint in *. lia. }
  rewrite E1. cbn [bind].
  assert (W1 : written m m1 d (firstn n s)) by (split; assumption).
  set (nulls := if (length s <=? n)%nat then (n - length s)%nat else 0%nat).
  assert (HN : nulls = (n - length s)%nat) by (unfold nulls; destruct (Nat.leb_spec (length s) n); lia).
  destruct (memset_ok m1 (d + Z.of_nat (length s)) 0 nulls) as [m2 [E2 [B2 O2]]].
  { apply (written_mapped _ _ _ _ _ _ W1).
    destruct (le_lt_dec (length s) n); [apply (mapped_sub _ _ _ _ _ Hd); lia|].
    intros i Hi. lia. }
  rewrite E2. cbn [bind]. exists m2. split.
  - rewrite HN. rewrite firstn_length. okeq.
  - destruct (le_lt_dec (length s) n) as [H|H].
    + rewrite (firstn_all2 s) in * by lia. eapply written_app; [exact W1|].
      rewrite <- HN. change (0 mod 256) with 0 in B2. split; [exact B2|]. rewrite repeat_length. exact O2.
    + replace (n - length s)%nat with 0%nat by lia. cbn [repeat]. rewrite app_nil_r.
      replace nulls with 0%nat in * by lia.
      destruct W1 as [Wb Wo]. split.
      * intros i Hi. rewrite O2 by lia. apply Wb, Hi.
      * intros a Ha. rewrite O2 by lia. apply Wo, Ha.
Qed.

Lemma skip_to_nul_ok fuel : forall m p s, str_at m p s -> (length s < fuel)%nat ->
  skip_to_nul fuel m p = Ok (p + Z.of_nat (length s) + 1).
Proof.
  induction fuel as [|f IH]; intros m p s Hs Hf; [lia|]. cbn [skip_to_nul].
  destruct s as [|c s].
  - apply str_nil in Hs. unfold load. rewrite Hs. cbn [bind Z.eqb length]. f_equal; lia.
  - apply str_cons in Hs as [H0 [Hc Hs]]. unfold load. rewrite H0. cbn [bind].
    replace (c =? 0) with false by lia. rewrite (IH m (p+1) s Hs) by (cbn in Hf; lia). f_equal. cbn [length]. lia.
Qed.

Lemma strlcpy_loop_ok k : forall m d p s, str_at m p s -> mapped m d (Nat.min k (length s + 1)) ->
  disjoint d (Nat.min k (length s + 1)) p (length s + 1) ->
  exists m', strlcpy_loop k m d p =
    Ok (m', d + Z.of_nat (Nat.min k (length s + 1)), p + Z.of_nat (Nat.min k (length s + 1)),
        (k - length s)%nat) /\ written m m' d (firstn k (s ++ [0])).
Proof.
  induction k as [|k IH]; intros m d p s Hs Hd Hdis; cbn [strlcpy_loop firstn].
  - exists m. cbn [Nat.min Nat.sub]. split; [okeq|apply written_nil].
  - destruct s as [|c s].
    + apply str_nil in Hs. unfold load. rewrite Hs. cbn [bind]. cbn [length Nat.add] in *.
      rewrite store_ok by (apply (mapped_hd _ _ _ Hd); lia). cbn [bind Z.eqb].
      eexists. split; [okeq|]. cbn [app]. rewrite firstn_nil. apply written_cons, written_nil.
    + apply str_cons in Hs as [H0 [Hc Hs]]. unfold load. rewrite H0. cbn [bind].
      cbn [length Nat.add Nat.min] in *.
      rewrite store_ok by (apply (mapped_hd _ _ _ Hd); lia). cbn [bind].
      replace (c =? 0) with false by lia.
      destruct (IH (upd m d c) (d + 1) (p + 1) s) as [m' [E W]].
      * apply upd_str; [exact Hs|]. destruct Hdis; lia.
      * apply upd_mapped, mapped_tl, Hd.
      * unfold disjoint in *; lia.
      * exists m'. rewrite E. split; [okeq|]. cbn [app]. apply written_cons, W.
Qed.

Lemma strlcpy_ok fuel m d p s n : str_at m p s -> mapped m d (Nat.min n (length s + 1)) ->
  disjoint d (Nat.min n (length s + 1)) p (length s + 1) -> (length s < fuel)%nat ->
  exists m', strlcpy fuel m d p n = Ok (m', Z.of_nat (length s)) /\
    written m m' d (match n with O => [] | S k => firstn k s ++ [0] end).
Proof.
  intros Hs Hd Hdis Hf. unfold strlcpy. destruct n as [|k].
  - cbn [bind Nat.eqb]. rewrite (skip_to_nul_ok fuel m p s Hs Hf). cbn [bind]. exists m.
    split; [okeq|apply written_nil].
  - destruct (strlcpy_loop_ok k m d p s Hs) as [m1 [E1 W1]].
    { apply (mapped_sub _ _ _ _ _ Hd); lia. } { unfold disjoint in *; lia. }
    rewrite E1. cbn [bind]. destruct (k - length s =? 0)%nat eqn:EL.
    + apply Nat.eqb_eq in EL. assert (Hk : (k <= length s)%nat) by lia.
      rewrite Nat.min_l in * by lia. cbn [Nat.eqb].
      assert (HF : firstn k (s ++ [0]) = firstn k s).
      { rewrite firstn_app. replace (k - length s)%nat with 0%nat by lia. cbn. apply app_nil_r. }
      rewrite HF in W1.
      assert (HLk : length (firstn k s) = k) by (rewrite firstn_length; lia).
      rewrite store_ok.
      2:{ assert (HM : mapped m1 (d + Z.of_nat k) 1).
          { apply (written_mapped _ _ _ _ _ _ W1). apply (mapped_sub _ _ _ _ _ Hd); lia. }
          apply (mapped_hd _ _ _ HM). lia. }
      cbn [bind].
      assert (W : written m (upd m1 (d + Z.of_nat k) 0) d (firstn k s ++ [0])).
      { eapply written_app; [exact W1|]. rewrite HLk. apply written_cons, written_nil. }
      assert (Hsk : str_at (upd m1 (d + Z.of_nat k) 0) (p + Z.of_nat k) (skipn k s)).
      { assert (HS : str_at (upd m1 (d + Z.of_nat k) 0) p s).
        { eapply written_str; [exact W|exact Hs|]. rewrite app_length, HLk. cbn. unfold disjoint in *; lia. }
        destruct HS as [Hb Hfo]. rewrite <- (firstn_skipn k s) in Hb, Hfo.
        rewrite <- app_assoc in Hb. apply bytes_at_app in Hb as [_ Hb]. rewrite HLk in Hb.
        apply Forall_app in Hfo as [_ Hfo]. split; assumption. }
      rewrite (skip_to_nul_ok fuel _ _ _ Hsk) by (rewrite skipn_length; lia). cbn [bind].
      eexists. split; [|exact W]. rewrite skipn_length. okeq.
    + apply Nat.eqb_neq in EL. exists m1.
      rewrite Nat.min_r in * by lia. split; [okeq|].
      rewrite firstn_all2 in W1 by (rewrite app_length; cbn; lia). rewrite firstn_all2 by lia. exact W1.
Qed.

Lemma strlcat_ok fuel m d p s t n : nstr_at m d n t -> str_at m p s ->
  mapped m d (Nat.min n (length t + length s + 1)) ->
  disjoint d (Nat.min n (length t + length s + 1)) p (length s + 1) -> (length s < fuel)%nat ->
  exists m', strlcat fuel m d p n = Ok (m', Z.of_nat (length t + length s)) /\
    (length t = n -> m' = m) /\
    ((length t < n)%nat ->
      written m m' (d + Z.of_nat (length t)) (firstn (n - length t - 1) s ++ [0]) /\
      str_at m' d (t ++ firstn (n - length t - 1) s)).
Proof.
  intros Ht Hs Hd Hdis Hf. pose proof (nstr_len _ _ _ _ Ht) as Hle. unfold strlcat.
  rewrite (strnlen_ok m d t n Ht). cbn [bind]. destruct (Nat.eqb_spec (length t) n) as [E|E].
  - rewrite (strlen_ok fuel m p s Hs Hf). cbn [bind]. exists m. split; [okeq|].
    split; [reflexivity|intros; lia].
  - destruct (strlcpy_ok fuel m (d + Z.of_nat (length t)) p s (n - length t) Hs) as [m' [E' W]].
    { apply (mapped_sub _ _ _ _ _ Hd); lia. } { unfold disjoint in *; lia. } { exact Hf. }
    rewrite E'. cbn [bind]. exists m'. split; [okeq|]. split; [intros; lia|]. intros _.
    destruct (n - length t)%nat as [|k] eqn:EK; [lia|].
    replace (S k - 1)%nat with k by lia. split; [exact W|].
    destruct Ht as [Hft [Hbt _]], Hs as [Hbs Hfs]. split.
    + rewrite <- app_assoc. apply bytes_at_app. destruct W as [Wb Wo]. split; [|exact Wb].
      intros i Hi. rewrite Wo by lia. apply Hbt, Hi.
    + apply Forall_app. split; [exact Hft|]. rewrite <- (firstn_skipn k s) in Hfs. apply Forall_app in Hfs. tauto.
Qed.
