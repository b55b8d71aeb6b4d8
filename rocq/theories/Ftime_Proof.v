From Verif Require Import Base Str_Spec Time_Model Time_Proof Mem_Proof Str_Proof Snprintf_Model Snprintf_Spec Snprintf_Proof Ftime_Model Ftime_Spec.
Open Scope Z_scope.

Lemma digits_two : forall n, 0 <= n < 100 -> precd 2 n = two n.
Proof.
  intros n H. unfold precd, two. replace (n <? 0) with false by lia. rewrite Z.abs_eq by lia. cbn [digits].
  destruct (n <? 10) eqn:E.
  - cbn [length Nat.sub repeat app]. f_equal; [f_equal; lia|]. f_equal. lia.
  - replace (n / 10 <? 10) with true by lia. cbn [length Nat.sub repeat app]. reflexivity.
Qed.
Lemma zero_two : forall n, 0 <= n < 100 -> zerod 2 n = two n.
Proof. intros n H. rewrite <- digits_two by auto. unfold zerod, precd. replace (n <? 0) with false by lia. cbn [length app]. rewrite Nat.sub_0_r. reflexivity. Qed.
Lemma digits_three : forall n, 0 <= n < 1000 -> precd 3 n = three n.
Proof.
  intros n H. unfold precd, three. replace (n <? 0) with false by lia. rewrite Z.abs_eq by lia. cbn [digits].
  destruct (n <? 10) eqn:E; [cbn [length Nat.sub repeat app]; repeat (f_equal; try lia)|].
  destruct (n / 10 <? 10) eqn:E1; [cbn [length Nat.sub repeat app]; repeat (f_equal; try lia)|].
  replace (n / 10 / 10 <? 10) with true by lia. cbn [length Nat.sub repeat app]. repeat (f_equal; try lia).
Qed.
Lemma width_two : forall n, 0 <= n < 100 -> widthd 2 n = padded n.
Proof.
  intros n H. unfold widthd, precd, padded. replace (n <? 0) with false by lia. rewrite Z.abs_eq by lia. cbn [digits].
  destruct (n <? 10) eqn:E; [cbn [length Nat.sub repeat app]; repeat (f_equal; try lia)|].
  replace (n / 10 <? 10) with true by lia. cbn [length Nat.sub repeat app]. reflexivity.
Qed.
Lemma zero_four : forall n, 0 <= n < 10000 -> zerod 4 n = two (n / 100) ++ two (n mod 100).
Proof.
  intros n H. unfold zerod, two. replace (n <? 0) with false by lia. rewrite Z.abs_eq by lia. cbn [digits].
  destruct (n <? 10) eqn:E; [cbn [length Nat.sub repeat app]; repeat (f_equal; try lia)|].
  destruct (n / 10 <? 10) eqn:E1; [cbn [length Nat.sub repeat app]; repeat (f_equal; try lia)|].
  destruct (n / 10 / 10 <? 10) eqn:E2; [cbn [length Nat.sub repeat app]; repeat (f_equal; try lia)|].
  replace (n / 10 / 10 / 10 <? 10) with true by lia. cbn [length Nat.sub repeat app]. repeat (f_equal; try lia).
Qed.

(** decimal text *)
Lemma value_app : forall a b, value (a ++ b) = fold_left (fun a c => 10 * a + (c - 48)) b (value a).
Proof. intros. unfold value. apply fold_left_app. Qed.
Lemma digits_plain : forall k n, 0 <= n -> n < 10 ^ Z.of_nat (S k) -> plain_number n (digits k n).
Proof.
  induction k as [|k IH]; intros n H0 H1; cbn [digits].
  - change (10 ^ Z.of_nat 1) with 10 in H1. split; [discriminate|]. split; [repeat constructor; lia|]. split; [unfold value; cbn [fold_left]; lia|]. cbn [hd]. intros ->; reflexivity.
  - destruct (n <? 10) eqn:E.
    + split; [discriminate|]. split; [repeat constructor; lia|]. split; [unfold value; cbn [fold_left]; lia|]. cbn [hd]. intros ->; reflexivity.
    + assert (E10 : 10 ^ Z.of_nat (S (S k)) = 10 * 10 ^ Z.of_nat (S k)) by (rewrite Nat2Z.inj_succ, Z.pow_succ_r; lia). rewrite E10 in H1. clear E10.
      destruct (IH (n / 10) ltac:(lia) ltac:(apply Z.div_lt_upper_bound; lia)) as (N & F & V & Z0).
      split; [destruct (digits k (n / 10)); discriminate|]. split; [apply Forall_app; split; auto; repeat constructor; lia|].
      split; [rewrite value_app, V; cbn [fold_left]; lia|].
      intros Hh. exfalso. destruct (digits k (n / 10)) as [|c s]; [congruence|]. cbn [app hd] in *. specialize (Z0 Hh). injection Z0 as -> ->.
      unfold value in V. cbn [fold_left] in V. lia.
Qed.
Lemma value_bound : forall s, Forall (fun c => 48 <= c <= 57) s -> 0 <= value s.
Proof.
  induction s as [|c s IH] using rev_ind; intros H; [unfold value; cbn; lia|]. apply Forall_app in H. destruct H as [H1 H2]. inversion H2; subst.
  rewrite value_app. cbn [fold_left]. specialize (IH H1). lia.
Qed.
Lemma plain_unique : forall s s' n, plain_number n s -> plain_number n s' -> s = s'.
Proof.
  induction s as [|c s IH] using rev_ind; intros s' n (N & F & V & Z0) (N' & F' & V' & Z0'); [congruence|].
  destruct s' as [|c' s' _] using rev_ind; [congruence|].
  apply Forall_app in F. destruct F as [F1 F2]. apply Forall_app in F'. destruct F' as [F1' F2']. inversion F2; inversion F2'; subst.
  rewrite value_app in V'. rewrite value_app in V'. cbn [fold_left] in V'.
  assert (value s' = value s /\ c' = c) as [Ev ->] by lia.
  f_equal. destruct s as [|a s]; destruct s' as [|a' s']; auto.
  - exfalso. cbn [app hd] in Z0'. unfold value in Ev at 2. cbn [fold_left] in Ev.
    assert (hd 0 (a' :: s') <> 48). { cbn. intros ->. specialize (Z0' eq_refl). destruct s'; discriminate. }
    inversion F1'; subst. unfold value in Ev. cbn [fold_left hd] in *.
    assert (P : forall s u, Forall (fun c => 48 <= c <= 57) s -> 0 < u -> 0 < fold_left (fun a c => 10 * a + (c - 48)) s u).
    { clear. induction s as [|c s IH]; intros u F U; cbn [fold_left]; auto. inversion F; subst. apply IH; auto. lia. }
    pose proof (P s' (10 * 0 + (a' - 48)) ltac:(auto) ltac:(lia)). lia.
  - exfalso. cbn [app hd] in Z0. unfold value in Ev at 1. cbn [fold_left] in Ev.
    assert (hd 0 (a :: s) <> 48). { cbn. intros ->. specialize (Z0 eq_refl). destruct s; discriminate. }
    inversion F1; subst. unfold value in Ev. cbn [fold_left hd] in *.
    assert (P : forall s u, Forall (fun c => 48 <= c <= 57) s -> 0 < u -> 0 < fold_left (fun a c => 10 * a + (c - 48)) s u).
    { clear. induction s as [|c s IH]; intros u F U; cbn [fold_left]; auto. inversion F; subst. apply IH; auto. lia. }
    pose proof (P s (10 * 0 + (a - 48)) ltac:(auto) ltac:(lia)). lia.
  - apply (IH _ (value (a' :: s'))).
    + split; [discriminate|]. split; auto. split; [auto|]. cbn [hd app] in *. intros ->. specialize (Z0 eq_refl). destruct s; discriminate.
    + split; [discriminate|]. split; auto. split; [auto|]. cbn [hd app] in *. intros ->. specialize (Z0' eq_refl). destruct s'; discriminate.
Qed.
Lemma plain_digits : forall n s, 0 <= n < 100000 -> plain_number n s -> precd 1 n = s.
Proof.
  intros n s H P. apply (plain_unique _ _ n); auto. unfold precd. replace (n <? 0) with false by lia. rewrite Z.abs_eq by lia.
  pose proof (digits_plain 10 n ltac:(lia) ltac:(lia)) as Q. destruct (digits 10 n) eqn:E; [destruct Q; congruence|].
  cbn [length Nat.sub repeat app]. exact Q.
Qed.

(** Sundays *)
Lemma sundays_eq : forall k wday, 0 <= wday <= 6 -> sundays (Z.of_nat k) wday = (Z.of_nat k + 7 - wday) / 7.
Proof.
  unfold sundays. induction k as [|k IH]; intros wday H.
  - change (Z.to_nat (Z.of_nat 0)) with 0%nat. cbn [seq filter]. change (Z.of_nat 0) with 0. destruct (_ =? 0) eqn:E; cbn [length]; lia.
  - rewrite Nat2Z.id in *. rewrite seq_S, filter_app, app_length. cbn [plus].
    replace (filter (fun i => (wday - (Z.of_nat (S k) - Z.of_nat i)) mod 7 =? 0) (seq 0 (S k)))
       with (filter (fun i => ((wday + 6) mod 7 - (Z.of_nat k - Z.of_nat i)) mod 7 =? 0) (seq 0 (S k))).
    2: { apply filter_ext. intros i. f_equal. lia. }
    rewrite Nat2Z.inj_add. rewrite IH by lia. cbn [filter]. destruct (_ =? 0) eqn:E; cbn [length]; lia.
Qed.

Ltac i32s := repeat (rewrite i32_ok by lia; cbn [bind]).
Ltac eqbs := repeat (match goal with |- context [Z.eqb (Zpos ?a) (Zpos ?b)] => let v := eval compute in (Z.eqb (Zpos a) (Zpos b)) in change (Z.eqb (Zpos a) (Zpos b)) with v; cbv iota end).

Lemma hour12_ok : forall h, 0 <= h <= 23 -> hour12 h = clock12 h /\ 0 <= clock12 h < 100.
Proof. intros h H. unfold hour12, clock12. cbv zeta. destruct (h =? 0) eqn:E.
  - assert (h = 0) as -> by lia. cbn. lia.
  - destruct (h >? 12) eqn:E1; lia.
Qed.

Lemma conversion_ok : forall l x d s, ftm_ok x -> field l x d s -> conversion l x d = Ok (Some s).
Proof.
  intros l x d s X F. unfold ftm_ok in X. cbv zeta in X. pose proof (hour12_ok (tm_hour (f_tm x)) ltac:(lia)) as [H12 B12].
  induction F; unfold conversion; cbv zeta; eqbs; cbn [orb]; rewrite ?H12; i32s; try reflexivity;
    try (rewrite digits_two by lia; reflexivity); try (rewrite width_two by lia; reflexivity).
  - rewrite (plain_digits _ s) by (auto; lia). reflexivity.
  - rewrite Z.quot_div_nonneg by lia. rewrite digits_two by lia. reflexivity.
  - rewrite Z.rem_mod_nonneg by lia. rewrite digits_two by lia. reflexivity.
  - rewrite digits_three by lia. reflexivity.
  - rewrite Z.quot_div_nonneg by lia. rewrite <- (Z2Nat.id (tm_yday (f_tm x))) at 2 by lia. rewrite sundays_eq by lia. rewrite Z2Nat.id by lia.
    rewrite zero_two by lia. reflexivity.
  - replace (tm_hour (f_tm x) <? 12) with true by lia. reflexivity.
  - replace (tm_hour (f_tm x) <? 12) with false by lia. reflexivity.
  - replace (tm_hour (f_tm x) <? 12) with true by lia. reflexivity.
  - replace (tm_hour (f_tm x) <? 12) with false by lia. reflexivity.
  - replace (tm_wday (f_tm x) <? 0) with false by lia. replace (tm_wday (f_tm x) >? 6) with false by lia. reflexivity.
  - replace (tm_mon (f_tm x) <? 0) with false by lia. replace (tm_mon (f_tm x) >? 11) with false by lia. reflexivity.
  - replace (tm_mon (f_tm x) <? 0) with false by lia. replace (tm_mon (f_tm x) >? 11) with false by lia. reflexivity.
  - replace (tm_mon (f_tm x) <? 0) with false by lia. replace (tm_mon (f_tm x) >? 11) with false by lia. reflexivity.
  - assert (G : 0 <= f_gmtoff x < 360000) by lia. clear - G H. generalize dependent (f_gmtoff x). intros g _ G.
    rewrite (Z.quot_div_nonneg g) by lia. rewrite Z.quot_div_nonneg by lia. rewrite Z.rem_mod_nonneg by lia.
    replace (_ >=? 0) with true by lia. rewrite Z.abs_eq by lia. rewrite zero_four by lia.
    replace ((g / 60 / 60 * 100 + (g / 60) mod 60) / 100) with (g / 3600) by lia. replace ((g / 60 / 60 * 100 + (g / 60) mod 60) mod 100) with (g / 60 mod 60) by lia. reflexivity.
  - assert (G : -360000 < f_gmtoff x <= -60) by lia. clear - G. generalize dependent (f_gmtoff x). intros g G.
    replace (Z.quot g 60) with (- (- g / 60)) by (rewrite <- (Z.quot_div_nonneg (- g)) by lia; rewrite Z.quot_opp_l by lia; lia).
    assert (P : 1 <= - g / 60 < 6000) by lia. replace (- g / 3600) with (- g / 60 / 60) by (rewrite Z.div_div by lia; reflexivity).
    generalize dependent (- g / 60). intros h P. rewrite Z.quot_opp_l by lia. rewrite Z.rem_opp_l by lia. rewrite Z.quot_div_nonneg by lia. rewrite Z.rem_mod_nonneg by lia.
    replace (_ >=? 0) with false by lia. replace (Z.abs (- (h / 60) * 100 + - (h mod 60))) with (h / 60 * 100 + h mod 60) by lia. rewrite zero_four by lia.
    replace ((h / 60 * 100 + h mod 60) / 100) with (h / 60) by lia. replace ((h / 60 * 100 + h mod 60) mod 100) with (h mod 60) by lia. reflexivity.
  - inversion F1; inversion F2; subst. rewrite !digits_two by lia. reflexivity.
  - inversion F1; inversion F2; inversion F3; subst. rewrite !digits_two by lia. reflexivity.
  - inversion F1; inversion F2; inversion F3; subst. rewrite Z.rem_mod_nonneg by lia. replace (tm_year (f_tm x) + 1900) with (1900 + tm_year (f_tm x)) by lia. rewrite !digits_two by lia. reflexivity.
  - inversion F1; inversion F2; inversion F3; subst. rewrite (plain_digits _ a) by (auto; lia). rewrite !digits_two by lia. reflexivity.
  - inversion F1; inversion F2; inversion F3; inversion F4; subst; rewrite !digits_two by lia.
    + replace (tm_hour (f_tm x) <? 12) with true by lia. reflexivity.
    + replace (tm_hour (f_tm x) <? 12) with false by lia. reflexivity.
Qed.

Lemma texts : forall m b n text, Forall2 (piece_text m b n) (map PChar text) (map (fun c => [c]) text).
Proof. induction text; cbn; constructor; auto. constructor. Qed.
Lemma concat_sing : forall text : list Z, concat (map (fun c => [c]) text) = text.
Proof. induction text; cbn; congruence. Qed.

Section Run.
  Variables (dest : Z) (max : nat).
  Definition inv (m0 m : mem) (pre : list Z) : Prop :=
    same_outside m0 m dest (Nat.min (length pre + 1) max) /\ bytes_at m dest pre /\ (length pre <= max)%nat /\ mapped m dest max.

  Lemma inv_start : forall m, mapped m dest max -> inv m m [].
  Proof. intros m H. split; [intros a _; reflexivity|]. split; [intros i Hi; cbn in Hi; lia|]. split; [cbn; lia|auto]. Qed.
  Lemma inv_out : forall m0 m pre, inv m0 m pre -> same_outside m0 m dest max.
  Proof. intros m0 m pre (A & _ & L & _) a Ha. apply A. lia. Qed.

  (** overwriting a part that begins behind the text *)
  Lemma inv_write : forall m0 m m1 pre t, inv m0 m pre -> written m m1 (dest + Z.of_nat (length pre)) t -> (length pre + length t <= max)%nat ->
    forall s u, t = s ++ u -> (length u <= 1)%nat -> inv m0 m1 (pre ++ s).
  Proof.
    intros m0 m m1 pre t (A & B & L & M) (W1 & W2) Hl s u -> Hu. rewrite app_length in Hl. split; [|split; [|split]].
    - intros a Ha. rewrite app_length in Ha. rewrite W2, A; auto; rewrite ?app_length; lia.
    - intros i Hi. rewrite app_length in Hi. destruct (Nat.lt_ge_cases i (length pre)).
      + rewrite W2 by (rewrite app_length; lia). rewrite nth_error_app1 by lia. apply B. auto.
      + rewrite nth_error_app2 by lia. replace (dest + Z.of_nat i) with (dest + Z.of_nat (length pre) + Z.of_nat (i - length pre)) by lia.
        rewrite W1 by (rewrite app_length; lia). apply nth_error_app1. lia.
    - rewrite app_length. lia.
    - intros i Hi. destruct (Nat.lt_ge_cases i (length pre)) as [H|H].
      + rewrite W2 by (rewrite app_length; lia). apply M. lia.
      + destruct (Nat.lt_ge_cases i (length pre + length (s ++ u))) as [H1|H1].
        * replace (dest + Z.of_nat i) with (dest + Z.of_nat (length pre) + Z.of_nat (i - length pre)) by lia. rewrite W1 by lia. apply nth_error_Some. lia.
        * rewrite W2 by lia. apply M. lia.
  Qed.
  Lemma put_ok : forall m0 m pre text, inv m0 m pre ->
    (exists m1, put dest max m (length pre) text = Ok (Next m1 (length (pre ++ text))) /\ inv m0 m1 (pre ++ text) /\ (length (pre ++ text) < max)%nat) \/
    (exists m1, put dest max m (length pre) text = Ok (Return m1 0) /\ same_outside m0 m1 dest max /\ (max <= length (pre ++ text))%nat).
  Proof.
    intros m0 m pre text I. pose proof I as (A & B & L & M). unfold put.
    destruct (vsnprintf_ok m (dest + Z.of_nat (length pre)) (max - length pre) (map PChar text) (map (fun c => [c]) text)) as (m1 & E & W); [|apply texts|].
    { intros i Hi. rewrite <- Z.add_assoc, <- Nat2Z.inj_add. apply M. lia. }
    rewrite concat_sing in *. rewrite E. cbn [bind]. rewrite app_length. destruct (max - length pre <=? length text)%nat eqn:C.
    - right. exists m1. split; auto. split; [|apply Nat.leb_le in C; lia]. destruct W as [W1 W2]. intros a Ha. rewrite W2, (inv_out _ _ _ I); auto.
      unfold truncated in *. destruct (max - length pre)%nat eqn:E1; cbn [length]; [lia|]. rewrite app_length, firstn_length. cbn [length]. lia.
    - left. apply Nat.leb_gt in C. exists m1. split; auto. split; [|lia].
      apply (inv_write m0 m m1 pre (text ++ [0]) I) with (u := [0]); auto.
      + unfold truncated in W. destruct (max - length pre)%nat eqn:E1; [lia|]. rewrite firstn_all2 in W by lia. exact W.
      + rewrite app_length. cbn. lia.
  Qed.
  Lemma store_written : forall m a v, m a <> None -> exists m1, store m a v = Ok m1 /\ written m m1 a [v].
  Proof.
    intros m a v H. rewrite store_ok by auto. eexists. split; [reflexivity|]. split.
    - intros i Hi. cbn in Hi. assert (i = 0%nat) as -> by lia. unfold upd. cbn. replace (a + 0 =? a) with true by lia. reflexivity.
    - intros b Hb. cbn in Hb. unfold upd. replace (b =? a) with false by lia. reflexivity.
  Qed.
  Lemma inv_store : forall m0 m pre c, inv m0 m pre -> (length pre < max)%nat -> exists m1, store m (dest + Z.of_nat (length pre)) c = Ok m1 /\ inv m0 m1 (pre ++ [c]).
  Proof.
    intros m0 m pre c I L. destruct (store_written m (dest + Z.of_nat (length pre)) c) as (m1 & E & W).
    { destruct I as (_ & _ & _ & M). apply M. auto. }
    exists m1. split; auto. apply (inv_write m0 m m1 pre [c] I W) with (u := []); [cbn; lia|rewrite app_nil_r; auto|cbn; lia].
  Qed.

  Variables (l : locale) (x : ftm).
  Variable again : mem -> list Z -> res (mem * nat).
  Definition result (m0 : mem) (out : list Z) (r : res (mem * nat)) : Prop :=
    if (length out <? max)%nat then exists m', r = Ok (m', length out) /\ written m0 m' dest (out ++ [0])
    else exists m', r = Ok (m', 0%nat) /\ same_outside m0 m' dest max.

  Lemma no_special : forall d s, ftm_ok x -> field l x d s -> forall m k, directive l x dest max again m k d = put dest max m k s.
  Proof. intros d s X F m k. unfold directive. rewrite (conversion_ok _ _ _ _ X F). reflexivity. Qed.
  Lemma field_not_mod : forall d s, field l x d s -> (d =? 79) || (d =? 69) = false.
  Proof. intros d s F. destruct F; reflexivity. Qed.
  Lemma in_mem : forall c L, In c L -> mem_z c L = true.
  Proof. intros c L H. unfold mem_z. apply existsb_exists. exists c. split; auto. apply Z.eqb_refl. Qed.

  Lemma loop_ok : ftm_ok x -> forall fmt out, formatted l x fmt out -> forall m0 m pre, inv m0 m pre ->
    result m0 (pre ++ out) (loop l x dest max again m (length pre) fmt).
  Proof.
    intros X fmt out F. induction F as [|c r o Hc F IH|d s r o Fd F IH|d s r o Hd Fd F IH|d s r o Hd Fd F IH]; intros m0 m pre I; pose proof I as (A & B & L & M).
    - cbn [loop]. rewrite app_nil_r. unfold result. destruct (length pre =? max)%nat eqn:E.
      + apply Nat.eqb_eq in E. replace (length pre <? max)%nat with false by (symmetry; apply Nat.ltb_ge; lia). exists m. split; auto. eapply inv_out; eauto.
      + apply Nat.eqb_neq in E. replace (length pre <? max)%nat with true by (symmetry; apply Nat.ltb_lt; lia).
        destruct (store_written m (dest + Z.of_nat (length pre)) 0) as (m1 & -> & W1 & W2); [apply M; lia|]. cbn [bind]. exists m1. split; auto. split.
        * apply bytes_at_app. split; auto. intros i Hi. rewrite W2 by (cbn; lia). apply B. auto.
        * intros a Ha. rewrite app_length in Ha. cbn in Ha. rewrite W2 by (cbn; lia). apply A. lia.
    - cbn [loop]. replace (max <? length pre)%nat with false by (symmetry; apply Nat.ltb_ge; lia). replace (c =? 37) with false by lia. cbn [negb].
      destruct (length pre =? max)%nat eqn:E.
      + apply Nat.eqb_eq in E. unfold result. rewrite app_length. replace (length pre + length (c :: o) <? max)%nat with false by (symmetry; apply Nat.ltb_ge; lia). exists m. split; auto. eapply inv_out; eauto.
      + apply Nat.eqb_neq in E. destruct (inv_store m0 m pre c I ltac:(lia)) as (m1 & -> & I1). cbn [bind].
        specialize (IH m0 m1 (pre ++ [c]) I1). rewrite app_length in IH. cbn [length] in IH. rewrite <- app_assoc in IH. exact IH.
    - cbn [loop]. replace (max <? length pre)%nat with false by (symmetry; apply Nat.ltb_ge; lia). cbn [Z.eqb Pos.eqb negb]. rewrite (field_not_mod _ _ Fd).
      rewrite (no_special _ _ X Fd). destruct (put_ok m0 m pre s I) as [(m1 & -> & I1 & _)|(m1 & -> & S1 & Hl)]; cbn [bind].
      + specialize (IH m0 m1 (pre ++ s) I1). rewrite <- app_assoc in IH. exact IH.
      + unfold result. rewrite app_assoc, app_length. replace (_ <? max)%nat with false by (symmetry; apply Nat.ltb_ge; lia). eauto.
    - cbn [loop]. replace (max <? length pre)%nat with false by (symmetry; apply Nat.ltb_ge; lia). cbn [Z.eqb Pos.eqb negb orb].
      rewrite (in_mem d valid_O) by (unfold valid_O; cbn in *; intuition).
      rewrite (no_special _ _ X Fd). destruct (put_ok m0 m pre s I) as [(m1 & -> & I1 & _)|(m1 & -> & S1 & Hl)]; cbn [bind].
      + specialize (IH m0 m1 (pre ++ s) I1). rewrite <- app_assoc in IH. exact IH.
      + unfold result. rewrite app_assoc, app_length. replace (_ <? max)%nat with false by (symmetry; apply Nat.ltb_ge; lia). eauto.
    - cbn [loop]. replace (max <? length pre)%nat with false by (symmetry; apply Nat.ltb_ge; lia). cbn [Z.eqb Pos.eqb negb orb].
      rewrite (in_mem d valid_E) by (unfold valid_E; cbn in *; intuition).
      rewrite (no_special _ _ X Fd). destruct (put_ok m0 m pre s I) as [(m1 & -> & I1 & _)|(m1 & -> & S1 & Hl)]; cbn [bind].
      + specialize (IH m0 m1 (pre ++ s) I1). rewrite <- app_assoc in IH. exact IH.
      + unfold result. rewrite app_assoc, app_length. replace (_ <? max)%nat with false by (symmetry; apply Nat.ltb_ge; lia). eauto.
  Qed.

  (** safety for any format *)
  Definition safe (m0 : mem) (r : res (mem * nat)) : Prop :=
    match r with
    | Ok (m', n) => same_outside m0 m' dest max /\ (n = 0%nat \/ (n < max)%nat /\ m' (dest + Z.of_nat n) = Some 0)
    | Abort => True
    | UB | Fuel => False
    end.
  Hypothesis again_safe : forall m f, mapped m dest max -> f = l_dt l \/ f = l_d l \/ f = l_t l -> safe m (again m f).
  Lemma safe_from : forall m0 m r, same_outside m0 m dest max -> safe m r -> safe m0 r.
  Proof. intros m0 m [[m' n]| | |] H; cbn; auto. intros [A B]. split; auto. intros a Ha. rewrite A, H; auto. Qed.
  Lemma conversion_safe : ftm_ok x -> forall d, conversion l x d <> UB /\ conversion l x d <> Fuel.
  Proof.
    intros X d. unfold ftm_ok in X. cbv zeta in X. unfold conversion. cbv zeta. i32s.
    repeat match goal with |- context [if ?b then _ else _] => match b with context [d] => destruct b end end; cbn [bind]; i32s; try (split; discriminate).
    all: match goal with |- context [if ?b then _ else _] => destruct b end; split; discriminate.
  Qed.
  Lemma directive_safe : ftm_ok x -> forall m0 m pre d, inv m0 m pre ->
    match directive l x dest max again m (length pre) d with
    | Ok (Next m1 k) => exists s, inv m0 m1 (pre ++ s) /\ k = length (pre ++ s)
    | Ok (Return m1 n) => safe m0 (Ok (m1, n))
    | Abort => True
    | UB | Fuel => False
    end.
  Proof.
    intros X m0 m pre d I. unfold directive. destruct (conversion_safe X d) as [N1 N2]. destruct (conversion l x d) as [[s|]| | |]; cbn [bind]; try congruence; auto.
    - destruct (put_ok m0 m pre s I) as [(m1 & -> & I1 & _)|(m1 & -> & S1 & Hl)]; [eauto|]. cbn. split; auto.
    - assert (Q : forall f, f = l_dt l \/ f = l_d l \/ f = l_t l ->
        match (let res := again m f in '(m1, n) <- res ;; Ok (Return m1 n)) with
        | Ok (Next m1 k) => exists s, inv m0 m1 (pre ++ s) /\ k = length (pre ++ s) | Ok (Return m1 n) => safe m0 (Ok (m1, n)) | Abort => True | UB | Fuel => False end).
      { intros f Hf. pose proof (again_safe m f ltac:(apply I) Hf) as S1. apply (safe_from m0) in S1; [|eapply inv_out; eauto]. cbv zeta. destruct (again m f) as [[m1 n]| | |]; cbn in *; auto. }
      destruct (d =? 99); [apply (Q (l_dt l)); auto|]. destruct (d =? 120); [apply (Q (l_d l)); auto|]. destruct (d =? 88); [apply (Q (l_t l)); auto|]. exact Logic.I.
  Qed.
  Lemma loop_safe : ftm_ok x -> forall fmt, proper valid_O valid_E fmt -> forall m0 m pre, inv m0 m pre -> safe m0 (loop l x dest max again m (length pre) fmt).
  Proof.
    intros X fmt P. induction P as [| |c r Hc P IH|d r H1 H2 P IH|d r Hd P IH|d r Hd P IH]; intros m0 m pre I; pose proof I as (A & B & L & M).
    - cbn [loop]. destruct (length pre =? max)%nat eqn:E; [cbn; split; [eapply inv_out; eauto|auto]|]. apply Nat.eqb_neq in E.
      destruct (store_written m (dest + Z.of_nat (length pre)) 0) as (m1 & -> & W1 & W2); [apply M; lia|]. cbn. split.
      + intros a Ha. rewrite W2 by (cbn; lia). apply A. lia.
      + right. split; [lia|]. specialize (W1 0%nat ltac:(cbn; lia)). rewrite Z.add_0_r in W1. exact W1.
    - cbn [loop]. replace (max <? length pre)%nat with false by (symmetry; apply Nat.ltb_ge; lia). cbn [Z.eqb Pos.eqb negb].
      destruct (put_ok m0 m pre [37] I) as [(m1 & -> & (A1 & B1 & L1 & M1) & Hl)|(m1 & -> & S1 & Hl)]; cbn [bind]; [|cbn; auto].
      replace (Nat.eqb (length (pre ++ [37])) max) with false by (symmetry; apply Nat.eqb_neq; lia).
      destruct (store_written m1 (dest + Z.of_nat (length (pre ++ [37]))) 0) as (m2 & -> & W1 & W2); [apply M1; lia|]. cbn [bind safe]. split.
      + intros a Ha. rewrite W2 by (cbn [length]; lia). apply A1. lia.
      + right. split; [lia|]. specialize (W1 0%nat ltac:(cbn; lia)). rewrite Z.add_0_r in W1. exact W1.
    - cbn [loop]. replace (max <? length pre)%nat with false by (symmetry; apply Nat.ltb_ge; lia). replace (c =? 37) with false by lia. cbn [negb].
      destruct (length pre =? max)%nat eqn:E; [cbn; split; [eapply inv_out; eauto|auto]|]. apply Nat.eqb_neq in E.
      destruct (inv_store m0 m pre c I ltac:(lia)) as (m1 & -> & I1). cbn [bind]. specialize (IH m0 m1 (pre ++ [c]) I1). rewrite app_length in IH. exact IH.
    - cbn [loop]. replace (max <? length pre)%nat with false by (symmetry; apply Nat.ltb_ge; lia). cbn [Z.eqb Pos.eqb negb].
      replace (d =? 79) with false by lia. replace (d =? 69) with false by lia. cbn [orb].
      pose proof (directive_safe X m0 m pre d I) as D. destruct (directive l x dest max again m (length pre) d) as [[m1 k|m1 n]| | |]; cbn [bind]; auto.
      destruct D as (s & I1 & ->). apply IH. auto.
    - cbn [loop]. replace (max <? length pre)%nat with false by (symmetry; apply Nat.ltb_ge; lia). cbn [Z.eqb Pos.eqb negb orb]. rewrite in_mem by auto.
      pose proof (directive_safe X m0 m pre d I) as D. destruct (directive l x dest max again m (length pre) d) as [[m1 k|m1 n]| | |]; cbn [bind]; auto.
      destruct D as (s & I1 & ->). apply IH. auto.
    - cbn [loop]. replace (max <? length pre)%nat with false by (symmetry; apply Nat.ltb_ge; lia). cbn [Z.eqb Pos.eqb negb orb]. rewrite in_mem by auto.
      pose proof (directive_safe X m0 m pre d I) as D. destruct (directive l x dest max again m (length pre) d) as [[m1 k|m1 n]| | |]; cbn [bind]; auto.
      destruct D as (s & I1 & ->). apply IH. auto.
  Qed.
End Run.

Lemma strftime_ok : forall depth l x dest max m fmt out, ftm_ok x -> formatted l x fmt out -> mapped m dest max ->
  result dest max m out (strftime (S depth) l m dest max fmt x).
Proof. intros depth l x dest max m fmt out X F M. cbn [strftime]. change 0%nat with (length (@nil Z)). change out with ([] ++ out). apply loop_ok; auto. apply inv_start; auto. Qed.
Lemma result_safe : forall dest max m out r, result dest max m out r -> safe dest max m r.
Proof.
  intros dest max m out r H. unfold result in H. destruct (length out <? max)%nat eqn:E.
  - apply Nat.ltb_lt in E. destruct H as (m' & -> & W1 & W2). cbn. split.
    + intros a Ha. apply W2. rewrite app_length. cbn [length]. lia.
    + right. split; auto. rewrite W1 by (rewrite app_length; cbn; lia). rewrite nth_error_app2 by lia. rewrite Nat.sub_diag. reflexivity.
  - destruct H as (m' & -> & S1). cbn. auto.
Qed.
Lemma strftime_safe : forall l x dest max o1 o2 o3, ftm_ok x -> formatted l x (l_dt l) o1 -> formatted l x (l_d l) o2 -> formatted l x (l_t l) o3 ->
  forall depth m fmt, proper valid_O valid_E fmt -> mapped m dest max -> safe dest max m (strftime (S (S depth)) l m dest max fmt x).
Proof.
  intros l x dest max o1 o2 o3 X P1 P2 P3 depth m fmt P M. set (d := S depth). cbn [strftime].
  change 0%nat with (length (@nil Z)). apply loop_safe; auto.
  - intros m1 f M1 [->|[->| ->]]; eapply result_safe; apply strftime_ok; eauto.
  - apply inv_start. auto.
Qed.
(** %c, %x and %X alone *)
Lemma composite : forall l x dest max o, ftm_ok x -> forall depth m d f, (d, f) = (99, l_dt l) \/ (d, f) = (120, l_d l) \/ (d, f) = (88, l_t l) ->
  formatted l x f o -> mapped m dest max -> result dest max m o (strftime (S (S depth)) l m dest max [37; d] x).
Proof.
  intros l x dest max o X depth m d f H F M. pose proof (strftime_ok depth l x dest max m f o X F M) as R.
  set (dd := S depth) in *. cbn [strftime loop]. replace (max <? 0)%nat with false by (symmetry; apply Nat.ltb_ge; lia). cbn [Z.eqb Pos.eqb negb].
  assert (E : directive l x dest max (fun m f => strftime dd l m dest max f x) m 0 d = ('(m1, n) <- strftime dd l m dest max f x ;; Ok (Return m1 n))).
  { destruct H as [H|[H|H]]; injection H as -> ->; reflexivity. }
  replace ((d =? 79) || (d =? 69)) with false by (destruct H as [H|[H|H]]; injection H as -> ->; reflexivity). rewrite E.
  destruct (strftime dd l m dest max f x) as [[m1 n]| | |]; exact R.
Qed.
Lemma store_list_ok : forall t m p, mapped m p (length t) -> exists m', store_list m p t = Ok m' /\ written m m' p t.
Proof.
  induction t as [|c t IH]; intros m p M; cbn [store_list].
  - exists m. split; auto. split; [intros i Hi; cbn in Hi; lia|intros a _; reflexivity].
  - assert (Hp : m p <> None) by (replace p with (p + Z.of_nat 0) by lia; apply M; cbn; lia). destruct (store_written m p c Hp) as (m1 & -> & W1 & W2). cbn [bind].
    destruct (IH m1 (p + 1)) as (m2 & -> & V1 & V2).
    { intros i Hi. rewrite W2 by (cbn; lia). replace (p + 1 + Z.of_nat i) with (p + Z.of_nat (S i)) by lia. apply M. cbn. lia. }
    exists m2. split; auto. split.
    + intros i Hi. destruct i as [|i].
      * rewrite V2 by lia. specialize (W1 0%nat ltac:(cbn; lia)). exact W1.
      * replace (p + Z.of_nat (S i)) with (p + 1 + Z.of_nat i) by lia. cbn [nth_error]. apply V1. cbn in Hi. lia.
    + intros a Ha. cbn [length] in Ha. rewrite V2 by lia. apply W2. cbn. lia.
Qed.
