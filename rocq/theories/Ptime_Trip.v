(** What strftime stores, strptime reads back. *)
From Verif Require Import Base Time_Model Time_Spec Ptime_Model Ptime_Spec Ptime_Proof.
From Verif Require Ftime_Model Ftime_Spec Ftime_Proof.
Open Scope Z_scope.
Import Ftime_Model(f_tm, l_abday, l_day, l_abmon, l_mon).
Notation fld := (Ftime_Spec.field CL).

(** what the conversion %d stores if it reads what strftime wrote *)
Definition val (t : tm) (d : Z) : assign :=
  if d =? 89 then Year (1900 + tm_year t)
  else if (d =? 109) || (d =? 98) || (d =? 104) || (d =? 66) then Mon (tm_mon t)
  else if (d =? 100) || (d =? 101) then Mday (tm_mday t)
  else if d =? 72 then Hour (tm_hour t)
  else if d =? 77 then Minute (tm_min t)
  else if d =? 83 then Sec (tm_sec t)
  else Wday (tm_wday t).

Lemma two_reads n r : 0 <= n <= 99 -> no_more numeral r -> reads_number 2 (Ftime_Spec.two n ++ r) r n.
Proof.
  intros N R. exists [], (Ftime_Spec.two n). unfold Ftime_Spec.two. split; [reflexivity|]. split; [constructor|]. split; [discriminate|].
  split; [repeat constructor; unfold numeral; lia|]. split; [exact R|]. split; [cbn; lia|]. unfold value. cbn [fold_left]. lia.
Qed.
Lemma two_first n : 0 <= n -> no_more space (Ftime_Spec.two n).
Proof. intros H. unfold Ftime_Spec.two, space. cbn [no_more]. pose proof (Z.div_pos n 10). lia. Qed.
Lemma plain_short n s : 0 <= n <= 9999 -> Ftime_Spec.plain_number n s -> (length s <= 4)%nat.
Proof.
  intros N P. rewrite <- (Ftime_Proof.plain_digits n s) by (auto; lia). unfold Ftime_Model.precd. replace (n <? 0) with false by lia. rewrite Z.abs_eq by lia. cbn [app].
  assert (L : forall k a, 0 <= a < 10 ^ Z.of_nat (S k) -> (1 <= length (Ftime_Model.digits (k + 7) a) <= S k)%nat).
  { induction k as [|k IH]; intros a A.
    - change (10 ^ Z.of_nat 1) with 10 in A. cbn [Nat.add Ftime_Model.digits]. replace (a <? 10) with true by lia. cbn. lia.
    - cbn [Nat.add Ftime_Model.digits]. destruct (a <? 10) eqn:E; [cbn; lia|]. rewrite app_length. cbn [length].
      specialize (IH (a / 10)). replace (Z.of_nat (S (S k))) with (1 + Z.of_nat (S k)) in A by lia. rewrite Z.pow_add_r in A by lia. change (10 ^ 1) with 10 in A.
      assert (0 <= a / 10 < 10 ^ Z.of_nat (S k)) by (split; [apply Z.div_pos; lia|apply Z.div_lt_upper_bound; lia]). specialize (IH H). lia. }
  specialize (L 3%nat n ltac:(cbn; lia)). cbn [Nat.add] in L. rewrite app_length, repeat_length. lia.
Qed.

Lemma field_reads x d s : In d convs -> Ftime_Spec.ftm_ok x -> fld x d s -> forall r, no_more numeral r -> no_more letter r ->
  exists ws s', s = ws ++ s' /\ Forall space ws /\ s' <> [] /\ no_more space s' /\ conv d (s ++ r) r [val (f_tm x) d] /\ conv d (s' ++ r) r [val (f_tm x) d].
Proof.
  intros D X F r R1 R2. unfold Ftime_Spec.ftm_ok in X. set (t := f_tm x) in *.
  assert (TW : forall n k a, 0 <= n <= 99 -> s = Ftime_Spec.two n -> (forall inp, reads_number 2 inp r n -> simple k inp r [a]) ->
    exists ws s', s = ws ++ s' /\ Forall space ws /\ s' <> [] /\ no_more space s' /\ conv k (s ++ r) r [a] /\ conv k (s' ++ r) r [a]).
  { intros n k a B -> H. exists [], (Ftime_Spec.two n). split; [reflexivity|]. split; [constructor|]. split; [discriminate|]. split; [apply two_first; lia|].
    split; apply c_simple, H, two_reads; assumption. }
  assert (NM : forall names i full k a, 0 <= i -> (Z.to_nat i < length names)%nat -> apart names = true -> (s = nth (Z.to_nat i) names [] \/ s = firstn 3 (nth (Z.to_nat i) names [])) ->
    (forall inp, reads_name names inp r i -> simple k inp r [a]) -> full = 0 ->
    exists ws s', s = ws ++ s' /\ Forall space ws /\ s' <> [] /\ no_more space s' /\ conv k (s ++ r) r [a] /\ conv k (s' ++ r) r [a]).
  { intros names i full k a I L A SS H _. pose proof (nth_error_nth' names [] L) as E. unfold apart in A. apply andb_true_iff in A as [_ A]. rewrite forallb_forall in A.
    specialize (A _ (nth_error_In _ _ E)). apply andb_true_iff in A as [A1 A2]. apply Nat.leb_le in A1.
    exists [], s. split; [reflexivity|]. split; [constructor|].
    assert (NE : s <> [] /\ no_more space s).
    { destruct (nth (Z.to_nat i) names []) as [|c n] eqn:Q; [cbn in A1; lia|]. cbn [forallb] in A2. destruct SS as [->| ->]; cbn; split; try discriminate; unfold space; lia. }
    split; [apply NE|]. split; [apply NE|].
    assert (RN : reads_name names (s ++ r) r i).
    { exists s, (nth (Z.to_nat i) names []). split; [reflexivity|]. split; [exact I|]. split; [exact E|]. destruct SS as [->| ->]; [left; reflexivity|right; split; [reflexivity|exact R2]]. }
    split; apply c_simple, H, RN. }
  destruct F; cbn [In convs] in D; try (exfalso; lia); fold t.
  - exists [], s. fold t in H. pose proof H as (P1 & P2 & P3 & P4). split; [reflexivity|]. split; [constructor|]. split; [exact P1|].
    split; [destruct s as [|c s]; [congruence|]; inversion P2; subst; cbn; unfold space; lia|].
    assert (RN : reads_number 4 (s ++ r) r (1900 + tm_year t)).
    { exists [], s. split; [reflexivity|]. split; [constructor|]. split; [exact P1|]. split; [exact P2|]. split; [exact R1|]. split; [exact (plain_short (1900 + tm_year t) s ltac:(lia) H)|]. rewrite <- P3. reflexivity. }
    split; apply c_simple, s_year, RN.
  - apply (TW (tm_mon t + 1) 109); [lia|reflexivity|]. intros inp H. unfold val. cbn [Z.eqb Pos.eqb orb]. replace (tm_mon t) with (tm_mon t + 1 - 1) by lia. apply s_mon; [|lia].
    replace (tm_mon t + 1 - 1 + 1) with (tm_mon t + 1) by lia. exact H.
  - apply (TW (tm_mday t) 100); [lia|reflexivity|]. intros inp H. apply s_mday; [cbn; auto|exact H|lia].
  - assert (Q : Ftime_Spec.padded (tm_mday t) = (if tm_mday t <? 10 then [32] else []) ++ (if tm_mday t <? 10 then [48 + tm_mday t] else Ftime_Spec.two (tm_mday t))).
    { unfold Ftime_Spec.padded, Ftime_Spec.two. destruct (tm_mday t <? 10) eqn:E; cbn [app]; [|reflexivity]. rewrite Z.mod_small by lia. reflexivity. }
    rewrite Q. clear Q. eexists _, _. split; [reflexivity|]. destruct (tm_mday t <? 10) eqn:E.
    + split; [repeat constructor; unfold space; lia|]. split; [discriminate|]. split; [cbn [no_more]; unfold space; lia|].
      split; apply c_simple, s_mday; cbn [In]; auto; try lia.
      * exists [32], [48 + tm_mday t]. split; [reflexivity|]. split; [repeat constructor; unfold space; lia|]. split; [discriminate|]. split; [repeat constructor; unfold numeral; lia|]. split; [exact R1|]. split; [cbn; lia|]. unfold value. cbn [fold_left]. lia.
      * exists [], [48 + tm_mday t]. split; [reflexivity|]. split; [constructor|]. split; [discriminate|]. split; [repeat constructor; unfold numeral; lia|]. split; [exact R1|]. split; [cbn; lia|]. unfold value. cbn [fold_left]. lia.
    + split; [constructor|]. split; [discriminate|]. split; [apply two_first; lia|]. cbn [app].
      split; apply c_simple, s_mday; cbn [In]; auto; try lia; apply two_reads; try lia; assumption.
  - apply (TW (tm_hour t) 72); [lia|reflexivity|]. intros inp H. apply s_hour; [exact H|lia].
  - apply (TW (tm_min t) 77); [lia|reflexivity|]. intros inp H. apply s_min; [exact H|lia].
  - apply (TW (tm_sec t) 83); [lia|reflexivity|]. intros inp H. apply s_sec; [exact H|lia].
  - apply (NM days (tm_wday t) 0 97); [lia|cbn; lia|exact apart_days|right; reflexivity| |reflexivity]. intros inp H. apply (s_day 97); [cbn; auto|exact H].
  - apply (NM days (tm_wday t) 0 65); [lia|cbn; lia|exact apart_days|left; reflexivity| |reflexivity]. intros inp H. apply (s_day 65); [cbn; auto|exact H].
  - apply (NM months (tm_mon t) 0 98); [lia|cbn; lia|exact apart_months|right; reflexivity| |reflexivity]. intros inp H. apply (s_month 98); [cbn; auto|exact H].
  - apply (NM months (tm_mon t) 0 104); [lia|cbn; lia|exact apart_months|right; reflexivity| |reflexivity]. intros inp H. apply (s_month 104); [cbn; auto|exact H].
  - apply (NM months (tm_mon t) 0 66); [lia|cbn; lia|exact apart_months|left; reflexivity| |reflexivity]. intros inp H. apply (s_month 66); [cbn; auto|exact H].
Qed.

Lemma formatted_conv l x d f out : ~ In d [79; 69] -> Ftime_Spec.formatted l x (37 :: d :: f) out -> exists s o, Ftime_Spec.field l x d s /\ Ftime_Spec.formatted l x f o /\ out = s ++ o.
Proof.
  intros D F. inversion F; subst; try congruence; try (exfalso; apply D; cbn; auto; fail). eauto.
Qed.
Lemma convs_plain d : In d convs -> ~ In d [79; 69].
Proof. unfold convs. cbn [In]. lia. Qed.

Lemma tidy_reads x f ds : Ftime_Spec.ftm_ok x -> tidy f ds -> forall out, Ftime_Spec.formatted CL x f out ->
  exists ws out', out = ws ++ out' /\ Forall space ws /\ out' <> [] /\ no_more space out' /\ reads conv f out [] (map (val (f_tm x)) ds) /\ reads conv f out' [] (map (val (f_tm x)) ds).
Proof.
  intros X T. induction T as [d D|d c f ds D C1 C2 C3 _ IH]; intros out F.
  - apply formatted_conv in F as (s & o & F1 & F2 & ->); [|apply convs_plain, D]. inversion F2; subst. 
    destruct (field_reads x d s D X F1 [] I I) as (ws & s' & -> & W & NE & N & R1 & R2). rewrite !app_nil_r in *. exists ws, s'. split; [reflexivity|]. split; [exact W|]. split; [exact NE|]. split; [exact N|].
    split; cbn [map]; [apply (r_conv conv d [] _ [] [] [val (f_tm x) d] [] R1)|apply (r_conv conv d [] _ [] [] [val (f_tm x) d] [] R2)]; apply r_end.
  - apply formatted_conv in F as (s & o & F1 & F2 & ->); [|apply convs_plain, D]. inversion F2 as [|c' f' o' _ F3| | |]; subst; try congruence. rename o' into o.
    destruct (field_reads x d s D X F1 (c :: o) C2 C3) as (ws & s' & -> & W & NE & N & R1 & R2).
    destruct (IH o F3) as (wo & oo & -> & WO & NEO & NO & RO1 & RO2).
    assert (RC : reads conv (c :: f) (c :: wo ++ oo) [] (map (val (f_tm x)) ds)).
    { destruct (Ptime_Proof.space_ok c) as [S1 S2]. destruct (Scanf_Model.is_space c) eqn:E.
      - change (c :: wo ++ oo) with ((c :: wo) ++ oo). apply r_space; [apply S1; reflexivity|constructor; [apply S1; reflexivity|exact WO]|exact NO|exact RO2].
      - apply r_char; [exact C1|intros H; apply S2 in H; congruence|exact RO1]. }
    exists ws, (s' ++ c :: wo ++ oo). split; [rewrite <- app_assoc; reflexivity|]. split; [exact W|]. split; [destruct s'; [congruence|discriminate]|].
    split; [destruct s'; [congruence|exact N]|]. cbn [map].
    split; [exact (r_conv conv d (c :: f) _ _ [] [val (f_tm x) d] _ R1 RC)|exact (r_conv conv d (c :: f) _ _ [] [val (f_tm x) d] _ R2 RC)].
Qed.

(** one member of the result *)
Lemma fold_same {T A} (stp : T -> A -> T) (pr : T -> Z) v (p : A -> bool) l : forall t,
  Forall (fun a => (p a = true -> forall t, pr (stp t a) = v) /\ (p a = false -> forall t, pr (stp t a) = pr t)) l ->
  existsb p l = true \/ pr t = v -> pr (fold_left stp l t) = v.
Proof.
  induction l as [|a l IH]; intros t F H; [destruct H as [H|H]; [discriminate|exact H]|]. inversion F as [|? ? [F1 F2] F3]; subst. cbn [fold_left]. apply IH; [exact F3|].
  cbn [existsb] in H. destruct (p a) eqn:E; [right; apply F1; reflexivity|]. cbn [orb] in H. destruct H as [H|H]; [left; exact H|right; rewrite F2 by reflexivity; exact H].
Qed.
Lemma vals (P : assign -> Prop) t ds : (forall d, In d convs -> P (val t d)) -> Forall (fun d => In d convs) ds -> Forall P (map (val t) ds).
Proof. intros H. induction 1 as [|d ds D _ IH]; cbn [map]; constructor; auto. Qed.
Lemma has_val (p : assign -> bool) t ds d : In d ds -> p (val t d) = true -> existsb p (map (val t) ds) = true.
Proof. intros I P. apply existsb_exists. exists (val t d). split; [apply in_map, I|exact P]. Qed.
Lemma tidy_convs f ds : tidy f ds -> Forall (fun d => In d convs) ds.
Proof. induction 1 as [d D|d c f ds D _ _ _ _ IH]; [apply Forall_cons; [exact D|apply Forall_nil]|apply Forall_cons; assumption]. Qed.
Ltac each := intros dd Hd; unfold convs in Hd; cbn [In] in Hd; repeat (destruct Hd as [<-|Hd]; [cbn; try tauto; try congruence; auto; try (split; intros; cbn; congruence)|]); destruct Hd.

Lemma trip_ok x f ds out t0 : Ftime_Spec.ftm_ok x -> tidy f ds -> Ftime_Spec.formatted CL x f out -> 0 <= tm_hour t0 ->
  exists t, strptime CL out f t0 = Ok (Some (t, [])) /\ forall d, In d ds -> member d t = member d (f_tm x).
Proof.
  intros X T F H0. destruct (tidy_reads x f ds X T out F) as (ws & out' & -> & W & NE & N & _ & R).
  pose proof (tidy_convs f ds T) as DS. set (t := f_tm x) in *.
  exists (result t0 (ws ++ out') (map (val t) ds) []). split; [exact (strptime_ok t0 ws out' [] f _ W NE N R)|]. intros d D.
  assert (HH : Forall hour_ok (map (val t) ds)). { apply vals; [|exact DS]. unfold Ftime_Spec.ftm_ok in X. fold t in X. each. }
  destruct (result_plain t0 (ws ++ out') (map (val t) ds) [] H0 HH) as (P1 & P2 & P3 & P4 & P5).
  assert (G : forall (pr : tm -> Z) v p, (forall d, In d convs -> (p (val t d) = true -> forall u, pr (store1 u (val t d)) = v) /\ (p (val t d) = false -> forall u, pr (store1 u (val t d)) = pr u)) ->
    p (val t d) = true -> pr (stored t0 (map (val t) ds)) = v).
  { intros pr v p HP HD. unfold stored. apply (fold_same store1 pr v p); [apply vals; [exact HP|exact DS]|left; apply (has_val p t ds d D HD)]. }
  rewrite Forall_forall in DS. assert (DC := DS d D). unfold convs in DC. cbn [In] in DC.
  repeat (destruct DC as [<-|DC]; [|]); [..|destruct DC]; unfold member; cbn [Z.eqb Pos.eqb orb].
  - (* year *)
    unfold result, to_tm. cbn [tm_year]. destruct (finish_fields (set_rest (run (init t0 (ws ++ out')) (map (val t) ds)) [])) as (_ & _ & _ & _ & _ & -> & _).
    cbn [set_rest has_century full_year century has_year year]. destruct (run_flags (map (val t) ds) (init t0 (ws ++ out'))) as (_ & _ & _ & _ & -> & -> & _).
    rewrite (has_val is_full t ds 89 D eq_refl). cbn [orb negb]. rewrite andb_false_r. unfold run.
    rewrite (fold_same step year (tm_year t) is_full); [reflexivity| |left; exact (has_val is_full t ds 89 D eq_refl)].
    apply vals; [|apply Forall_forall, DS]. intros dd Hd. unfold convs in Hd. cbn [In] in Hd. destruct Hd as [<-|Hd]; [split; [intros _ u; change (1900 + tm_year t - 1900 = tm_year t); lia|discriminate]|]. repeat (destruct Hd as [<-|Hd]; [split; [discriminate|reflexivity]|]). destruct Hd.
  - rewrite P5. apply (G tm_mon _ is_mon); [each|reflexivity].
  - rewrite P4. apply (G tm_mday _ is_mday); [each|reflexivity].
  - rewrite P4. apply (G tm_mday _ is_mday); [each|reflexivity].
  - rewrite P3. apply (G tm_hour _ (fun a => match a with Hour _ => true | _ => false end)); [each|reflexivity].
  - rewrite P2. apply (G tm_min _ (fun a => match a with Minute _ => true | _ => false end)); [each|reflexivity].
  - rewrite P1. apply (G tm_sec _ (fun a => match a with Sec _ => true | _ => false end)); [each|reflexivity].
  - rewrite (result_wday t0 (ws ++ out') (map (val t) ds) [] H0 HH (has_val is_wday t ds 97 D eq_refl)). apply (G tm_wday _ is_wday); [each|reflexivity].
  - rewrite (result_wday t0 (ws ++ out') (map (val t) ds) [] H0 HH (has_val is_wday t ds 65 D eq_refl)). apply (G tm_wday _ is_wday); [each|reflexivity].
  - rewrite P5. apply (G tm_mon _ is_mon); [each|reflexivity].
  - rewrite P5. apply (G tm_mon _ is_mon); [each|reflexivity].
  - rewrite P5. apply (G tm_mon _ is_mon); [each|reflexivity].
Qed.
