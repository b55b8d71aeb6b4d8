(** The values strtofp computes exactly. *)
From Verif Require Import Base Strtol_Model Strtol_Spec Strtol_Proof Ieee Ieee_Mul Ieee_Div Ieee_Div_Proof Strtod_Model Strtod_Spec Strtod_Proof.
Open Scope Z_scope.

Section Fmt.
Variable f : fmt.
Hypothesis F1 : 4 <= mb f.
Hypothesis F2 : 5 <= eb f.
Hypothesis F3 : mb f + 1 <= 2 ^ (eb f - 1).
Let G1 : 1 <= mb f := ltac:(lia).
Let G2 : 2 <= eb f := ltac:(lia).
Notation U := (unit_exp f).

Definition pn (u v : Z) : Prop := num f u v false /\ 0 <= v.
Lemma U_pos : 0 < U.
Proof. apply unit_exp_pos; auto. Qed.
Lemma top_exp : top f = 2 ^ (U + 2 ^ (eb f - 1)).
Proof. unfold top, unit_exp. f_equal. rewrite (pow_split (1) (eb f)) by lia. change (2 ^ 1) with 2. lia. Qed.

Lemma pn_mul x y v w z : pn x v -> pn y w -> v * w = z * 2 ^ U -> rep f z -> pn (fmul f x y) z.
Proof.
  intros [X V] [Y W] E R. pose proof (pow_pos U ltac:(pose proof U_pos; lia)). split; [|nia].
  apply (num_mul f G1 G2 x y v w false false z X Y); [rewrite !Z.abs_eq by lia; exact E|exact R].
Qed.
Lemma pn_div x y v w z : pn x v -> pn y w -> w <> 0 -> v * 2 ^ U = z * w -> rep f z -> pn (fdiv f x y) z.
Proof.
  intros [X V] [Y W] N E R. pose proof (pow_pos U ltac:(pose proof U_pos; lia)). split; [|nia].
  apply (num_div f G1 G2 x y v w false false z X Y N); [rewrite !Z.abs_eq by lia; exact E|exact R].
Qed.
Lemma pn_add x y v w : pn x v -> pn y w -> rep f (v + w) -> pn (fadd f x y) (v + w).
Proof.
  intros [X V] [Y W] R. split; [|lia]. pose proof (num_add f G1 G2 x y v w false false X Y R) as N.
  destruct (v + w =? 0); [exact N|]. replace (v + w <? 0) with false in N by lia. exact N.
Qed.
Lemma rep_scaled n s : 0 <= n < 2 ^ (mb f + 1) -> 0 <= s -> n * 2 ^ s < top f -> rep f (n * 2 ^ s).
Proof.
  intros Hn Hs T. pose proof (pow_pos s Hs). apply (rep_intro f G1 n s); [lia|exact Hs|reflexivity|]. rewrite Z.abs_eq by nia. exact T.
Qed.
Lemma small_top n s : 0 <= n < 2 ^ (mb f + 1) -> 0 <= s <= U -> n * 2 ^ s < top f.
Proof.
  intros Hn Hs. pose proof (pow_pos s ltac:(lia)). apply (Z.lt_le_trans _ (2 ^ (mb f + 1) * 2 ^ s)); [nia|].
  rewrite <- Z.pow_add_r by lia. rewrite top_exp. apply pow_le. lia.
Qed.
Lemma pn_int n : 0 <= n < 2 ^ (mb f + 1) -> pn (fint f n) (n * 2 ^ U).
Proof.
  intros Hn. pose proof U_pos. pose proof (pow_pos U ltac:(lia)). split; [|nia]. apply (num_int f G1 G2 n Hn). exact (small_top n U Hn ltac:(lia)).
Qed.
Lemma small_lt n : 0 <= n <= 16 -> 0 <= n < 2 ^ (mb f + 1).
Proof. intros H. pose proof (pow_le 5 (mb f + 1) ltac:(lia)) as P. change (2 ^ 5) with 32 in P. lia. Qed.

(** digits *)
Lemma dval_range (h : bool) c : is_dig (if h then 16 else 10) c -> dig c = Some (dval h c) /\ 0 <= dval h c < (if h then 16 else 10).
Proof.
  destruct h; [rewrite is_dig16|rewrite is_dig10]; cbn [dval]; unfold hex_digit, dec_digit, to_lower, dig; intros H.
  - destruct (48 <=? c) eqn:?, (c <=? 57) eqn:?, (65 <=? c) eqn:?, (c <=? 90) eqn:?, (97 <=? c) eqn:?, (c <=? 122) eqn:?; cbn [andb];
    try (exfalso; lia); (split; [f_equal; lia|lia]).
  - replace ((48 <=? c) && (c <=? 57)) with true by lia. split; [reflexivity|lia].
Qed.
Definition dfold (b : Z) (v : Z) (l : list Z) : Z := fold_left (fun v c => match dig c with Some d => v * b + d | None => v end) l v.
Lemma dfold_app b v l1 l2 : dfold b v (l1 ++ l2) = dfold b (dfold b v l1) l2.
Proof. unfold dfold. apply fold_left_app. Qed.
Lemma dfold_ge (h : bool) l : forall v, 0 <= v -> Forall (is_dig (if h then 16 else 10)) l ->
  v * (if h then 16 else 10) ^ Z.of_nat (length l) <= dfold (if h then 16 else 10) v l.
Proof.
  induction l as [|c l IH]; intros v Hv F; [cbn; lia|]. inversion F as [|? ? Fc Fl]; subst. destruct (dval_range h c Fc) as [D R].
  unfold dfold. cbn [fold_left]. rewrite D. fold (dfold (if h then 16 else 10) (v * (if h then 16 else 10) + dval h c) l).
  set (b := if h then 16 else 10) in *. assert (B : 0 < b) by (subst b; destruct h; lia).
  specialize (IH (v * b + dval h c) ltac:(nia) Fl). cbn [length]. rewrite Nat2Z.inj_succ, Z.pow_succ_r by lia.
  assert (0 < b ^ Z.of_nat (length l)) by (apply Z.pow_pos_nonneg; lia). nia.
Qed.
Lemma dfold_ge0 (h : bool) l v : 0 <= v -> Forall (is_dig (if h then 16 else 10)) l -> v <= dfold (if h then 16 else 10) v l.
Proof.
  intros Hv F. pose proof (dfold_ge h l v Hv F) as G. set (b := if h then 16 else 10) in *. assert (B : 0 < b) by (subst b; destruct h; lia).
  assert (0 < b ^ Z.of_nat (length l)) by (apply Z.pow_pos_nonneg; lia). nia.
Qed.

Lemma int_fold (h : bool) l : forall r v, pn r (v * 2 ^ U) -> 0 <= v -> Forall (is_dig (if h then 16 else 10)) l ->
  dfold (if h then 16 else 10) v l < 2 ^ (mb f + 1) ->
  pn (fold_left (int_step f (if h then 16 else 10) (dval h)) l r) (dfold (if h then 16 else 10) v l * 2 ^ U).
Proof.
  induction l as [|c l IH]; intros r v P V F L; [exact P|]. inversion F as [|? ? Fc Fl]; subst. destruct (dval_range h c Fc) as [D R].
  cbn [fold_left]. unfold dfold in *. cbn [fold_left] in *. rewrite D in *. fold (dfold (if h then 16 else 10) (v * (if h then 16 else 10) + dval h c) l) in *.
  set (b := if h then 16 else 10) in *. assert (B : 0 < b <= 16) by (subst b; destruct h; lia).
  pose proof (dfold_ge0 h l (v * b + dval h c) ltac:(nia) Fl) as G. fold b in G.
  apply IH; [|nia|exact Fl|exact L]. unfold int_step. rewrite Z.mul_add_distr_r. pose proof U_pos as UP. apply pn_add.
  - apply (pn_mul _ _ _ _ _ P (pn_int b (small_lt b ltac:(lia)))); [ring|]. apply rep_scaled; [nia|lia|]. apply small_top; [nia|lia].
  - apply pn_int. apply small_lt. lia.
  - rewrite <- Z.mul_add_distr_r. apply rep_scaled; [nia|lia|]. apply small_top; [nia|lia].
Qed.

(** hexadecimal fractions; i digits have been read *)
Lemma frac_fold l : forall r d v i, pn r (v * 2 ^ (U - 4 * i)) -> pn d (2 ^ (4 * (i + 1)) * 2 ^ U) -> 0 <= v -> 0 <= i -> Forall (is_dig 16) l ->
  dfold 16 v l < 2 ^ (mb f + 1) -> 4 * (i + Z.of_nat (length l) + 1) < 2 ^ (eb f - 1) ->
  pn (fst (fold_left (frac_step f 16 hex_digit) l (r, d))) (dfold 16 v l * 2 ^ (U - 4 * (i + Z.of_nat (length l)))).
Proof.
  induction l as [|c l IH]; intros r d v i P Q V I F L K.
  - cbn [fold_left fst dfold length]. rewrite Z.add_0_r. exact P.
  - inversion F as [|? ? Fc Fl]; subst. destruct (dval_range true c Fc) as [D R]. cbn [dval] in D, R.
    cbn [fold_left]. unfold dfold in *. cbn [fold_left] in *. rewrite D in *. fold (dfold 16 (v * 16 + hex_digit c) l) in *.
    pose proof (dfold_ge0 true l (v * 16 + hex_digit c) ltac:(lia) Fl) as G. cbn [length] in *. rewrite Nat2Z.inj_succ in *.
    replace (i + Z.succ (Z.of_nat (length l))) with (i + 1 + Z.of_nat (length l)) in * by lia. unfold frac_step at 2. cbn [fst snd].
    pose proof U_pos as UP. assert (UB : 4 * (i + 1) <= U) by (unfold unit_exp; lia).
    assert (E4 : 2 ^ (U - 4 * i) = 16 * 2 ^ (U - 4 * (i + 1))) by (change 16 with (2 ^ 4); rewrite <- Z.pow_add_r by lia; f_equal; lia).
    assert (EU : 2 ^ (4 * (i + 1)) * 2 ^ (U - 4 * (i + 1)) = 2 ^ U) by (rewrite <- Z.pow_add_r by lia; f_equal; lia).
    apply IH; [| |lia|lia|exact Fl|exact L|lia].
    + replace ((v * 16 + hex_digit c) * 2 ^ (U - 4 * (i + 1))) with (v * 2 ^ (U - 4 * i) + hex_digit c * 2 ^ (U - 4 * (i + 1))) by (rewrite E4; ring).
      apply pn_add; [exact P| |].
      * pose proof (pow_pos (4 * (i + 1)) ltac:(lia)). pose proof (pow_pos U ltac:(lia)).
        apply (pn_div _ _ _ _ _ (pn_int (hex_digit c) (small_lt (hex_digit c) ltac:(lia))) Q); [nia| |].
        -- rewrite <- EU at 1. ring.
        -- apply rep_scaled; [apply small_lt; lia|lia|]. apply small_top; [apply small_lt; lia|lia].
      * rewrite E4. replace (v * (16 * 2 ^ (U - 4 * (i + 1))) + hex_digit c * 2 ^ (U - 4 * (i + 1))) with ((v * 16 + hex_digit c) * 2 ^ (U - 4 * (i + 1))) by ring.
        apply rep_scaled; [lia|lia|]. apply small_top; lia.
    + replace (4 * (i + 1 + 1)) with (4 * (i + 1) + 4) by lia. rewrite (Z.pow_add_r 2 _ 4) by lia. change (2 ^ 4) with 16.
      apply (pn_mul _ _ _ _ _ Q (pn_int 16 (small_lt 16 ltac:(lia)))); [ring|].
      replace (2 ^ (4 * (i + 1)) * 16 * 2 ^ U) with (1 * 2 ^ (4 * (i + 2) + U)) by (rewrite Z.pow_add_r by lia; replace (4 * (i + 2)) with (4 * (i + 1) + 4) by lia; rewrite (Z.pow_add_r 2 _ 4) by lia; change (2 ^ 4) with 16; ring).
      apply rep_scaled; [apply small_lt; lia|lia|]. rewrite Z.mul_1_l, top_exp. apply pow_lt. lia.
Qed.

(** scaling *)
Lemma iter_mul b k : 0 <= b <= 16 -> forall r v, pn r v -> (forall i, (0 < i <= k)%nat -> rep f (v * b ^ Z.of_nat i)) ->
  pn (Nat.iter k (fun r => fmul f r (fint f b)) r) (v * b ^ Z.of_nat k).
Proof.
  intros B r v P. induction k as [|k IH]; intros R.
  - cbn. rewrite Z.mul_1_r. exact P.
  - cbn [Nat.iter]. rewrite Nat2Z.inj_succ, Z.pow_succ_r by lia.
    apply (pn_mul _ _ _ _ _ (IH ltac:(intros; apply R; lia)) (pn_int b (small_lt b B))); [ring|].
    replace (v * (b * b ^ Z.of_nat k)) with (v * b ^ Z.of_nat (S k)) by (rewrite Nat2Z.inj_succ, Z.pow_succ_r by lia; ring). apply R. lia.
Qed.
Lemma iter_div2 n s k : forall r, pn r (n * 2 ^ s) -> 0 <= n < 2 ^ (mb f + 1) -> Z.of_nat k <= s -> n * 2 ^ s < top f ->
  pn (Nat.iter k (fun r => fdiv f r (fint f 2)) r) (n * 2 ^ (s - Z.of_nat k)).
Proof.
  intros r P N. induction k as [|k IH]; intros K T.
  - cbn. rewrite Z.sub_0_r. exact P.
  - cbn [Nat.iter]. rewrite Nat2Z.inj_succ in *. specialize (IH ltac:(lia) T).
    assert (E : 2 ^ (s - Z.of_nat k) = 2 * 2 ^ (s - Z.succ (Z.of_nat k))) by (rewrite <- pow_S by lia; f_equal; lia).
    pose proof (pow_pos U ltac:(pose proof U_pos; lia)).
    apply (pn_div _ _ _ _ _ IH (pn_int 2 (small_lt 2 ltac:(lia)))); [lia|rewrite E; ring|].
    apply rep_scaled; [exact N|lia|]. pose proof (pow_le (s - Z.succ (Z.of_nat k)) s ltac:(lia)). nia.
Qed.

Lemma zero_pn : pn (fint f 0) (0 * 2 ^ U).
Proof. apply pn_int. apply small_lt. lia. Qed.

Lemma expo_nonneg n : wf n -> 0 <= expo_value n.
Proof.
  intros (_ & _ & _ & _ & _ & _ & W). assert (D : Forall (is_dig 10) (eds n)) by (destruct W as [(_ & _ & ->)|(_ & _ & D & _)]; [constructor|exact D]).
  unfold expo_value, digits_value. rewrite (dv_value _ _ D). apply (dv_ge (eds n) 0); [lia|exact D].
Qed.

Lemma mant_dec n : wf n -> hex n = false -> fp n = [] -> digits_value 10 (ip n) < 2 ^ (mb f + 1) ->
  pn (mant f n) (digits_value 10 (ip n) * 2 ^ U).
Proof.
  intros (_ & _ & W3 & _) HX FP L. unfold mant, int_part, radix in *. rewrite HX, FP in *. cbn [fold_left fst].
  apply (int_fold false (ip n) _ 0 zero_pn); [lia|exact W3|exact L].
Qed.
Lemma mant_hex n : wf n -> hex n = true -> digits_value 16 (ip n ++ fp n) < 2 ^ (mb f + 1) -> 4 * (Z.of_nat (length (fp n)) + 1) < 2 ^ (eb f - 1) ->
  pn (mant f n) (digits_value 16 (ip n ++ fp n) * 2 ^ (U - 4 * Z.of_nat (length (fp n)))).
Proof.
  intros (_ & _ & W3 & W4 & _) HX L K. unfold mant, int_part, radix in *. rewrite HX in *. cbn [dval].
  change (digits_value 16 (ip n ++ fp n)) with (dfold 16 0 (ip n ++ fp n)) in *. rewrite dfold_app in *.
  assert (V0 : 0 <= dfold 16 0 (ip n)) by (pose proof (dfold_ge0 true (ip n) 0 ltac:(lia) W3); lia).
  pose proof (dfold_ge0 true (fp n) _ V0 W4) as V1. cbn in V1.
  pose proof (int_fold true (ip n) _ 0 zero_pn ltac:(lia) W3 ltac:(lia)) as P. cbn [dval] in P.
  apply (frac_fold (fp n) _ _ _ 0); [rewrite Z.mul_0_r, Z.sub_0_r; exact P| |exact V0|lia|exact W4|exact L|lia].
  apply (pn_int 16 (small_lt 16 ltac:(lia))).
Qed.

(** the results *)
Lemma dec_exact n : wf n -> hex n = false -> fp n = [] -> expo_neg n = false ->
  digits_value 10 (ip n) * 5 ^ expo_value n < 2 ^ (mb f + 1) -> numer n * 2 ^ U < top f ->
  pn (computed f n) (numer n * 2 ^ U) /\ denom n = 1.
Proof.
  intros W HX FP EN L T. pose proof (expo_nonneg n W) as E0. pose proof W as (_ & _ & W3 & _).
  unfold numer, denom in *. rewrite FP in *. rewrite app_nil_r in *. unfold computed, scale, expo_radix, radix in *. rewrite HX, EN in *.
  set (N := digits_value 10 (ip n)) in *. set (e := expo_value n) in *.
  assert (N0 : 0 <= N) by (pose proof (dfold_ge0 false (ip n) 0 ltac:(lia) W3); exact H).
  assert (P5 : 0 < 5 ^ e) by (apply Z.pow_pos_nonneg; lia).
  pose proof (mant_dec n W HX FP ltac:(fold N; nia)) as P. fold N in P. split; [|reflexivity].
  pose proof (iter_mul 10 (Z.to_nat e) ltac:(lia) _ _ P) as I. rewrite Z2Nat.id in I by lia.
  replace (N * 10 ^ e * 2 ^ U) with (N * 2 ^ U * 10 ^ e) in * by ring. apply I. clear I. intros i Hi.
  assert (I5 : 0 < 5 ^ Z.of_nat i <= 5 ^ e) by (split; [apply Z.pow_pos_nonneg; lia|apply Z.pow_le_mono_r; lia]).
  pose proof (pow_pos U ltac:(pose proof U_pos; lia)) as PU.
  assert (I10 : 0 < 10 ^ Z.of_nat i <= 10 ^ e) by (split; [apply Z.pow_pos_nonneg; lia|apply Z.pow_le_mono_r; lia]).
  assert (EQ : N * 2 ^ U * 10 ^ Z.of_nat i = N * 5 ^ Z.of_nat i * 2 ^ (U + Z.of_nat i)).
  { change 10 with (2 * 5). rewrite Z.pow_mul_l, Z.pow_add_r by (pose proof U_pos; lia). ring. }
  rewrite EQ. apply rep_scaled; [nia|pose proof U_pos; lia|]. rewrite <- EQ. apply (Z.le_lt_trans _ (N * 2 ^ U * 10 ^ e)); [|exact T].
  apply Z.mul_le_mono_nonneg_l; [nia|lia].
Qed.

Lemma hex_exact n : wf n -> hex n = true -> digits_value 16 (ip n ++ fp n) < 2 ^ (mb f + 1) -> 4 * (Z.of_nat (length (fp n)) + 1) < 2 ^ (eb f - 1) ->
  (expo_neg n = true -> 4 * Z.of_nat (length (fp n)) + expo_value n <= U) ->
  (expo_neg n = false -> numer n * 2 ^ U < top f * denom n) ->
  exists v, pn (computed f n) v /\ v * denom n = numer n * 2 ^ U.
Proof.
  intros W HX L K EN EP. pose proof (expo_nonneg n W) as E0. pose proof W as (_ & _ & W3 & W4 & _).
  pose proof (mant_hex n W HX L K) as P. unfold numer, denom in *. unfold computed, scale, expo_radix, radix in *. rewrite HX in *.
  set (N := digits_value 16 (ip n ++ fp n)) in *. set (e := expo_value n) in *. set (k := Z.of_nat (length (fp n))) in *.
  assert (N0 : 0 <= N) by (pose proof (dfold_ge0 true (ip n ++ fp n) 0 ltac:(lia) ltac:(apply Forall_app; auto)); exact H).
  assert (K0 : 0 <= k) by (subst k; lia). assert (KU : 4 * k <= U) by (unfold unit_exp; lia).
  assert (E16 : 16 ^ k * 2 ^ (U - 4 * k) = 2 ^ U) by (change 16 with (2 ^ 4); rewrite <- Z.pow_mul_r by lia; rewrite <- Z.pow_add_r by lia; f_equal; lia).
  destruct (expo_neg n).
  - specialize (EN eq_refl). exists (N * 2 ^ (U - 4 * k - e)). split.
    + pose proof (iter_div2 N (U - 4 * k) (Z.to_nat e) _ P ltac:(lia) ltac:(lia)) as I. rewrite Z2Nat.id in I by lia. apply I. apply small_top; lia.
    + rewrite Z.mul_1_r, <- E16. replace (2 ^ (U - 4 * k)) with (2 ^ (U - 4 * k - e) * 2 ^ e) by (rewrite <- Z.pow_add_r by lia; f_equal; lia). ring.
  - specialize (EP eq_refl). rewrite Z.mul_1_r in *. exists (N * 2 ^ (U - 4 * k) * 2 ^ e). split; [|rewrite <- E16; ring].
    pose proof (iter_mul 2 (Z.to_nat e) ltac:(lia) _ _ P) as I. rewrite Z2Nat.id in I by lia. apply I. clear I. intros i Hi.
    assert (P16 : 0 < 16 ^ k) by (apply Z.pow_pos_nonneg; lia).
    replace (N * 2 ^ (U - 4 * k) * 2 ^ Z.of_nat i) with (N * 2 ^ (U - 4 * k + Z.of_nat i)) by (rewrite Z.pow_add_r by lia; ring).
    apply rep_scaled; [lia|lia|]. rewrite <- E16 in EP.
    assert (T : N * 2 ^ (U - 4 * k + e) < top f).
    { rewrite Z.pow_add_r by lia. clear - EP P16. set (A := 2 ^ (U - 4 * k)) in *. set (B := 2 ^ e) in *. set (C := 16 ^ k) in *. clearbody A B C. nia. }
    pose proof (pow_le (U - 4 * k + Z.of_nat i) (U - 4 * k + e) ltac:(lia)). nia.
Qed.

(** with the sign *)
Lemma signed n v : pn (computed f n) v -> v * denom n = numer n * 2 ^ U ->
  is_exact f n (if negative n then fneg f (computed f n) else computed f n).
Proof.
  intros [P V] E. unfold is_exact. destruct (negative n).
  - pose proof (num_neg f G1 G2 _ _ _ P) as Q. destruct (num_mag f G1 G2 _ _ _ Q) as [M _]. destruct Q as (B & Fi & _ & S).
    split; [exact B|]. split; [exact Fi|]. split; [exact S|]. rewrite M, Z.abs_opp, Z.abs_eq by lia. exact E.
  - destruct (num_mag f G1 G2 _ _ _ P) as [M _]. destruct P as (B & Fi & _ & S).
    split; [exact B|]. split; [exact Fi|]. split; [exact S|]. rewrite M, Z.abs_eq by lia. exact E.
Qed.
End Fmt.
