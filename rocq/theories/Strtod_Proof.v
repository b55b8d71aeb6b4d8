From Verif Require Import Base Mem_Proof Str_Spec Str_Proof Strtol_Model Strtol_Spec Strtol_Proof Ieee Ieee_Mul Ieee_Div Ieee_Div_Proof Strtod_Model Strtod_Spec.
Open Scope Z_scope.

Lemma str_skip m p a b : str_at m p (a ++ b) -> str_at m (p + Z.of_nat (length a)) b.
Proof.
  intros [Hb Hf]. rewrite <- app_assoc in Hb. apply bytes_at_app in Hb as [_ Hb].
  apply Forall_app in Hf as [_ Hf]. split; assumption.
Qed.
Lemma is_digit_in c : is_digit c = digit_in 10 c.
Proof.
  unfold is_digit, digit_in, dig.
  destruct (48 <=? c) eqn:?, (c <=? 57) eqn:?, (65 <=? c) eqn:?, (c <=? 90) eqn:?, (97 <=? c) eqn:?, (c <=? 122) eqn:?;
  cbn [andb orb]; lia.
Qed.
Definition isd (hex : bool) : Z -> bool := if hex then is_xdigit else is_digit.
Lemma isd_in (h : bool) c : isd h c = digit_in (if h then 16 else 10) c.
Proof. destruct h; [apply is_xdigit_spec|apply is_digit_in]. Qed.
Lemma is_dig10 c : is_dig 10 c <-> 48 <= c <= 57.
Proof. unfold is_dig. rewrite <- is_digit_in. unfold is_digit. lia. Qed.
Lemma is_dig16 c : is_dig 16 c <-> 48 <= c <= 57 \/ 65 <= c <= 70 \/ 97 <= c <= 102.
Proof. unfold is_dig. rewrite <- is_xdigit_spec. unfold is_xdigit, is_digit. lia. Qed.
Lemma is_dig_range (h : bool) c : is_dig (if h then 16 else 10) c -> 48 <= c <= 57 \/ 65 <= c <= 70 \/ 97 <= c <= 102.
Proof. destruct h; [rewrite is_dig16|rewrite is_dig10]; lia. Qed.

(** the loops *)
Lemma scan_ok {A} (P : Z -> bool) (step : A -> Z -> A) a : forall fuel m p r x, P 0 = false ->
  str_at m p (a ++ r) -> Forall (fun c => P c = true) a -> P (hd0 r) = false -> (length a < fuel)%nat ->
  scan P step fuel m p x = Ok (p + Z.of_nat (length a), fold_left step a x).
Proof.
  induction a as [|c a IH]; intros fuel m p r x P0 H F E L; (destruct fuel as [|fu]; [lia|]); cbn [scan].
  - cbn [app] in H. rewrite (str_hd _ _ _ H). cbn [bind]. rewrite E. cbn. rewrite Z.add_0_r. reflexivity.
  - inversion F as [|? ? Fc Fa]; subst. cbn [app] in H. rewrite (str_hd _ _ _ H). cbn [bind hd0]. rewrite Fc.
    apply str_cons in H as (_ & _ & H). rewrite (IH fu m (p + 1) r (step x c) P0 H Fa E) by (cbn in L; lia). cbn [fold_left length].
    do 2 f_equal. lia.
Qed.

Definition dv (e : Z) (d : list Z) : Z := fold_left (fun v c => v * 10 + (c - 48)) d e.
Lemma dv_value d : forall e, Forall (is_dig 10) d ->
  fold_left (fun v c => match dig c with Some x => v * 10 + x | None => v end) d e = dv e d.
Proof.
  unfold dv. induction d as [|c d IH]; intros e F; [reflexivity|]. inversion F as [|? ? Fc Fd]; subst. cbn [fold_left].
  apply is_dig10 in Fc. unfold dig. replace ((48 <=? c) && (c <=? 57)) with true by lia. apply IH. exact Fd.
Qed.
Lemma dv_ge d : forall e, 0 <= e -> Forall (is_dig 10) d -> e <= dv e d.
Proof.
  unfold dv. induction d as [|c d IH]; intros e H F; cbn; [lia|]. inversion F as [|? ? Fc Fd]; subst. apply is_dig10 in Fc.
  specialize (IH (e * 10 + (c - 48)) ltac:(lia) Fd). lia.
Qed.
Lemma exp_scan_ok d : forall fuel m p e r, 0 <= e -> str_at m p (d ++ r) -> Forall (is_dig 10) d -> is_digit (hd0 r) = false ->
  dv e d < 2 ^ 31 -> (length d < fuel)%nat -> exp_scan fuel m p e = Ok (p + Z.of_nat (length d), dv e d).
Proof.
  induction d as [|c d IH]; intros fuel m p e r He H F E B L; (destruct fuel as [|fu]; [lia|]); cbn [exp_scan].
  - cbn [app] in H. rewrite (str_hd _ _ _ H). cbn [bind]. rewrite E. cbn. rewrite Z.add_0_r. reflexivity.
  - inversion F as [|? ? Fc Fd]; subst. cbn [app] in H. rewrite (str_hd _ _ _ H). cbn [bind hd0].
    assert (D : is_digit c = true) by (rewrite is_digit_in; exact Fc). rewrite D. apply is_dig10 in Fc. unfold dec_digit.
    apply str_cons in H as (_ & _ & H). change (dv e (c :: d)) with (dv (e * 10 + (c - 48)) d) in *.
    pose proof (dv_ge d (e * 10 + (c - 48)) ltac:(lia) Fd) as G.
    replace (e * 10 + (c - 48) >? 2 ^ 31 - 1) with false by lia.
    rewrite (IH fu m (p + 1) (e * 10 + (c - 48)) r ltac:(lia) H Fd E B) by (cbn in L; lia). cbn [length]. do 2 f_equal. lia.
Qed.
Lemma exp_scan_bad d : forall fuel m p e r, 0 <= e -> str_at m p (d ++ r) -> Forall (is_dig 10) d -> is_digit (hd0 r) = false ->
  e < 2 ^ 31 -> 2 ^ 31 <= dv e d -> (length d < fuel)%nat -> exp_scan fuel m p e = UB.
Proof.
  induction d as [|c d IH]; intros fuel m p e r He H F E B G L; (destruct fuel as [|fu]; [lia|]); cbn [exp_scan].
  - cbn in G. lia.
  - inversion F as [|? ? Fc Fd]; subst. cbn [app] in H. rewrite (str_hd _ _ _ H). cbn [bind hd0].
    assert (D : is_digit c = true) by (rewrite is_digit_in; exact Fc). rewrite D. apply is_dig10 in Fc. unfold dec_digit.
    apply str_cons in H as (_ & _ & H). change (dv e (c :: d)) with (dv (e * 10 + (c - 48)) d) in *.
    destruct (Z.gtb_spec (e * 10 + (c - 48)) (2 ^ 31 - 1)); [reflexivity|].
    apply (IH fu m (p + 1) _ r); auto; try lia. cbn in L; lia.
Qed.

(** the exponent, if there is none *)
Definition after_sign (t : list Z) : list Z := if (hd0 t =? 43) || (hd0 t =? 45) then tl t else t.
Definition is_exp (l1 l2 : Z) (t : list Z) : bool := ((hd0 t =? l1) || (hd0 t =? l2)) && is_digit (hd0 (after_sign (tl t))).
Lemma load_sign m p t : str_at m p t -> str_at m (p + (if (hd0 t =? 43) || (hd0 t =? 45) then 1 else 0)) (after_sign t).
Proof.
  intros H. unfold after_sign. destruct ((hd0 t =? 43) || (hd0 t =? 45)) eqn:E; [|rewrite Z.add_0_r; exact H].
  apply str_tl; [exact H|lia].
Qed.
Lemma exponent_none f l1 l2 eb fuel m p t r : str_at m p t -> l1 <> 0 -> l2 <> 0 -> is_exp l1 l2 t = false ->
  exponent f l1 l2 eb fuel m p r = Ok (p, r).
Proof.
  intros H N1 N2 E. unfold exponent, is_exp in *. rewrite (str_hd _ _ _ H). cbn [bind].
  destruct ((hd0 t =? l1) || (hd0 t =? l2)) eqn:C; [|reflexivity]. cbn [andb] in E.
  pose proof (str_tl _ _ _ H ltac:(lia)) as H1. rewrite (str_hd _ _ _ H1). cbn [bind].
  pose proof (load_sign _ _ _ H1) as H2.
  replace (p + (if (hd0 (tl t) =? 43) || (hd0 (tl t) =? 45) then 2 else 1)) with
    (p + 1 + (if (hd0 (tl t) =? 43) || (hd0 (tl t) =? 45) then 1 else 0)) by (destruct ((hd0 (tl t) =? 43) || (hd0 (tl t) =? 45)); lia).
  rewrite (str_hd _ _ _ H2). cbn [bind]. rewrite E. reflexivity.
Qed.
Lemma exponent_some f l1 l2 eb fuel m p l sg d t r : str_at m p (l :: sg ++ d ++ t) -> l = l1 \/ l = l2 -> opt_sign sg ->
  Forall (is_dig 10) d -> d <> [] -> is_digit (hd0 t) = false -> dv 0 d < 2 ^ 31 -> (length d < fuel)%nat ->
  exponent f l1 l2 eb fuel m p r = Ok (p + 1 + Z.of_nat (length sg) + Z.of_nat (length d),
    scale f eb (match sg with [45] => true | _ => false end) (dv 0 d) r).
Proof.
  intros H L S F N E B Fu. unfold exponent. rewrite (str_hd _ _ _ H). cbn [bind hd0].
  replace ((l =? l1) || (l =? l2)) with true by lia. apply str_cons in H as (_ & _ & H). rewrite (str_hd _ _ _ H). cbn [bind].
  pose proof (str_skip _ _ _ _ H) as H2.
  destruct d as [|c d]; [congruence|]. inversion F as [|? ? Fc Fd]; subst. pose proof Fc as Fc'. apply is_dig10 in Fc'.
  assert (HD : is_digit c = true) by (rewrite is_digit_in; exact Fc).
  assert (R : forall q, str_at m q ((c :: d) ++ t) -> q = p + 1 + Z.of_nat (length sg) ->
              (x <- load m q ;; if is_digit x then '(tmp, e) <- exp_scan fuel m q 0 ;; Ok (tmp, scale f eb (hd0 (sg ++ (c :: d) ++ t) =? 45) e r) else Ok (p, r)) =
              Ok (p + 1 + Z.of_nat (length sg) + Z.of_nat (length (c :: d)), scale f eb (hd0 (sg ++ (c :: d) ++ t) =? 45) (dv 0 (c :: d)) r)).
  { intros q Hq ->. rewrite (str_hd _ _ _ Hq). cbn [bind app hd0]. rewrite HD.
    rewrite (exp_scan_ok (c :: d) fuel m _ 0 t ltac:(lia) Hq F E B Fu). cbn [bind]. reflexivity. }
  destruct S as [-> |[-> | ->]]; cbn [app hd0 length] in *.
  - replace (c =? 43) with false by lia. replace (c =? 45) with false in * by lia. cbn [orb].
    apply R; [|lia]. rewrite Z.add_0_r in H2. exact H2.
  - change (43 =? 43) with true. cbn [orb]. replace (p + 2) with (p + 1 + Z.of_nat 1) by lia. apply R; [exact H2|reflexivity].
  - change (45 =? 45) with true. rewrite orb_true_r. replace (p + 2) with (p + 1 + Z.of_nat 1) by lia. apply R; [exact H2|reflexivity].
Qed.

(** what the longest number says about the text after it *)
Lemma longest_digit s n r : longest s n r -> eds n <> [] -> digit_in 10 (hd0 r) = false.
Proof.
  intros (W & E & M) N. destruct (digit_in 10 (hd0 r)) eqn:D; [|reflexivity]. exfalso.
  destruct r as [|c r]; [discriminate D|]. cbn [hd0] in D.
  specialize (M (Number (hex n) (sgn n) (pre n) (ip n) (pt n) (fp n) (ex n) (esg n) (eds n ++ [c])) r).
  unfold wf, text, unsigned_text in *. cbn in M. destruct W as (W1 & W2 & W3 & W4 & W5 & W6 & [(_ & _ & W7)|(W7 & W8 & W9 & _)]); [contradiction|].
  repeat (rewrite ?app_nil_r, ?app_length in M; cbn [length app] in M). refine (Nat.lt_irrefl _ (Nat.lt_le_trans _ _ _ _ (M _ _))).
  - lia.
  - split; [exact W1|]. split; [exact W2|]. split; [exact W3|]. split; [exact W4|]. split; [exact W5|]. split; [exact W6|]. right.
    split; [exact W7|]. split; [exact W8|]. split; [apply Forall_app; split; [exact W9|constructor; [exact D|constructor]]|]. destruct (eds n); discriminate.
  - rewrite E, <- !app_assoc. reflexivity.
Qed.

Lemma longest_mant s n r : longest s n r -> ex n = [] ->
  digit_in (radix n) (hd0 r) = false /\ (pt n = false -> hd0 r <> 46) /\
  is_exp (if hex n then 112 else 101) (if hex n then 80 else 69) r = false.
Proof.
  intros (W & E & M) X. unfold wf in W. destruct W as (W1 & W2 & W3 & W4 & W5 & W6 & [(_ & Y & Y2)|(W7 & _)]); [|rewrite X in W7; destruct (hex n), W7; discriminate].
  assert (TX : text n = sgn n ++ pre n ++ ip n ++ (if pt n then [46] else []) ++ fp n) by (unfold text, unsigned_text; rewrite X, Y, Y2, !app_nil_r; reflexivity).
  rewrite TX in *. repeat split.
  - destruct (digit_in (radix n) (hd0 r)) eqn:D; [|reflexivity]. exfalso. destruct r as [|c r]; [destruct (hex n); discriminate D|]. cbn [hd0] in D.
    destruct (pt n) eqn:P.
    + specialize (M (Number (hex n) (sgn n) (pre n) (ip n) true (fp n ++ [c]) [] [] []) r).
      unfold wf, text, unsigned_text in M. cbn in M. repeat (rewrite ?app_nil_r, ?app_length in M; cbn [length app] in M).
      refine (Nat.lt_irrefl _ (Nat.lt_le_trans _ _ _ _ (M _ _))); [lia| |rewrite E; repeat (rewrite <- ?app_assoc; cbn [app]); reflexivity].
      split; [exact W1|]. split; [exact W2|]. split; [exact W3|]. split; [apply Forall_app; split; [exact W4|constructor; [exact D|constructor]]|].
      split; [rewrite app_assoc; destruct (ip n ++ fp n); discriminate|]. split; [discriminate|]. left. repeat split.
    + rewrite (W6 eq_refl) in *. specialize (M (Number (hex n) (sgn n) (pre n) (ip n ++ [c]) false [] [] [] []) r).
      unfold wf, text, unsigned_text in M. cbn in M. repeat (rewrite ?app_nil_r, ?app_length in M; cbn [length app] in M).
      refine (Nat.lt_irrefl _ (Nat.lt_le_trans _ _ _ _ (M _ _))); [lia| |rewrite E; repeat (rewrite <- ?app_assoc; cbn [app]); reflexivity].
      split; [exact W1|]. split; [exact W2|]. split; [apply Forall_app; split; [exact W3|constructor; [exact D|constructor]]|]. split; [constructor|].
      split; [destruct (ip n); discriminate|]. split; [reflexivity|]. left. repeat split.
  - intros P D. rewrite (W6 P) in E, M, W5. rewrite P in E, M. clear TX. destruct r as [|c r]; [discriminate D|]. cbn [hd0] in D. subst c.
    specialize (M (Number (hex n) (sgn n) (pre n) (ip n) true [] [] [] []) r).
    unfold wf, text, unsigned_text in M. cbn in M. repeat (rewrite ?app_nil_r, ?app_length in M; cbn [length app] in M).
    refine (Nat.lt_irrefl _ (Nat.lt_le_trans _ _ _ _ (M _ _))); [lia| |rewrite E; repeat (rewrite <- ?app_assoc; cbn [app]); reflexivity].
    split; [exact W1|]. split; [exact W2|]. split; [exact W3|]. split; [constructor|]. split; [rewrite app_nil_r in W5; exact W5|]. split; [discriminate|]. left. repeat split.
  - destruct (is_exp _ _ r) eqn:D; [|reflexivity]. exfalso. unfold is_exp in D. apply andb_true_iff in D as [D1 D2].
    destruct r as [|l r]; [destruct (hex n); discriminate D1|]. cbn [hd0 tl] in D1, D2. unfold after_sign in D2.
    assert (SG : exists sg c r', opt_sign sg /\ r = sg ++ c :: r' /\ is_digit c = true).
    { destruct ((hd0 r =? 43) || (hd0 r =? 45)) eqn:S.
      - destruct r as [|x r]; [discriminate S|]. cbn [hd0 tl] in *. destruct r as [|c r]; [discriminate D2|]. cbn [hd0] in D2.
        exists [x], c, r. split; [|split; [reflexivity|exact D2]]. assert (x = 43 \/ x = 45) as [->| ->] by lia; unfold opt_sign; tauto.
      - destruct r as [|c r]; [discriminate D2|]. exists [], c, r. split; [left; reflexivity|]. split; [reflexivity|exact D2]. }
    destruct SG as (sg & c & r' & S1 & -> & S2).
    specialize (M (Number (hex n) (sgn n) (pre n) (ip n) (pt n) (fp n) [l] sg [c]) r').
    unfold wf, text, unsigned_text in M. cbn in M. repeat (rewrite ?app_nil_r, ?app_length in M; cbn [length app] in M).
    refine (Nat.lt_irrefl _ (Nat.lt_le_trans _ _ _ _ (M _ _))); [lia| |rewrite E; repeat (rewrite <- ?app_assoc; cbn [app]); reflexivity].
    split; [exact W1|]. split; [exact W2|]. split; [exact W3|]. split; [exact W4|]. split; [exact W5|]. split; [exact W6|]. right.
    split; [destruct (hex n); assert (Q : forall a b, (l =? a) || (l =? b) = true -> [l] = [a] \/ [l] = [b]) by (intros; assert (l = a \/ l = b) as [->| ->] by lia; tauto); apply Q; exact D1|].
    split; [exact S1|]. split; [|discriminate]. constructor; [|constructor]. unfold is_dig. rewrite <- is_digit_in. exact S2.
Qed.

(** the number the code computes *)
Definition dval (h : bool) : Z -> Z := if h then hex_digit else dec_digit.
Definition int_part (f : fmt) (n : number) : Z := fold_left (int_step f (radix n) (dval (hex n))) (ip n) (fint f 0).
Definition mant (f : fmt) (n : number) : Z :=
  fst (fold_left (frac_step f (radix n) (dval (hex n))) (fp n) (int_part f n, fint f (radix n))).
Definition computed (f : fmt) (n : number) : Z := scale f (expo_radix n) (expo_neg n) (expo_value n) (mant f n).

Lemma matches_hd m p t c l : str_at m p t -> hd0 t <> c -> matches m p (c :: l) = Ok false.
Proof. intros H N. cbn [matches]. rewrite (str_hd _ _ _ H). cbn [bind]. replace (hd0 t =? c) with false by lia. reflexivity. Qed.
Lemma either_hd m p t c l c' l' : str_at m p t -> hd0 t <> c -> hd0 t <> c' -> either m p (c :: l) (c' :: l') = Ok false.
Proof. intros H N N'. unfold either. rewrite (matches_hd _ _ _ _ _ H N). cbn [bind]. apply (matches_hd _ _ _ _ _ H N'). Qed.

Lemma digits_part_ok f fuel m p s n r : longest s n r -> expo_value n < 2 ^ 31 ->
  str_at m p (ip n ++ (if pt n then [46] else []) ++ fp n ++ ex n ++ esg n ++ eds n ++ r) ->
  (length (unsigned_text n) < fuel)%nat ->
  digits_part f (hex n) fuel m p =
    Ok (p + Z.of_nat (length (ip n ++ (if pt n then [46] else []) ++ fp n ++ ex n ++ esg n ++ eds n)), computed f n).
Proof.
  intros LG EV H FU. pose proof LG as (W & _ & _). destruct W as (W1 & W2 & W3 & W4 & W5 & W6 & W7).
  unfold unsigned_text in FU. rewrite !app_length in FU.
  assert (FD : forall l, Forall (is_dig (radix n)) l -> Forall (fun c => isd (hex n) c = true) l).
  { intros l. apply Forall_impl. intros c Hc. rewrite isd_in. exact Hc. }
  assert (I0 : isd (hex n) 0 = false) by (destruct (hex n); reflexivity).
  assert (I46 : isd (hex n) 46 = false) by (destruct (hex n); reflexivity).
  (* the text after the mantissa *)
  set (t3 := ex n ++ esg n ++ eds n ++ r) in *.
  assert (T3 : isd (hex n) (hd0 t3) = false).
  { unfold t3. destruct W7 as [(X & Y & Z)|(X & _)].
    - rewrite X, Y, Z. cbn [app]. rewrite isd_in. apply (longest_mant s n r LG X).
    - destruct (hex n); destruct X as [-> | ->]; reflexivity. }
  assert (T3p : pt n = false -> hd0 t3 <> 46).
  { unfold t3. destruct W7 as [(X & Y & Z)|(X & _)].
    - rewrite X, Y, Z. cbn [app]. apply (longest_mant s n r LG X).
    - destruct (hex n); destruct X as [-> | ->]; discriminate. }
  assert (EX : forall q, str_at m q t3 ->
    (if hex n then exponent f 112 80 2 fuel m q (mant f n) else exponent f 101 69 10 fuel m q (mant f n)) =
    Ok (q + Z.of_nat (length (ex n ++ esg n ++ eds n)), computed f n)).
  { intros q Hq. unfold t3 in Hq. destruct W7 as [(X & Y & Z)|(X & S1 & D1 & D2)].
    - unfold computed, expo_value. rewrite X, Y, Z in *. cbn [app] in Hq. change (digits_value 10 []) with 0. change (scale f (expo_radix n) (expo_neg n) 0 (mant f n)) with (mant f n).
      destruct (longest_mant s n r LG X) as (_ & _ & NE). cbn [app length]. rewrite Z.add_0_r.
      destruct (hex n); apply (exponent_none _ _ _ _ _ _ _ r); auto; lia.
    - assert (DR : is_digit (hd0 r) = false) by (rewrite is_digit_in; apply (longest_digit s n r LG D2)).
      assert (VV : dv 0 (eds n) = expo_value n) by (unfold expo_value, digits_value; rewrite (dv_value _ _ D1); reflexivity).
      rewrite <- VV in EV. unfold computed. rewrite <- VV. unfold expo_radix, expo_neg. rewrite !app_length.
      destruct (hex n); destruct X as [E1 | E1]; rewrite E1 in *; cbn [app length] in *;
        (erewrite exponent_some; [|exact Hq|tauto|exact S1|exact D1|exact D2|exact DR|exact EV|lia]); do 2 f_equal; lia. }
  unfold digits_part. cbv zeta. fold (isd (hex n)). fold (dval (hex n)). fold (radix n).
  rewrite (scan_ok (isd (hex n)) _ (ip n) fuel m p ((if pt n then [46] else []) ++ fp n ++ t3) (fint f 0) I0 H (FD _ W3)); [|destruct (pt n) eqn:P; [exact I46|rewrite (W6 eq_refl); exact T3]|lia].
  cbn [bind]. fold (int_part f n). pose proof (str_skip _ _ _ _ H) as H1.
  destruct (pt n) eqn:P.
  - assert (MT : matches m (p + Z.of_nat (length (ip n))) [46] = Ok true) by (cbn [matches]; rewrite (str_hd _ _ _ H1); reflexivity).
    rewrite MT. cbn [bind]. pose proof H1 as H2. cbn [app] in H2. apply str_cons in H2 as (_ & _ & H2).
    rewrite (scan_ok (isd (hex n)) _ (fp n) fuel m _ t3 (int_part f n, fint f (radix n)) I0 H2 (FD _ W4) T3) by lia. cbn [bind]. fold (mant f n).
    apply str_skip in H2. rewrite (EX _ H2). do 2 f_equal. rewrite !app_length. cbn [length]. lia.
  - rewrite (W6 eq_refl) in *. cbn [app] in *. rewrite (matches_hd _ _ _ _ _ H1 (T3p eq_refl)). cbn [bind].
    assert (MI : int_part f n = mant f n) by (unfold mant; rewrite (W6 eq_refl); reflexivity). rewrite MI.
    rewrite (EX _ H1). do 2 f_equal. rewrite !app_length. lia.
Qed.

Lemma strtofp_ok f isspace fuel m p ws s n r : isspace 0 = false -> str_at m p (ws ++ s) -> Forall (fun c => isspace c = true) ws ->
  isspace (hd0 s) = false -> longest s n r -> ~ dangling_hex n r -> expo_value n < 2 ^ 31 -> (length (ws ++ s) < fuel)%nat ->
  strtofp f isspace fuel m p =
    Ok (if negative n then fneg f (computed f n) else computed f n, p + Z.of_nat (length ws) + Z.of_nat (length (text n))).
Proof.
  intros I0 H FW IS LG ND EV FU. rewrite app_length in FU.
  destruct (skip_space_ok isspace ws I0 fuel m p s H FW (or_intror IS) ltac:(lia)) as [SK H1].
  unfold strtofp. rewrite SK. cbn [bind]. clear SK H. set (q := p + Z.of_nat (length ws)) in *. clearbody q.
  pose proof LG as (W & E & _). rewrite E in H1. unfold text in H1. rewrite <- app_assoc in H1.
  pose proof W as (W1 & W2 & W3 & W4 & W5 & W6 & W7).
  (* the first character after the sign *)
  assert (HD : let c := hd0 (unsigned_text n ++ r) in c = 46 \/ is_dig (radix n) c).
  { unfold unsigned_text. cbv zeta. destruct (hex n) eqn:HX.
    - right. unfold radix. rewrite HX. destruct W2 as [-> | ->]; reflexivity.
    - rewrite W2. cbn [app]. destruct (ip n) as [|c l] eqn:EI.
      + cbn [app] in W5 |- *. destruct (pt n) eqn:P; [left; reflexivity|]. rewrite (W6 eq_refl) in W5. congruence.
      + right. cbn. now inversion W3. }
  cbv zeta in HD. assert (HC : hd0 (unsigned_text n ++ r) = 46 \/ 48 <= hd0 (unsigned_text n ++ r) <= 57 \/ 65 <= hd0 (unsigned_text n ++ r) <= 70 \/ 97 <= hd0 (unsigned_text n ++ r) <= 102).
  { destruct HD as [HD|HD]; [left; exact HD|]. right. apply (is_dig_range (hex n)). exact HD. }
  set (u := unsigned_text n ++ r) in *.
  assert (SG : (hd0 (sgn n ++ u) =? 45) = negative n /\
               (if (hd0 (sgn n ++ u) =? 43) || (hd0 (sgn n ++ u) =? 45) then q + 1 else q) = q + Z.of_nat (length (sgn n))).
  { unfold negative. destruct W1 as [-> |[-> | ->]]; cbn [app hd0 length].
    - replace (hd0 u =? 43) with false by lia. replace (hd0 u =? 45) with false by lia. cbn [orb]. split; [reflexivity|lia].
    - split; reflexivity.
    - split; reflexivity. }
  destruct SG as [SG1 SG2]. rewrite (str_hd _ _ _ H1). cbn [bind]. cbv zeta. rewrite SG2, SG1. apply str_skip in H1.
  assert (FL : Z.of_nat (length (text n)) = Z.of_nat (length (sgn n)) + Z.of_nat (length (unsigned_text n))) by (unfold text; rewrite app_length; lia).
  set (q' := q + Z.of_nat (length (sgn n))) in *.
  unfold INF, inf_, INFINITY, infinity_, NAN, nan_. cbn [app].
  rewrite !(either_hd _ _ _ _ _ _ _ H1) by lia. cbn [bind].
  rewrite (str_hd _ _ _ H1). cbn [bind].
  assert (LU : (length (unsigned_text n) < fuel)%nat) by (rewrite E in FU; unfold text in FU; rewrite !app_length in FU; lia).
  (* hexadecimal? *)
  assert (HX : (if hd0 u =? 48 then x <- load m (q' + 1) ;; Ok ((x =? 120) || (x =? 88)) else Ok false) = Ok (hex n)).
  { destruct (Z.eqb_spec (hd0 u) 48) as [H48|N48].
    - pose proof (str_tl _ _ _ H1 ltac:(lia)) as H2. rewrite (str_hd _ _ _ H2). cbn [bind]. f_equal.
      unfold u in *. unfold unsigned_text in *. destruct (hex n) eqn:HX.
      + destruct W2 as [-> | ->]; reflexivity.
      + rewrite W2 in *. cbn [app] in *. unfold radix in *. rewrite HX in *.
        assert (NX : forall c, is_dig 10 c -> (c =? 120) || (c =? 88) = false) by (intros c Hc; apply is_dig10 in Hc; lia).
        destruct (ip n) as [|c l] eqn:EI; cbn [app] in *.
        * destruct (pt n) eqn:P; [cbn in H48; lia|]. rewrite (W6 eq_refl) in W5. congruence.
        * cbn [tl]. cbn [hd0] in H48. subst c. destruct l as [|c' l]; cbn [app].
          -- destruct (pt n) eqn:P; [reflexivity|]. rewrite (W6 eq_refl) in *. cbn [app] in *.
             destruct W7 as [(X & Y & Y2)|([X|X] & _)]; rewrite X in *; cbn [app hd0]; [|reflexivity|reflexivity].
             rewrite Y, Y2 in *. cbn [app] in *. destruct ((hd0 r =? 120) || (hd0 r =? 88)) eqn:EX; [|reflexivity].
             exfalso. apply ND. unfold dangling_hex, unsigned_text. rewrite W2, EI, P, (W6 eq_refl), X, Y, Y2. split; [reflexivity|lia].
          -- inversion W3 as [|? ? _ W3']; subst. inversion W3' as [|? ? Hc _]; subst. cbn [hd0]. apply NX. exact Hc.
    - destruct (hex n) eqn:HX; [|reflexivity]. exfalso. apply N48. unfold u, unsigned_text. destruct W2 as [-> | ->]; reflexivity. }
  rewrite HX. cbn [bind]. clear HX.
  assert (PL : (if hex n then q' + 2 else q') = q' + Z.of_nat (length (pre n))).
  { destruct (hex n); [destruct W2 as [-> | ->]; reflexivity|rewrite W2; cbn; lia]. }
  rewrite PL. unfold u in H1. unfold unsigned_text in H1. rewrite <- app_assoc in H1. apply str_skip in H1.
  rewrite (digits_part_ok f fuel m _ s n r LG EV); [|rewrite <- !app_assoc in H1; exact H1|exact LU].
  cbn [bind]. do 2 f_equal. rewrite FL. unfold unsigned_text. rewrite !app_length. unfold q'. lia.
Qed.
