(** strtofp on any string. *)
From Verif Require Import Base Mem_Proof Str_Spec Str_Proof Strtol_Model Strtol_Spec Strtol_Proof Ieee Ieee_Div Strtod_Model Strtod_Spec Strtod_Proof.
Open Scope Z_scope.

Lemma small_suffix a t : small_runs (a ++ t) -> small_runs t.
Proof. intros H x d b E F. apply (H (a ++ x) d b); [rewrite E, <- app_assoc; reflexivity|exact F]. Qed.
Lemma small_tl t : small_runs t -> small_runs (tl t).
Proof. destruct t as [|c t]; [auto|]. apply (small_suffix [c]). Qed.

Lemma hd_false (P : Z -> bool) r : P 0 = false -> r = [] \/ P (hd0 r) = false -> P (hd0 r) = false.
Proof. intros H [-> |E]; [exact H|exact E]. Qed.

Lemma scan_span {A} (P : Z -> bool) (step : A -> Z -> A) fuel m p t x : P 0 = false -> str_at m p t -> (length t < fuel)%nat ->
  exists a r, t = a ++ r /\ scan P step fuel m p x = Ok (p + Z.of_nat (length a), fold_left step a x) /\ str_at m (p + Z.of_nat (length a)) r.
Proof.
  intros P0 H L. destruct (span P t) as [a r] eqn:E. destruct (span_spec P t a r E) as (-> & F & N). exists a, r.
  split; [reflexivity|]. rewrite app_length in L. split; [|apply str_skip; exact H].
  apply (scan_ok P step a fuel m p r x P0 H F); [apply hd_false; auto|lia].
Qed.

Lemma matches_total m lit : Forall (fun c => c <> 0) lit -> forall p t, str_at m p t ->
  exists b, matches m p lit = Ok b /\ (b = true -> exists r, t = lit ++ r).
Proof.
  induction 1 as [|c lit Hc Hl IH]; intros p t H; cbn [matches].
  - exists true. split; [reflexivity|]. intros _. exists t. reflexivity.
  - rewrite (str_hd _ _ _ H). cbn [bind]. destruct (Z.eqb_spec (hd0 t) c) as [E|E]; [|exists false; split; [reflexivity|discriminate]].
    destruct t as [|x t]; [cbn in E; congruence|]. cbn [hd0] in E. subst x. apply str_cons in H as (_ & _ & H).
    destruct (IH _ _ H) as (b & E & R). exists b. split; [exact E|]. intros B. destruct (R B) as (r & ->). exists r. reflexivity.
Qed.
Lemma matches_total0 m lit : Forall (fun c => c <> 0) lit -> forall p t, str_at m p t ->
  exists b, matches m p (lit ++ [0]) = Ok b /\ (b = true <-> t = lit).
Proof.
  induction 1 as [|c lit Hc Hl IH]; intros p t H; cbn [app matches].
  - rewrite (str_hd _ _ _ H). cbn [bind]. destruct (Z.eqb_spec (hd0 t) 0) as [E|E].
    + exists true. split; [reflexivity|]. split; [intros _|reflexivity]. destruct t as [|x t]; [reflexivity|].
      apply str_cons in H as (_ & Hx & _). cbn in E. lia.
    + exists false. split; [reflexivity|]. split; [discriminate|]. intros ->. cbn in E. lia.
  - rewrite (str_hd _ _ _ H). cbn [bind]. destruct (Z.eqb_spec (hd0 t) c) as [E|E].
    + destruct t as [|x t]; [cbn in E; congruence|]. cbn [hd0] in E. subst x. apply str_cons in H as (_ & _ & H).
      destruct (IH _ _ H) as (b & E & R). exists b. split; [exact E|]. rewrite R. split; [intros ->; reflexivity|intros Q; injection Q as ->; reflexivity].
    + exists false. split; [reflexivity|]. split; [discriminate|]. intros ->. cbn in E. lia.
Qed.

Lemma exponent_safe f l1 l2 eb fuel m p t r : l1 <> 0 -> l2 <> 0 -> str_at m p t -> small_runs t -> (length t < fuel)%nat ->
  exists k v, exponent f l1 l2 eb fuel m p r = Ok (p + Z.of_nat k, v) /\ (k <= length t)%nat.
Proof.
  intros N1 N2 H S L. destruct (is_exp l1 l2 t) eqn:E.
  - unfold is_exp in E. apply andb_true_iff in E as [E1 E2]. destruct t as [|c t]; [cbn [hd0] in E1; lia|]. cbn [hd0 tl] in *.
    assert (SG : exists sg u, opt_sign sg /\ t = sg ++ u /\ is_digit (hd0 u) = true).
    { unfold after_sign in E2. destruct ((hd0 t =? 43) || (hd0 t =? 45)) eqn:Q.
      - destruct t as [|x t]; [discriminate Q|]. cbn [hd0 tl] in *. exists [x], t. split; [|split; [reflexivity|exact E2]].
        assert (x = 43 \/ x = 45) as [-> | ->] by lia; unfold opt_sign; tauto.
      - exists [], t. split; [left; reflexivity|]. split; [reflexivity|exact E2]. }
    destruct SG as (sg & u & S1 & -> & S2). destruct (span is_digit u) as [d q] eqn:SP. destruct (span_spec _ _ _ _ SP) as (-> & F & N).
    assert (FD : Forall (is_dig 10) d) by (revert F; apply Forall_impl; intros x Hx; unfold is_dig; rewrite <- is_digit_in; exact Hx).
    assert (ND : d <> []) by (intros ->; cbn [app] in *; destruct N as [-> |N]; [discriminate S2|congruence]).
    assert (V : dv 0 d < 2 ^ 31).
    { rewrite <- (dv_value d 0 FD). apply (S (c :: sg) d q); [reflexivity|exact FD]. }
    cbn [length] in L. rewrite !app_length in L.
    rewrite (exponent_some f l1 l2 eb fuel m p c sg d q r H ltac:(lia) S1 FD ND ltac:(apply hd_false; auto) V ltac:(lia)).
    eexists (1 + length sg + length d)%nat, _. split; [do 2 f_equal; lia|]. cbn [length]. rewrite !app_length. lia.
  - exists 0%nat, r. rewrite (exponent_none f l1 l2 eb fuel m p t r H N1 N2 E). cbn. rewrite Z.add_0_r. split; [reflexivity|lia].
Qed.

Lemma digits_part_safe f hex fuel m p t : str_at m p t -> small_runs t -> (length t < fuel)%nat ->
  exists k v, digits_part f hex fuel m p = Ok (p + Z.of_nat k, v) /\ (k <= length t)%nat.
Proof.
  intros H S L. unfold digits_part. cbv zeta. fold (isd hex). set (dvl := if hex then hex_digit else dec_digit). set (bs := if hex then 16 else 10).
  assert (I0 : isd hex 0 = false) by (destruct hex; reflexivity).
  destruct (scan_span (isd hex) (int_step f bs dvl) fuel m p t (fint f 0) I0 H L) as (a & r & -> & E & H1). rewrite E. cbn [bind].
  apply small_suffix in S. rewrite app_length in *.
  set (v0 := fold_left _ a _). clearbody v0.
  assert (EX : forall q u v, str_at m q u -> small_runs u -> (length u < fuel)%nat ->
     exists k w, (if hex then exponent f 112 80 2 fuel m q v else exponent f 101 69 10 fuel m q v) = Ok (q + Z.of_nat k, w) /\ (k <= length u)%nat).
  { intros q u v Hq Su Lu. destruct hex; apply exponent_safe; auto; lia. }
  destruct (matches_total m [46] ltac:(constructor; [lia|constructor]) _ _ H1) as (b & EM & RM). rewrite EM. cbn [bind].
  destruct b.
  - destruct (RM eq_refl) as (u & ->). cbn [app] in H1, S. apply str_cons in H1 as (_ & _ & H1). apply (small_suffix [46]) in S. cbn [app length] in *.
    destruct (scan_span (isd hex) (frac_step f bs dvl) fuel m _ u (v0, fint f bs) I0 H1 ltac:(lia)) as (a' & r' & -> & E' & H2). rewrite E'. cbn [bind].
    apply small_suffix in S. rewrite app_length in *.
    destruct (EX _ r' (fst (fold_left (frac_step f bs dvl) a' (v0, fint f bs))) H2 S ltac:(lia)) as (k & w & EE & KL).
    exists (length a + 1 + length a' + k)%nat, w. rewrite EE. split; [do 2 f_equal; lia|lia].
  - cbn [bind]. destruct (EX _ r v0 H1 S ltac:(lia)) as (k & w & EE & KL). exists (length a + k)%nat, w. rewrite EE. split; [do 2 f_equal; lia|lia].
Qed.

Ltac nz := repeat apply Forall_cons; try apply Forall_nil; lia.
Lemma either_total0 m p t l1 l2 : Forall (fun c => c <> 0) l1 -> Forall (fun c => c <> 0) l2 -> str_at m p t ->
  exists b, either m p (l1 ++ [0]) (l2 ++ [0]) = Ok b /\ (b = true <-> t = l1 \/ t = l2).
Proof.
  intros F1 F2 H. unfold either. destruct (matches_total0 m l1 F1 p t H) as (b & E & R). rewrite E. cbn [bind]. destruct b.
  - exists true. split; [reflexivity|]. tauto.
  - destruct (matches_total0 m l2 F2 p t H) as (b & E' & R'). exists b. split; [exact E'|]. rewrite R'. intuition discriminate.
Qed.
Lemma either_total m p t l1 l2 : Forall (fun c => c <> 0) l1 -> Forall (fun c => c <> 0) l2 -> str_at m p t ->
  exists b, either m p l1 l2 = Ok b /\ (b = true -> exists r, t = l1 ++ r \/ t = l2 ++ r).
Proof.
  intros F1 F2 H. unfold either. destruct (matches_total m l1 F1 p t H) as (b & E & R). rewrite E. cbn [bind]. destruct b.
  - exists true. split; [reflexivity|]. intros _. destruct (R eq_refl) as (r & ->). exists r. tauto.
  - destruct (matches_total m l2 F2 p t H) as (b & E' & R'). exists b. split; [exact E'|]. intros B. destruct (R' B) as (r & ->). exists r. tauto.
Qed.

(** the sign *)
Lemma sign_step m p s : str_at m p s -> exists c, load m p = Ok c /\ exists sg t, s = sg ++ t /\ opt_sign sg /\
  (c =? 45) = (match sg with [45] => true | _ => false end) /\
  (if (c =? 43) || (c =? 45) then p + 1 else p) = p + Z.of_nat (length sg) /\ str_at m (p + Z.of_nat (length sg)) t.
Proof.
  intros H. exists (hd0 s). split; [apply str_hd; exact H|]. destruct ((hd0 s =? 43) || (hd0 s =? 45)) eqn:E.
  - destruct s as [|c s]; [discriminate E|]. cbn [hd0] in *. exists [c], s. apply str_cons in H as (_ & _ & H).
    assert (C : c = 43 \/ c = 45) by lia. split; [reflexivity|]. split; [destruct C as [-> | ->]; unfold opt_sign; tauto|].
    split; [destruct C as [-> | ->]; reflexivity|]. split; [reflexivity|exact H].
  - exists [], s. split; [reflexivity|]. split; [left; reflexivity|]. split; [lia|]. cbn. rewrite Z.add_0_r. split; [reflexivity|exact H].
Qed.

Lemma strtofp_safe f isspace fuel m p s : isspace 0 = false -> str_at m p s -> small_runs s -> (length s < fuel)%nat ->
  exists v k, strtofp f isspace fuel m p = Ok (v, p + Z.of_nat k) /\ (k <= length s)%nat.
Proof.
  intros I0 H S L. destruct (span isspace s) as [ws t] eqn:SP. destruct (span_spec _ _ _ _ SP) as (-> & F & N). rewrite app_length in *.
  destruct (skip_space_ok isspace ws I0 fuel m p t H F N ltac:(lia)) as [SK H1]. unfold strtofp. rewrite SK. cbn [bind].
  apply small_suffix in S. clear SK H.
  destruct (sign_step _ _ _ H1) as (c & EC & sg & u & -> & _ & _ & E2 & H2). rewrite EC. cbn [bind]. cbv zeta. rewrite E2. clear E2 EC H1.
  apply small_suffix in S. rewrite app_length in *. set (neg := c =? 45). clearbody neg.
  replace (p + Z.of_nat (length ws) + Z.of_nat (length sg)) with (p + Z.of_nat (length ws + length sg)) in * by lia.
  set (k0 := (length ws + length sg)%nat) in *.
  destruct (either_total0 m _ u INF inf_ ltac:(unfold INF; nz) ltac:(unfold inf_; nz) H2) as (b1 & -> & R1). cbn [bind]. destruct b1.
  { eexists _, (k0 + 3)%nat. split; [do 2 f_equal; lia|]. destruct (proj1 R1 eq_refl) as [-> | ->]; cbn; lia. }
  destruct (either_total0 m _ u INFINITY infinity_ ltac:(unfold INFINITY; nz) ltac:(unfold infinity_; nz) H2) as (b2 & -> & R2). cbn [bind]. destruct b2.
  { eexists _, (k0 + 8)%nat. split; [do 2 f_equal; lia|]. destruct (proj1 R2 eq_refl) as [-> | ->]; cbn; lia. }
  destruct (either_total m _ u NAN nan_ ltac:(unfold NAN; nz) ltac:(unfold nan_; nz) H2) as (b3 & -> & R3). cbn [bind]. destruct b3.
  { eexists _, (k0 + 3)%nat. split; [do 2 f_equal; lia|]. destruct (R3 eq_refl) as (r & [-> | ->]); cbn; lia. }
  rewrite (str_hd _ _ _ H2). cbn [bind].
  assert (HX : exists h, (if hd0 u =? 48 then x <- load m (p + Z.of_nat k0 + 1) ;; Ok ((x =? 120) || (x =? 88)) else Ok false) = Ok h /\
               (h = true -> exists x w, u = 48 :: x :: w)).
  { destruct (Z.eqb_spec (hd0 u) 48) as [E|E]; [|exists false; split; [reflexivity|discriminate]].
    pose proof (str_tl _ _ _ H2 ltac:(lia)) as H3. rewrite (str_hd _ _ _ H3). cbn [bind].
    eexists. split; [reflexivity|]. intros Q. destruct u as [|y u]; [discriminate E|]. cbn [hd0 tl] in *. destruct u as [|x w]; [discriminate Q|].
    exists x, w. congruence. }
  destruct HX as (h & -> & RH). cbn [bind].
  destruct h.
  - destruct (RH eq_refl) as (x & w & ->). change (48 :: x :: w) with ([48; x] ++ w) in *. apply str_skip in H2. apply small_suffix in S.
    replace (p + Z.of_nat k0 + 2) with (p + Z.of_nat k0 + Z.of_nat (length [48; x])) by (cbn; lia).
    destruct (digits_part_safe f true fuel m _ w H2 S ltac:(cbn in L; lia)) as (k & v & -> & KL). cbn [bind].
    eexists _, (k0 + 2 + k)%nat. split; [do 2 f_equal; cbn [length]; lia|]. cbn [app length]. lia.
  - destruct (digits_part_safe f false fuel m _ u H2 S ltac:(lia)) as (k & v & -> & KL). cbn [bind].
    eexists _, (k0 + k)%nat. split; [do 2 f_equal; lia|]. lia.
Qed.

(** infinity *)
Lemma strtofp_inf f isspace fuel m p ws sg t : isspace 0 = false -> str_at m p (ws ++ sg ++ t) -> Forall (fun c => isspace c = true) ws ->
  isspace (hd0 (sg ++ t)) = false -> opt_sign sg -> t = INF \/ t = inf_ \/ t = INFINITY \/ t = infinity_ -> (length ws < fuel)%nat ->
  strtofp f isspace fuel m p = Ok (with_sign f (match sg with [45] => true | _ => false end) (infinity f), p + Z.of_nat (length (ws ++ sg ++ t))).
Proof.
  intros I0 H F N OS T L. destruct (skip_space_ok isspace ws I0 fuel m p _ H F (or_intror N) L) as [SK H1]. unfold strtofp. rewrite SK. cbn [bind].
  assert (T0 : hd0 t = 73 \/ hd0 t = 105) by (destruct T as [-> |[-> |[-> | ->]]]; cbn; tauto).
  assert (SG : (hd0 (sg ++ t) =? 45) = (match sg with [45] => true | _ => false end) /\
               (if (hd0 (sg ++ t) =? 43) || (hd0 (sg ++ t) =? 45) then p + Z.of_nat (length ws) + 1 else p + Z.of_nat (length ws)) = p + Z.of_nat (length ws) + Z.of_nat (length sg)).
  { destruct OS as [-> |[-> | ->]]; cbn [app hd0 length].
    - replace (hd0 t =? 43) with false by lia. replace (hd0 t =? 45) with false by lia. cbn [orb]. split; [reflexivity|lia].
    - split; reflexivity.
    - split; reflexivity. }
  destruct SG as [SG1 SG2]. rewrite (str_hd _ _ _ H1). cbn [bind]. cbv zeta. rewrite SG2, SG1. apply str_skip in H1. rewrite !app_length.
  destruct (either_total0 m _ t INF inf_ ltac:(unfold INF; nz) ltac:(unfold inf_; nz) H1) as (b1 & -> & R1). cbn [bind]. destruct b1.
  { do 2 f_equal. assert (length t = 3%nat) as -> by (destruct (proj1 R1 eq_refl) as [-> | ->]; reflexivity). lia. }
  destruct (either_total0 m _ t INFINITY infinity_ ltac:(unfold INFINITY; nz) ltac:(unfold infinity_; nz) H1) as (b2 & -> & R2). cbn [bind]. destruct b2.
  { do 2 f_equal. assert (length t = 8%nat) as -> by (destruct (proj1 R2 eq_refl) as [-> | ->]; reflexivity). lia. }
  exfalso. destruct T as [T|[T|[T|T]]]; intuition discriminate.
Qed.

(** what is at the start of a number *)
Lemma unsigned_hd n : wf n -> unsigned_text n <> [] /\ (hd0 (unsigned_text n) = 46 \/ is_dig (radix n) (hd0 (unsigned_text n))).
Proof.
  intros (W1 & W2 & W3 & W4 & W5 & W6 & W7). unfold unsigned_text, radix in *. destruct (hex n).
  - destruct W2 as [-> | ->]; cbn [app]; (split; [discriminate|right; reflexivity]).
  - rewrite W2. cbn [app]. destruct (ip n) as [|c l]; cbn [app] in *.
    + destruct (pt n) eqn:P; [split; [discriminate|left; reflexivity]|]. rewrite (W6 eq_refl) in W5. congruence.
    + split; [discriminate|]. right. cbn. now inversion W3.
Qed.
