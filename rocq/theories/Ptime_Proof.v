(** Lemmas about strptime. *)
From Verif Require Import Base Time_Model Time_Spec TimeCal_Proof Scanf_Model Ptime_Model Ptime_Spec.
From Verif Require Ftime_Model Scanf_Spec Scanf_Proof.
Open Scope Z_scope.

(** ** Texts *)
Lemma space_ok c : is_space c = true <-> space c.
Proof. unfold is_space, space. lia. Qed.
Lemma skip_ok ws inp : Forall space ws -> no_more space inp -> skip (ws ++ inp) = inp.
Proof.
  induction 1 as [|c ws H _ IH]; intros N; cbn [app skip].
  - destruct inp as [|c r]; [reflexivity|]. cbn [skip]. cbn in N. rewrite <- space_ok in N. destruct (is_space c); [congruence|reflexivity].
  - apply space_ok in H. rewrite H. apply IH, N.
Qed.
Lemma skip_space_ok ws : forall inp n, Forall space ws -> no_more space inp -> skip_space (ws ++ inp) n = (inp, n + Z.of_nat (length ws)).
Proof.
  induction ws as [|c ws IH]; intros inp n H N; cbn [app skip_space length].
  - rewrite Z.add_0_r. destruct inp as [|c r]; [reflexivity|]. cbn [skip_space]. cbn in N. rewrite <- space_ok in N. destruct (is_space c); [congruence|reflexivity].
  - inversion H as [|? ? H1 H2]; subst. apply space_ok in H1. rewrite H1, IH by assumption. f_equal. lia.
Qed.
Lemma value_app a b : value (a ++ [b]) = value a * 10 + (b - 48).
Proof. unfold value. rewrite fold_left_app. cbn [fold_left]. lia. Qed.
Lemma number_value ds : Forall numeral ds -> Scanf_Spec.number 10 ds (value ds).
Proof.
  induction ds as [|c ds IH] using rev_ind; intros H; [constructor|]. apply Forall_app in H as [H1 H2]. inversion H2 as [|? ? H3 _]; subst.
  rewrite value_app. constructor; [apply IH, H1|]. unfold Scanf_Spec.digit_value. unfold numeral in H3. lia.
Qed.
Lemma value_bound ds : Forall numeral ds -> 0 <= value ds < 10 ^ Z.of_nat (length ds).
Proof.
  induction ds as [|c ds IH] using rev_ind; intros H; [cbn; lia|]. apply Forall_app in H as [H1 H2]. inversion H2 as [|? ? H3 _]; subst.
  specialize (IH H1). rewrite value_app, app_length. cbn [length]. replace (Z.of_nat (length ds + 1)) with (Z.of_nat (length ds) + 1) by lia.
  rewrite Z.pow_add_r by lia. unfold numeral in H3. lia.
Qed.

Lemma sscanf_dn inp l n : skip_space inp 0 = (l, n) -> sscanf inp [37; 100; 37; 110] =
  match conv_int 100 true TInt l n with
  | Next s (Some _) k => Ok (1, match s with Some x => [x] | None => [] end ++ [store_int TInt k])
  | Next _ None _ => UB
  | NoMatch => Ok (0, [])
  | Eof => Ok (-1, [])
  end.
Proof. intros E. unfold sscanf. cbn -[skip_space conv_int]. rewrite E. destruct (conv_int 100 true TInt l n) as [[x|] [k|] m| |]; reflexivity. Qed.
Lemma scan_number_ok ws ds rest : Forall space ws -> ds <> [] -> Forall numeral ds -> no_more numeral rest ->
  Z.of_nat (length ws + length ds) < 2 ^ 31 ->
  exists v, scan_number (ws ++ ds ++ rest) = Ok (v, Z.of_nat (length ws + length ds)) /\ ((length ds <= 9)%nat -> v = value ds).
Proof.
  intros W NE N R L. unfold scan_number.
  destruct ds as [|c ds]; [congruence|]. clear NE.
  assert (NS : no_more space ((c :: ds) ++ rest)).
  { cbn. inversion N as [|? ? N1 _]; subst. unfold numeral in N1. unfold space. lia. }
  rewrite (sscanf_dn _ _ _ (skip_space_ok ws _ 0 W NS)).
  assert (CI : conv_int 100 true TInt ((c :: ds) ++ rest) (0 + Z.of_nat (length ws)) =
    Next (put true false TInt (value (c :: ds) mod 2 ^ 64)) (Some rest) (Z.of_nat (length ws) + Z.of_nat (length (c :: ds)))).
  { unfold conv_int. assert (SG : forall n, sign ((c :: ds) ++ rest) n = (false, (c :: ds) ++ rest, n)).
    { intros n. cbn. inversion N as [|? ? N1 _]; subst. unfold numeral in N1. replace (c =? 45) with false by lia. replace (c =? 43) with false by lia. reflexivity. }
    rewrite SG. rewrite Z.add_0_l. cbn [app]. cbn [andb Z.eqb Pos.eqb].
    change (c :: ds ++ rest) with ((c :: ds) ++ rest).
    rewrite (Scanf_Proof.digits_all 10 (c :: ds) (value (c :: ds)) rest (Z.of_nat (length ws))).
    - replace (Z.of_nat (length (c :: ds)) =? 0) with false by (cbn [length]; lia). reflexivity.
    - apply number_value, N.
    - intros d r v E. subst rest. unfold Scanf_Spec.digit_value. cbn in R. unfold numeral in R. lia. }
  rewrite CI. unfold put, store_int. cbn [app bind bits].
  eexists. split.
  - f_equal. f_equal.
    rewrite Z.mod_small by (cbn [length] in *; lia). unfold to_int. replace (Z.of_nat (length ws) + Z.of_nat (length (c :: ds)) <? 2 ^ 31) with true by (symmetry; apply Z.ltb_lt; cbn [length] in *; lia). lia.
  - intros L9. pose proof (value_bound _ N) as B. assert (H : 10 ^ Z.of_nat (length (c :: ds)) <= 10 ^ 9) by (apply Z.pow_le_mono_r; lia).
    change (10 ^ 9) with 1000000000 in H. rewrite (Z.mod_small _ (2 ^ 64)) by lia. rewrite Z.mod_small by lia. unfold to_int. replace (value (c :: ds) <? 2 ^ 31) with true by lia. reflexivity.
Qed.
Lemma rest_set s r : rest (set_rest s r) = r.
Proof. reflexivity. Qed.
Lemma set_rest_same s : set_rest s (rest s) = s.
Proof. destruct s; reflexivity. Qed.
Lemma number_ok w s inp r v : rest s = inp -> reads_number w inp r v -> (w <= 9)%nat -> number (Z.of_nat w) s = Ok (Some (v, set_rest s r)).
Proof.
  intros <- (ws & ds & E & W & NE & N & R & L & ->) W9. unfold number. rewrite E.
  destruct (scan_number_ok ws ds r W NE N R ltac:(lia)) as (v & Q & V). rewrite Q. cbn [bind]. rewrite V by lia.
  destruct ds as [|c ds]; [congruence|]. cbn [length] in L |- *.
  replace (Z.of_nat (length ws + S (length ds)) =? 0) with false by lia. replace (Z.of_nat w <? Z.of_nat (length ws + S (length ds))) with false by lia. cbn [orb].
  rewrite Nat2Z.id. rewrite (app_assoc ws (c :: ds) r), skipn_app. rewrite skipn_all2 by (rewrite app_length; cbn [length]; lia).
  rewrite app_length. cbn [length app]. replace (length ws + S (length ds) - (length ws + S (length ds)))%nat with 0%nat by lia. reflexivity.
Qed.
Lemma range_ok lo hi s inp r v : rest s = inp -> reads_number 2 inp r v -> lo <= v <= hi -> in_range lo hi s = Ok (Some (v, set_rest s r)).
Proof.
  intros E H B. unfold in_range. change (number 2 s) with (number (Z.of_nat 2) s). rewrite (number_ok 2 s inp r v E H) by lia. cbn [bind]. replace (v <? lo) with false by lia. replace (v >? hi) with false by lia. reflexivity.
Qed.
Lemma range_out lo hi s inp r v : rest s = inp -> reads_number 2 inp r v -> ~ lo <= v <= hi -> in_range lo hi s = Ok None.
Proof.
  intros E H B. unfold in_range. change (number 2 s) with (number (Z.of_nat 2) s). rewrite (number_ok 2 s inp r v E H) by lia. cbn [bind]. replace ((v <? lo) || (v >? hi)) with true by lia. reflexivity.
Qed.
(** more digits than fit *)
Lemma number_long w s ds r : (w < length ds)%nat -> Z.of_nat (length ds) < 2 ^ 31 -> Forall numeral ds -> no_more numeral r -> rest s = ds ++ r -> number (Z.of_nat w) s = Ok None.
Proof.
  intros L B N R E. unfold number. rewrite E. destruct ds as [|c ds]; [cbn in L; lia|].
  destruct (scan_number_ok [] (c :: ds) r ltac:(constructor) ltac:(discriminate) N R ltac:(cbn [length] in *; lia)) as (v & H & _). cbn [app] in H |- *. rewrite H. cbn [bind length].
  replace (Z.of_nat w <? Z.of_nat (0 + S (length ds))) with true by (symmetry; apply Z.ltb_lt; cbn [length] in L; lia). rewrite orb_true_r. reflexivity.
Qed.

(** ** Names *)
Notation lo := lower_case.
Lemma same_cons d s c n : same_text (d :: s) (c :: n) -> lower_case d = lower_case c /\ same_text s n.
Proof. intros H. split; [exact (f_equal (hd 0) H)|exact (f_equal (@tl Z) H)]. Qed.
Lemma prefix_ok n : forall s r, same_text s n -> has_prefix lo n (s ++ r) = Some r.
Proof.
  induction n as [|c n IH]; intros [|d s] r H; try discriminate H; [reflexivity|]. apply same_cons in H as [H1 H2].
  cbn [app has_prefix]. rewrite H1, Z.eqb_refl. apply IH. exact H2.
Qed.
Lemma prefix_inv n : forall inp r, has_prefix lo n inp = Some r -> exists s, inp = s ++ r /\ same_text s n.
Proof.
  induction n as [|c n IH]; intros inp r H; cbn [has_prefix] in H.
  - injection H as <-. exists []. split; reflexivity.
  - destruct inp as [|d inp]; [discriminate|]. destruct (lo c =? lo d) eqn:E; [|discriminate]. apply IH in H as (s & -> & H). exists (d :: s). split; [reflexivity|].
    unfold same_text in *. cbn [map]. rewrite H. f_equal. lia.
Qed.
(** two texts that differ at a place inside both *)
Fixpoint differ (a b : list Z) : bool :=
  match a, b with c :: a', d :: b' => negb (lower_case c =? lower_case d) || differ a' b' | _, _ => false end.
Lemma differ_ok a : forall b, differ a b = true -> forall s r, same_text s a -> has_prefix lo b (s ++ r) = None.
Proof.
  induction a as [|c a IH]; intros [|d b] H [|x s] r E; try discriminate E; try discriminate H. apply same_cons in E as [E1 E2].
  cbn [differ] in H. cbn [app has_prefix]. rewrite E1. destruct (lower_case c =? lower_case d) eqn:Q.
  - rewrite Z.eqb_sym, Q. apply (IH b); [exact H|exact E2].
  - rewrite Z.eqb_sym, Q. reflexivity.
Qed.
(** a text, then no letter: not a longer name *)
Lemma longer_none a b : b <> [] -> Forall letter b -> forall s r, same_text s a -> no_more letter r -> has_prefix lo (a ++ b) (s ++ r) = None.
Proof.
  intros NE B. induction a as [|c a IH]; intros [|x s] r E R; try discriminate E; cbn [app].
  - destruct b as [|d b]; [congruence|]. destruct r as [|y r]; [reflexivity|]. cbn [has_prefix]. cbn in R. inversion B as [|? ? B1 _]; subst.
    replace (lower_case d =? lower_case y) with false; [reflexivity|]. symmetry. apply Z.eqb_neq. unfold letter in *. unfold lower_case.
    destruct ((65 <=? d) && (d <=? 90)) eqn:?, ((65 <=? y) && (y <=? 90)) eqn:?; lia.
  - apply same_cons in E as [E1 E2]. cbn [has_prefix]. rewrite E1, Z.eqb_refl. apply IH; assumption.
Qed.

Lemma match_skip items : forall j k i inp, (j <= k)%nat -> (forall q, i <= q < i + Z.of_nat j -> has_prefix lo (items q) inp = None) ->
  match_item lo items i k inp = match_item lo items (i + Z.of_nat j) (k - j) inp.
Proof.
  induction j as [|j IH]; intros k i inp L H; [rewrite Z.add_0_r, Nat.sub_0_r; reflexivity|]. destruct k as [|k]; [lia|]. cbn [match_item]. rewrite H by lia.
  rewrite (IH k (i + 1)); [|lia|intros q Hq; apply H; lia]. f_equal; lia.
Qed.
Lemma match_here items i k inp r : 0 <= i < Z.of_nat k -> (forall q, 0 <= q < i -> has_prefix lo (items q) inp = None) -> has_prefix lo (items i) inp = Some r ->
  match_item lo items 0 k inp = Some (i, r).
Proof.
  intros I N H. rewrite (match_skip items (Z.to_nat i) k 0) by (try lia; intros q Hq; apply N; lia). replace (0 + Z.of_nat (Z.to_nat i)) with i by lia.
  destruct (k - Z.to_nat i)%nat as [|k'] eqn:E; [lia|]. cbn [match_item]. rewrite H. reflexivity.
Qed.
Lemma match_none items k inp : (forall q, 0 <= q < Z.of_nat k -> has_prefix lo (items q) inp = None) -> match_item lo items 0 k inp = None.
Proof. intros N. rewrite (match_skip items k k 0) by (try lia; intros q Hq; apply N; lia). rewrite Nat.sub_diag. reflexivity. Qed.

Definition nm (names : list (list Z)) (i : Z) : list Z := nth (Z.to_nat i) names [].
Definition apart (names : list (list Z)) : bool :=
  forallb (fun i => forallb (fun j => Nat.eqb i j || (differ (nth i names []) (nth j names []) && differ (firstn 3 (nth i names [])) (nth j names []) && differ (firstn 3 (nth i names [])) (firstn 3 (nth j names []))))
    (seq 0 (length names))) (seq 0 (length names)) &&
  forallb (fun n => (3 <=? length n)%nat && forallb (fun c => ((65 <=? c) && (c <=? 90)) || ((97 <=? c) && (c <=? 122))) n) names.
Lemma apart_days : apart days = true. Proof. reflexivity. Qed.
Lemma apart_months : apart months = true. Proof. reflexivity. Qed.

Lemma name_ok names k s inp r i set : apart names = true -> k = length names -> rest s = inp -> reads_name names inp r i ->
  name_of2 Ftime_Model.c_locale (nm names) (fun i => firstn 3 (nm names i)) k s set = Ok (Some (set i (set_rest s r))).
Proof.
  intros A -> <- (x & n & E & I0 & NT & H). unfold apart in A. apply andb_true_iff in A as [A1 A2]. rewrite forallb_forall in A1, A2.
  assert (IL : (Z.to_nat i < length names)%nat) by (apply nth_error_Some; congruence).
  assert (NI : nm names i = n) by (apply nth_error_nth, NT).
  assert (AP : forall q, 0 <= q < Z.of_nat (length names) -> q <> i -> differ n (nm names q) = true /\ differ (firstn 3 n) (nm names q) = true /\ differ (firstn 3 n) (firstn 3 (nm names q)) = true).
  { intros q Hq Hn. specialize (A1 (Z.to_nat i) ltac:(apply in_seq; lia)). rewrite forallb_forall in A1. specialize (A1 (Z.to_nat q) ltac:(apply in_seq; lia)).
    apply orb_true_iff in A1 as [A1|A1]; [apply Nat.eqb_eq in A1; lia|]. fold (nm names i) in A1. fold (nm names q) in A1. rewrite NI in A1. apply andb_true_iff in A1 as [A1 A3]. apply andb_true_iff in A1 as [A1 A4]. auto. }
  unfold name_of2. rewrite E. cbv zeta. change (Ftime_Model.l_lower Ftime_Model.c_locale) with lower_case. destruct H as [H|[H R]].
  - rewrite (match_here (nm names) i (length names) (x ++ r) r); [reflexivity|lia| |rewrite NI; apply prefix_ok, H].
    intros q Hq. apply (differ_ok n); [apply AP; lia|exact H].
  - destruct (skipn 3 n) as [|c t] eqn:T.
    + assert (F : firstn 3 n = n) by (rewrite <- (firstn_skipn 3 n) at 2; rewrite T, app_nil_r; reflexivity). rewrite F in H.
      rewrite (match_here (nm names) i (length names) (x ++ r) r); [reflexivity|lia| |rewrite NI; apply prefix_ok, H].
      intros q Hq. apply (differ_ok n); [apply AP; lia|exact H].
    + rewrite (match_none (nm names)).
      * rewrite (match_here (fun i => firstn 3 (nm names i)) i (length names) (x ++ r) r); [reflexivity|lia| |rewrite NI; apply prefix_ok, H].
        intros q Hq. apply (differ_ok (firstn 3 n)); [apply AP; lia|exact H].
      * intros q Hq. destruct (Z.eq_dec q i) as [->|Q].
        -- rewrite NI, <- (firstn_skipn 3 n), T. apply longer_none; [discriminate| |exact H|exact R].
           assert (L : Forall letter n).
           { apply nth_error_In in NT. specialize (A2 n NT). apply andb_true_iff in A2 as [_ A2]. rewrite forallb_forall in A2. apply Forall_forall. intros y Hy. specialize (A2 y Hy). unfold letter. lia. }
           rewrite <- (firstn_skipn 3 n) in L. apply Forall_app in L as [_ L]. rewrite T in L. exact L.
        -- apply (differ_ok (firstn 3 n)); [apply AP; assumption|exact H].
Qed.
(** ** Conversions *)
Definition step (s : st) (a : assign) : st :=
  match a with
  | Sec v => set_sec s v
  | Minute v => set_min s v
  | Hour v => set_hour s v
  | Am => set_hour s (Z.rem (hour s) 12)
  | Pm => set_hour s (Z.rem (hour s) 12 + 12)
  | Mday v => set_mday s v
  | Mon v => set_mon s v
  | Wday v => set_wday s v true
  | Yday v => set_yday s v
  | Year v => set_full s v
  | Year2 v => set_year s (if v <? 69 then v + 100 else v)
  | Century v => set_century s v
  end.
Definition run (s : st) (l : list assign) : st := fold_left step l s.
Lemma run_app s a b : run s (a ++ b) = run (run s a) b.
Proof. apply fold_left_app. Qed.
Lemma step_rest s a r : step (set_rest s r) a = set_rest (step s a) r.
Proof. destruct a; reflexivity. Qed.
Lemma run_rest l : forall s r, run (set_rest s r) l = set_rest (run s l) r.
Proof. induction l as [|a l IH]; intros s r; [reflexivity|]. cbn [run fold_left]. fold (run (step (set_rest s r) a) l). fold (run (step s a) l). rewrite step_rest. apply IH. Qed.

Notation CL := Ftime_Model.c_locale.
Definition good (again : list Z -> st -> res (option st)) (F : Z -> list Z -> list Z -> list assign -> Prop) : Prop :=
  forall d inp r a s, F d inp r a -> rest s = inp -> directive CL again d s = Ok (Some (set_rest (run s a) r)).

Ltac inlist H := cbn [In] in H; repeat (destruct H as [<-|H]; [|]); [.. | destruct H].
Lemma simple_ok again : good again simple.
Proof.
  intros d inp r a s H E.
  assert (R2 : forall lo hi k v, reads_number 2 inp r v -> lo <= v <= hi -> on (in_range lo hi s) k = Ok (Some (k v (set_rest s r)))).
  { intros lo0 hi k v N B. rewrite (range_ok lo0 hi s inp r v E N B). reflexivity. }
  assert (RN : forall w k v, reads_number w inp r v -> (w <= 9)%nat -> on (number (Z.of_nat w) s) k = Ok (Some (k v (set_rest s r)))).
  { intros w k v N B. rewrite (number_ok w s inp r v E N B). reflexivity. }
  destruct H as [r|d inp r i D N|d inp r i D N|inp r v N|d inp r v D N B|inp r v N B|inp r v N B|inp r v N B|inp r v N B|inp r v N B|d ws r D W NE R|x r X|x r X|inp r v N B|inp r v N B|inp r v N|inp r v N];
    unfold directive.
  - rewrite E. reflexivity.
  - assert (Q : name_of2 CL (Ftime_Model.l_day CL) (Ftime_Model.l_abday CL) 7 s (fun v s0 => set_wday s0 v true) = Ok (Some (set_wday (set_rest s r) i true)))
      by exact (name_ok days 7 s inp r i (fun v s => set_wday s v true) apart_days eq_refl E N).
    inlist D; cbn [Z.eqb Pos.eqb orb]; rewrite Q; reflexivity.
  - assert (Q : name_of2 CL (Ftime_Model.l_mon CL) (Ftime_Model.l_abmon CL) 12 s (fun v s0 => set_mon s0 v) = Ok (Some (set_mon (set_rest s r) i)))
      by exact (name_ok months 12 s inp r i (fun v s => set_mon s v) apart_months eq_refl E N).
    inlist D; cbn [Z.eqb Pos.eqb orb]; rewrite Q; reflexivity.
  - cbn [Z.eqb Pos.eqb orb]. change 2 with (Z.of_nat 2). rewrite (RN 2%nat _ v N) by lia. reflexivity.
  - inlist D; cbn [Z.eqb Pos.eqb orb]; rewrite (R2 1 31 _ v N B); reflexivity.
  - cbn [Z.eqb Pos.eqb orb]. rewrite (R2 0 23 _ v N B). reflexivity.
  - cbn [Z.eqb Pos.eqb orb]. rewrite (R2 1 12 _ v N B). reflexivity.
  - cbn [Z.eqb Pos.eqb orb]. rewrite (R2 1 366 _ v N B). reflexivity.
  - cbn [Z.eqb Pos.eqb orb]. rewrite (R2 1 12 _ v N B). reflexivity.
  - cbn [Z.eqb Pos.eqb orb]. rewrite (R2 0 59 _ v N B). reflexivity.
  - rewrite E. assert (SK := skip_ok ws r W R). destruct ws as [|c ws]; [congruence|]. cbn [app] in SK |- *. inversion W as [|? ? W1 _]; subst. apply space_ok in W1. rewrite W1, SK.
    inlist D; reflexivity.
  - cbn [Z.eqb Pos.eqb orb]. cbv zeta. change (Ftime_Model.l_lower Ftime_Model.c_locale) with lower_case. change (Ftime_Model.l_am CL) with [65; 77]. rewrite E. rewrite (prefix_ok [65; 77] x r X). reflexivity.
  - cbn [Z.eqb Pos.eqb orb]. cbv zeta. change (Ftime_Model.l_lower Ftime_Model.c_locale) with lower_case. change (Ftime_Model.l_am CL) with [65; 77]. change (Ftime_Model.l_pm CL) with [80; 77]. rewrite E.
    rewrite (differ_ok [80; 77] [65; 77] eq_refl x r X). rewrite (prefix_ok [80; 77] x r X). reflexivity.
  - cbn [Z.eqb Pos.eqb orb]. rewrite (R2 0 60 _ v N B). reflexivity.
  - cbn [Z.eqb Pos.eqb orb]. change 1 with (Z.of_nat 1). rewrite (RN 1%nat _ v N) by lia. reflexivity.
  - cbn [Z.eqb Pos.eqb orb]. change 2 with (Z.of_nat 2). rewrite (RN 2%nat _ v N) by lia. reflexivity.
  - cbn [Z.eqb Pos.eqb orb]. change 4 with (Z.of_nat 4). rewrite (RN 4%nat _ v N) by lia. reflexivity.
Qed.

(** the format up to [g] *)
Lemma loop_ok again F : good again F -> forall f inp r a, reads F f inp r a -> forall s g, rest s = inp ->
  loop CL again (f ++ g) s = loop CL again g (set_rest (run s a) r).
Proof.
  intros G f inp r a H. induction H as [inp|c f ws inp r a C W N _ IH|c f inp r a C1 C2 _ IH|d f inp mid r a1 a2 D _ IH]; intros s g E; cbn [app].
  - rewrite <- E. cbn [run fold_left]. rewrite set_rest_same. reflexivity.
  - cbn [loop]. assert (c <> 37) by (unfold space in C; lia). replace (c =? 37) with false by lia. cbn [negb]. apply space_ok in C. rewrite C.
    rewrite E, skip_ok by assumption. rewrite (IH _ g) by reflexivity. rewrite run_rest. reflexivity.
  - cbn [loop]. replace (c =? 37) with false by lia. cbn [negb]. rewrite <- space_ok in C2. destruct (is_space c); [congruence|]. rewrite E, Z.eqb_refl.
    rewrite (IH _ g) by reflexivity. rewrite run_rest. reflexivity.
  - cbn [loop Z.eqb Pos.eqb negb]. rewrite (G d inp mid a1 s D E). cbn [bind]. rewrite (IH _ g) by reflexivity. rewrite run_app, run_rest. reflexivity.
Qed.
Lemma internal_ok again F : good again F -> forall f g ws inp r a s, Forall space ws -> inp <> [] -> no_more space inp -> reads F f inp r a -> rest s = ws ++ inp ->
  internal CL again (f ++ g) s = loop CL again g (set_rest (run s a) r).
Proof.
  intros G f g ws inp r a s W NE N H E. unfold internal. rewrite E, skip_ok by assumption. cbn [rest set_rest]. destruct inp as [|c inp]; [congruence|].
  rewrite (loop_ok again F G f _ r a H _ g) by reflexivity. rewrite run_rest. reflexivity.
Qed.
Lemma conv_ok : good (internal CL (fun _ _ => Fuel)) conv.
Proof.
  intros d inp r a s H E. destruct H as [d inp r a H|d f ws inp r a C W NE N H]; [exact (simple_ok _ d inp r a s H E)|].
  assert (I : internal CL (fun _ _ => Fuel) f s = Ok (Some (set_rest (run s a) r))).
  { rewrite <- (app_nil_r f). rewrite (internal_ok _ simple (simple_ok _) f [] ws inp r a s W NE N H E). reflexivity. }
  cbn [composites In] in C.
  destruct C as [C|[C|[C|[C|[C|[]]]]]]; injection C as <- <-; exact I.
Qed.

(** the initial state *)
Definition init (t : tm) (inp : list Z) : st :=
  {| sec := tm_sec t; min := tm_min t; hour := tm_hour t; mday := tm_mday t; mon := tm_mon t; year := tm_year t; wday := tm_wday t; yday := tm_yday t;
     has_century := false; has_year := false; has_month := false; has_mday := false; has_yday := false; has_wday := false;
     full_year := false; century := 0; rest := inp |}.
Definition to_tm (s : st) : tm := {| tm_sec := sec s; tm_min := min s; tm_hour := hour s; tm_mday := mday s; tm_mon := mon s; tm_year := year s; tm_wday := wday s; tm_yday := yday s |}.
Lemma finish_rest s : rest (finish s) = rest s.
Proof.
  unfold finish. destruct (has_century s && negb (full_year s));
    match goal with |- context [has_month ?x && _] => destruct (has_month x && negb (has_yday x)) end;
    match goal with |- context [has_year ?x && _] => destruct (has_year x && negb (has_wday x)) end; try reflexivity;
    match goal with |- context [if ?b then _ else _] => destruct b end; try reflexivity;
    match goal with |- context [if ?b then _ else _] => destruct b end; reflexivity.
Qed.
Lemma strptime_ok t ws inp r f a : Forall space ws -> inp <> [] -> no_more space inp -> reads conv f inp r a ->
  strptime CL (ws ++ inp) f t = Ok (Some (to_tm (finish (set_rest (run (init t (ws ++ inp)) a) r)), r)).
Proof.
  intros W NE N H. unfold strptime. fold (init t (ws ++ inp)). rewrite <- (app_nil_r f).
  rewrite (internal_ok _ conv conv_ok f [] ws inp r a (init t (ws ++ inp)) W NE N H eq_refl). cbn [loop bind]. rewrite finish_rest. reflexivity.
Qed.
(** after a prefix of the format *)
Lemma strptime_prefix t ws inp r f g a : Forall space ws -> inp <> [] -> no_more space inp -> reads conv f inp r a ->
  strptime CL (ws ++ inp) (f ++ g) t = 
  (x <- loop CL (internal CL (fun _ _ => Fuel)) g (set_rest (run (init t (ws ++ inp)) a) r) ;;
   match x with None => Ok None | Some s => Ok (Some (to_tm (finish s), rest (finish s))) end).
Proof.
  intros W NE N H. unfold strptime. fold (init t (ws ++ inp)).
  rewrite (internal_ok _ conv conv_ok f g ws inp r a (init t (ws ++ inp)) W NE N H eq_refl). reflexivity.
Qed.

(** ** The result *)
Lemma existsb_app' {A} (p : A -> bool) a b : existsb p (a ++ b) = existsb p a || existsb p b.
Proof. induction a as [|x a IH]; [reflexivity|]. cbn. rewrite IH. apply orb_assoc. Qed.
(** run and stored agree on the members that are stored as they are *)
Definition agree (s : st) (t : tm) : Prop :=
  sec s = tm_sec t /\ min s = tm_min t /\ hour s = tm_hour t /\ 0 <= hour s /\ mday s = tm_mday t /\ mon s = tm_mon t /\ wday s = tm_wday t /\ yday s = tm_yday t.
Definition hour_ok (a : assign) : Prop := match a with Hour v => 0 <= v | _ => True end.
Lemma step_agree s t a : agree s t -> hour_ok a -> agree (step s a) (store1 t a).
Proof.
  intros (A1 & A2 & A3 & A4 & A5 & A6 & A7 & A8) H. destruct a; unfold agree; cbn in *; rewrite ?Z.rem_mod_nonneg, ?A3 by lia; repeat split; try assumption; try lia;
    rewrite <- A3; pose proof (Z.mod_pos_bound (hour s) 12); lia.
Qed.
Lemma run_agree a : forall s t, agree s t -> Forall hour_ok a -> agree (run s a) (stored t a).
Proof.
  induction a as [|x a IH]; intros s t A H; [exact A|]. inversion H; subst. cbn [run stored fold_left]. apply IH; [apply step_agree; assumption|assumption].
Qed.
Lemma reads_hours (F : Z -> list Z -> list Z -> list assign -> Prop) f inp r a : (forall d i r0 b, F d i r0 b -> Forall hour_ok b) -> reads F f inp r a -> Forall hour_ok a.
Proof. intros HF H. induction H as [| | |d f inp mid r a1 a2 D _ IH]; try constructor; try assumption. apply Forall_app. split; [exact (HF _ _ _ _ D)|exact IH]. Qed.
Lemma simple_hours d inp r a : simple d inp r a -> Forall hour_ok a.
Proof. intros H. destruct H; repeat constructor; cbn; lia. Qed.
Lemma conv_hours d inp r a : conv d inp r a -> Forall hour_ok a.
Proof. intros H. destruct H as [d inp r a H|d f ws inp r a C W NE N H]; [exact (simple_hours _ _ _ _ H)|exact (reads_hours simple f inp r a simple_hours H)]. Qed.

(** the flags *)
Definition is_century (a : assign) : bool := match a with Year _ | Century _ => true | _ => false end.
Definition is_full (a : assign) : bool := match a with Year _ => true | _ => false end.
Definition is_y (a : assign) : bool := match a with Year _ | Year2 _ => true | _ => false end.
Lemma run_flags a : forall s, has_month (run s a) = existsb is_mon a || has_month s /\ has_mday (run s a) = existsb is_mday a || has_mday s /\
  has_yday (run s a) = existsb is_yday a || has_yday s /\ has_wday (run s a) = existsb is_wday a || has_wday s /\
  has_century (run s a) = existsb is_century a || has_century s /\ full_year (run s a) = existsb is_full a || full_year s /\ has_year (run s a) = existsb is_y a || has_year s.
Proof.
  induction a as [|x a IH]; intros s; [cbn; auto 10|]. cbn [run fold_left existsb]. fold (run (step s x) a). destruct (IH (step s x)) as (-> & -> & -> & -> & -> & -> & ->).
  destruct x; cbn; rewrite ?orb_true_r; auto 10.
Qed.
(** the year depends only on the conversions about it *)
Lemma run_year a : forall s, year (run s a) = year (run s (filter is_year a)) /\ century (run s a) = century (run s (filter is_year a)).
Proof.
  assert (E : forall l s1 s2, year s1 = year s2 -> century s1 = century s2 -> year (run s1 l) = year (run s2 l) /\ century (run s1 l) = century (run s2 l)).
  { induction l as [|x l IH]; intros s1 s2 H1 H2; [split; assumption|]. cbn [run fold_left]. apply IH; destruct x; cbn; congruence. }
  induction a as [|x a IH]; intros s; [split; reflexivity|]. cbn [filter]. destruct (is_year x) eqn:Y; cbn [run fold_left].
  - apply (IH (step s x)).
  - destruct (IH (step s x)) as [H1 H2]. fold (run (step s x) a). rewrite H1, H2. apply E; destruct x; try discriminate Y; reflexivity.
Qed.
Lemma existsb_filter (p q : assign -> bool) a : (forall x, p x = true -> q x = true) -> existsb p (filter q a) = existsb p a.
Proof.
  intros H. induction a as [|x a IH]; [reflexivity|]. cbn [filter existsb]. destruct (q x) eqn:Q; cbn [existsb]; rewrite IH; [reflexivity|].
  destruct (p x) eqn:P; [rewrite (H x P) in Q; discriminate|reflexivity].
Qed.
(** ** finish *)
Definition any_year (s : st) : bool := has_year s || (has_century s && negb (full_year s)).
Definition f1 (s : st) : st := if has_century s && negb (full_year s) then
             let y := century s * 100 + (if has_year s then (if year s >=? 100 then year s - 100 else year s) else 0) in
             set_year s (y - 1900)
           else s.
Definition f2 (s : st) : st := if has_month s && negb (has_yday s) then
             let day := if has_year s then day_in_year (mon s) (year s) else month_to_day (mon s) in
             set_yday s (day + mday s - 1)
           else s.
Definition f3 (s : st) : st := if has_year s && negb (has_wday s) then
    if negb (has_month s) && negb (has_mday s) then set_wday s (day_determination 0 0 (year s + 1900)) true
    else if has_month s && has_mday s then set_wday s (day_determination (mday s) (mon s) (year s + 1900)) true
    else s
  else s.
Lemma f1_fields s : sec (f1 s) = sec s /\ min (f1 s) = min s /\ hour (f1 s) = hour s /\ mday (f1 s) = mday s /\ mon (f1 s) = mon s /\ wday (f1 s) = wday s /\ yday (f1 s) = yday s /\
  year (f1 s) = (if has_century s && negb (full_year s) then century s * 100 + (if has_year s then (if year s >=? 100 then year s - 100 else year s) else 0) - 1900 else year s) /\
  has_year (f1 s) = any_year s /\ has_month (f1 s) = has_month s /\ has_mday (f1 s) = has_mday s /\ has_yday (f1 s) = has_yday s /\ has_wday (f1 s) = has_wday s.
Proof. unfold f1, any_year. destruct (has_century s && negb (full_year s)); rewrite ?orb_true_r, ?orb_false_r; auto 20. Qed.
Lemma f2_fields s : sec (f2 s) = sec s /\ min (f2 s) = min s /\ hour (f2 s) = hour s /\ mday (f2 s) = mday s /\ mon (f2 s) = mon s /\ wday (f2 s) = wday s /\ year (f2 s) = year s /\
  yday (f2 s) = (if has_month s && negb (has_yday s) then (if has_year s then day_in_year (mon s) (year s) else month_to_day (mon s)) + mday s - 1 else yday s) /\
  has_year (f2 s) = has_year s /\ has_month (f2 s) = has_month s /\ has_mday (f2 s) = has_mday s /\ has_wday (f2 s) = has_wday s.
Proof. unfold f2. destruct (has_month s && negb (has_yday s)); auto 20. Qed.
Lemma f3_fields s : sec (f3 s) = sec s /\ min (f3 s) = min s /\ hour (f3 s) = hour s /\ mday (f3 s) = mday s /\ mon (f3 s) = mon s /\ year (f3 s) = year s /\ yday (f3 s) = yday s /\
  wday (f3 s) = (if has_year s && negb (has_wday s) then
                       if negb (has_month s) && negb (has_mday s) then day_determination 0 0 (year s + 1900)
                       else if has_month s && has_mday s then day_determination (mday s) (mon s) (year s + 1900) else wday s
                     else wday s).
Proof. unfold f3. destruct (has_year s && negb (has_wday s)), (negb (has_month s) && negb (has_mday s)), (has_month s && has_mday s); auto 20. Qed.
Lemma finish_fields s :
  sec (finish s) = sec s /\ min (finish s) = min s /\ hour (finish s) = hour s /\ mday (finish s) = mday s /\ mon (finish s) = mon s /\
  year (finish s) = (if has_century s && negb (full_year s) then century s * 100 + (if has_year s then (if year s >=? 100 then year s - 100 else year s) else 0) - 1900 else year s) /\
  yday (finish s) = (if has_month s && negb (has_yday s) then (if any_year s then day_in_year (mon s) (year (finish s)) else month_to_day (mon s)) + mday s - 1 else yday s) /\
  wday (finish s) = (if any_year s && negb (has_wday s) then
                       if negb (has_month s) && negb (has_mday s) then day_determination 0 0 (year (finish s) + 1900)
                       else if has_month s && has_mday s then day_determination (mday s) (mon s) (year (finish s) + 1900) else wday s
                     else wday s).
Proof.
  change (finish s) with (f3 (f2 (f1 s))).
  destruct (f1_fields s) as (A1 & A2 & A3 & A4 & A5 & A6 & A7 & A8 & A9 & A10 & A11 & A12 & A13).
  destruct (f2_fields (f1 s)) as (B1 & B2 & B3 & B4 & B5 & B6 & B7 & B8 & B9 & B10 & B11 & B12).
  destruct (f3_fields (f2 (f1 s))) as (C1 & C2 & C3 & C4 & C5 & C6 & C7 & C8).
  rewrite C1, C2, C3, C4, C5, C6, C7, C8, B1, B2, B3, B4, B5, B6, B7, B8, B9, B10, B11, B12, A1, A2, A3, A4, A5, A6, A7, A8, A9, A10, A11, A12, A13. auto 10.
Qed.

Definition result (t : tm) (inp : list Z) (a : list assign) (r : list Z) : tm := to_tm (finish (set_rest (run (init t inp) a) r)).
Lemma result_plain t inp a r : 0 <= tm_hour t -> Forall hour_ok a ->
  tm_sec (result t inp a r) = tm_sec (stored t a) /\ tm_min (result t inp a r) = tm_min (stored t a) /\ tm_hour (result t inp a r) = tm_hour (stored t a) /\
  tm_mday (result t inp a r) = tm_mday (stored t a) /\ tm_mon (result t inp a r) = tm_mon (stored t a).
Proof.
  intros H0 H. unfold result, to_tm. cbn [tm_sec tm_min tm_hour tm_mday tm_mon]. destruct (finish_fields (set_rest (run (init t inp) a) r)) as (-> & -> & -> & -> & -> & _).
  destruct (run_agree a (init t inp) t) as (A1 & A2 & A3 & _ & A5 & A6 & _); [unfold agree; cbn; auto 10|exact H|]. cbn [set_rest sec min hour mday mon]. auto.
Qed.
Lemma result_wday t inp a r : 0 <= tm_hour t -> Forall hour_ok a -> existsb is_wday a = true -> tm_wday (result t inp a r) = tm_wday (stored t a).
Proof.
  intros H0 H W. unfold result, to_tm. cbn [tm_wday]. destruct (finish_fields (set_rest (run (init t inp) a) r)) as (_ & _ & _ & _ & _ & _ & _ & ->).
  cbn [set_rest has_wday wday]. destruct (run_flags a (init t inp)) as (_ & _ & _ & -> & _). rewrite W. cbn [orb negb]. rewrite andb_false_r.
  destruct (run_agree a (init t inp) t) as (_ & _ & _ & _ & _ & _ & A & _); [unfold agree; cbn; auto 10|exact H|exact A].
Qed.
Lemma result_yday t inp a r : 0 <= tm_hour t -> Forall hour_ok a -> existsb is_yday a = true -> tm_yday (result t inp a r) = tm_yday (stored t a).
Proof.
  intros H0 H W. unfold result, to_tm. cbn [tm_yday]. destruct (finish_fields (set_rest (run (init t inp) a) r)) as (_ & _ & _ & _ & _ & _ & -> & _).
  cbn [set_rest has_yday yday has_month]. destruct (run_flags a (init t inp)) as (_ & _ & -> & _). rewrite W. cbn [orb negb]. rewrite andb_false_r.
  destruct (run_agree a (init t inp) t) as (_ & _ & _ & _ & _ & _ & _ & A); [unfold agree; cbn; auto 10|exact H|exact A].
Qed.
Definition two_ok (a : assign) : Prop := match a with Year2 v => 0 <= v < 100 | _ => True end.
Lemma year_any l y : year_of l y -> existsb is_y l || (existsb is_century l && negb (existsb is_full l)) = true.
Proof. destruct 1; reflexivity. Qed.
Lemma result_any t inp a r y : year_of (filter is_year a) y -> any_year (set_rest (run (init t inp) a) r) = true.
Proof.
  intros Y. unfold any_year. cbn [set_rest has_year has_century full_year]. destruct (run_flags a (init t inp)) as (_ & _ & _ & _ & -> & -> & ->). cbn [init has_year has_century full_year].
  rewrite !orb_false_r. apply year_any in Y. rewrite !existsb_filter in Y; [exact Y| | |]; intros []; cbn; congruence.
Qed.
Lemma result_year t inp a r y : year_of (filter is_year a) y -> Forall two_ok a -> tm_year (result t inp a r) = y - 1900.
Proof.
  intros Y TW. unfold result, to_tm. cbn [tm_year]. destruct (finish_fields (set_rest (run (init t inp) a) r)) as (_ & _ & _ & _ & _ & -> & _).
  cbn [set_rest has_century full_year century has_year year]. destruct (run_flags a (init t inp)) as (_ & _ & _ & _ & -> & -> & ->). destruct (run_year a (init t inp)) as [-> ->].
  cbn [init has_century full_year has_year]. rewrite !orb_false_r.
  rewrite <- (existsb_filter is_century is_year), <- (existsb_filter is_full is_year), <- (existsb_filter is_y is_year) by (intros []; cbn; congruence).
  assert (TF : Forall two_ok (filter is_year a)) by (apply Forall_forall; intros x Hx; apply filter_In in Hx as [Hx _]; rewrite Forall_forall in TW; apply TW, Hx).
  destruct Y as [v|v V|v V|c v|c v|c]; cbn [existsb is_century is_full is_y andb orb negb run fold_left step set_full set_year set_century init year century].
  - reflexivity.
  - replace (v <? 69) with true by lia. lia.
  - replace (v <? 69) with false by lia. lia.
  - inversion TF as [|? ? _ TF1]; subst. inversion TF1 as [|? ? TF2 _]; subst. cbn in TF2. destruct (v <? 69) eqn:Q; [replace (v + 100 >=? 100) with true by lia|replace (v >=? 100) with false by lia]; lia.
  - inversion TF as [|? ? TF2 _]; subst. cbn in TF2. destruct (v <? 69) eqn:Q; [replace (v + 100 >=? 100) with true by lia|replace (v >=? 100) with false by lia]; lia.
  - lia.
Qed.
Lemma reads_two (F : Z -> list Z -> list Z -> list assign -> Prop) f inp r a : (forall d i r0 b, F d i r0 b -> Forall two_ok b) -> reads F f inp r a -> Forall two_ok a.
Proof. intros HF H. induction H as [| | |d f inp mid r a1 a2 D _ IH]; try constructor; try assumption. apply Forall_app. split; [exact (HF _ _ _ _ D)|exact IH]. Qed.
Lemma simple_two d inp r a : simple d inp r a -> Forall two_ok a.
Proof.
  intros H. destruct H as [| | | | | | | | | | | | | | |inp r v (ws & ds & _ & _ & _ & N & _ & L & ->)|]; repeat constructor; cbn; auto.
  - apply value_bound, N.
  - pose proof (value_bound ds N). assert (10 ^ Z.of_nat (length ds) <= 10 ^ 2) by (apply Z.pow_le_mono_r; lia). lia.
Qed.
Lemma conv_two d inp r a : conv d inp r a -> Forall two_ok a.
Proof. intros H. destruct H as [d inp r a H|d f ws inp r a C W NE N H]; [exact (simple_two _ _ _ _ H)|exact (reads_two simple f inp r a simple_two H)]. Qed.

(** ** The day of the week *)
Definition doom_chk (r m : Z) : bool := (doom r - (if is_leapyear r && (m <? 2) then target m + 1 else target m) - (D r (m + 1) 0 + 4)) mod 7 =? 0.
Lemma doom_all : forallb (fun r => forallb (fun m => doom_chk (Z.of_nat r) (Z.of_nat m)) (seq 0 12)) (seq 0 400) = true.
Proof. vm_compute. reflexivity. Qed.
Lemma doom_period r k : 0 <= r < 400 -> 0 <= k -> doom (r + 400 * k) = doom r /\ is_leapyear (r + 400 * k) = is_leapyear r.
Proof.
  intros R K.
  assert (E1 : Z.rem (Z.quot (r + 400 * k) 100) 4 = Z.rem (Z.quot r 100) 4).
  { rewrite !Z.quot_div_nonneg by lia. rewrite !Z.rem_mod_nonneg by (try apply Z.div_pos; lia). replace (r + 400 * k) with (r + (4 * k) * 100) by lia. rewrite Z.div_add by lia.
    rewrite Z.mul_comm, Z.mod_add by lia. reflexivity. }
  assert (E2 : forall c q, 400 = c * q -> 0 < c -> Z.rem (r + 400 * k) c = Z.rem r c).
  { intros c q E C. rewrite !Z.rem_mod_nonneg by lia. rewrite E. replace (r + c * q * k) with (r + (q * k) * c) by lia. apply Z.mod_add. lia. }
  unfold doom, is_leapyear. rewrite E1, (E2 100 4), (E2 4 100), (E2 400 1) by lia. split; reflexivity.
Qed.
Lemma D_period r k m d : D (r + 400 * k) m d = D r m d + 146097 * k.
Proof. unfold D. destruct (m <=? 2); lia. Qed.
Lemma doom_ok y m : 0 <= y -> 0 <= m <= 11 -> (doom y - (if is_leapyear y && (m <? 2) then target m + 1 else target m) - (D y (m + 1) 0 + 4)) mod 7 = 0.
Proof.
  intros Y M. pose proof (Z.div_mod y 400 ltac:(lia)) as E. pose proof (Z.mod_pos_bound y 400 ltac:(lia)) as B. set (r := y mod 400) in *. set (k := y / 400) in *.
  assert (K : 0 <= k) by (unfold k; apply Z.div_pos; lia). replace y with (r + 400 * k) by lia.
  destruct (doom_period r k B K) as [-> ->]. rewrite D_period.
  assert (H := doom_all). rewrite forallb_forall in H. specialize (H (Z.to_nat r) ltac:(apply in_seq; lia)). rewrite forallb_forall in H.
  specialize (H (Z.to_nat m) ltac:(apply in_seq; lia)). rewrite !Z2Nat.id in H by lia. unfold doom_chk in H. apply Z.eqb_eq in H. 
  generalize dependent (doom r - (if is_leapyear r && (m <? 2) then target m + 1 else target m)). intros x H. generalize dependent (D r (m + 1) 0). intros z H. clear - H. lia.
Qed.
Lemma weekday_ok y m d : 0 <= y -> 0 <= m <= 11 -> (day_determination d m y - (D y (m + 1) d + 4)) mod 7 = 0.
Proof.
  intros Y M. pose proof (doom_ok y m Y M) as H. unfold day_determination. set (t := if is_leapyear y && (m <? 2) then target m + 1 else target m) in *.
  assert (E : D y (m + 1) d = D y (m + 1) 0 + d) by (rewrite !D_Y; lia). rewrite E.
  pose proof (Z.quot_rem' (d - t) 7) as Q1. pose proof (Z.quot_rem' (doom y + Z.rem (d - t) 7) 7) as Q2.
  set (a := Z.rem (d - t) 7) in *. set (b := Z.rem (doom y + a) 7) in *. clearbody a b. generalize dependent (Z.quot (d - t) 7). generalize dependent (Z.quot (doom y + a) 7).
  clear E. generalize dependent (doom y). generalize dependent (D y (m + 1) 0). clear. intros. lia.
Qed.
Lemma months11 m : 0 <= m <= 11 -> m = 0 \/ m = 1 \/ m = 2 \/ m = 3 \/ m = 4 \/ m = 5 \/ m = 6 \/ m = 7 \/ m = 8 \/ m = 9 \/ m = 10 \/ m = 11.
Proof. lia. Qed.
Lemma target_14 m : 0 <= m <= 11 -> target m <= 14.
Proof. intros H. destruct (months11 m H) as [->|[->|[->|[->|[->|[->|[->|[->|[->|[->|[->| ->]]]]]]]]]]]; vm_compute; discriminate. Qed.
Lemma doom_pos y : 0 <= y -> 0 <= doom y.
Proof.
  intros Y. unfold doom. cbv zeta. match goal with |- 0 <= 7 - Z.rem ?a 7 + (2 + Z.rem ?b 7) => pose proof (Z.rem_bound_abs a 7 ltac:(lia)); assert (0 <= b) end.
  { rewrite Z.quot_div_nonneg by lia. pose proof (Z.rem_nonneg (y / 100) 4 ltac:(lia) ltac:(apply Z.div_pos; lia)). lia. }
  match goal with |- 0 <= 7 - _ + (2 + Z.rem ?b 7) => pose proof (Z.rem_nonneg b 7 ltac:(lia) H0) end. lia.
Qed.
(** from the middle of the month on, the day of the week is in its range *)
Lemma weekday_late y m d : 0 <= y -> 0 <= m <= 11 -> 15 <= d -> day_determination d m y = (D y (m + 1) d + 4) mod 7.
Proof.
  intros Y M L. pose proof (weekday_ok y m d Y M) as H. assert (B : 0 <= day_determination d m y < 7).
  { unfold day_determination. set (t := if is_leapyear y && (m <? 2) then target m + 1 else target m). assert (t <= 15) by (unfold t; pose proof (target_14 m M); destruct (is_leapyear y && (m <? 2)); lia).
    pose proof (Z.rem_nonneg (d - t) 7 ltac:(lia) ltac:(lia)). pose proof (doom_pos y Y). apply Z.rem_bound_pos; lia. }
  generalize dependent (day_determination d m y). generalize (D y (m + 1) d). clear. intros. lia.
Qed.

(** ** The day of the year *)
Lemma day_in_year_ok y m d : y mod 4 <> 0 -> 1 <= m <= 12 -> day_in_year (m - 1) (y - 1900) + d - 1 = year_day (y, m, d).
Proof.
  intros Y M. unfold day_in_year, is_leapyear. replace (Z.rem (y - 1900) 4 =? 0) with false.
  2: { symmetry. apply Z.eqb_neq. intros E. pose proof (Z.quot_rem' (y - 1900) 4) as Q. rewrite E in Q. lia. }
  cbn [andb]. assert (LF : leap y = false) by (unfold leap; replace (y mod 4 =? 0) with false by lia; replace (y mod 400 =? 0) with false by lia; reflexivity).
  assert (H : month_to_day (m - 1) = days_before y (Z.to_nat (m - 1))).
  { destruct (TimeCal_Proof.months m M) as [->|[->|[->|[->|[->|[->|[->|[->|[->|[->|[->| ->]]]]]]]]]]]; cbv -[leap]; rewrite ?LF; reflexivity. }
  unfold year_day. rewrite H. lia.
Qed.
