From Verif Require Import Base Mem_Proof Strtol_Model Strtol_Spec Strtol_Proof Str_Spec Str_Proof Inet_Model Inet_Spec.
Open Scope Z_scope.

Lemma dig_char d : 0 <= d < 36 -> dig (digit_char d) = Some d.
Proof.
  intros H. unfold dig, digit_char. destruct (d <? 10) eqn:E.
  - replace ((48 <=? 48 + d) && (48 + d <=? 57)) with true by lia. f_equal. lia.
  - replace ((48 <=? 87 + d) && (87 + d <=? 57)) with false by lia. replace ((97 <=? 87 + d) && (87 + d <=? 122)) with true by lia. f_equal. lia.
Qed.
Lemma digit_char_ok base d : 0 <= d < base -> base <= 36 -> digit_in base (digit_char d) = true /\ ~ (65 <= digit_char d <= 90).
Proof.
  intros H Hb. unfold digit_in. rewrite dig_char by lia. split; [lia|]. unfold digit_char. destruct (d <? 10) eqn:E; lia.
Qed.
Lemma digits_value_snoc b t c d : dig c = Some d -> digits_value b (t ++ [c]) = digits_value b t * b + d.
Proof. intros E. unfold digits_value. rewrite fold_left_app. cbn. rewrite E. reflexivity. Qed.

Lemma number_ok fuel : forall base n, (1 <= fuel)%nat -> 2 <= base <= 36 -> 0 <= n < 2 ^ Z.of_nat fuel -> numeral base n (number fuel base n).
Proof.
  induction fuel as [|f IH]; intros base n Hf Hb Hn; [lia|]. cbn [number].
  replace (Z.of_nat (S f)) with (Z.succ (Z.of_nat f)) in Hn by lia. rewrite Z.pow_succ_r in Hn by lia.
  destruct (n <? base) eqn:E.
  - split; [discriminate|]. split; [constructor; [apply digit_char_ok; lia|constructor]|]. split.
    + unfold digits_value. cbn. rewrite dig_char by lia. lia.
    + cbn. intros ->. reflexivity.
  - assert (Hq : 1 <= n / base) by (apply Z.div_le_lower_bound; lia).
    assert (Hl : n / base < 2 ^ Z.of_nat f) by (apply Z.div_lt_upper_bound; nia).
    assert (Hf1 : (1 <= f)%nat) by (destruct f; [cbn in Hl; lia|lia]).
    destruct (IH base (n / base) Hf1 Hb) as (A & B & C & D); [lia|]. pose proof (Z.mod_pos_bound n base ltac:(lia)) as Hm.
    split; [intros H; apply app_eq_nil in H as [_ H]; discriminate|]. split; [|split].
    + apply Forall_app. split; [exact B|]. constructor; [apply digit_char_ok; lia|constructor].
    + rewrite (digits_value_snoc _ _ _ (n mod base)) by (apply dig_char; lia). rewrite C. pose proof (Z.div_mod n base). lia.
    + destruct (number f base (n / base)) as [|c t]; [congruence|]. cbn [hd app]. intros H. cbn [hd] in D. specialize (D H).
      injection D as -> ->. exfalso. cbn in C. lia.
Qed.
Lemma num_ok base n : 2 <= base <= 36 -> 0 <= n < 18446744073709551616 -> numeral base n (num base n).
Proof. intros Hb Hn. apply (number_ok 64); [lia|assumption|assumption]. Qed.

Lemma digit_dig b c : digit_in b c = true -> exists d, dig c = Some d /\ 0 <= d < b.
Proof.
  unfold digit_in. intros H. destruct (dig c) as [d|] eqn:E; [|discriminate]. exists d. split; [reflexivity|]. split; [|lia].
  unfold dig in E. destruct ((48 <=? c) && (c <=? 57)) eqn:E1; [injection E as <-; lia|].
  destruct ((97 <=? c) && (c <=? 122)) eqn:E2; [injection E as <-; lia|]. destruct ((65 <=? c) && (c <=? 90)) eqn:E3; [injection E as <-; lia|discriminate].
Qed.
Lemma digits_value_bounds b t : 2 <= b -> Forall (fun c => digit_in b c = true) t -> 0 <= digits_value b t < b ^ Z.of_nat (length t).
Proof.
  intros Hb F. induction t as [|c t IH] using rev_ind; [cbn; lia|]. apply Forall_app in F as [F1 F2]. inversion F2 as [|? ? Hc _]; subst.
  destruct (digit_dig b c Hc) as (d & Ed & Hd). rewrite (digits_value_snoc _ _ _ d Ed). specialize (IH F1). rewrite app_length. cbn [length].
  replace (Z.of_nat (length t + 1)) with (Z.succ (Z.of_nat (length t))) by lia. rewrite Z.pow_succ_r by lia. nia.
Qed.
(** a numeral of a number below base^k has at most k digits *)
Lemma numeral_len base n t k : 2 <= base -> numeral base n t -> 0 <= n < base ^ Z.of_nat k -> (1 <= k)%nat -> (1 <= length t <= k)%nat.
Proof.
  intros Hb (N & F & V & Z0) Hn Hk. split; [destruct t; [congruence|cbn; lia]|].
  destruct t as [|c t]; [congruence|]. inversion F as [|? ? [Hc _] F']; subst.
  assert (Ft : Forall (fun c => digit_in base c = true) t) by (eapply Forall_impl; [|exact F']; cbn; tauto).
  destruct (digit_dig base c Hc) as (d & Ed & Hd).
  assert (V : digits_value base (c :: t) = d * base ^ Z.of_nat (length t) + digits_value base t).
  { clear - Ed Ft Hb. induction t as [|x t IH] using rev_ind; [unfold digits_value; cbn; rewrite Ed; lia|].
    apply Forall_app in Ft as [F1 F2]. inversion F2 as [|? ? Hx _]; subst. destruct (digit_dig base x Hx) as (e & Ee & _).
    change (c :: t ++ [x]) with ((c :: t) ++ [x]). rewrite !(digits_value_snoc _ _ _ e Ee), IH by exact F1. rewrite app_length. cbn [length].
    replace (Z.of_nat (length t + 1)) with (Z.succ (Z.of_nat (length t))) by lia. rewrite Z.pow_succ_r by lia. lia. }
  rewrite V in Hn. pose proof (digits_value_bounds base t Hb Ft). cbn [length].
  destruct (Z.eq_dec d 0) as [->|Nd].
  - assert (c = 48). { unfold dig in Ed. destruct ((48 <=? c) && (c <=? 57)) eqn:E1; [injection Ed; lia|].
      destruct ((97 <=? c) && (c <=? 122)) eqn:E2; [injection Ed; lia|]. destruct ((65 <=? c) && (c <=? 90)) eqn:E3; [injection Ed; lia|discriminate]. }
    specialize (Z0 H0). injection Z0 as _ ->. cbn. lia.
  - destruct (Nat.le_gt_cases (S (length t)) k) as [L|L]; [exact L|exfalso].
    assert (base ^ Z.of_nat k <= base ^ Z.of_nat (length t)) by (apply Z.pow_le_mono_r; lia). nia.
Qed.

(** ** strtol and strtoul on digits followed by something else *)
Lemma digit_range b c : digit_in b c = true -> 48 <= c <= 122.
Proof.
  intros H. destruct (digit_dig b c H) as (d & E & _). unfold dig in E.
  destruct ((48 <=? c) && (c <=? 57)) eqn:E1; [lia|]. destruct ((97 <=? c) && (c <=? 122)) eqn:E2; [lia|].
  destruct ((65 <=? c) && (c <=? 90)) eqn:E3; [lia|discriminate].
Qed.
Lemma span_all P a b : Forall (fun c => P c = true) a -> P (hd0 b) = false \/ b = [] -> span P (a ++ b) = (a, b).
Proof.
  intros F H. induction F as [|c a Hc F IH]; cbn [app].
  - destruct b as [|x b]; [reflexivity|]. cbn. destruct H as [H|H]; [|discriminate]. cbn in H. rewrite H. reflexivity.
  - cbn. rewrite Hc, IH. reflexivity.
Qed.
Lemma space_digit b c : digit_in b c = true -> c_isspace c = false.
Proof. intros H. apply digit_range in H. unfold c_isspace. lia. Qed.

Lemma subject_digits base ds rest : 2 < base <= 36 -> ds <> [] -> Forall (fun c => digit_in base c = true) ds ->
  digit_in base (hd0 rest) = false \/ rest = [] -> (base = 16 -> hd0 rest <> 120 /\ hd0 rest <> 88) ->
  subject c_isspace base (ds ++ rest) = Some (false, digits_value base ds, length ds).
Proof.
  intros Hb N F Hr Hx. unfold subject. destruct ds as [|c ds]; [congruence|]. clear N. inversion F as [|? ? Hc F']; subst.
  pose proof (digit_range base c Hc) as Rc.
  assert (S1 : span c_isspace ((c :: ds) ++ rest) = ([], (c :: ds) ++ rest)) by (cbn; rewrite (space_digit base c Hc); reflexivity).
  rewrite S1. assert (S2 : sign ((c :: ds) ++ rest) = (false, 0%nat, (c :: ds) ++ rest)).
  { cbn. replace (c =? 45) with false by lia. replace (c =? 43) with false by lia. reflexivity. }
  rewrite S2. assert (S3 : prefix base ((c :: ds) ++ rest) = (base, 0%nat, (c :: ds) ++ rest)).
  { unfold prefix. replace (base =? 0) with false by lia. replace (base =? 2) with false by lia. cbn [orb andb].
    destruct (base =? 16) eqn:E16; cbn [andb]; [|reflexivity]. assert (base = 16) by lia. subst base. specialize (Hx eq_refl).
    replace (zero_then 120 88 ((c :: ds) ++ rest)) with false; [reflexivity|]. symmetry. unfold zero_then. apply andb_false_iff. right. cbn [app tl].
    destruct ds as [|x ds]; cbn [app hd0]; [destruct rest as [|y rest]; cbn [hd0 app] in *; [reflexivity|lia]|].
    inversion F' as [|? ? Hd _]; subst. destruct (digit_dig 16 x Hd) as (d & Ed & Hdd). 
    destruct (Z.eqb_spec x 120) as [->|]; [vm_compute in Ed; injection Ed as <-; lia|]. destruct (Z.eqb_spec x 88) as [->|]; [vm_compute in Ed; injection Ed as <-; lia|]. reflexivity. }
  rewrite S3. rewrite (span_all (digit_in base) (c :: ds) rest F Hr). cbn [length app Nat.add]. reflexivity.
Qed.
Lemma subject_none base rest : 2 < base <= 36 -> rest = [] \/ (digit_in base (hd0 rest) = false /\ c_isspace (hd0 rest) = false /\ hd0 rest <> 45 /\ hd0 rest <> 43) ->
  (hd0 rest <> 48) -> subject c_isspace base rest = None.
Proof.
  intros Hb H H48. unfold subject. destruct rest as [|c rest]; [cbn; unfold prefix; replace (base =? 0) with false by lia; replace (base =? 2) with false by lia; cbn; rewrite andb_false_r; reflexivity|].
  destruct H as [H|(H1 & H2 & H3 & H4)]; [discriminate|]. cbn [hd0] in *.
  assert (S1 : span c_isspace (c :: rest) = ([], c :: rest)) by (cbn; rewrite H2; reflexivity). rewrite S1.
  assert (S2 : sign (c :: rest) = (false, 0%nat, c :: rest)) by (cbn; replace (c =? 45) with false by lia; replace (c =? 43) with false by lia; reflexivity).
  rewrite S2. assert (S3 : prefix base (c :: rest) = (base, 0%nat, c :: rest)).
  { unfold prefix, zero_then. cbn [hd0]. replace (base =? 0) with false by lia. replace (base =? 2) with false by lia. replace (c =? 48) with false by lia.
    cbn [orb andb]. rewrite andb_false_r. reflexivity. }
  rewrite S3. cbn [span]. rewrite H1. reflexivity.
Qed.

Lemma strtol_digits fuel m p base ds rest : 2 < base <= 36 -> str_at m p (ds ++ rest) -> (length (ds ++ rest) < fuel)%nat -> ds <> [] ->
  Forall (fun c => digit_in base c = true) ds -> digit_in base (hd0 rest) = false \/ rest = [] -> (base = 16 -> hd0 rest <> 120 /\ hd0 rest <> 88) ->
  exists e, strtol fuel m p base = Ok (Z.min (digits_value base ds) 9223372036854775807, p + Z.of_nat (length ds), e).
Proof.
  intros Hb Hs Hf N F Hr Hx. unfold strtol. rewrite (strtol_ok c_isspace 64 true fuel m p (ds ++ rest) base); auto; try lia; try reflexivity.
  rewrite (subject_digits base ds rest Hb N F Hr Hx). unfold strto_result, strtol_value.
  assert (0 <= digits_value base ds) by (apply digits_value_bounds; [lia|exact F]).
  replace (digits_value base ds <? - 2 ^ (64 - 1)) with false by lia. change (2 ^ (64 - 1) - 1) with 9223372036854775807.
  destruct (digits_value base ds >? 9223372036854775807) eqn:E; eexists; repeat f_equal; lia.
Qed.
Lemma strtol_empty fuel m p base rest : 2 < base <= 36 -> str_at m p rest -> (length rest < fuel)%nat ->
  rest = [] \/ (digit_in base (hd0 rest) = false /\ c_isspace (hd0 rest) = false /\ hd0 rest <> 45 /\ hd0 rest <> 43) -> hd0 rest <> 48 ->
  strtol fuel m p base = Ok (0, p, false).
Proof.
  intros Hb Hs Hf H H48. unfold strtol. rewrite (strtol_ok c_isspace 64 true fuel m p rest base); auto; try lia; try reflexivity.
  rewrite (subject_none base rest Hb H H48). reflexivity.
Qed.

(** strtoul in base 0 on a decimal numeral *)
Lemma strtoul_decimal fuel m p n ds rest : str_at m p (ds ++ rest) -> (length (ds ++ rest) < fuel)%nat -> numeral 10 n ds -> 0 <= n <= 18446744073709551615 ->
  rest = [] \/ hd0 rest = 46 -> exists e, strtoul fuel m p 0 = Ok (n, p + Z.of_nat (length ds), e).
Proof.
  intros Hs Hf (N & F & V & Z0) Hn Hr. unfold strtoul.
  assert (Hd : hd0 rest = 0 \/ hd0 rest = 46) by (destruct Hr as [->|]; auto).
  destruct ds as [|c ds]; [congruence|]. pose proof (Forall_inv F) as [Hc _]. pose proof (Forall_inv_tail F) as F'. subst n.
  assert (Ft : Forall (fun c => digit_in 10 c = true) (c :: ds)) by (eapply Forall_impl; [|exact F]; cbn; tauto).
  assert (R : forall x, digit_in 10 x = true -> 48 <= x <= 57).
  { intros x Hx. destruct (digit_dig 10 x Hx) as (d & E & Hdd). unfold dig in E. destruct ((48 <=? x) && (x <=? 57)) eqn:E1; [lia|].
    destruct ((97 <=? x) && (x <=? 122)) eqn:E2; [injection E as <-; lia|]. destruct ((65 <=? x) && (x <=? 90)) eqn:E3; [injection E as <-; lia|discriminate]. }
  pose proof (R c Hc) as Rc.
  assert (Sec : hd0 (ds ++ rest) = 0 \/ hd0 (ds ++ rest) = 46 \/ 48 <= hd0 (ds ++ rest) <= 57).
  { destruct ds as [|x ds]; cbn [app]; [tauto|]. cbn [hd0]. inversion F' as [|? ? [Hx _] _]; subst. right; right. apply R, Hx. }
  assert (S1 : span c_isspace ((c :: ds) ++ rest) = ([], (c :: ds) ++ rest)) by (cbn; rewrite (space_digit 10 c Hc); reflexivity).
  assert (S2 : sign ((c :: ds) ++ rest) = (false, 0%nat, (c :: ds) ++ rest)) by (cbn; replace (c =? 45) with false by lia; replace (c =? 43) with false by lia; reflexivity).
  assert (Zf : forall x y, 57 < x -> 57 < y -> zero_then x y ((c :: ds) ++ rest) = false).
  { intros x y Hx Hy. unfold zero_then. cbn [app tl hd0]. replace (hd0 (ds ++ rest) =? x) with false by lia. replace (hd0 (ds ++ rest) =? y) with false by lia.
    cbn. apply andb_false_r. }
  rewrite (strtol_ok c_isspace 64 false fuel m p ((c :: ds) ++ rest) 0); auto; try lia; try reflexivity.
  - unfold subject. rewrite S1, S2. unfold prefix. rewrite !Zf by lia. cbn [Z.eqb orb andb hd0 app].
    destruct (c =? 48) eqn:E48.
    + assert (c = 48) by lia. subst c. specialize (Z0 eq_refl). injection Z0 as ->. cbn [app span].
      change (digit_in 8 48) with true. cbv iota.
      assert (Sp : span (digit_in 8) rest = ([], rest)).
      { destruct rest as [|x rest]; [reflexivity|]. cbn. cbn in Hd. destruct Hd as [->| ->]; [|reflexivity]. reflexivity. }
      rewrite Sp. cbn. eexists. reflexivity.
    + change (c :: ds ++ rest) with ((c :: ds) ++ rest). rewrite (span_all (digit_in 10) (c :: ds) rest Ft).
      2: { destruct Hr as [->|E]; [right; reflexivity|left]. rewrite E. reflexivity. }
      cbn [length Nat.add]. unfold strto_result, strtoul_value. change (2 ^ 64 - 1) with 18446744073709551615. change (2 ^ 64) with 18446744073709551616.
      replace (digits_value 10 (c :: ds) >? 18446744073709551615) with false by lia. rewrite Z.mod_small by lia. eexists. reflexivity.
  - intros _. unfold dangling_bin. rewrite S1, S2. rewrite Zf by lia. reflexivity.
Qed.
