From Verif Require Import Base Mem_Proof Strtol_Model Strtol_Spec Strtol_Proof Str_Spec Str_Proof Snprintf_Model Snprintf_Spec Snprintf_Proof
  Inet_Model Inet_Spec InetNum_Proof.
Open Scope Z_scope.

Lemma d10 c : digit_in 10 c = ((48 <=? c) && (c <=? 57)).
Proof.
  unfold digit_in, dig. destruct ((48 <=? c) && (c <=? 57)) eqn:E1; [lia|].
  destruct ((97 <=? c) && (c <=? 122)) eqn:E2; [lia|]. destruct ((65 <=? c) && (c <=? 90)) eqn:E3; [lia|reflexivity].
Qed.
Lemma str_app m p a b : str_at m p (a ++ b) -> str_at m (p + Z.of_nat (length a)) b.
Proof.
  revert p. induction a as [|c a IH]; intros p H; [cbn [length app Z.of_nat] in *; rewrite Z.add_0_r; exact H|].
  cbn [app] in H. apply str_cons in H as (_ & _ & H). apply IH in H. cbn [length].
  replace (p + Z.of_nat (S (length a))) with (p + 1 + Z.of_nat (length a)) by lia. exact H.
Qed.
Lemma str_hd m p s : str_at m p s -> load m p = Ok (hd0 s).
Proof.
  intros H. pose proof (str_load m p s 0 H ltac:(lia)) as E. cbn [Z.of_nat] in E. rewrite Z.add_0_r in E. rewrite E. destruct s; reflexivity.
Qed.
Lemma span_split P s : exists a b, s = a ++ b /\ Forall (fun c => P c = true) a /\ (b = [] \/ P (hd0 b) = false).
Proof.
  induction s as [|c s (a & b & -> & F & H)]; [exists [], []; repeat split; auto|].
  destruct (P c) eqn:E; [exists (c :: a), b; repeat split; auto|exists [], (c :: a ++ b); repeat split; auto].
Qed.

(** ** The printer *)
Lemma pchars m buf size l : Forall2 (piece_text m buf size) (map PChar l) (map (fun c => [c]) l).
Proof. induction l as [|c l IH]; cbn; constructor; [constructor|exact IH]. Qed.
Lemma concat_single (l : list Z) : concat (map (fun c => [c]) l) = l.
Proof. induction l as [|c l IH]; cbn; [reflexivity|]. rewrite IH. reflexivity. Qed.
Lemma print_chars m buf size l : mapped m buf size ->
  exists m', vsnprintf m buf size (map PChar l) = Ok (m', length l) /\ written m m' buf (truncated size l).
Proof.
  intros H. destruct (vsnprintf_ok m buf size (map PChar l) _ H (pchars m buf size l)) as (m' & E & W).
  rewrite concat_single in *. eauto.
Qed.
Lemma truncated_full size l : (length l < size)%nat -> truncated size l = l ++ [0].
Proof. intros H. unfold truncated. destruct size as [|k]; [lia|]. rewrite firstn_all2 by lia. reflexivity. Qed.

Lemma dotted_quad a b c d : octet a -> octet b -> octet c -> octet d -> quad a b c d (dotted a b c d).
Proof.
  unfold octet. intros. unfold dotted.
  change (num 10 a ++ 46 :: num 10 b ++ 46 :: num 10 c ++ 46 :: num 10 d) with (num 10 a ++ [46] ++ num 10 b ++ [46] ++ num 10 c ++ [46] ++ num 10 d).
  constructor; apply num_ok; lia.
Qed.
Lemma numeral_chars base n t : numeral base n t -> Forall (fun c => 0 < c < 256) t.
Proof. intros (_ & F & _). eapply Forall_impl; [|exact F]. cbn. intros c [H _]. apply digit_range in H. lia. Qed.
Lemma quad_chars a b c d t : quad a b c d t -> Forall (fun x => 0 < x < 256) t.
Proof.
  intros [ta tb tc td Ha Hb Hc Hd]. repeat (apply Forall_app; split); eauto using numeral_chars; repeat constructor.
Qed.
Lemma quad_len a b c d t : octet a -> octet b -> octet c -> octet d -> quad a b c d t -> (length t <= 15)%nat.
Proof.
  unfold octet. intros Ha Hb Hc Hd [ta tb tc td Na Nb Nc Nd].
  pose proof (numeral_len 10 a ta 3 ltac:(lia) Na ltac:(cbn; lia) ltac:(lia)). pose proof (numeral_len 10 b tb 3 ltac:(lia) Nb ltac:(cbn; lia) ltac:(lia)).
  pose proof (numeral_len 10 c tc 3 ltac:(lia) Nc ltac:(cbn; lia) ltac:(lia)). pose proof (numeral_len 10 d td 3 ltac:(lia) Nd ltac:(cbn; lia) ltac:(lia)).
  rewrite !app_length. cbn [length]. lia.
Qed.

Lemma ntop4_ok m a b c d dst size : octet a -> octet b -> octet c -> octet d -> mapped m dst size ->
  exists m' t, quad a b c d t /\ inet_ntop4 m a b c d dst size = Ok (m', (length t <? size)%nat) /\ written m m' dst (truncated size t).
Proof.
  intros Ha Hb Hc Hd Hm. destruct (print_chars m dst size (dotted a b c d) Hm) as (m' & E & W).
  exists m', (dotted a b c d). split; [apply dotted_quad; assumption|]. unfold inet_ntop4. rewrite E. cbn [bind]. split; [reflexivity|exact W].
Qed.
Lemma ntoa_ok m a b c d buf : octet a -> octet b -> octet c -> octet d -> mapped m buf 16 ->
  exists m' t, quad a b c d t /\ inet_ntoa m buf a b c d = Ok m' /\ written m m' buf (t ++ [0]).
Proof.
  intros Ha Hb Hc Hd Hm. destruct (print_chars m buf 16 (dotted a b c d) Hm) as (m' & E & W).
  pose proof (dotted_quad a b c d Ha Hb Hc Hd) as Q. pose proof (quad_len _ _ _ _ _ Ha Hb Hc Hd Q).
  exists m', (dotted a b c d). split; [exact Q|]. unfold inet_ntoa. rewrite E. cbn [bind]. rewrite truncated_full in W by lia. split; [reflexivity|exact W].
Qed.

(** ** inet_pton *)
Lemma field_false f c : In c f -> digit_in 10 c = false -> field_ok f = false.
Proof.
  intros Hi Hc. unfold field_ok. replace (forallb (fun c => (48 <=? c) && (c <=? 57)) f) with false; [reflexivity|]. symmetry.
  apply not_true_is_false. intros H. rewrite forallb_forall in H. specialize (H c Hi). rewrite d10 in Hc. congruence.
Qed.
Lemma field_digits ds : Forall (fun c => digit_in 10 c = true) ds -> field_ok ds = (1 <=? length ds)%nat && (length ds <=? 3)%nat && (digits_value 10 ds <=? 255).
Proof.
  intros F. unfold field_ok. replace (forallb _ ds) with true; [reflexivity|]. symmetry. rewrite forallb_forall. intros c Hc.
  rewrite Forall_forall in F. rewrite <- d10. apply F, Hc.
Qed.
Lemma guard_eq v n : 0 <= v -> ((Z.min v 9223372036854775807 >? 255) || (Z.of_nat n >? 3)) = negb ((n <=? 3)%nat && (v <=? 255)).
Proof. intros H. lia. Qed.

Lemma field_step k fuel m src f rest arr : str_at m src (f ++ rest) -> dotless f -> ends rest -> (length (f ++ rest) < fuel)%nat ->
  pton4_loop (S k) fuel m src arr =
    if field_ok f then pton4_loop k fuel m (src + Z.of_nat (length f) + 1) (arr ++ [digits_value 10 f]) else Ok None.
Proof.
  intros Hs Hd He Hf. destruct (span_split (digit_in 10) f) as (ds & r & -> & F & Hr).
  destruct ds as [|c ds].
  - (* no digit *)
    cbn [app] in *. cbn [pton4_loop]. rewrite (str_hd _ _ _ Hs). cbn [bind].
    assert (N : is_digit (hd0 (r ++ rest)) = false).
    { destruct r as [|x r]; cbn [app]; [destruct He as [->|E]; [reflexivity|rewrite E; reflexivity]|].
      cbn [hd0]. destruct Hr as [Hr|Hr]; [discriminate|]. cbn [hd0] in Hr. rewrite d10 in Hr. exact Hr. }
    rewrite N. cbn [negb]. destruct r as [|x r]; [reflexivity|]. destruct Hr as [Hr|Hr]; [discriminate|]. cbn [hd0] in Hr.
    rewrite (field_false (x :: r) x (or_introl eq_refl) Hr). reflexivity.
  - set (D := c :: ds) in *. assert (ND : D <> []) by discriminate. rewrite <- app_assoc in Hs, Hf.
    cbn [pton4_loop]. rewrite (str_hd _ _ _ Hs). cbn [bind]. replace (is_digit (hd0 (D ++ r ++ rest))) with true.
    2: { unfold D. cbn [app hd0]. inversion F as [|? ? Hc _]; subst. rewrite d10 in Hc. symmetry. exact Hc. }
    cbn [negb]. destruct (strtol_digits fuel m src 10 D (r ++ rest)) as (er & E); auto; try lia.
    { destruct r as [|x r]; cbn [app]; [|destruct Hr as [Hr|Hr]; [discriminate|left; exact Hr]].
      destruct He as [->|He]; [right; reflexivity|left; rewrite He; reflexivity]. }
    rewrite E. cbn [bind]. replace (src + Z.of_nat (length D) - src) with (Z.of_nat (length D)) by lia.
    pose proof (digits_value_bounds 10 D ltac:(lia) F) as B. rewrite guard_eq by lia.
    apply str_app in Hs. destruct r as [|x r].
    + rewrite app_nil_r. cbn [app] in *. rewrite field_digits by exact F. replace (1 <=? length D)%nat with true by (unfold D; reflexivity). cbn [andb].
      destruct ((length D <=? 3)%nat && (digits_value 10 D <=? 255)) eqn:G; cbn [negb]; [|reflexivity].
      rewrite (str_hd _ _ _ Hs). cbn [bind]. replace (negb (hd0 rest =? 0) && negb (hd0 rest =? 46)) with false.
      2: { destruct He as [->|He]; [reflexivity|rewrite He; reflexivity]. }
      rewrite Z.min_l by lia. rewrite Z.mod_small by lia. reflexivity.
    + destruct Hr as [Hr|Hr]; [discriminate|]. cbn [hd0] in Hr. rewrite (field_false (D ++ x :: r) x) by (try exact Hr; apply in_or_app; right; left; reflexivity).
      destruct ((length D <=? 3)%nat && (digits_value 10 D <=? 255)); cbn [negb]; [|reflexivity].
      rewrite (str_hd _ _ _ Hs). cbn [bind hd0 app]. replace (negb (x =? 0) && negb (x =? 46)) with true; [reflexivity|].
      assert (x <> 46) by (intros ->; apply Hd; apply in_or_app; right; left; reflexivity).
      apply str_cons in Hs as (_ & Hx & _). lia.
Qed.

Lemma pton4_fields fuel m src f1 f2 f3 f4 rest : str_at m src (f1 ++ [46] ++ f2 ++ [46] ++ f3 ++ [46] ++ f4 ++ rest) ->
  dotless f1 -> dotless f2 -> dotless f3 -> dotless f4 -> ends rest -> (length (f1 ++ [46%Z] ++ f2 ++ [46%Z] ++ f3 ++ [46%Z] ++ f4 ++ rest) < fuel)%nat ->
  inet_pton4 fuel m src = Ok (if field_ok f1 && field_ok f2 && field_ok f3 && field_ok f4
                              then Some [digits_value 10 f1; digits_value 10 f2; digits_value 10 f3; digits_value 10 f4] else None).
Proof.
  intros Hs D1 D2 D3 D4 He Hf. unfold inet_pton4.
  assert (E1 : forall x, ends ([46] ++ x)) by (intros; right; reflexivity).
  rewrite (field_step 3 fuel m src f1 _ [] Hs D1 (E1 _) Hf). destruct (field_ok f1); cbn [andb]; [|reflexivity].
  apply str_app in Hs. cbn [app] in Hs. apply str_cons in Hs as (_ & _ & Hs). rewrite !app_length in Hf; cbn [length] in Hf; rewrite ?app_length in Hf; cbn [length] in Hf; rewrite ?app_length in Hf; cbn [length] in Hf.
  rewrite (field_step 2 fuel m _ f2 _ _ Hs D2 (E1 _)) by (rewrite ?app_length in *; cbn [length app] in *; rewrite ?app_length in *; cbn [length app] in *; rewrite ?app_length in *; cbn [length app] in *; rewrite ?app_length in *; lia).
  destruct (field_ok f2); cbn [andb]; [|reflexivity]. apply str_app in Hs. apply str_cons in Hs as (_ & _ & Hs).
  rewrite (field_step 1 fuel m _ f3 _ _ Hs D3 (E1 _)) by (rewrite ?app_length in *; cbn [length app] in *; rewrite ?app_length in *; cbn [length app] in *; rewrite ?app_length in *; cbn [length app] in *; rewrite ?app_length in *; lia).
  destruct (field_ok f3); cbn [andb]; [|reflexivity]. apply str_app in Hs. apply str_cons in Hs as (_ & _ & Hs).
  rewrite (field_step 0 fuel m _ f4 _ _ Hs D4 He) by (rewrite ?app_length in *; cbn [length app] in *; rewrite ?app_length in *; cbn [length app] in *; rewrite ?app_length in *; cbn [length app] in *; rewrite ?app_length in *; lia).
  destruct (field_ok f4); cbn [andb]; reflexivity.
Qed.

Lemma numeral_field n t : octet n -> numeral 10 n t -> field_ok t = true /\ digits_value 10 t = n /\ dotless t.
Proof.
  intros Hn N. pose proof (numeral_len 10 n t 3 ltac:(lia) N ltac:(unfold octet in Hn; cbn; lia) ltac:(lia)) as L. destruct N as (N & F & V & _).
  assert (Ft : Forall (fun c => digit_in 10 c = true) t) by (eapply Forall_impl; [|exact F]; cbn; tauto).
  split; [|split; [exact V|]].
  - rewrite field_digits by exact Ft. unfold octet in Hn. lia.
  - intros Hi. rewrite Forall_forall in Ft. specialize (Ft 46 Hi). discriminate Ft.
Qed.
Lemma pton4_quad fuel m src a b c d t : octet a -> octet b -> octet c -> octet d -> quad a b c d t -> str_at m src t -> (length t < fuel)%nat ->
  inet_pton4 fuel m src = Ok (Some [a; b; c; d]).
Proof.
  intros Ha Hb Hc Hd [ta tb tc td Na Nb Nc Nd] Hs Hf.
  destruct (numeral_field a ta Ha Na) as (A1 & A2 & A3). destruct (numeral_field b tb Hb Nb) as (B1 & B2 & B3).
  destruct (numeral_field c tc Hc Nc) as (C1 & C2 & C3). destruct (numeral_field d td Hd Nd) as (D1 & D2 & D3).
  rewrite (pton4_fields fuel m src ta tb tc td []); auto; rewrite ?app_nil_r; auto.
  - rewrite A1, B1, C1, D1, A2, B2, C2, D2. reflexivity.
  - left. reflexivity.
Qed.

(** ** inet_aton *)
Lemma parts_hd ns ts : parts ns ts -> ts <> [] /\ digit_in 10 (hd0 ts) = true.
Proof.
  intros [n t (N & F & _)|n t ns' ts' (N & F & _) _]; destruct t as [|c t]; try congruence; pose proof (Forall_inv F) as [H _]; split; try discriminate; exact H.
Qed.
Lemma aton_parts fuel m string k ns ts : parts ns ts -> forall s acc, str_at m s ts -> (length ts < fuel)%nat -> Forall (fun n => 0 <= n <= 18446744073709551615) ns ->
  (length ns <= k)%nat -> (length acc + length ns <= 4)%nat -> (s = string \/ (s > string /\ m (s - 1) = Some 46)) ->
  aton_loop k fuel m string s acc = Ok (Some (acc ++ ns)).
Proof.
  intros P. revert k. induction P as [n t N|n t ns ts N P IH]; intros k s acc Hs Hf Hr Hk Hl Hprev; destruct k as [|k]; try (cbn in Hk; lia); cbn [aton_loop].
  - assert (Hd : digit_in 10 (hd0 t) = true) by (apply (parts_hd [n] t); constructor; exact N).
    rewrite (str_hd _ _ _ Hs). cbn [bind]. rewrite (space_digit 10 _ Hd). pose proof (Forall_inv Hr) as Hn. cbn beta in Hn.
    rewrite <- (app_nil_r t) in Hs. destruct (strtoul_decimal fuel m s n t [] Hs) as (e & E); auto; [rewrite app_nil_r; exact Hf|]. rewrite E. cbn [bind].
    assert (Lt : (1 <= length t)%nat) by (destruct N as (N0 & _); destruct t; [congruence|cbn; lia]).
    replace (s =? s + Z.of_nat (length t)) with false by lia.
    assert (Mi : (if s >? string then x <- load m (s - 1);; Ok (x =? 45) else Ok false) = Ok false).
    { destruct Hprev as [->|[Hg Hm]]; [replace (string >? string) with false by lia; reflexivity|].
      replace (s >? string) with true by lia. unfold load. rewrite Hm. reflexivity. }
    rewrite Mi. cbn [bind]. cbn [length] in Hl. replace (4 <=? length acc)%nat with false by lia.
    apply str_app in Hs. rewrite (str_hd _ _ _ Hs). cbn [bind hd0 Z.eqb]. reflexivity.
  - assert (Hd : digit_in 10 (hd0 (t ++ [46] ++ ts)) = true) by (apply (parts_hd (n :: ns) (t ++ [46] ++ ts)); constructor; assumption).
    rewrite (str_hd _ _ _ Hs). cbn [bind]. rewrite (space_digit 10 _ Hd). pose proof (Forall_inv Hr) as Hn. cbn beta in Hn.
    destruct (strtoul_decimal fuel m s n t ([46] ++ ts) Hs) as (e & E); auto. rewrite E. cbn [bind].
    assert (Lt : (1 <= length t)%nat) by (destruct N as (N0 & _); destruct t; [congruence|cbn; lia]).
    replace (s =? s + Z.of_nat (length t)) with false by lia.
    assert (Mi : (if s >? string then x <- load m (s - 1);; Ok (x =? 45) else Ok false) = Ok false).
    { destruct Hprev as [->|[Hg Hm]]; [replace (string >? string) with false by lia; reflexivity|].
      replace (s >? string) with true by lia. unfold load. rewrite Hm. reflexivity. }
    rewrite Mi. cbn [bind]. cbn [length] in Hl, Hk. replace (4 <=? length acc)%nat with false by lia.
    apply str_app in Hs. rewrite (str_hd _ _ _ Hs). cbn [bind hd0 app]. change (46 =? 46) with true. cbv iota.
    cbn [app] in Hs. apply str_cons in Hs as (H46 & _ & Hs). rewrite (str_hd _ _ _ Hs). cbn [bind].
    destruct (parts_hd _ _ P) as (_ & Hd2). replace (hd0 ts =? 0) with false by (apply digit_range in Hd2; lia).
    rewrite (IH k); auto.
    + rewrite <- app_assoc. reflexivity.
    + rewrite !app_length in Hf. cbn [length] in Hf. lia.
    + apply (Forall_inv_tail Hr).
    + lia.
    + rewrite app_length. cbn [length]. lia.
    + right. split; [destruct Hprev as [->|[? _]]; lia|]. rewrite <- H46. f_equal. lia.
Qed.

Lemma octets_of a b c d : octet a -> octet b -> octet c -> octet d -> octets (a * 16777216 + b * 65536 + c * 256 + d) = [a; b; c; d].
Proof.
  unfold octet, octets. intros Ha Hb Hc Hd.
  replace ((a * 16777216 + b * 65536 + c * 256 + d) / 16777216) with a by (apply Z.div_unique with (b * 65536 + c * 256 + d); lia).
  replace ((a * 16777216 + b * 65536 + c * 256 + d) / 65536) with (a * 256 + b) by (apply Z.div_unique with (c * 256 + d); lia).
  replace ((a * 16777216 + b * 65536 + c * 256 + d) / 256) with (a * 65536 + b * 256 + c) by (apply Z.div_unique with d; lia).
  rewrite (Z.mod_small a) by lia.
  replace ((a * 256 + b) mod 256) with b by (apply Z.mod_unique with a; lia).
  replace ((a * 65536 + b * 256 + c) mod 256) with c by (apply Z.mod_unique with (a * 256 + b); lia).
  replace ((a * 16777216 + b * 65536 + c * 256 + d) mod 256) with d by (apply Z.mod_unique with (a * 65536 + b * 256 + c); lia). reflexivity.
Qed.

Lemma aton_quad fuel m s a b c d t : octet a -> octet b -> octet c -> octet d -> quad a b c d t -> str_at m s t -> (length t < fuel)%nat ->
  inet_aton fuel m s = Ok (Some [a; b; c; d]).
Proof.
  intros Ha Hb Hc Hd [ta tb tc td Na Nb Nc Nd] Hs Hf. unfold octet in *. unfold inet_aton.
  rewrite (aton_parts fuel m s 6 [a; b; c; d] (ta ++ [46] ++ tb ++ [46] ++ tc ++ [46] ++ td)); auto; try (cbn; lia).
  - cbn [bind app]. replace ((a >? 255) || (b >? 255) || (c >? 255) || (d >? 255)) with false by lia. rewrite octets_of by (unfold octet; lia). reflexivity.
  - repeat (constructor; auto).
  - repeat constructor; lia.
Qed.

Lemma aton_general fuel m s ns ts : parts ns ts -> str_at m s ts -> (length ts < fuel)%nat -> (length ns <= 4)%nat -> Forall (fun n => 0 <= n <= 18446744073709551615) ns ->
  inet_aton fuel m s = Ok (option_map be32 (aton_value ns)).
Proof.
  intros P Hs Hf Hl Hr. unfold inet_aton. rewrite (aton_parts fuel m s 6 ns ts); auto; try lia; try (cbn; lia). cbn [bind app].
  assert (ns <> []) by (destruct P; discriminate).
  destruct ns as [|a [|b [|c [|d [|]]]]]; try congruence; try (cbn in Hl; lia); cbn [aton_value].
  - rewrite Z.gtb_ltb. destruct (a <=? 4294967295) eqn:E; [replace (4294967295 <? a) with false by lia|replace (4294967295 <? a) with true by lia]; reflexivity.
  - destruct ((a <=? 255) && (b <=? 16777215)) eqn:E; [replace ((a >? 255) || (b >? 16777215)) with false by lia|replace ((a >? 255) || (b >? 16777215)) with true by lia]; reflexivity.
  - destruct ((a <=? 255) && (b <=? 255) && (c <=? 65535)) eqn:E;
      [replace ((a >? 255) || (b >? 255) || (c >? 65535)) with false by lia|replace ((a >? 255) || (b >? 255) || (c >? 65535)) with true by lia]; reflexivity.
  - destruct ((a <=? 255) && (b <=? 255) && (c <=? 255) && (d <=? 255)) eqn:E;
      [replace ((a >? 255) || (b >? 255) || (c >? 255) || (d >? 255)) with false by lia|replace ((a >? 255) || (b >? 255) || (c >? 255) || (d >? 255)) with true by lia]; reflexivity.
Qed.
