(** Proofs about sscanf. *)
From Verif Require Import Base Scanf_Model Scanf_Spec.
Open Scope Z_scope.

Ltac conj := repeat match goal with |- _ /\ _ => split end.

(** ** White space *)
Lemma is_space_spec c : is_space c = true <-> space c.
Proof. unfold is_space, space. lia. Qed.
Lemma not_space c : is_space c = false <-> ~ space c.
Proof. rewrite <- is_space_spec. destruct (is_space c); split; congruence. Qed.

Lemma skip_app ws rest n : spaces ws rest -> skip_space (ws ++ rest) n = (rest, n + Z.of_nat (length ws)).
Proof.
  intros (Hw & Hr). revert n. induction Hw as [|c ws Hc _ IH]; intros n; cbn [app length skip_space].
  - destruct rest as [|c r]; cbn [skip_space]; [f_equal; lia|].
    specialize (Hr c r eq_refl). apply not_space in Hr. rewrite Hr. f_equal. lia.
  - apply is_space_spec in Hc. rewrite Hc, IH. f_equal. lia.
Qed.

Lemma skip_all ws n : Forall space ws -> skip_space ws n = ([], n + Z.of_nat (length ws)).
Proof. intros H. pose proof (skip_app ws [] n) as E. rewrite app_nil_r in E. apply E. split; [exact H | discriminate]. Qed.

(** ** Digits *)
Lemma digit_spec base c v : digit base c = Some v <-> digit_value base c v.
Proof.
  unfold digit, digit_value, is_digit.
  destruct ((48 <=? c) && (c <=? 57)) eqn:E1; [|destruct ((97 <=? c) && (c <=? 102)) eqn:E2; [|destruct ((65 <=? c) && (c <=? 70)) eqn:E3]].
  - destruct (Z.ltb_spec (c - 48) base); split; intros K; try discriminate; try injection K as <-; try lia. f_equal. lia.
  - destruct (Z.ltb_spec (c - 97 + 10) base); split; intros K; try discriminate; try injection K as <-; try lia. f_equal. lia.
  - destruct (Z.ltb_spec (c - 65 + 10) base); split; intros K; try discriminate; try injection K as <-; try lia. f_equal. lia.
  - split; intros K; [discriminate | lia].
Qed.

Lemma digits_stop base rest r cnt n : stops base rest -> digits base rest None r cnt n = (r, cnt, rest, n).
Proof.
  intros H. destruct rest as [|c rest]; [reflexivity|]. cbn.
  destruct (digit base c) as [v|] eqn:E; [|reflexivity]. exfalso. apply digit_spec in E. eapply H; eauto.
Qed.

Lemma digits_app base ds v : number base ds v -> forall rest r cnt n,
  digits base (ds ++ rest) None (r mod 2 ^ 64) cnt n =
  digits base rest None ((r * base ^ Z.of_nat (length ds) + v) mod 2 ^ 64) (cnt + Z.of_nat (length ds)) (n + Z.of_nat (length ds)).
Proof.
  induction 1 as [|ds c a v Hn IH Hd]; intros rest r cnt n.
  - cbn [app length Z.of_nat]. rewrite Z.pow_0_r, Z.mul_1_r, !Z.add_0_r. reflexivity.
  - rewrite <- app_assoc. cbn [app]. rewrite IH. cbn [digits].
    apply digit_spec in Hd. rewrite Hd. rewrite app_length. cbn [length].
    replace (Z.of_nat (length ds + 1)) with (Z.of_nat (length ds) + 1) by lia.
    rewrite Z.pow_add_r, Z.pow_1_r by lia.
    match goal with |- digits _ _ _ ?a ?b ?c = digits _ _ _ ?a' ?b' ?c' =>
      replace a' with a; [replace b' with b by lia; replace c' with c by lia; reflexivity|] end.
    rewrite <- Z.add_mod_idemp_l, Z.mul_mod_idemp_l, Z.add_mod_idemp_l by lia. f_equal. lia.
Qed.

Lemma digits_all base ds v rest n : number base ds v -> stops base rest ->
  digits base (ds ++ rest) None 0 0 n = (v mod 2 ^ 64, Z.of_nat (length ds), rest, n + Z.of_nat (length ds)).
Proof.
  intros H Hs. pose proof (digits_app _ _ _ H rest 0 0 n) as E. rewrite Z.mod_0_l in E by lia. rewrite E.
  rewrite digits_stop by exact Hs. rewrite Z.mul_0_l, !Z.add_0_l. reflexivity.
Qed.

Lemma number_nonneg base ds v : 0 <= base -> number base ds v -> 0 <= v.
Proof. intros Hb. induction 1 as [|ds c a v _ IH Hd]; [lia|]. unfold digit_value in Hd. nia. Qed.

Lemma put_ok keep neg t v : put keep neg t (v mod 2 ^ 64) = keeps keep (SInt t (((if neg : bool then -1 else 1) * v) mod 2 ^ bits t)).
Proof.
  unfold put, keeps, store_int. destruct keep; [|reflexivity]. f_equal. f_equal.
  assert (H : (2 ^ bits t | 2 ^ 64)).
  { exists (2 ^ (64 - bits t)). rewrite <- Z.pow_add_r by (destruct t; cbn; lia). f_equal. lia. }
  assert (K : forall x, (x mod 2 ^ 64) mod 2 ^ bits t = x mod 2 ^ bits t).
  { intros x. destruct H as (q & H). assert (0 < 2 ^ bits t) by (apply Z.pow_pos_nonneg; destruct t; cbn; lia).
    rewrite (Z.mod_eq x (2 ^ 64)) by lia. rewrite H.
    replace (x - q * 2 ^ bits t * (x / (q * 2 ^ bits t))) with (x + (- (q * (x / (q * 2 ^ bits t)))) * 2 ^ bits t) by ring.
    apply Z.mod_add. lia. }
  destruct neg.
  - rewrite K. rewrite (Z.mod_eq v (2 ^ 64)) by lia. destruct H as (q & H).
    assert (0 < 2 ^ bits t) by (apply Z.pow_pos_nonneg; destruct t; cbn; lia). rewrite H.
    replace (- (v - q * 2 ^ bits t * (v / (q * 2 ^ bits t)))) with (-1 * v + (q * (v / (q * 2 ^ bits t))) * 2 ^ bits t) by ring.
    apply Z.mod_add. lia.
  - rewrite K, Z.mul_1_l. reflexivity.
Qed.

Lemma digit_first base ds v c r : number base ds v -> ds = c :: r -> exists x, digit_value base c x.
Proof.
  intros H. revert c r. induction H as [|ds c0 a v Hn IH Hd]; intros c r E; [discriminate|].
  destruct ds as [|d ds]; cbn in E; injection E as <- <-; [eauto|]. eapply IH; reflexivity.
Qed.

(** ** Integers *)
Definition neg_of (f : Z) : bool := f =? -1.
Lemma sign_ok sg f rest n : signed_ sg f -> (sg = [] -> no_sign rest) ->
  sign (sg ++ rest) n = (neg_of f, rest, n + Z.of_nat (length sg)).
Proof.
  intros [] H; cbn.
  - rewrite Z.add_0_r. specialize (H eq_refl). destruct rest as [|c r]; [reflexivity|].
    cbn. specialize (H c r eq_refl). cbn in H. destruct (Z.eqb_spec c 45); [lia|]. destruct (Z.eqb_spec c 43); [lia|]. reflexivity.
  - reflexivity.
  - reflexivity.
Qed.
Lemma neg_factor sg f : signed_ sg f -> (if neg_of f then -1 else 1) = f.
Proof. intros []; reflexivity. Qed.

Lemma unsigned_head r body rest v : unsigned r body rest v -> exists c t, body = c :: t /\ exists x, digit_value 16 c x.
Proof.
  assert (W : forall b c x, b <= 16 -> digit_value b c x -> digit_value 16 c x) by (unfold digit_value; lia).
  assert (N : forall b ds v, b <= 16 -> number b ds v -> ds <> [] -> exists c t, ds = c :: t /\ exists x, digit_value 16 c x).
  { intros b ds v0 Hb Hn Hne. destruct ds as [|c t]; [congruence|]. exists c, t. split; [reflexivity|].
    destruct (digit_first _ _ _ _ _ Hn eq_refl) as (x & Hx). exists x. eapply W; eauto. }
  assert (Z0 : exists x, digit_value 16 48 x) by (exists 0; unfold digit_value; lia).
  intros []; eauto 6 using Z.le_refl; try (eapply N; [|eassumption|assumption]; lia).
Qed.

Lemma unsigned_nosign r body rest v : unsigned r body rest v -> no_sign (body ++ rest).
Proof.
  intros H. destruct (unsigned_head _ _ _ _ H) as (c & t & -> & x & Hx). intros c' r' E. cbn in E. injection E as <- <-.
  unfold digit_value in Hx. cbn. lia.
Qed.

Definition conv_radix (r : radix) (dest : bool) (t : ty) (l : list Z) (n : Z) : outcome :=
  match r with
  | Dec => conv_int 100 dest t l n
  | Auto => conv_int 105 dest t l n
  | Oct => conv_oct dest t l n
  | Hex => conv_hex dest 0 t l n
  end.

Lemma lower_x x : In x [120; 88] -> lower x = 120.
Proof. intros [<-|[<-|[]]]; reflexivity. Qed.
Lemma lower_b x : In x [98; 66] -> lower x = 98.
Proof. intros [<-|[<-|[]]]; reflexivity. Qed.
Lemma lower_not_x x : ~ In x [120; 88] -> lower x <> 120.
Proof. cbn. unfold lower. destruct ((65 <=? x) && (x <=? 90)) eqn:E; lia. Qed.
Lemma lower_not_b x : ~ In x [98; 66] -> lower x <> 98.
Proof. cbn. unfold lower. destruct ((65 <=? x) && (x <=? 90)) eqn:E; lia. Qed.

Lemma len_cons {A} (l : list A) : l <> [] -> (Z.of_nat (length l) =? 0) = false.
Proof. destruct l; [congruence|]. cbn [length]. intros _. apply Z.eqb_neq. lia. Qed.

Lemma conv_radix_ok r keep t sg f body rest v n : signed_ sg f -> unsigned r body rest v ->
  conv_radix r keep t (sg ++ body ++ rest) n =
  Next (keeps keep (SInt t ((f * v) mod 2 ^ bits t))) (Some rest) (n + Z.of_nat (length (sg ++ body))).
Proof.
  intros Hs Hu.
  assert (Hne : exists a b, sg ++ body ++ rest = a :: b).
  { destruct (unsigned_head _ _ _ _ Hu) as (c & tt & -> & _). destruct sg; cbn; eauto. }
  assert (Hsg : sign (sg ++ body ++ rest) n = (neg_of f, body ++ rest, n + Z.of_nat (length sg))).
  { apply sign_ok; [exact Hs|]. intros _. eapply unsigned_nosign; eauto. }
  assert (Hf := neg_factor _ _ Hs). rewrite <- Hf at 1. rewrite app_length. 
  destruct Hu; unfold conv_radix, conv_int, conv_oct, conv_hex; destruct Hne as (a & b & Hne); rewrite Hne; rewrite <- Hne, Hsg; clear Hne a b Hsg.
  - (* dec *)
    assert (E : (match ds ++ rest with c :: r => if (100 =? 105) && (c =? 48) then
              match r with c1 :: r1 => if lower c1 =? 120 then (16, r1, n + Z.of_nat (length sg) + 2)
                            else if lower c1 =? 98 then (2, r1, n + Z.of_nat (length sg) + 2) else (8, r, n + Z.of_nat (length sg) + 1)
              | [] => (8, r, n + Z.of_nat (length sg) + 1) end else (10, ds ++ rest, n + Z.of_nat (length sg))
        | [] => (10, ds ++ rest, n + Z.of_nat (length sg)) end) = (10, ds ++ rest, n + Z.of_nat (length sg))) by (destruct (ds ++ rest); reflexivity).
    rewrite E. erewrite digits_all by eauto. rewrite len_cons by assumption. cbn [andb]. rewrite put_ok. f_equal. lia.
  - erewrite digits_all by eauto. rewrite len_cons by assumption. rewrite put_ok. f_equal. lia.
  - (* hex without 0x *)
    change (0 =? 0) with true. cbn [orb].
    destruct ds as [|c ds]; [congruence|]. cbn [app].
    destruct (Z.eqb_spec c 48) as [->|Hc]; cbn [andb].
    + (* leading 0 *)
      assert (Hd : exists v', number 16 ds v' /\ v' = v).
      { clear - H. remember (48 :: ds) as l eqn:E. revert ds E. induction H as [|l0 c0 a v Hn IH Hd]; intros ds E; [discriminate|].
        destruct l0 as [|x l0]; cbn in E.
        - injection E as -> <-. inversion Hn as [|? ? ? ? ? ? E2]; subst; [|destruct ds; discriminate].
          exists 0. split; [constructor|]. unfold digit_value in Hd. lia.
        - injection E as -> <-. destruct (IH l0 eq_refl) as (v' & H1 & H2). exists (v' * 16 + v). split; [constructor; assumption | subst; reflexivity]. }
      destruct Hd as (v' & Hd & <-).
      assert (E : match ds ++ rest with c1 :: r1 => if (lower c1 =? 120) && true then (0, r1, n + Z.of_nat (length sg) + 2) else (1, ds ++ rest, n + Z.of_nat (length sg) + 1)
           | [] => (1, ds ++ rest, n + Z.of_nat (length sg) + 1) end = (1, ds ++ rest, n + Z.of_nat (length sg) + 1)).
      { destruct (ds ++ rest) as [|c1 r1] eqn:Edr; [reflexivity|].
        assert (Hl : lower c1 <> 120).
        { destruct ds as [|d ds].
          - cbn in Edr. apply lower_not_x. apply (H2 eq_refl c1 r1). exact Edr.
          - cbn in Edr. injection Edr as <- <-. destruct (digit_first _ _ _ _ _ Hd eq_refl) as (x & Hx).
            unfold lower, digit_value in *. destruct ((65 <=? d) && (d <=? 90)) eqn:E; lia. }
        destruct (Z.eqb_spec (lower c1) 120); [congruence|]. reflexivity. }
      rewrite E. erewrite digits_all by eauto.
      destruct (Z.eqb_spec (1 + Z.of_nat (length ds)) 0); [lia|]. rewrite put_ok. f_equal. cbn [length]. lia.
    + change (c :: ds ++ rest) with ((c :: ds) ++ rest). erewrite digits_all by eauto.
      destruct (Z.eqb_spec (0 + Z.of_nat (length (c :: ds))) 0); [cbn [length] in *; lia|]. rewrite put_ok. f_equal. lia.
  - (* 0x *)
    change (0 =? 0) with true. cbn [orb app]. change (48 =? 48) with true. cbn [andb]. rewrite lower_x by assumption.
    change (120 =? 120) with true. cbn [andb]. erewrite digits_all by eauto.
    destruct (Z.eqb_spec (0 + Z.of_nat (length ds)) 0); [destruct ds; [congruence | cbn [length] in *; lia]|].
    rewrite put_ok. f_equal. cbn [length]. lia.
  - (* auto, decimal *)
    destruct ds as [|c ds]; [congruence|]. cbn [app hd] in *. destruct (Z.eqb_spec c 48); [congruence|].
    rewrite andb_false_r. change (c :: ds ++ rest) with ((c :: ds) ++ rest). erewrite digits_all by eauto.
    rewrite len_cons by assumption. cbn [andb]. rewrite put_ok. f_equal. lia.
  - (* octal *)
    cbn [app]. change (48 =? 48) with true. change (105 =? 105) with true. cbn [andb].
    assert (E : match ds ++ rest with c1 :: r1 => if lower c1 =? 120 then (16, r1, n + Z.of_nat (length sg) + 2)
       else if lower c1 =? 98 then (2, r1, n + Z.of_nat (length sg) + 2) else (8, ds ++ rest, n + Z.of_nat (length sg) + 1)
       | [] => (8, ds ++ rest, n + Z.of_nat (length sg) + 1) end = (8, ds ++ rest, n + Z.of_nat (length sg) + 1)).
    { destruct (ds ++ rest) as [|c1 r1] eqn:Edr; [reflexivity|].
      assert (Hl : lower c1 <> 120 /\ lower c1 <> 98).
      { destruct ds as [|d ds].
        - cbn in Edr. specialize (H1 eq_refl c1 r1 Edr). cbn in H1. split; [apply lower_not_x | apply lower_not_b]; cbn; tauto.
        - cbn in Edr. injection Edr as <- <-. destruct (digit_first _ _ _ _ _ H eq_refl) as (x & Hx).
          unfold lower, digit_value in *. destruct ((65 <=? d) && (d <=? 90)) eqn:E; lia. }
      destruct (Z.eqb_spec (lower c1) 120); [lia|]. destruct (Z.eqb_spec (lower c1) 98); [lia|]. reflexivity. }
    rewrite E. erewrite digits_all by eauto. change (8 =? 8) with true. rewrite andb_false_r.
    rewrite put_ok. f_equal. cbn [length]. lia.
  - cbn [app]. change (48 =? 48) with true. change (105 =? 105) with true. cbn [andb]. rewrite lower_x by assumption.
    change (120 =? 120) with true. cbv iota. erewrite digits_all by eauto. rewrite len_cons by assumption. cbn [andb].
    rewrite put_ok. f_equal. cbn [length]. lia.
  - cbn [app]. change (48 =? 48) with true. change (105 =? 105) with true. cbn [andb]. rewrite lower_b by assumption.
    change (98 =? 120) with false. change (98 =? 98) with true. cbv iota. erewrite digits_all by eauto. rewrite len_cons by assumption. cbn [andb].
    rewrite put_ok. f_equal. cbn [length]. lia.
Qed.

Lemma conv_radix_bad r keep t sg f inp n : sg ++ inp <> [] -> signed_ sg f -> (sg = [] -> no_sign inp) -> bad_unsigned r inp ->
  conv_radix r keep t (sg ++ inp) n = NoMatch.
Proof.
  intros Hne Hs Hn Hb. pose proof (sign_ok _ _ inp n Hs Hn) as Hsg.
  destruct (sg ++ inp) as [|a b] eqn:E0; [congruence|]. rewrite <- E0 in *. clear Hne.
  assert (Hx : forall x (l : list Z), stops 16 (48 :: x :: l) -> False).
  { intros x l H. apply (H 48 (x :: l) 0 eq_refl). unfold digit_value. lia. }
  destruct r; cbn [conv_radix bad_unsigned] in *; unfold conv_int, conv_oct, conv_hex; rewrite E0; rewrite <- E0, Hsg.
  - assert (E : forall m, (match inp with c :: r => if (100 =? 105) && (c =? 48) then
              match r with c1 :: r1 => if lower c1 =? 120 then (16, r1, m + 2)
                            else if lower c1 =? 98 then (2, r1, m + 2) else (8, r, m + 1)
              | [] => (8, r, m + 1) end else (10, inp, m)
        | [] => (10, inp, m) end) = (10, inp, m)) by (intros; destruct inp; reflexivity).
    rewrite E, digits_stop by exact Hb. reflexivity.
  - rewrite digits_stop by exact Hb. reflexivity.
  - change (0 =? 0) with true. cbn [orb]. destruct Hb as [Hb|(x & l & -> & Hx1 & Hb)].
    + destruct inp as [|c l].
      * reflexivity.
      * destruct (Z.eqb_spec c 48) as [->|]; [exfalso; apply (Hb 48 l 0 eq_refl); unfold digit_value; lia|].
        cbn [andb]. rewrite digits_stop by exact Hb. reflexivity.
    + change (48 =? 48) with true. cbn [andb]. rewrite lower_x by assumption. change (120 =? 120) with true. cbn [andb].
      rewrite digits_stop by exact Hb. reflexivity.
  - destruct Hb as [Hb|[(x & l & -> & Hx1 & Hb)|(x & l & -> & Hx1 & Hb)]].
    + destruct inp as [|c l].
      * reflexivity.
      * destruct (Z.eqb_spec c 48) as [->|]; [exfalso; apply (Hb 48 l 0 eq_refl); unfold digit_value; lia|].
        rewrite andb_false_r. rewrite digits_stop by exact Hb. reflexivity.
    + change (48 =? 48) with true. change (105 =? 105) with true. cbn [andb]. rewrite lower_x by assumption. change (120 =? 120) with true. cbv iota.
      rewrite digits_stop by exact Hb. reflexivity.
    + change (48 =? 48) with true. change (105 =? 105) with true. cbn [andb]. rewrite lower_b by assumption.
      change (98 =? 120) with false. change (98 =? 98) with true. cbv iota.
      rewrite digits_stop by exact Hb. reflexivity.
Qed.

Lemma conv_radix_end r keep t n : conv_radix r keep t [] n = Eof.
Proof. destruct r; reflexivity. Qed.

(** ** Characters *)
Lemma append_ascii c : 0 <= c < 128 -> append c = Ok [c].
Proof.
  intros H. unfold append, enc_bytes. rewrite (Z.mod_small c) by lia.
  destruct (Z.leb_spec c 127); [|lia]. rewrite Z.mod_small by lia. reflexivity.
Qed.
Lemma signed_ascii c : 0 <= c < 128 -> signed c = c.
Proof. unfold signed. intros. destruct (Z.ltb_spec c 128); lia. Qed.

Lemma ascii_app a b : ascii (a ++ b) <-> ascii a /\ ascii b.
Proof. apply Forall_app. Qed.

Definition halts (P : Z -> Prop) (rest : list Z) : Prop := forall c r, rest = c :: r -> ~ P c.

Lemma word_ok w rest : w >= 0 -> forall x acc n, ascii (x ++ rest) -> Forall (fun c => ~ space c) x ->
  (w = 0 /\ halts (fun c => ~ space c) rest \/
   w > 0 /\ (Z.of_nat (length acc + length x) < w /\ halts (fun c => ~ space c) rest \/
             x <> [] /\ Z.of_nat (length acc + length x) = w)) ->
  word (x ++ rest) w acc n = Ok (acc ++ x, rest, n + Z.of_nat (length x)).
Proof.
  intros Hw0. induction x as [|c x IH]; intros acc n Ha Hf Hw.
  - assert (Hh : halts (fun c => ~ space c) rest) by (destruct Hw as [[_ H]|[_ [[_ H]|[H _]]]]; [exact H | exact H | congruence]).
    cbn [app length]. rewrite app_nil_r, Z.add_0_r. destruct rest as [|c r]; [reflexivity|].
    cbn. destruct (is_space c) eqn:E; [reflexivity|]. exfalso. apply (Hh c r eq_refl). apply not_space. exact E.
  - cbn [app] in *. inversion_clear Hf as [|? ? Hc Hf']. inversion_clear Ha as [|? ? Hac Ha'].
    cbn [word]. apply not_space in Hc. rewrite Hc. rewrite signed_ascii, append_ascii by lia. cbn [bind].
    assert (Hl : length (acc ++ [c]) = S (length acc)) by (rewrite app_length; cbn; lia).
    cbn [length] in *.
    destruct (negb (w =? 0) && (w <=? Z.of_nat (length (acc ++ [c])))) eqn:E.
    + destruct Hw as [[H1 H2]|[H1 [[H2 H3]|[_ H3]]]]; [lia | lia |].
      assert (x = []) as -> by (destruct x; [reflexivity | cbn [length] in *; lia]). cbn [app length]. f_equal.
    + rewrite IH.
      * rewrite <- app_assoc. cbn [app]. f_equal. f_equal. lia.
      * exact Ha'.
      * exact Hf'.
      * rewrite Hl. destruct Hw as [H|[H1 [[H2 H3]|[_ H3]]]]; [left; exact H | right; split; [exact H1|] ..].
        -- left. split; [lia | exact H3].
        -- right. split; [|lia]. destruct x; [cbn [length] in *; lia | congruence].
Qed.

Lemma chars_ok w rest : forall x acc n, ascii (x ++ rest) ->
  (Z.of_nat (length acc + length x) < w /\ rest = [] \/ Z.of_nat (length acc + length x) = w) ->
  chars (x ++ rest) w acc n = Ok (acc ++ x, rest, n + Z.of_nat (length x)).
Proof.
  induction x as [|c x IH]; intros acc n Ha Hw.
  - cbn [app length] in *. rewrite app_nil_r, Z.add_0_r. destruct rest as [|c r]; [reflexivity|]. cbn.
    destruct Hw as [[_ H]|H]; [discriminate|]. destruct (Z.leb_spec w (Z.of_nat (length acc))); [reflexivity | lia].
  - cbn [app length] in *. inversion_clear Ha as [|? ? Hac Ha']. cbn [chars].
    destruct (Z.leb_spec w (Z.of_nat (length acc))); [lia|]. rewrite signed_ascii, append_ascii by lia. cbn [bind].
    rewrite IH; [rewrite <- app_assoc; cbn [app]; f_equal; f_equal; lia | exact Ha' |].
    rewrite app_length. cbn [length]. destruct Hw as [[H1 H2]|H1]; [left; split; [lia | exact H2] | right; lia].
Qed.

(** ** Scansets *)
Definition in_item (c : Z) (i : item) : bool := match i with One x => c =? x | Range lo hi => (lo <=? c) && (c <=? hi) end.
Definition inside (items : list item) (dash : bool) (c : Z) : bool := existsb (in_item c) items || (dash && (c =? 45)).

Lemma inside_spec items dash c : inside items dash c = true <->
  (exists i, In i items /\ match i with One x => c = x | Range lo hi => lo <= c <= hi end) \/ (dash = true /\ c = 45).
Proof.
  unfold inside. rewrite orb_true_iff, existsb_exists, andb_true_iff, Z.eqb_eq.
  assert (H : forall i, in_item c i = true <-> match i with One x => c = x | Range lo hi => lo <= c <= hi end)
    by (intros []; cbn; lia).
  split; intros [(i & Hi & Hx)|Hd]; try (right; exact Hd); left; exists i; (split; [exact Hi|]); apply H; exact Hx.
Qed.

Lemma member_spec neg items dash c : member neg items dash c <-> xorb neg (inside items dash c) = true.
Proof.
  unfold member. pose proof (inside_spec items dash c) as H. cbv zeta. destruct neg, (inside items dash c); cbn; intuition congruence.
Qed.

Definition set_text (items : list item) (dash : bool) : list Z := concat (map item_text items) ++ (if dash then [45] else []).

Definition bad_range (i : item) : bool := match i with Range lo _ => 45 <? lo | _ => false end.

Lemma xor_true b : negb b = xorb b true. Proof. destruct b; reflexivity. Qed.
Lemma xor_false b : b = xorb b false. Proof. destruct b; reflexivity. Qed.

(* what follows an item does not start with '-' unless it is the last dash *)
Lemma set_head items dash : Forall ok_item items ->
  match set_text items dash with [] => True | [d] => d = 45 -> dash = true /\ items = [] | d :: _ => d <> 45 end.
Proof.
  intros H. destruct items as [|i items].
  - unfold set_text. cbn. destruct dash; cbn; auto.
  - inversion_clear H as [|? ? Hi Hr]. unfold set_text. cbn [map concat]. destruct i as [x|lo hi]; cbn [item_text app ok_item] in *; unfold ok_char in *.
    + destruct ((concat (map item_text items) ++ _)); [intros; lia | lia].
    + lia.
Qed.

Lemma one_step x tl dash items inv c g : 0 <= c -> x <> 45 -> 0 < x < 128 -> x <> c -> tl = set_text items dash -> Forall ok_item items ->
  (forall g', (length tl < g')%nat -> in_set g' tl inv c = Ok (xorb inv (inside items dash c))) ->
  (length tl < g)%nat ->
  in_set (S g) (x :: tl) inv c = Ok (xorb inv (inside items dash c)).
Proof.
  intros Hc Hx Hb Hne Htl Hok IH Hg. cbn [in_set].
  destruct (Z.leb_spec 128 x); [lia|]. destruct (Z.eqb_spec x c); [congruence|].
  pose proof (set_head items dash Hok) as Hh. rewrite <- Htl in Hh.
  destruct tl as [|d [|s tl]].
  - apply IH. exact Hg.
  - destruct (Z.eqb_spec d 45) as [->|Hd].
    + destruct (Hh eq_refl) as (-> & ->). unfold inside. cbn. destruct (Z.eqb_spec c 45); destruct inv; reflexivity.
    + apply IH. exact Hg.
  - destruct (Z.eqb_spec d 45); [congruence|]. cbn [andb]. apply IH. exact Hg.
Qed.

Lemma in_set_ok inv dash c : 0 <= c < 128 -> forall items, Forall ok_item items ->
  (dash = false -> c = 45 -> existsb bad_range items = false) ->
  forall fuel, (length (set_text items dash) < fuel)%nat ->
  in_set fuel (set_text items dash) inv c = Ok (xorb inv (inside items dash c)).
Proof.
  intros Hc. induction items as [|i items IH]; intros Hok Hd fuel Hf.
  - unfold set_text, inside in *. cbn [map concat app existsb orb] in *. destruct fuel as [|g]; [lia|]. destruct dash.
    + cbn [in_set]. change (128 <=? 45) with false. cbv iota. rewrite (Z.eqb_sym c). destruct (Z.eqb_spec 45 c); cbn [andb].
      * rewrite xor_true. reflexivity.
      * destruct g; [cbn in Hf; lia|]. cbn [in_set]. rewrite <- xor_false. reflexivity.
    + cbn [in_set andb]. rewrite <- xor_false. reflexivity.
  - inversion_clear Hok as [|? ? Hi Hok'].
    assert (Hd' : dash = false -> c = 45 -> existsb bad_range items = false)
      by (intros A B; specialize (Hd A B); cbn [existsb] in Hd; apply orb_false_iff in Hd; tauto).
    specialize (IH Hok' Hd').
    destruct i as [x|lo hi].
    + change (set_text (One x :: items) dash) with (x :: set_text items dash) in *. cbn [length] in Hf. cbn in Hi. unfold ok_char in Hi.
      destruct fuel as [|g]; [lia|]. destruct (Z.eq_dec x c) as [->|Hne].
      * cbn [in_set]. destruct (Z.leb_spec 128 c); [lia|]. rewrite Z.eqb_refl. unfold inside. cbn [existsb in_item]. rewrite Z.eqb_refl. cbn [orb].
        rewrite xor_true. reflexivity.
      * replace (inside (One x :: items) dash c) with (inside items dash c)
          by (unfold inside; cbn [existsb in_item]; destruct (Z.eqb_spec c x); [congruence | reflexivity]).
        eapply one_step; eauto; try lia.
    + change (set_text (Range lo hi :: items) dash) with (lo :: 45 :: hi :: set_text items dash) in *. cbn [length] in Hf. cbn in Hi. unfold ok_char in Hi.
      destruct fuel as [|g]; [lia|]. cbn [in_set].
      destruct (Z.leb_spec 128 lo); [lia|].
      assert (Hin : inside (Range lo hi :: items) dash c = (lo <=? c) && (c <=? hi) || inside items dash c)
        by (unfold inside; cbn [existsb in_item]; rewrite orb_assoc; reflexivity).
      rewrite Hin. destruct (Z.eqb_spec lo c) as [->|Hlc].
      * rewrite Z.leb_refl. destruct (Z.leb_spec c hi); [|lia]. cbn [andb orb]. rewrite xor_true. reflexivity.
      * change (45 =? 45) with true. cbn [andb]. destruct (Z.ltb_spec lo c) as [Hlt|Hge].
        -- destruct (Z.leb_spec 128 hi); [lia|]. destruct (Z.leb_spec lo c); [|lia]. cbn [andb]. destruct (Z.leb_spec c hi); cbn [orb].
           ++ rewrite xor_true. reflexivity.
           ++ apply IH. lia.
        -- destruct (Z.leb_spec lo c); [lia|]. cbn [andb orb].
           destruct g as [|g]; [lia|]. destruct g as [|g]; [lia|].
           assert (Hhi : in_set (S g) (hi :: set_text items dash) inv c = Ok (xorb inv (inside items dash c)))
             by (eapply one_step; eauto; lia).
           cbn [in_set]. change (128 <=? 45) with false. cbv iota. destruct (Z.eqb_spec 45 c) as [E|E].
           ++ destruct dash.
              ** unfold inside. rewrite <- E. rewrite orb_true_r. rewrite xor_true. reflexivity.
              ** specialize (Hd eq_refl (eq_sym E)). cbn [existsb bad_range] in Hd. apply orb_false_iff in Hd. lia.
           ++ destruct (set_text items dash) as [|d tl] eqn:Et.
              ** destruct (Z.eqb_spec hi 45); [lia|]. exact Hhi.
              ** destruct (Z.eqb_spec hi 45); [lia|]. cbn [andb]. exact Hhi.
Qed.

Lemma dstep_ascii c : 0 <= c < 128 -> dstep mb_init c = Some (0, c).
Proof.
  intros H. unfold dstep, mb_init. change (0 =? 0) with true. cbv iota.
  replace (Z.land c 128) with 0; [reflexivity|]. symmetry.
  apply Z.bits_inj'. intros k Hk. rewrite Z.land_spec, Z.bits_0.
  destruct (Z.eq_dec k 7) as [->|Hne].
  - replace (Z.testbit c 7) with false; [reflexivity|]. symmetry. apply Z.testbit_false; [lia|].
    change (2 ^ 7) with 128. rewrite Z.div_small by lia. reflexivity.
  - change 128 with (2 ^ 7). rewrite Z.pow2_bits_false by lia. apply andb_false_r.
Qed.

Lemma next_ascii fuel l n : ascii l -> (0 < fuel)%nat -> next_char fuel (Some l) mb_init n = Ok (hd 0 l, Some l, n).
Proof.
  intros H Hf. destruct fuel as [|g]; [lia|]. destruct l as [|c l]; cbn [next_char look bind hd].
  - reflexivity.
  - inversion_clear H. rewrite dstep_ascii by lia. reflexivity.
Qed.

Lemma set_loop_ok set inv w rest (P : Z -> bool) : w >= 0 ->
  forall x fuel acc n, ascii (x ++ rest) -> (length (x ++ rest) < fuel)%nat ->
  (forall c, In c (x ++ rest) -> in_set (S (length set)) set inv c = Ok (P c)) ->
  Forall (fun c => P c = true) x ->
  (w = 0 /\ halts (fun c => P c = true) rest \/
   w > 0 /\ (Z.of_nat (length acc + length x) < w /\ halts (fun c => P c = true) rest \/
             Z.of_nat (length acc + length x) = w)) ->
  set_loop fuel set inv w (hd 0 (x ++ rest)) acc (Some (x ++ rest)) n = Ok (acc ++ x, Some rest, n + Z.of_nat (length x)).
Proof.
  intros Hw0. induction x as [|c x IH]; intros fuel acc n Ha Hf HP Hx Hw; (destruct fuel as [|g]; [lia|]).
  - cbn [app length] in *. rewrite app_nil_r, Z.add_0_r. destruct rest as [|c r]; [reflexivity|]. cbn [hd set_loop].
    inversion_clear Ha as [|? ? Hac Ha'].
    destruct (Z.eqb_spec c 0); [lia|]. cbn [orb].
    destruct (negb (w =? 0) && (w <=? Z.of_nat (length acc))) eqn:E; [reflexivity|].
    rewrite HP by (left; reflexivity). cbn [bind].
    assert (Hh : halts (fun c => P c = true) (c :: r)) by (destruct Hw as [[_ H]|[H0 [[_ H]|H]]]; [exact H | exact H | lia]).
    specialize (Hh c r eq_refl). cbn in Hh. destruct (P c); [congruence | reflexivity].
  - cbn [app length] in *. inversion_clear Ha as [|? ? Hac Ha']. inversion_clear Hx as [|? ? Hc Hx'].
    cbn [hd set_loop]. destruct (Z.eqb_spec c 0); [lia|]. cbn [orb].
    destruct (negb (w =? 0) && (w <=? Z.of_nat (length acc))) eqn:E; [lia|].
    rewrite HP by (left; reflexivity). cbn [bind]. rewrite Hc. cbn [consume bind]. rewrite append_ascii by lia. cbn [bind].
    rewrite next_ascii by (assumption || lia). cbn [bind].
    rewrite IH; [rewrite <- app_assoc; cbn [app]; f_equal; f_equal; lia | exact Ha' | lia | intros; apply HP; right; assumption | exact Hx' |].
    rewrite app_length. cbn [length]. destruct Hw as [H|[H1 [[H2 H3]|H3]]]; [left; exact H | right; split; [exact H1|]..].
    + left. split; [lia | exact H3].
    + right. lia.
Qed.

Lemma find_close_app a f : ~ In 93 a -> find_close (a ++ 93 :: f) = Some (a, f).
Proof.
  induction a as [|c a IH]; intros H; [reflexivity|]. cbn. destruct (Z.eqb_spec c 93); [exfalso; apply H; left; assumption|].
  rewrite IH by (intros K; apply H; right; exact K). reflexivity.
Qed.

Lemma set_text_no items dash : Forall ok_item items -> ~ In 93 (set_text items dash).
Proof.
  intros H. unfold set_text. rewrite in_app_iff. intros [K|K].
  - induction H as [|i items Hi _ IH]; [exact K|]. cbn in K. rewrite in_app_iff in K. destruct K as [K|K]; [|apply IH; exact K].
    destruct i; cbn in *; unfold ok_char in *; lia.
  - destruct dash; cbn in K; lia.
Qed.

Lemma conv_set_ok (neg : bool) items dash f : items <> [] -> Forall ok_item items ->
  forall (keep : bool) w l n,
  conv_set ((if neg then [94] else []) ++ set_text items dash ++ 93 :: f) keep w (Some l) n =
  ('(c, i, n) <- next_char (S (S (length l))) (Some l) mb_init n ;;
   if c =? 0 then Ok (Eof, f)
   else '(acc, i, n) <- set_loop (S (S (length l))) (set_text items dash) neg w c [] i n ;;
        match acc with
        | [] => Ok (NoMatch, f)
        | _ => Ok (Next (if keep then Some (SBytes (acc ++ [0])) else None) i n, f)
        end).
Proof.
  intros Hne Hok keep w l n.
  assert (Hh : exists c r, set_text items dash = c :: r /\ c <> 94 /\ c <> 93).
  { destruct items as [|i items]; [congruence|]. inversion_clear Hok as [|? ? Hi Hr].
    destruct i as [x|lo hi]; cbn in Hi; unfold ok_char in Hi; unfold set_text; cbn; do 2 eexists; (split; [reflexivity|]); lia. }
  destruct Hh as (c & r & E & H1 & H2).
  assert (Hs : scanset (set_text items dash ++ 93 :: f) = Some (set_text items dash, f)).
  { unfold scanset. rewrite E at 1. cbn [app]. destruct (Z.eqb_spec c 93); [congruence|].
    apply find_close_app. apply set_text_no. exact Hok. }
  unfold conv_set. destruct neg; cbn [app].
  - change (94 =? 94) with true. cbv iota. rewrite Hs. reflexivity.
  - rewrite E at 1. cbn [app]. destruct (Z.eqb_spec c 94); [congruence|].
    rewrite Hs. reflexivity.
Qed.

Lemma read_width_app w a c f : Forall (fun c => 48 <= c <= 57) w -> is_digit c = false ->
  read_width (w ++ c :: f) a = (fold_left (fun a c => a * 10 + (c - 48)) w a, c :: f).
Proof.
  intros H Hc. revert a. induction H as [|x w Hx _ IH]; intros a; cbn [app read_width fold_left].
  - rewrite Hc. reflexivity.
  - replace (is_digit x) with true by (symmetry; unfold is_digit; lia). apply IH.
Qed.

Lemma decimal_from w a : Forall (fun c => 48 <= c <= 57) w -> 0 <= a -> a <= fold_left (fun a c => a * 10 + (c - 48)) w a.
Proof.
  intros H. revert a. induction H as [|x w Hx _ IH]; intros a Ha; cbn [fold_left]; [lia|].
  specialize (IH (a * 10 + (x - 48)) ltac:(lia)). lia.
Qed.
Lemma decimal_nonneg w : ok_width w -> decimal w >= 0.
Proof. intros (H & _). pose proof (decimal_from w 0 H ltac:(lia)). unfold decimal. lia. Qed.
Lemma decimal_pos w : ok_width w -> w <> [] -> decimal w > 0.
Proof.
  intros (H & Hh) Hne. destruct w as [|x w]; [congruence|]. cbn in Hh. inversion_clear H as [|? ? Hx Hw].
  unfold decimal. cbn [fold_left]. pose proof (decimal_from w (0 * 10 + (x - 48)) Hw ltac:(lia)). lia.
Qed.

(** the flags of %s, %c and %[ *)
Lemma flags_width keep w c f : ok_width w -> (keep = false -> w = []) -> is_digit c = false -> c <> 42 -> c <> 39 -> c <> 109 ->
  flags (star keep ++ w ++ c :: f) = Ok (decimal w, c :: f).
Proof.
  intros (Hw & _) Hk Hc H1 H2 H3. destruct keep; cbn [star app].
  - unfold flags. rewrite (read_width_app w 0 c f Hw Hc). destruct w as [|x w]; cbn [app].
    + destruct (Z.eqb_spec c 42), (Z.eqb_spec c 39), (Z.eqb_spec c 109); try congruence. reflexivity.
    + inversion_clear Hw as [|? ? Hx _]. destruct (Z.eqb_spec x 42), (Z.eqb_spec x 39), (Z.eqb_spec x 109); try lia. reflexivity.
  - rewrite (Hk eq_refl). reflexivity.
Qed.
Lemma dest_width keep w c f : ok_width w -> c <> 42 -> match star keep ++ w ++ c :: f with c1 :: _ => negb (c1 =? 42) | [] => true end = keep.
Proof.
  intros (Hw & _) H. destruct keep; cbn [star app]; [|reflexivity].
  destruct w as [|x w]; cbn [app].
  - destruct (Z.eqb_spec c 42); [congruence | reflexivity].
  - inversion_clear Hw as [|? ? Hx _]. destruct (Z.eqb_spec x 42); [lia | reflexivity].
Qed.
Lemma pct_width keep w c f : ok_width w -> c <> 37 -> match star keep ++ w ++ c :: f with c1 :: _ => c1 =? 37 | [] => false end = false.
Proof.
  intros (Hw & _) H. destruct keep; cbn [star app]; [|reflexivity].
  destruct w as [|x w]; cbn [app].
  - destruct (Z.eqb_spec c 37); [congruence | reflexivity].
  - inversion_clear Hw as [|? ? Hx _]. destruct (Z.eqb_spec x 37); [lia | reflexivity].
Qed.

(** ** One directive *)
Definition finish (g : nat) (keep : bool) (cnt : Z) (k : Z) (out : list stored) (x : outcome * list Z) : res (Z * list stored) :=
  let '(o, r2) := x in
  match o with
  | NoMatch => Ok (k, out)
  | Eof => Ok ((if k =? 0 then -1 else k), out)
  | Next s (Some l) n => scan g r2 l n (k + cnt) (match s with Some x => out ++ [x] | None => out end)
  | Next _ None _ => UB
  end.

Definition keep_count (keep : bool) : Z := if keep then 1 else 0.
Lemma keep_count_ok (keep : bool) k : (if keep && true then k + 1 else k) = k + keep_count keep.
Proof. destruct keep; cbn; lia. Qed.

Lemma scan_width g keep w c f l n k out : ok_width w -> (keep = false -> w = []) -> In c [115; 99; 91] ->
  scan (S g) (37 :: star keep ++ w ++ c :: f) l n k out =
  (let '(l, n) := if is_conv c then skip_space l n else (l, n) in
   x <- convert (c :: f) keep false (decimal w) TInt l n ;; finish g keep (keep_count keep) k out x).
Proof.
  intros Hw Hk Hc. cbn [scan]. change (is_space 37) with false. cbv iota. change (37 =? 37) with true. cbn [negb orb].
  rewrite pct_width by (try exact Hw; intros ->; cbn in Hc; lia). cbv iota zeta.
  rewrite dest_width by (try exact Hw; intros ->; cbn in Hc; lia).
  rewrite flags_width; [|exact Hw | exact Hk | unfold is_digit; cbn in Hc; lia | cbn in Hc; lia ..]. cbn [bind].
  assert (Hm : modifier (c :: f) = (TInt, c :: f)) by (cbn in Hc; destruct Hc as [<-|[<-|[<-|[]]]]; reflexivity).
  assert (Hwd : match c :: f with c1 :: c2 :: _ => (c1 =? 108) && negb (c2 =? 108) | _ => false end = false)
    by (cbn in Hc; destruct Hc as [<-|[<-|[<-|[]]]]; destruct f; reflexivity).
  assert (Hn : (c =? 110) = false) by (cbn in Hc; lia).
  rewrite Hm. cbv iota beta. rewrite Hwd, Hn.
  destruct (is_conv c); [destruct (skip_space l n) as [l' n'] | rename l into l', n into n'];
    (destruct (convert (c :: f) keep false (decimal w) TInt l' n') as [[o r2]| | |]; cbn [bind]; [|reflexivity..]);
    unfold finish; (destruct o as [s [i|] n''| |]; [|reflexivity..]); rewrite keep_count_ok; reflexivity.
Qed.

Lemma scan_int g r t keep f l n k out :
  scan (S g) (37 :: star keep ++ mod_text t ++ radix_char r :: f) l n k out =
  (let '(l, n) := skip_space l n in finish g keep (keep_count keep) k out (conv_radix r keep t l n, f)).
Proof.
  unfold finish.
  destruct keep, t, r; cbn -[skip_space conv_int conv_oct conv_hex scan]; cbn [scan];
    cbn -[skip_space conv_int conv_oct conv_hex scan]; destruct (skip_space l n) as [l' n'];
    match goal with |- context [match ?o with Next _ _ _ => _ | NoMatch => _ | Eof => _ end] => destruct o as [s [i|] n''| |] end;
    try reflexivity; rewrite Z.add_0_r; reflexivity.
Qed.

Lemma scan_count g t f l n k out :
  scan (S g) (37 :: mod_text t ++ 110 :: f) l n k out = scan g f l n k (out ++ [SInt t (n mod 2 ^ bits t)]).
Proof. destruct t; reflexivity. Qed.

Definition after (g : nat) (d : directive) (f inp : list Z) (n k : Z) (out : list stored) (r : result) : res (Z * list stored) :=
  match r with
  | Go o rest => scan g f rest (n + (Z.of_nat (length inp) - Z.of_nat (length rest))) (k + counts d)
                   (match o with Some x => out ++ [x] | None => out end)
  | Mismatch => Ok (k, out)
  | End => Ok ((if k =? 0 then -1 else k), out)
  end.

Ltac norm_len := rewrite ?app_length; cbn [length].

Lemma step_ok d n inp r f g k out : step d n inp r -> ok_directive d -> ascii inp -> (no_dash d = true -> ~ In 45 inp) ->
  (match d with Space _ => forall c t, f = c :: t -> ~ space c | _ => True end) -> (d = Percent -> halts space inp) ->
  scan (S g) (text d ++ f) inp n k out = after g d f inp n k out r.
Proof.
  intros Hs Hok Ha Hd Hf Hp. unfold after.
  assert (Hnil : d = Percent -> forall ws rest, inp = ws ++ rest -> Forall space ws -> ws = []).
  { intros E ws rest E2 K. destruct ws as [|c ws]; [reflexivity|]. inversion_clear K. destruct (Hp E c (ws ++ rest)); assumption. }
  destruct Hs; cbn [text counts ok_directive no_dash] in *; rewrite ?Z.add_0_r.
  - destruct Hok as [Ht Hne]. destruct t as [|c t]; [congruence|]. inversion_clear Ht as [|? ? Hc Ht'].
    cbn [app scan]. apply is_space_spec in Hc. rewrite Hc.
    rewrite (skip_app t f 0) by (split; assumption). rewrite (skip_app ws rest n) by assumption.
    f_equal. norm_len. lia.
  - destruct Hok as (H1 & H2 & H3). cbn [app scan]. apply not_space in H3. rewrite H3.
    destruct (Z.eqb_spec c 37); [congruence|]. cbn [negb orb]. rewrite Z.eqb_refl. f_equal. norm_len. lia.
  - destruct Hok as (H1 & H2 & H3). cbn [app scan]. apply not_space in H3. rewrite H3.
    destruct (Z.eqb_spec c 37); [congruence|]. cbn [negb orb]. destruct (Z.eqb_spec b c); [congruence | reflexivity].
  - destruct Hok as (H1 & H2 & H3). cbn [app scan]. apply not_space in H3. rewrite H3.
    destruct (Z.eqb_spec c 37); [congruence|]. reflexivity.
  - rewrite (Hnil eq_refl ws _ eq_refl (proj1 H)).
    cbn [app scan]. change (is_space 37) with false. change (37 =? 37) with true. cbn [negb orb tl]. f_equal. norm_len. lia.
  - rewrite (Hnil eq_refl ws _ eq_refl (proj1 H)). cbn [app scan]. change (is_space 37) with false. change (37 =? 37) with true. cbn [negb orb tl]. destruct (Z.eqb_spec b 37); [congruence | reflexivity].
  - rewrite (Hnil eq_refl ws [] (eq_sym (app_nil_r ws)) H). reflexivity.
  - cbn [app]. rewrite <- !app_assoc. cbn [app]. rewrite scan_int. rewrite skip_app by assumption.
    erewrite conv_radix_ok by eassumption. unfold finish. 
    replace (match keep with true => 1 | false => 0 end) with (keep_count keep) by reflexivity. f_equal. norm_len. lia.
  - cbn [app]. rewrite <- !app_assoc. cbn [app]. rewrite scan_int. rewrite skip_app by assumption.
    erewrite conv_radix_bad by eassumption. reflexivity.
  - cbn [app]. rewrite <- !app_assoc. cbn [app]. rewrite scan_int. rewrite skip_all by assumption.
    rewrite conv_radix_end. reflexivity.
  - destruct Hok as (Hw & Hk). cbn [app]. rewrite <- !app_assoc. cbn [app]. rewrite scan_width by (auto; cbn; auto).
    change (is_conv 115) with true. cbv iota. rewrite skip_app by assumption. 
    unfold convert. cbn -[conv_str scan finish decimal]. unfold conv_str.
    assert (E : exists a b, x ++ rest = a :: b) by (destruct x; [congruence | cbn; eauto]). destruct E as (a & b & E).
    rewrite E. rewrite <- E. apply ascii_app in Ha as [_ Ha]. destruct H1 as (Hx & Hl).
    rewrite word_ok; [|apply decimal_nonneg; exact Hw | exact Ha | exact Hx |].
    2:{ cbn [length plus]. destruct Hl as [Hl|[Hl0 [Hl|Hl]]]; [left; exact Hl | right; auto | right; split; [exact Hl0 | right; auto]]. }
    cbn [bind app]. destruct x as [|x0 x]; [congruence|]. cbn [bind finish]. unfold keeps.
    replace (match keep with true => 1 | false => 0 end) with (keep_count keep) by reflexivity.
    f_equal. norm_len. lia.
  - destruct Hok as (Hw & Hk). cbn [app]. rewrite <- !app_assoc. cbn [app]. rewrite scan_width by (auto; cbn; auto).
    change (is_conv 115) with true. cbv iota. rewrite skip_all by assumption. reflexivity.
  - destruct Hok as (Hw & Hk). cbn [app]. rewrite <- !app_assoc. cbn [app]. rewrite scan_width by (auto; cbn; auto).
    change (is_conv 99) with false. cbv iota. unfold convert. cbn -[conv_chr scan finish decimal]. unfold conv_chr.
    assert (E : exists a b, x ++ rest = a :: b) by (destruct x; [congruence | cbn; eauto]). destruct E as (a & b & E).
    rewrite E. rewrite <- E.
    assert (Hwd : (if decimal w =? 0 then 1 else decimal w) = match w with [] => 1 | _ => decimal w end).
    { destruct w as [|w0 w]; [reflexivity|]. pose proof (decimal_pos (w0 :: w) Hw ltac:(discriminate)).
      destruct (Z.eqb_spec (decimal (w0 :: w)) 0); [lia | reflexivity]. }
    assert (Hwp : match w with [] => 1 | _ => decimal w end > 0)
      by (destruct w; [lia | apply decimal_pos; [exact Hw | discriminate]]).
    rewrite Hwd. destruct H0 as (Hx & Hl).
    rewrite chars_ok; [|exact Ha|].
    2:{ cbn [length plus]. destruct Hl as [Hl|[Hl0 [[Hl1 Hl2]|Hl]]]; [lia | left; split; [exact Hl1|] | right; exact Hl].
        destruct rest as [|c r]; [reflexivity|]. exfalso. apply (Hl2 c r eq_refl). exact Logic.I. }
    cbn [bind app finish]. unfold keeps.
    replace (match keep with true => 1 | false => 0 end) with (keep_count keep) by reflexivity.
    f_equal. norm_len. lia.
  - destruct Hok as (Hw & Hk). cbn [app]. rewrite <- !app_assoc. cbn [app]. rewrite scan_width by (auto; cbn; auto). reflexivity.
  - destruct Hok as (Hw & Hk & Hne & Hit). cbn [app]. rewrite <- !app_assoc. cbn [app]. rewrite scan_width by (auto; cbn; auto).
    change (is_conv 91) with false. cbv iota. unfold convert. cbn -[conv_set scan finish decimal].
    replace (((if neg then [94] else []) ++ concat (map item_text items) ++ (if dash then [45] else []) ++ [93]) ++ f)
      with ((if neg then [94] else []) ++ set_text items dash ++ 93 :: f) by (unfold set_text; rewrite <- !app_assoc; reflexivity).
    rewrite conv_set_ok by assumption. rewrite next_ascii by (assumption || lia). cbn [bind].
    assert (Hc0 : hd 0 (x ++ rest) <> 0) by (destruct x; [congruence|]; cbn; inversion_clear Ha; lia).
    destruct (Z.eqb_spec (hd 0 (x ++ rest)) 0); [congruence|].
    destruct H0 as (Hx & Hl).
    rewrite (set_loop_ok _ _ _ _ (fun c => xorb neg (inside items dash c))); [|apply decimal_nonneg; exact Hw | exact Ha | lia | | |].
    + cbn [bind app]. destruct x as [|x0 x]; [congruence|]. cbn [bind finish]. unfold keeps.
      replace (match keep with true => 1 | false => 0 end) with (keep_count keep) by reflexivity.
      f_equal. norm_len. lia.
    + intros c Hc. apply in_set_ok; [|exact Hit | | lia].
      * unfold ascii in Ha. rewrite Forall_forall in Ha. specialize (Ha c Hc). lia.
      * intros -> ->. destruct (existsb bad_range items) eqn:E; [|reflexivity]. exfalso. exact (Hd E Hc).
    + eapply Forall_impl; [|exact Hx]. intros c Hc. apply member_spec. exact Hc.
    + cbn [length plus].
      assert (Hh : (forall c r, rest = c :: r -> ~ member neg items dash c) -> halts (fun c => xorb neg (inside items dash c) = true) rest)
        by (intros K c r Er; rewrite <- member_spec; eapply K; eauto).
      destruct Hl as [[Hl1 Hl2]|[Hl0 [[Hl1 Hl2]|Hl]]]; [left; auto | right; auto | right; auto].
  - destruct Hok as (Hw & Hk & Hne & Hit). cbn [app]. rewrite <- !app_assoc. cbn [app]. rewrite scan_width by (auto; cbn; auto).
    change (is_conv 91) with false. cbv iota. unfold convert. cbn -[conv_set scan finish decimal].
    replace (((if neg then [94] else []) ++ concat (map item_text items) ++ (if dash then [45] else []) ++ [93]) ++ f)
      with ((if neg then [94] else []) ++ set_text items dash ++ 93 :: f) by (unfold set_text; rewrite <- !app_assoc; reflexivity).
    rewrite conv_set_ok by assumption. rewrite next_ascii by (assumption || lia). cbn [bind hd].
    inversion_clear Ha as [|? ? Hc Ha']. destruct (Z.eqb_spec c 0); [lia|].
    cbn [set_loop length]. destruct (Z.eqb_spec c 0); [lia|]. cbn [orb].
    assert (Hin : in_set (S (length (set_text items dash))) (set_text items dash) neg c = Ok (xorb neg (inside items dash c))).
    { apply in_set_ok; [lia | exact Hit | | lia]. intros -> ->. destruct (existsb bad_range items) eqn:E; [|reflexivity].
      exfalso. apply (Hd E). left; reflexivity. }
    pose proof (decimal_nonneg w Hw) as Hw0.
    destruct (negb (decimal w =? 0) && (decimal w <=? Z.of_nat 0)) eqn:E; [lia|].
    rewrite Hin. cbn [bind]. rewrite member_spec in H. destruct (xorb neg (inside items dash c)); [congruence|]. reflexivity.
  - destruct Hok as (Hw & Hk & Hne & Hit). cbn [app]. rewrite <- !app_assoc. cbn [app]. rewrite scan_width by (auto; cbn; auto).
    change (is_conv 91) with false. cbv iota. unfold convert. cbn -[conv_set scan finish decimal].
    replace (((if neg then [94] else []) ++ concat (map item_text items) ++ (if dash then [45] else []) ++ [93]) ++ f)
      with ((if neg then [94] else []) ++ set_text items dash ++ 93 :: f) by (unfold set_text; rewrite <- !app_assoc; reflexivity).
    rewrite conv_set_ok by assumption. reflexivity.
  - cbn [app]. rewrite <- app_assoc. cbn [app]. rewrite scan_count. f_equal. lia.
Qed.

(** ** All directives *)
Lemma text_head d : ok_directive d -> exists c t, text d = c :: t /\ match d with Space _ => True | _ => ~ space c end.
Proof.
  assert (~ space 37) by (unfold space; lia).
  destruct d; cbn; intros Hok; try (do 2 eexists; split; [reflexivity | assumption]).
  - destruct ws as [|c t]; [tauto | eauto].
  - do 2 eexists. split; [reflexivity|]. tauto.
Qed.

Lemma text_pos d : ok_directive d -> (1 <= length (text d))%nat.
Proof. intros H. destruct (text_head d H) as (c & t & -> & _). cbn. lia. Qed.

Lemma after_space ds d : ok_directive d -> (match d, ds with Space _, Space _ :: _ => False | _, _ => True end) -> ok_format ds ->
  match d with Space _ => forall c t, format ds = c :: t -> ~ space c | _ => True end.
Proof.
  intros Hd Hn Hf. destruct d; auto. intros c t E. destruct ds as [|d' ds]; [discriminate|].
  cbn [ok_format] in Hf. destruct Hf as (Hd' & _). destruct (text_head d' Hd') as (c' & t' & E' & H').
  unfold format in E. cbn [map concat] in E. rewrite E' in E. cbn in E. injection E as <- <-.
  destruct d'; tauto.
Qed.

Lemma step_space t n used rest o : step (Space t) n (used ++ rest) (Go o rest) -> halts space rest.
Proof. intros H. inversion H; subst. match goal with K : spaces _ _ |- _ => exact (proj2 K) end. Qed.

Lemma scans_ok ds n inp k ret outs : scans ds n inp k ret outs ->
  forall g out b, ok_format ds -> ascii inp -> (existsb no_dash ds = true -> ~ In 45 inp) ->
  (bare_percent b ds = true -> Forall (fun c => ~ space c) inp) -> (b = true -> halts space inp) -> (length (format ds) < g)%nat ->
  scan g (format ds) inp n k out = Ok (ret, out ++ outs).
Proof.
  assert (HP : forall d ds b inp, (bare_percent b (d :: ds) = true -> Forall (fun c => ~ space c) inp) -> (b = true -> halts space inp) ->
    d = Percent -> halts space inp).
  { intros d ds0 b inp0 H1 H2 ->. destruct b; [apply H2; reflexivity|]. specialize (H1 eq_refl).
    intros c r ->. inversion_clear H1. assumption. }
  induction 1 as [n inp k|d ds n used rest k o ret outs Hs Hr IH|d ds n inp k Hs|d ds n inp k Hs]; intros g out b Hok Ha Hd Hp Hb Hg.
  - destruct g as [|g]; [lia|]. cbn. rewrite app_nil_r. reflexivity.
  - cbn [ok_format] in Hok. destruct Hok as (H1 & H2 & H3). cbn [existsb] in Hd.
    destruct g as [|g]; [lia|]. unfold format in *. cbn [map concat] in *. rewrite app_length in Hg. pose proof (text_pos d H1).
    rewrite (step_ok d n (used ++ rest) (Go o rest)); [|exact Hs | exact H1 | exact Ha | intros E; apply Hd; rewrite E; reflexivity | apply after_space; assumption | eapply HP; eassumption].
    unfold after. rewrite app_length. replace (n + (Z.of_nat (length used + length rest) - Z.of_nat (length rest))) with (n + Z.of_nat (length used)) by lia.
    rewrite IH with (b := match d with Space _ => true | _ => false end).
    + destruct o; [rewrite <- app_assoc|]; reflexivity.
    + exact H3.
    + apply ascii_app in Ha. tauto.
    + intros E K. apply Hd; [rewrite E; apply orb_true_r | apply in_or_app; right; exact K].
    + intros E. cbn [bare_percent] in Hp. rewrite E, orb_true_r in Hp. specialize (Hp eq_refl). apply Forall_app in Hp. tauto.
    + destruct d; try discriminate. intros _. eapply step_space; eassumption.
    + lia.
  - cbn [ok_format] in Hok. destruct Hok as (H1 & H2 & H3). cbn [existsb] in Hd. destruct g as [|g]; [lia|].
    unfold format. cbn [map concat]. rewrite (step_ok d n inp Mismatch); [|exact Hs | exact H1 | exact Ha | intros E; apply Hd; rewrite E; reflexivity | apply after_space; assumption | eapply HP; eassumption].
    cbn. rewrite app_nil_r. reflexivity.
  - cbn [ok_format] in Hok. destruct Hok as (H1 & H2 & H3). cbn [existsb] in Hd. destruct g as [|g]; [lia|].
    unfold format. cbn [map concat]. rewrite (step_ok d n inp End); [|exact Hs | exact H1 | exact Ha | intros E; apply Hd; rewrite E; reflexivity | apply after_space; assumption | eapply HP; eassumption].
    cbn. rewrite app_nil_r. reflexivity.
Qed.

Theorem sscanf_ok ds inp ret outs : ok_format ds -> ascii inp -> (existsb no_dash ds = true -> ~ In 45 inp) ->
  (bare_percent false ds = true -> Forall (fun c => ~ space c) inp) ->
  scans ds 0 inp 0 ret outs -> sscanf inp (format ds) = Ok (ret, outs).
Proof. intros H1 H2 H3 H4 H5. unfold sscanf. apply (scans_ok _ _ _ _ _ _ H5) with (b := false); auto. discriminate. Qed.

(** ** Every input is matched in some way *)
Lemma span_spaces inp : exists ws rest, inp = ws ++ rest /\ spaces ws rest.
Proof.
  induction inp as [|c inp (ws & rest & -> & Hw & Hr)].
  - exists [], []. split; [reflexivity|]. split; [constructor | discriminate].
  - destruct (is_space c) eqn:E.
    + exists (c :: ws), rest. split; [reflexivity|]. split; [constructor; [apply is_space_spec; exact E | exact Hw] | exact Hr].
    + exists [], (c :: ws ++ rest). split; [reflexivity|]. split; [constructor|].
      intros c' r' K. injection K as <- <-. apply not_space. exact E.
Qed.

Lemma span_digits base inp : forall ds0 v0, number base ds0 v0 ->
  exists ds rest v, inp = ds ++ rest /\ number base (ds0 ++ ds) v /\ stops base rest.
Proof.
  induction inp as [|c inp IH]; intros ds0 v0 H.
  - exists [], [], v0. rewrite (app_nil_r ds0). split; [reflexivity|]. split; [exact H | intros ? ? ?; discriminate].
  - destruct (digit base c) as [x|] eqn:E.
    + apply digit_spec in E. destruct (IH (ds0 ++ [c]) (v0 * base + x)) as (ds & rest & v & -> & H1 & H2); [constructor; assumption|].
      exists (c :: ds), rest, v. split; [reflexivity|]. rewrite <- app_assoc in H1. split; assumption.
    + exists [], (c :: inp), v0. rewrite (app_nil_r ds0). split; [reflexivity|]. split; [exact H|].
      intros c' r' v K L. injection K as <- <-. apply digit_spec in L. congruence.
Qed.
Lemma span_number base inp : exists ds rest v, inp = ds ++ rest /\ number base ds v /\ stops base rest.
Proof. apply (span_digits base inp [] 0). constructor. Qed.

Lemma unsigned_total r inp : (exists body rest v, inp = body ++ rest /\ unsigned r body rest v) \/ bad_unsigned r inp.
Proof.
  assert (Simple : forall b, (exists ds rest v, inp = ds ++ rest /\ ds <> [] /\ number b ds v /\ stops b rest) \/ stops b inp).
  { intros b. destruct (span_number b inp) as (ds & rest & v & -> & H1 & H2). destruct ds as [|c ds]; [right; exact H2|].
    left. exists (c :: ds), rest, v. split; [reflexivity|]. split; [discriminate | auto]. }
  assert (No : forall inp, (forall x r, inp = 48 :: x :: r -> ~ In x [120; 88]) -> forall rest ds, inp = ds ++ rest -> ds = [48] -> not_in [120; 88] rest).
  { intros inp0 H rest ds E -> c r0 ->. eapply H. exact E. }
  destruct r.
  - destruct (Simple 10) as [(ds & rest & v & -> & H1 & H2 & H3)|H]; [left; exists ds, rest, v; split; [reflexivity | constructor; assumption] | right; exact H].
  - destruct (Simple 8) as [(ds & rest & v & -> & H1 & H2 & H3)|H]; [left; exists ds, rest, v; split; [reflexivity | constructor; assumption] | right; exact H].
  - assert (D : (exists x r, inp = 48 :: x :: r /\ In x [120; 88]) \/ (forall x r, inp = 48 :: x :: r -> ~ In x [120; 88])).
    { destruct inp as [|c [|x r]]; [right; discriminate | right; discriminate|].
      destruct (Z.eq_dec c 48) as [->|Hc]; [|right; congruence].
      destruct (in_dec Z.eq_dec x [120; 88]); [left; eauto | right; intros ? ? K; injection K as <- <-; assumption]. }
    destruct D as [(x & r & -> & Hx)|D].
    + destruct (span_number 16 r) as (ds & rest & v & -> & H1 & H2). destruct ds as [|c ds].
      * right. right. exists x, rest. auto.
      * left. exists (48 :: x :: c :: ds), rest, v. split; [reflexivity|]. apply u_hex0x; auto. discriminate.
    + destruct (Simple 16) as [(ds & rest & v & E & H1 & H2 & H3)|H]; [|right; left; exact H].
      left. exists ds, rest, v. split; [exact E|]. apply u_hex; auto. intros K. eapply No; eauto.
  - destruct inp as [|c inp']; [right; left; intros ? ? ? K; discriminate|].
    destruct (Z.eq_dec c 48) as [->|Hc].
    + assert (D : (exists x r, inp' = x :: r /\ In x [120; 88]) \/ (exists x r, inp' = x :: r /\ In x [98; 66]) \/ not_in [120; 88; 98; 66] inp').
      { destruct inp' as [|x r]; [right; right; intros ? ? K; discriminate|].
        destruct (in_dec Z.eq_dec x [120; 88]); [left; eauto|]. destruct (in_dec Z.eq_dec x [98; 66]); [right; left; eauto|].
        right; right. intros ? ? K. injection K as <- <-. cbn in *. tauto. }
      destruct D as [(x & r & -> & Hx)|[(x & r & -> & Hx)|D]].
      * destruct (span_number 16 r) as (ds & rest & v & -> & H1 & H2). destruct ds as [|c ds].
        -- right. right. left. exists x, rest. auto.
        -- left. exists (48 :: x :: c :: ds), rest, v. split; [reflexivity|]. apply u_auto_hex; auto. discriminate.
      * destruct (span_number 2 r) as (ds & rest & v & -> & H1 & H2). destruct ds as [|c ds].
        -- right. right. right. exists x, rest. auto.
        -- left. exists (48 :: x :: c :: ds), rest, v. split; [reflexivity|]. apply u_auto_bin; auto. discriminate.
      * destruct (span_number 8 inp') as (ds & rest & v & -> & H1 & H2).
        left. exists (48 :: ds), rest, v. split; [reflexivity|]. apply u_auto_oct; auto. intros ->. exact D.
    + destruct (Simple 10) as [(ds & rest & v & E & H1 & H2 & H3)|H]; [|right; left; exact H].
      left. exists ds, rest, v. split; [exact E|]. apply u_auto_dec; auto.
      destruct ds as [|d ds]; [congruence|]. cbn in E. injection E as <- _. exact Hc.
Qed.

Lemma sign_total inp : exists sg f rest, inp = sg ++ rest /\ signed_ sg f /\ (sg = [] -> no_sign rest).
Proof.
  destruct inp as [|c r]; [exists [], 1, []; repeat split; [constructor | intros _ ? ? K; discriminate]|].
  destruct (Z.eq_dec c 43) as [->|]; [exists [43], 1, r; repeat split; [constructor | discriminate]|].
  destruct (Z.eq_dec c 45) as [->|]; [exists [45], (-1), r; repeat split; [constructor | discriminate]|].
  exists [], 1, (c :: r). split; [reflexivity|]. split; [constructor|]. intros _ c' r' K. injection K as <- <-. cbn. intuition.
Qed.

Lemma longest_total (P : Z -> Prop) w inp : (forall c, P c \/ ~ P c) -> w >= 0 -> exists x rest, inp = x ++ rest /\ longest P w x rest.
Proof.
  intros Dec. revert w. induction inp as [|c inp IH]; intros w Hw.
  - exists [], []. split; [reflexivity|]. split; [constructor|]. destruct (Z.eq_dec w 0) as [->|].
    + left. split; [reflexivity | discriminate].
    + right. split; [lia|]. left. cbn [length]. split; [lia | discriminate].
  - destruct (Dec c) as [Hc|Hc].
    + destruct (Z.eq_dec w 0) as [->|Hw0].
      * destruct (IH 0 ltac:(lia)) as (x & rest & -> & Hx & [[_ Hl]|[K _]]); [|lia].
        exists (c :: x), rest. split; [reflexivity|]. split; [constructor; assumption|]. left. auto.
      * destruct (Z.eq_dec w 1) as [->|Hw1].
        -- exists [c], inp. split; [reflexivity|]. split; [constructor; [exact Hc | constructor]|]. right. split; [lia|]. right. reflexivity.
        -- destruct (IH (w - 1) ltac:(lia)) as (x & rest & -> & Hx & [[K _]|[_ Hl]]); [lia|].
           exists (c :: x), rest. split; [reflexivity|]. split; [constructor; assumption|]. right. split; [lia|]. cbn [length].
           destruct Hl as [[H1 H2]|H1]; [left; split; [lia | exact H2] | right; lia].
    + exists [], (c :: inp). split; [reflexivity|]. split; [constructor|].
      assert (forall c' r, c :: inp = c' :: r -> ~ P c') by (intros ? ? K; injection K as <- <-; exact Hc).
      destruct (Z.eq_dec w 0) as [->|]; [left; auto|]. right. split; [lia|]. left. cbn [length]. split; [lia | assumption].
Qed.

Lemma step_total d n inp : ok_directive d -> exists r, step d n inp r /\ forall o rest, r = Go o rest -> exists used, inp = used ++ rest.
Proof.
  assert (Y : forall r0, (forall o rest, r0 <> Go o rest) -> forall o rest, r0 = Go o rest -> exists used, inp = used ++ rest) by (intros r0 H o rest E; destruct (H o rest E)).
  destruct d; cbn [ok_directive]; intros Hok.
  - destruct (span_spaces inp) as (w & rest & -> & H). eexists. split; [constructor; exact H|]. intros o r' E. injection E as <- <-. eauto.
  - destruct inp as [|b r]; [eexists; split; [constructor | discriminate]|].
    destruct (Z.eq_dec b c) as [->|]; [eexists; split; [constructor|]; intros ? ? E; injection E as <- <-; exists [c]; reflexivity|].
    eexists; split; [constructor; assumption | discriminate].
  - destruct (span_spaces inp) as (w & rest & -> & H). destruct rest as [|b r].
    + exists End. split; [|discriminate]. rewrite app_nil_r. constructor. exact (proj1 H).
    + destruct (Z.eq_dec b 37) as [->|].
      * eexists. split; [constructor; exact H|]. intros ? ? E. injection E as <- <-. exists (w ++ [37]). rewrite <- app_assoc. reflexivity.
      * exists Mismatch. split; [constructor; assumption | discriminate].
  - clear Y. destruct (span_spaces inp) as (w & rest & -> & H). destruct (sign_total rest) as (sg & f & rest' & -> & H1 & H2).
    destruct (unsigned_total r rest') as [(body & rest & v & -> & H3)|H3].
    + eexists. split; [eapply st_int; eauto|]. intros o r' E. injection E as <- <-.
      exists (w ++ sg ++ body). rewrite <- !app_assoc. reflexivity.
    + destruct (sg ++ rest') as [|a b] eqn:E.
      * exists End. split; [|discriminate]. rewrite app_nil_r. constructor. exact (proj1 H).
      * exists Mismatch. split; [|discriminate]. rewrite <- E in *. econstructor; eauto. rewrite E. discriminate.
  - clear Y. destruct Hok as (Hw & Hk). destruct (span_spaces inp) as (w & rest & -> & H).
    destruct rest as [|c rest].
    + exists End. split; [|discriminate]. rewrite app_nil_r. constructor. exact (proj1 H).
    + destruct (longest_total (fun c => ~ space c) (decimal width) (c :: rest)) as (x & rest' & E & Hl).
      { intros x. unfold space. lia. } { apply decimal_nonneg; exact Hw. }
      assert (Hx : x <> []).
      { intros ->. cbn in E. subst rest'. destruct Hl as (_ & Hl). pose proof (proj2 H c rest eq_refl) as Hc.
        destruct Hl as [[_ K]|[K0 [[_ K]|K]]]; [exact (K c rest eq_refl Hc) | exact (K c rest eq_refl Hc) | cbn [length] in K; lia]. }
      rewrite E in *. eexists. split; [econstructor; eauto|]. intros o r' K. injection K as <- <-. exists (w ++ x). rewrite <- app_assoc. reflexivity.
  - clear Y. destruct Hok as (Hw & Hk). destruct inp as [|c inp]; [eexists; split; [constructor | discriminate]|].
    assert (Hp : match width with [] => 1 | _ => decimal width end > 0) by (destruct width; [lia | apply decimal_pos; [exact Hw | discriminate]]).
    destruct (longest_total (fun _ => True) (match width with [] => 1 | _ => decimal width end) (c :: inp)) as (x & rest' & E & Hl); [auto | lia |].
    assert (Hx : x <> []).
    { intros ->. cbn in E. subst rest'. destruct Hl as (_ & Hl).
      destruct Hl as [[_ K]|[K0 [[_ K]|K]]]; [exact (K c inp eq_refl Logic.I) | exact (K c inp eq_refl Logic.I) | cbn [length] in K; lia]. }
    rewrite E in *. eexists. split; [econstructor; eauto|]. intros o r' K. injection K as <- <-. eauto.
  - clear Y. destruct Hok as (Hw & Hk & Hne & Hit). destruct inp as [|c inp]; [eexists; split; [constructor | discriminate]|].
    assert (Dec : forall c, member neg items dash c \/ ~ member neg items dash c).
    { intros x. rewrite member_spec. destruct (xorb neg (inside items dash x)); [left; reflexivity | right; discriminate]. }
    destruct (Dec c) as [Hc|Hc]; [|exists Mismatch; split; [constructor; exact Hc | discriminate]].
    destruct (longest_total (member neg items dash) (decimal width) (c :: inp)) as (x & rest' & E & Hl); [exact Dec | apply decimal_nonneg; exact Hw|].
    assert (Hx : x <> []).
    { intros ->. cbn in E. subst rest'. destruct Hl as (_ & Hl).
      destruct Hl as [[_ K]|[K0 [[_ K]|K]]]; [exact (K c inp eq_refl Hc) | exact (K c inp eq_refl Hc) | cbn [length] in K; lia]. }
    rewrite E in *. eexists. split; [econstructor; eauto|]. intros o r' K. injection K as <- <-. eauto.
  - eexists. split; [constructor|]. intros o r' K. injection K as <- <-. exists []. reflexivity.
Qed.

Theorem scans_total ds : forall n inp k, ok_format ds -> exists ret outs, scans ds n inp k ret outs.
Proof.
  induction ds as [|d ds IH]; intros n inp k Hok.
  - do 2 eexists. constructor.
  - cbn [ok_format] in Hok. destruct Hok as (H1 & _ & H3). destruct (step_total d n inp H1) as (r & Hs & Hu). destruct r as [o rest| |].
    + destruct (Hu o rest eq_refl) as (used & ->). destruct (IH (n + Z.of_nat (length used)) rest (k + counts d) H3) as (ret & outs & Hr).
      do 2 eexists. econstructor; eauto.
    + do 2 eexists. apply sc_mismatch. exact Hs.
    + do 2 eexists. apply sc_end. exact Hs.
Qed.
