From Verif Require Import Base Mem_Proof Str_Spec Str_Proof Strtol_Model Strtol_Spec.
Open Scope Z_scope.

Lemma digit_value_dig c : digit_value c = dig c.
Proof.
  unfold digit_value, dig, is_digit, is_upper, is_lower.
  destruct (48 <=? c) eqn:?, (c <=? 57) eqn:?, (65 <=? c) eqn:?, (c <=? 90) eqn:?, (97 <=? c) eqn:?, (c <=? 122) eqn:?;
  cbn [andb]; try reflexivity; try (f_equal; lia); exfalso; lia.
Qed.

Lemma dig_range c d : dig c = Some d -> 0 <= d <= 35.
Proof.
  unfold dig. intros H.
  destruct ((48 <=? c) && (c <=? 57)) eqn:?; [injection H as <-; lia|].
  destruct ((97 <=? c) && (c <=? 122)) eqn:?; [injection H as <-; lia|].
  destruct ((65 <=? c) && (c <=? 90)) eqn:?; [injection H as <-; lia|]. discriminate.
Qed.

Lemma dig0 : dig 0 = None. Proof. reflexivity. Qed.

Lemma is_xdigit_spec c : is_xdigit c = digit_in 16 c.
Proof.
  unfold is_xdigit, is_digit, digit_in, dig.
  destruct (48 <=? c) eqn:?, (c <=? 57) eqn:?, (65 <=? c) eqn:?, (c <=? 90) eqn:?, (97 <=? c) eqn:?, (c <=? 122) eqn:?;
  cbn [andb orb]; lia.
Qed.

Lemma span_spec P s : forall a b, span P s = (a, b) ->
  s = a ++ b /\ Forall (fun c => P c = true) a /\ (b = [] \/ P (hd0 b) = false).
Proof.
  induction s as [|c s IH]; intros a b; cbn.
  - intros H. injection H as <- <-. auto.
  - destruct (P c) eqn:E.
    + destruct (span P s) as [a' b'] eqn:ES. intros H. injection H as <- <-.
      destruct (IH a' b' eq_refl) as [-> [H1 H2]]. auto.
    + intros H. injection H as <- <-. auto.
Qed.

Lemma str_hd m p s : str_at m p s -> load m p = Ok (hd0 s).
Proof.
  destruct s as [|c s]; intros H; unfold load.
  - apply str_nil in H. rewrite H. reflexivity.
  - apply str_cons in H as [H _]. rewrite H. reflexivity.
Qed.

Lemma str_tl m p s : str_at m p s -> hd0 s <> 0 -> str_at m (p + 1) (tl s).
Proof. destruct s as [|c s]; intros H Hn; [cbn in Hn; lia|]. apply str_cons in H. tauto. Qed.

Lemma skip_space_ok isspace ws : isspace 0 = false -> forall fuel m p r, str_at m p (ws ++ r) ->
  Forall (fun c => isspace c = true) ws -> (r = [] \/ isspace (hd0 r) = false) -> (length ws < fuel)%nat ->
  skip_space isspace fuel m p = Ok (p + Z.of_nat (length ws)) /\ str_at m (p + Z.of_nat (length ws)) r.
Proof.
  intros H0. induction ws as [|c ws IH]; intros fuel m p r Hs Hw Hr Hf; (destruct fuel as [|f]; [lia|]); cbn [skip_space].
  - cbn [app length] in *. rewrite (str_hd _ _ _ Hs). cbn [bind].
    replace (p + Z.of_nat 0) with p by lia.
    assert (HE : isspace (hd0 r) = false) by (destruct Hr as [->|Hr]; [exact H0|exact Hr]).
    rewrite HE. auto.
  - inversion Hw as [|? ? Hc Hw']; subst. rewrite (str_hd _ _ _ Hs). cbn [bind hd0 app]. rewrite Hc.
    cbn [app length] in *. apply str_cons in Hs as [_ [_ Hs]].
    destruct (IH f m (p + 1) r Hs Hw' Hr) as [E S]; [lia|]. rewrite E.
    replace (p + Z.of_nat (Datatypes.S (length ws))) with (p + 1 + Z.of_nat (length ws)) by lia. auto.
Qed.

Definition acc (b : Z) (v : Z) (ds : list Z) : Z :=
  fold_left (fun v c => match dig c with Some d => v * b + d | None => v end) ds v.

(** (value so far, register, out of range) *)
Definition cinv (L v total : Z) (oor : bool) : Prop :=
  0 <= v /\ (if oor then L < v else total = v /\ v <= L).

Lemma conv_loop_ok w b cutoff cutlim : 2 <= b <= 36 -> 0 <= cutlim < b -> 1 <= cutoff ->
  36 < 2 ^ w -> cutoff * b + cutlim < 2 ^ w ->
  forall ds fuel m s rest v total oor, str_at m s (ds ++ rest) ->
  Forall (fun c => digit_in b c = true) ds -> (rest = [] \/ digit_in b (hd0 rest) = false) ->
  (length ds < fuel)%nat -> cinv (cutoff * b + cutlim) v total oor ->
  exists total' oor', conv_loop w fuel m s b cutoff cutlim total true oor = Ok (total', true, oor', s + Z.of_nat (length ds)) /\
    cinv (cutoff * b + cutlim) (acc b v ds) total' oor'.
Proof.
  intros Hb Hlim Hcut Hw HL. induction ds as [|c ds IH]; intros fuel m s rest v total oor Hs Hds Hr Hf HI;
    (destruct fuel as [|f]; [lia|]); cbn [conv_loop].
  - cbn [app length acc fold_left] in *. rewrite (str_hd _ _ _ Hs). cbn [bind].
    exists total, oor. replace (s + Z.of_nat 0) with s by lia. split; [|exact HI].
    destruct (Z.eqb_spec (hd0 rest) 0); [reflexivity|].
    destruct Hr as [->|Hr]; [cbn in *; lia|]. rewrite digit_value_dig. unfold digit_in in Hr.
    destruct (dig (hd0 rest)) as [d|] eqn:Ed; [|reflexivity].
    rewrite Z.mod_small by lia. replace (d >=? b) with true by lia. reflexivity.
  - inversion Hds as [|? ? Hc Hds']; subst. cbn [app length] in *.
    rewrite (str_hd _ _ _ Hs). cbn [bind hd0]. apply str_cons in Hs as [_ [Hcr Hs]].
    replace (c =? 0) with false by lia. rewrite digit_value_dig. unfold digit_in in Hc.
    destruct (dig c) as [d|] eqn:Ed; [|discriminate]. pose proof (dig_range c d Ed).
    rewrite (Z.mod_small b) by lia. replace (d >=? b) with false by lia.
    replace (acc b v (c :: ds)) with (acc b (v * b + d) ds) by (unfold acc; cbn [fold_left]; rewrite Ed; reflexivity).
    replace (s + Z.of_nat (Datatypes.S (length ds))) with (s + 1 + Z.of_nat (length ds)) by lia.
    destruct HI as [Hv HI]. destruct oor.
    + apply (IH f m (s + 1) rest); try assumption; [lia|]. split; nia.
    + destruct HI as [-> HvL]. destruct ((v >? cutoff) || ((v =? cutoff) && (d >? cutlim))) eqn:EO.
      * apply (IH f m (s + 1) rest); try assumption; [lia|]. split; [nia|].
        apply orb_true_iff in EO as [EO|EO]; [nia|]. apply andb_true_iff in EO as [E1 E2].
        assert (v = cutoff) by lia. subst v. lia.
      * assert (HN : v * b + d <= cutoff * b + cutlim).
        { apply orb_false_iff in EO as [E1 E2]. apply andb_false_iff in E2.
          destruct (Z.eq_dec v cutoff) as [->|]; [lia|]. assert (v <= cutoff - 1) by lia. nia. }
        apply (IH f m (s + 1) rest); try assumption; [lia|].
        split; [nia|]. rewrite Z.mod_small by nia. split; [reflexivity|exact HN].
Qed.

(** the whole loop, from the initial state *)
Lemma conv_run w b cutoff cutlim : 2 <= b <= 36 -> 0 <= cutlim < b -> 1 <= cutoff ->
  36 < 2 ^ w -> cutoff * b + cutlim < 2 ^ w ->
  forall ds fuel m s rest, str_at m s (ds ++ rest) ->
  Forall (fun c => digit_in b c = true) ds -> (rest = [] \/ digit_in b (hd0 rest) = false) ->
  (length ds < fuel)%nat ->
  exists total oor, conv_loop w fuel m s b cutoff cutlim 0 false false =
     Ok (total, match ds with [] => false | _ => true end, oor, s + Z.of_nat (length ds)) /\
    cinv (cutoff * b + cutlim) (digits_value b ds) total oor.
Proof.
  intros Hb Hlim Hcut Hw HL ds fuel m s rest Hs Hds Hr Hf.
  destruct ds as [|c ds]; (destruct fuel as [|f]; [lia|]); cbn [conv_loop].
  - cbn [app length] in *. rewrite (str_hd _ _ _ Hs). cbn [bind].
    exists 0, false. replace (s + Z.of_nat 0) with s by lia. split; [|cbn; split; nia].
    destruct (Z.eqb_spec (hd0 rest) 0); [reflexivity|].
    destruct Hr as [->|Hr]; [cbn in *; lia|]. rewrite digit_value_dig. unfold digit_in in Hr.
    destruct (dig (hd0 rest)) as [d|] eqn:Ed; [|reflexivity].
    rewrite Z.mod_small by lia. replace (d >=? b) with true by lia. reflexivity.
  - inversion Hds as [|? ? Hc Hds']; subst. cbn [app length] in *.
    rewrite (str_hd _ _ _ Hs). cbn [bind hd0]. apply str_cons in Hs as [_ [Hcr Hs]].
    replace (c =? 0) with false by lia. rewrite digit_value_dig. unfold digit_in in Hc.
    destruct (dig c) as [d|] eqn:Ed; [|discriminate]. pose proof (dig_range c d Ed).
    rewrite (Z.mod_small b) by lia. replace (d >=? b) with false by lia.
    replace ((0 >? cutoff) || ((0 =? cutoff) && (d >? cutlim))) with false by lia.
    replace (s + Z.of_nat (S (length ds))) with (s + 1 + Z.of_nat (length ds)) by lia.
    assert (HD : digits_value b (c :: ds) = acc b d ds).
    { unfold digits_value, acc. cbn [fold_left]. rewrite Ed. f_equal. }
    rewrite HD. apply (conv_loop_ok w b cutoff cutlim Hb Hlim Hcut Hw HL ds f m (s + 1) rest); try assumption; [lia|].
    split; [lia|]. rewrite Z.mod_small by lia. split; [lia|nia].
Qed.

Lemma prefix_ok base s b pl r2 : base = 0 \/ 2 <= base <= 36 -> prefix base s = (b, pl, r2) ->
  2 <= b <= 36 /\ (pl = 0%nat /\ r2 = s \/ pl = 2%nat /\ r2 = tl (tl s) /\ hd0 s = 48 /\ hd0 (tl s) <> 0).
Proof.
  unfold prefix, zero_then. intros Hb.
  destruct (_ && _ && digit_in 16 _) eqn:E1.
  - intros H; injection H as <- <- <-. split; [lia|]. right. repeat split; lia.
  - destruct (_ && _ && digit_in 2 _) eqn:E2.
    + intros H; injection H as <- <- <-. split; [lia|]. right. repeat split; lia.
    + destruct (Z.eqb_spec base 0); intros H; injection H as <- <- <-.
      * split; [destruct (hd0 s =? 48); lia|auto].
      * split; [lia|auto].
Qed.

Lemma pow_w w : 8 <= w -> 2 ^ w = 2 * 2 ^ (w - 1) /\ 128 <= 2 ^ (w - 1).
Proof.
  intros H. split.
  - replace w with (Z.succ (w - 1)) at 1 by lia. rewrite Z.pow_succ_r by lia. reflexivity.
  - change 128 with (2 ^ 7). apply Z.pow_le_mono_r; lia.
Qed.

Lemma to_ret_signed_neg w v : 8 <= w -> 0 <= v <= 2 ^ (w - 1) -> to_ret w true (- v) = - v.
Proof.
  intros Hw Hv. destruct (pow_w w Hw) as [E HP]. unfold to_ret. cbn [andb].
  destruct (Z.eq_dec v 0) as [->|Hn].
  - change (- 0) with 0. rewrite Zmod_0_l. replace (_ <=? 0) with false by lia. reflexivity.
  - replace (- v mod 2 ^ w) with (2 ^ w - v).
    + replace (_ <=? _) with true by lia. lia.
    + apply Z.mod_unique with (q := -1); lia.
Qed.

Lemma to_ret_signed_pos w v : 8 <= w -> 0 <= v <= 2 ^ (w - 1) - 1 -> to_ret w true v = v.
Proof.
  intros Hw Hv. destruct (pow_w w Hw) as [E HP]. unfold to_ret. cbn [andb].
  rewrite Z.mod_small by lia. replace (_ <=? _) with false by lia. reflexivity.
Qed.

Lemma pick_base_ok base r1 b pl r2 :
  (base = 0 \/ base = 2 -> zero_then 98 66 r1 && negb (digit_in 2 (hd0 (tl (tl r1)))) = false) ->
  prefix base r1 = (b, pl, r2) ->
  pick_base base (hd0 r1 =? 48) (zero_then 120 88 r1) (zero_then 98 66 r1)
     (((base =? 0) || (base =? 16)) && zero_then 120 88 r1 && digit_in 16 (hd0 (tl (tl r1)))) = (b, Z.of_nat pl).
Proof.
  intros Hdb. unfold prefix, pick_base.
  assert (HX : zero_then 120 88 r1 = true -> zero_then 98 66 r1 = true -> False) by (clear; unfold zero_then; lia).
  assert (H48 : zero_then 98 66 r1 = true -> (hd0 r1 =? 48) = true) by (clear; unfold zero_then; lia).
  destruct (zero_then 120 88 r1), (zero_then 98 66 r1), (digit_in 16 (hd0 (tl (tl r1)))), (digit_in 2 (hd0 (tl (tl r1)))), (hd0 r1 =? 48);
    cbn [andb orb negb] in *; try (exfalso; tauto); try (specialize (H48 eq_refl); discriminate); clear HX H48;
    destruct (Z.eqb_spec base 0), (Z.eqb_spec base 16), (Z.eqb_spec base 2), (Z.eqb_spec base 8); try (exfalso; clear Hdb; lia);
    cbn [andb orb negb] in *; try (exfalso; discriminate (Hdb ltac:(tauto)));
    intros H; injection H as <- <- <-; subst; reflexivity.
Qed.

Lemma strtol_ok isspace w sg fuel m nptr s base :
  isspace 0 = false -> 8 <= w -> (base = 0 \/ 2 <= base <= 36) ->
  str_at m nptr s -> (length s < fuel)%nat ->
  (base = 0 \/ base = 2 -> dangling_bin isspace s = false) ->
  string_to_integer isspace w sg fuel m nptr base = Ok (strto_result w sg nptr (subject isspace base s)).
Proof.
  intros Hsp Hw Hbase Hs Hf Hdb. destruct (pow_w w Hw) as [EP HP].
  unfold string_to_integer.
  assert (EB : (if sg then base else base mod 2 ^ w) = base) by (destruct sg; [reflexivity|apply Z.mod_small; lia]).
  rewrite EB. replace ((base <? 0) || (base =? 1)) with false by lia.
  unfold subject. destruct (span isspace s) as [ws r] eqn:EWS.
  destruct (span_spec _ _ _ _ EWS) as [-> [Hws Hr]]. rewrite app_length in Hf.
  destruct (skip_space_ok isspace ws Hsp fuel m nptr r Hs Hws Hr) as [E0 Hs0]; [lia|].
  rewrite E0. cbn [bind]. rewrite (str_hd _ _ _ Hs0). cbn [bind].
  destruct (sign r) as [[neg sl] r1] eqn:ESG.
  assert (HS : str_at m (nptr + Z.of_nat (length ws) + Z.of_nat sl) r1 /\ (hd0 r =? 45) = neg /\
     (if (hd0 r =? 45) || (hd0 r =? 43) then nptr + Z.of_nat (length ws) + 1 else nptr + Z.of_nat (length ws))
       = nptr + Z.of_nat (length ws) + Z.of_nat sl /\ (length r1 + sl = length r)%nat).
  { clear - ESG Hs0. destruct r as [|c r]; cbn [sign hd0] in *.
    - injection ESG as <- <- <-. replace (nptr + Z.of_nat (length ws) + Z.of_nat 0) with (nptr + Z.of_nat (length ws)) by lia. auto.
    - destruct (Z.eqb_spec c 45) as [->|Hn].
      + injection ESG as <- <- <-. split; [|repeat split; cbn [length]; lia]. apply str_cons in Hs0. tauto.
      + destruct (Z.eqb_spec c 43) as [->|Hn2]; injection ESG as <- <- <-.
        * split; [|repeat split; cbn [length]; lia]. apply str_cons in Hs0. tauto.
        * replace (nptr + Z.of_nat (length ws) + Z.of_nat 0) with (nptr + Z.of_nat (length ws)) by lia.
          split; [exact Hs0|]. repeat split; cbn; lia. }
  destruct HS as [Hs1 [Hneg [Haddr Hlen1]]]. rewrite Haddr, Hneg.
  set (p1 := nptr + Z.of_nat (length ws) + Z.of_nat sl) in *.
  rewrite (str_hd _ _ _ Hs1). cbn [bind].
  assert (HC1 : (if hd0 r1 =? 48 then load m (p1 + 1) else Ok 0) = Ok (if hd0 r1 =? 48 then hd0 (tl r1) else 0)).
  { destruct (Z.eqb_spec (hd0 r1) 48) as [E|E]; [|reflexivity].
    apply (str_hd _ _ _ (str_tl _ _ _ Hs1 ltac:(lia))). }
  rewrite HC1. cbn [bind].
  assert (EH : (hd0 r1 =? 48) && (((if hd0 r1 =? 48 then hd0 (tl r1) else 0) =? 120) || ((if hd0 r1 =? 48 then hd0 (tl r1) else 0) =? 88))
     = zero_then 120 88 r1) by (unfold zero_then; destruct (hd0 r1 =? 48); reflexivity).
  assert (EBI : (hd0 r1 =? 48) && (((if hd0 r1 =? 48 then hd0 (tl r1) else 0) =? 98) || ((if hd0 r1 =? 48 then hd0 (tl r1) else 0) =? 66))
     = zero_then 98 66 r1) by (unfold zero_then; destruct (hd0 r1 =? 48); reflexivity).
  rewrite EH, EBI.
  assert (HXD : (if ((base =? 0) || (base =? 16)) && zero_then 120 88 r1
                 then c2 <- load m (p1 + 2);; Ok (is_xdigit c2) else Ok false)
     = Ok (((base =? 0) || (base =? 16)) && zero_then 120 88 r1 && digit_in 16 (hd0 (tl (tl r1))))).
  { destruct (((base =? 0) || (base =? 16)) && zero_then 120 88 r1) eqn:E; [|reflexivity].
    clear - E Hs1. unfold zero_then in E.
    pose proof (str_tl _ _ _ Hs1 ltac:(lia)) as H1. pose proof (str_tl _ _ _ H1 ltac:(lia)) as H2.
    replace (p1 + 1 + 1) with (p1 + 2) in H2 by lia. rewrite (str_hd _ _ _ H2). cbn [bind].
    rewrite is_xdigit_spec. reflexivity. }
  rewrite HXD. cbn [bind].
  destruct (prefix base r1) as [[b pl] r2] eqn:EPX.
  destruct (prefix_ok base r1 b pl r2 Hbase EPX) as [Hb Hpl].
  pose proof (pick_base_ok base r1 b pl r2) as HPB.
  assert (HDB2 : base = 0 \/ base = 2 -> zero_then 98 66 r1 && negb (digit_in 2 (hd0 (tl (tl r1)))) = false).
  { intros Hb02. specialize (Hdb Hb02). unfold dangling_bin in Hdb. rewrite EWS, ESG in Hdb. exact Hdb. }
  specialize (HPB HDB2 EPX).
  rewrite HPB. clear HPB HXD HC1 EH EBI HDB2 Hdb Hneg Haddr.
  assert (Hs2 : str_at m (p1 + Z.of_nat pl) r2 /\ (length r2 <= length r1)%nat).
  { destruct Hpl as [[-> ->]|[-> [-> [H48 Hx]]]].
    - replace (p1 + Z.of_nat 0) with p1 by lia. auto.
    - pose proof (str_tl _ _ _ Hs1 ltac:(lia)) as H1. pose proof (str_tl _ _ _ H1 Hx) as H2.
      replace (p1 + 1 + 1) with (p1 + Z.of_nat 2) in H2 by lia. split; [exact H2|].
      destruct r1 as [|? [|? ?]]; cbn; lia. }
  destruct Hs2 as [Hs2 Hl2].
  destruct (span (digit_in b) r2) as [ds rest] eqn:EDS.
  destruct (span_spec _ _ _ _ EDS) as [-> [Hds Hrest]]. rewrite app_length in Hl2.
  set (L := if sg then (if neg then 2 ^ (w - 1) else 2 ^ (w - 1) - 1) else 2 ^ w - 1).
  assert (HLB : b <= L < 2 ^ w) by (unfold L; destruct sg, neg; lia).
  assert (HCUT : (if negb sg then (ret_max w sg / b, ret_max w sg mod b)
      else if neg then (Z.quot (ret_min w sg) (- b), - Z.rem (ret_min w sg) b)
      else (Z.quot (ret_max w sg) b, Z.rem (ret_max w sg) b)) = (L / b, L mod b)).
  { unfold L, ret_max, ret_min. destruct sg; cbn [negb]; [|reflexivity]. destruct neg.
    - rewrite Z.quot_opp_opp by lia. rewrite Z.rem_opp_l by lia. rewrite Z.opp_involutive.
      rewrite Z.quot_div_nonneg, Z.rem_mod_nonneg by lia. reflexivity.
    - rewrite Z.quot_div_nonneg, Z.rem_mod_nonneg by lia. reflexivity. }
  rewrite HCUT. clear HCUT.
  assert (HDM : L / b * b + L mod b = L) by (pose proof (Z.div_mod L b ltac:(lia)); lia).
  assert (HM : 0 <= L mod b < b) by (apply Z.mod_pos_bound; lia).
  assert (HQ : 1 <= L / b) by (apply Z.div_le_lower_bound; lia).
  destruct (conv_run w b (L / b) (L mod b)) with (ds := ds) (fuel := fuel) (m := m) (s := p1 + Z.of_nat pl) (rest := rest)
    as [total [oor [EC HI]]]; try assumption; try lia.
  rewrite EC. cbn [bind]. rewrite HDM in HI. destruct HI as [Hv0 HI].
  destruct ds as [|c ds].
  - (* no digits *)
    cbn [strto_result]. destruct oor; [unfold digits_value in HI; cbn in HI; lia|].
    destruct HI as [-> _]. unfold digits_value. cbn [fold_left].
    assert (E00 : to_ret w sg (if neg then - 0 else 0) = 0).
    { destruct neg; change (- 0) with 0; (destruct sg; [apply to_ret_signed_pos; lia|]); unfold to_ret; cbn [andb]; apply Z.mod_small; lia. }
    rewrite E00. reflexivity.
  - set (n := digits_value b (c :: ds)) in *. unfold strto_result.
    assert (EEND : p1 + Z.of_nat pl + Z.of_nat (length (c :: ds)) = nptr + Z.of_nat (length ws + sl + pl + length (c :: ds))) by (unfold p1; lia).
    rewrite EEND. destruct sg.
    + unfold strtol_value, ret_max, ret_min, L in *. cbn [andb]. destruct neg.
      * destruct oor.
        -- replace (- n <? - 2 ^ (w - 1)) with true by lia. reflexivity.
        -- destruct HI as [-> HI]. replace (- n <? - 2 ^ (w - 1)) with false by lia.
           replace (- n >? 2 ^ (w - 1) - 1) with false by lia. rewrite to_ret_signed_neg by lia. reflexivity.
      * destruct oor.
        -- replace (n <? - 2 ^ (w - 1)) with false by lia. replace (n >? 2 ^ (w - 1) - 1) with true by lia. reflexivity.
        -- destruct HI as [-> HI]. replace (n <? - 2 ^ (w - 1)) with false by lia.
           replace (n >? 2 ^ (w - 1) - 1) with false by lia. rewrite to_ret_signed_pos by lia. reflexivity.
    + unfold strtoul_value, ret_max, L in *. cbn [andb]. destruct oor.
      * replace (n >? 2 ^ w - 1) with true by lia. reflexivity.
      * destruct HI as [-> HI]. replace (n >? 2 ^ w - 1) with false by lia. unfold to_ret. cbn [andb]. reflexivity.
Qed.
