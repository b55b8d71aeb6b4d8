(** Property C77: strtod, strtof. *)
From Verif Require Import Base Check Strtol_Spec Strtol_Props Ieee Ieee_Mul Ieee_Div Ieee_Proof Strtod_Model Strtod_Spec Strtod_Proof Strtod_Value Strtod_Safe.
Open Scope Z_scope.

(** No string makes it read outside of the string or run forever, and endptr is inside of the string. Missing: strings with a run of
    digits of 2^31 or more; in an exponent the code overflows an int (refuted below). *)
Theorem C77_safe_partial : forall f isspace fuel m p s, isspace 0 = false -> str_at m p s -> small_runs s -> (length s < fuel)%nat ->
  exists v k, strtofp f isspace fuel m p = Ok (v, p + Z.of_nat k) /\ (k <= length s)%nat.
Proof. exact strtofp_safe. Qed.
(** strtod("1e2147483648") *)
Theorem C77_safe_refuted : exists m p s, str_at m p s /\ strtofp binary64 c_isspace 40 m p = UB.
Proof.
  exists (mem_of 10 [49;101;50;49;52;55;52;56;51;54;52;56;0]), 10, [49;101;50;49;52;55;52;56;51;54;52;56]. split; [chk|]. vm_compute. reflexivity.
Qed.

(** If the string after spaces starts with a number, then the longest one is converted: endptr is right after it. Missing: 0 followed by x
    without a hexadecimal number (refuted below), exponents of 2^31 or more *)
Theorem C77_endptr_partial : forall f isspace fuel m p ws s n r, isspace 0 = false -> str_at m p (ws ++ s) ->
  Forall (fun c => isspace c = true) ws -> isspace (hd0 s) = false -> longest s n r -> ~ dangling_hex n r -> expo_value n < 2 ^ 31 ->
  (length (ws ++ s) < fuel)%nat ->
  exists v, strtofp f isspace fuel m p = Ok (v, p + Z.of_nat (length (ws ++ text n))).
Proof.
  intros f isspace fuel m p ws s n r I0 H FW IS LG ND EV FU. eexists. rewrite (strtofp_ok f isspace fuel m p ws s n r I0 H FW IS LG ND EV FU).
  rewrite app_length, Nat2Z.inj_add, Z.add_assoc. reflexivity.
Qed.

(** Decimal numbers without fraction are converted exactly if N * 10^e has that many bits: in double, if N * 5^e < 2^53 *)
Theorem C77_decimal : forall f isspace fuel m p ws s n r, format f -> isspace 0 = false -> str_at m p (ws ++ s) ->
  Forall (fun c => isspace c = true) ws -> isspace (hd0 s) = false -> longest s n r -> ~ dangling_hex n r -> expo_value n < 2 ^ 31 ->
  (length (ws ++ s) < fuel)%nat ->
  hex n = false -> fp n = [] -> expo_neg n = false -> digits_value 10 (ip n) * 5 ^ expo_value n < 2 ^ (mb f + 1) ->
  numer n * one f < max_mag f ->
  exists v, strtofp f isspace fuel m p = Ok (v, p + Z.of_nat (length (ws ++ text n))) /\ is_exact f n v.
Proof.
  intros f isspace fuel m p ws s n r FM I0 H FW IS LG ND EV FU HX FP EN L T. eexists. rewrite (strtofp_ok f isspace fuel m p ws s n r I0 H FW IS LG ND EV FU).
  rewrite app_length, Nat2Z.inj_add, Z.add_assoc. split; [reflexivity|].
  assert (G : 4 <= mb f /\ 5 <= eb f /\ mb f + 1 <= 2 ^ (eb f - 1)) by (destruct FM as [-> | ->]; vm_compute; repeat split; discriminate).
  destruct G as (G1 & G2 & G3). destruct (dec_exact f G1 G2 G3 n (proj1 LG) HX FP EN L T) as [P D].
  apply (signed f G1 G2 n _ P). rewrite D. ring.
Qed.

(** Hexadecimal numbers of that many bits are converted exactly *)
Theorem C77_hexadecimal : forall f isspace fuel m p ws s n r, format f -> isspace 0 = false -> str_at m p (ws ++ s) ->
  Forall (fun c => isspace c = true) ws -> isspace (hd0 s) = false -> longest s n r -> expo_value n < 2 ^ 31 ->
  (length (ws ++ s) < fuel)%nat ->
  hex n = true -> digits_value 16 (ip n ++ fp n) < 2 ^ (mb f + 1) -> 4 * (Z.of_nat (length (fp n)) + 1) < 2 ^ (eb f - 1) ->
  (expo_neg n = true -> 4 * Z.of_nat (length (fp n)) + expo_value n <= unit_exp f) ->
  (expo_neg n = false -> numer n * one f < max_mag f * denom n) ->
  exists v, strtofp f isspace fuel m p = Ok (v, p + Z.of_nat (length (ws ++ text n))) /\ is_exact f n v.
Proof.
  intros f isspace fuel m p ws s n r FM I0 H FW IS LG EV FU HX L K EN EP. eexists. rewrite (strtofp_ok f isspace fuel m p ws s n r I0 H FW IS LG).
  2: { intros [U _]. pose proof (proj1 LG) as (_ & W & _). unfold unsigned_text in U. rewrite HX in W. destruct W as [W|W]; rewrite W in U; discriminate U. }
  2: exact EV. 2: exact FU.
  rewrite app_length, Nat2Z.inj_add, Z.add_assoc. split; [reflexivity|].
  assert (G : 4 <= mb f /\ 5 <= eb f /\ mb f + 1 <= 2 ^ (eb f - 1)) by (destruct FM as [-> | ->]; vm_compute; repeat split; discriminate).
  destruct G as (G1 & G2 & G3). destruct (hex_exact f G1 G2 G3 n (proj1 LG) HX L K EN EP) as (v & P & D).
  exact (signed f G1 G2 n v P D).
Qed.

(** a string that is a number *)
Lemma whole n s : wf n -> s = text n -> longest s n [].
Proof.
  intros W ->. split; [exact W|]. split; [rewrite app_nil_r; reflexivity|]. intros n' r' _ E.
  apply (f_equal (@length Z)) in E. rewrite app_length in E. lia.
Qed.
Ltac wf_tac := unfold wf, opt_sign, is_dig; cbn; repeat split; repeat apply Forall_cons; try apply Forall_nil; try reflexivity; try discriminate;
  first [tauto | right; split; [tauto|split; [tauto|split; [repeat apply Forall_cons; try apply Forall_nil; reflexivity|discriminate]]]].

(** 0.12 is not converted to the nearest float *)
Definition n012 : number := Number false [] [] [48] true [49;50] [] [] [].
Theorem C77_nearest_refuted : exists m p s n v, str_at m p s /\ longest s n [] /\
  strtofp binary32 c_isspace 40 m p = Ok (v, p + Z.of_nat (length s)) /\ finite binary32 v /\ ~ is_nearest binary32 n v.
Proof.
  exists (mem_of 10 [48;46;49;50;0]), 10, [48;46;49;50], n012, 1039516304. split; [chk|]. split; [apply whole; [wf_tac|reflexivity]|].
  split; [vm_compute; reflexivity|]. split; [vm_compute; reflexivity|].
  intros N. specialize (N 1039516303 ltac:(vm_compute; split; [discriminate|reflexivity])). vm_compute in N. apply N. reflexivity.
Qed.

(** strtof("0x"): "0" is a number, but endptr is behind the x *)
Definition n0 : number := Number false [] [] [48] false [] [] [] [].
Theorem C77_hex_prefix_refuted : exists m p s n r v e, str_at m p s /\ longest s n r /\
  strtofp binary32 c_isspace 40 m p = Ok (v, e) /\ e <> p + Z.of_nat (length (text n)).
Proof.
  exists (mem_of 10 [48;120;0]), 10, [48;120], n0, [120], 0, 12. split; [chk|]. split; [|split; [vm_compute; reflexivity|vm_compute; discriminate]].
  split; [wf_tac|]. split; [reflexivity|]. intros n' r' W E. change (length (text n0)) with 1%nat.
  destruct (Nat.le_gt_cases (length (text n')) 1) as [L|L]; [exact L|exfalso].
  assert (R : r' = []) by (apply (f_equal (@length Z)) in E; rewrite app_length in E; cbn in E; destruct r'; [reflexivity|cbn in E; lia]). subst r'. rewrite app_nil_r in E.
  pose proof W as (W1 & W2 & W3 & W4 & W5 & W6 & W7). unfold text, unsigned_text in E.
  destruct W1 as [W1|[W1|W1]]; rewrite W1 in E; cbn [app] in E; [|discriminate E|discriminate E].
  unfold radix in *. destruct (hex n').
  - destruct W2 as [W2|W2]; rewrite W2 in E; cbn [app] in E; [|discriminate E]. injection E as E. symmetry in E. apply app_eq_nil in E as [E1 E]. apply app_eq_nil in E as [_ E]. apply app_eq_nil in E as [E2 _].
    apply W5. rewrite E1, E2. reflexivity.
  - rewrite W2 in E. cbn [app] in E. destruct (ip n') as [|c [|c' l]]; cbn [app] in E.
    + destruct (pt n'); [discriminate E|]. rewrite (W6 eq_refl) in W5. cbn in W5. congruence.
    + destruct (pt n'); [discriminate E|]. rewrite (W6 eq_refl) in E. cbn [app] in E.
      destruct W7 as [(X & Y & Z')|([X|X] & _)]; rewrite X in E; [rewrite Y, Z' in E|..]; discriminate E.
    + injection E as _ <- _. inversion W3 as [|? ? _ W3']; subst. inversion W3' as [|? ? Hc _]; subst. discriminate Hc.
Qed.

(** without a number nothing should be converted and endptr be the start: strtof("+") and strtof(".") *)
Theorem C77_no_conversion_refuted : exists m m' p s s' v v' e e', str_at m p s /\ no_number s /\ str_at m' p s' /\ no_number s' /\
  strtofp binary32 c_isspace 40 m p = Ok (v, e) /\ e <> p /\ strtofp binary32 c_isspace 40 m' p = Ok (v', e') /\ e' <> p.
Proof.
  exists (mem_of 10 [43;0]), (mem_of 10 [46;0]), 10, [43], [46], 0, 0, 11, 11. split; [chk|]. split; [|split; [chk|split; [|split; [vm_compute; reflexivity|split; [discriminate|split; [vm_compute; reflexivity|discriminate]]]]]].
  - intros n r W E. destruct (unsigned_hd n W) as [U1 U2]. destruct W as (W1 & _). unfold text in E.
    destruct (unsigned_text n) as [|c u]; [congruence|]. cbn [hd0] in U2. destruct W1 as [W1|[W1|W1]]; rewrite W1 in E; cbn [app] in E; [|discriminate E|discriminate E].
    injection E as <- _. destruct U2 as [U2|U2]; [discriminate U2|]. unfold radix in U2. destruct (hex n); discriminate U2.
  - intros n r W E. destruct (unsigned_hd n W) as [U1 _]. destruct W as (W1 & W2 & W3 & W4 & W5 & W6 & _). unfold text, unsigned_text in E.
    destruct W1 as [W1|[W1|W1]]; rewrite W1 in E; cbn [app] in E; [|discriminate E|discriminate E]. unfold radix in *. destruct (hex n).
    + destruct W2 as [W2|W2]; rewrite W2 in E; discriminate E.
    + rewrite W2 in E. destruct (ip n) as [|c l]; cbn [app] in *.
      * destruct (pt n); [|rewrite (W6 eq_refl) in W5; congruence]. cbn [app] in E. injection E as E. destruct (fp n); [congruence|discriminate E].
      * injection E as <- _. inversion W3 as [|? ? Hc _]; subst. discriminate Hc.
Qed.

(** inf and infinity are infinite, if nothing follows and all letters are of the same case *)
Theorem C77_infinity_partial : forall f isspace fuel m p ws sg t, isspace 0 = false -> str_at m p (ws ++ sg ++ t) ->
  Forall (fun c => isspace c = true) ws -> isspace (hd0 (sg ++ t)) = false -> opt_sign sg ->
  inf_text t -> (t = map lower t \/ forall c, In c t -> lower c <> c) -> (length ws < fuel)%nat ->
  strtofp f isspace fuel m p = Ok (with_sign f (match sg with [45] => true | _ => false end) (infinity f), p + Z.of_nat (length (ws ++ sg ++ t))).
Proof.
  intros f isspace fuel m p ws sg t I0 H F N OS T C L. apply strtofp_inf; auto.
  assert (UP : forall x y, lower x = y -> (lower x <> x) -> x = y - 32 /\ 97 <= y <= 122) by (unfold lower; intros x y; destruct ((65 <=? x) && (x <=? 90)) eqn:E; lia).
  unfold inf_text, caseless in T. destruct C as [C|C].
  - rewrite <- C in T. unfold inf_, infinity_. tauto.
  - destruct T as [T|T]; [left|right; right; left].
    + destruct t as [|a [|b [|c [|? ?]]]]; try discriminate T. cbn in T. injection T as T1 T2 T3.
      assert (Ca := C a ltac:(cbn; tauto)). assert (Cb := C b ltac:(cbn; tauto)). assert (Cc := C c ltac:(cbn; tauto)).
      destruct (UP _ _ T1 Ca) as [-> _]. destruct (UP _ _ T2 Cb) as [-> _]. destruct (UP _ _ T3 Cc) as [-> _]. reflexivity.
    + destruct t as [|a [|b [|c [|d [|e [|g [|h [|i [|? ?]]]]]]]]]; try discriminate T. cbn in T. injection T as T1 T2 T3 T4 T5 T6 T7 T8.
      assert (Ca := C a ltac:(cbn; tauto)). assert (Cb := C b ltac:(cbn; tauto)). assert (Cc := C c ltac:(cbn; tauto)). assert (Cd := C d ltac:(cbn; tauto)).
      assert (Ce := C e ltac:(cbn; tauto)). assert (Cg := C g ltac:(cbn; tauto)). assert (Ch := C h ltac:(cbn; tauto)). assert (Ci := C i ltac:(cbn; tauto)).
      destruct (UP _ _ T1 Ca) as [-> _]. destruct (UP _ _ T2 Cb) as [-> _]. destruct (UP _ _ T3 Cc) as [-> _]. destruct (UP _ _ T4 Cd) as [-> _].
      destruct (UP _ _ T5 Ce) as [-> _]. destruct (UP _ _ T6 Cg) as [-> _]. destruct (UP _ _ T7 Ch) as [-> _]. destruct (UP _ _ T8 Ci) as [-> _]. reflexivity.
Qed.
(** strtof("Inf") and strtof("inf,1") are 0 *)
Theorem C77_infinity_refuted : exists m m' p s s' r, str_at m p s /\ inf_text s /\ str_at m' p (s' ++ r) /\ inf_text s' /\
  strtofp binary32 c_isspace 40 m p = Ok (0, p) /\ strtofp binary32 c_isspace 40 m' p = Ok (0, p).
Proof.
  exists (mem_of 10 [73;110;102;0]), (mem_of 10 [105;110;102;44;49;0]), 10, [73;110;102], [105;110;102], [44;49].
  split; [chk|]. split; [left; reflexivity|]. split; [chk|]. split; [left; reflexivity|]. split; vm_compute; reflexivity.
Qed.

(** "  -12e3," is -12000; "0x1.8p-1z" is 0.75 *)
Definition nd : number := Number false [45] [] [49;50] false [] [101] [] [51].
Definition nh : number := Number true [] [48;120] [49] true [56] [112] [45] [49].
Example C77_hyps : wf nd /\ wf nh /\ numer nd = 12000 /\ denom nd = 1 /\ numer nh = 24 /\ denom nh = 32 /\
  longest [45;49;50;101;51] nd [] /\ longest [48;120;49;46;56;112;45;49] nh [] /\
  str_at (mem_of 10 [32;32;45;49;50;101;51;0]) 10 ([32;32] ++ [45;49;50;101;51]) /\
  strtofp binary32 c_isspace 40 (mem_of 10 [32;32;45;49;50;101;51;44;0]) 10 = Ok (3325788160, 17) /\
  value binary32 3325788160 = -12000 * one binary32 /\
  strtofp binary32 c_isspace 40 (mem_of 10 [48;120;49;46;56;112;45;49;122;0]) 10 = Ok (1061158912, 18) /\
  value binary32 1061158912 * 4 = 3 * one binary32 /\
  digits_value 10 (ip nd) * 5 ^ expo_value nd < 2 ^ (mb binary32 + 1) /\ numer nd * one binary32 < max_mag binary32 /\
  digits_value 16 (ip nh ++ fp nh) < 2 ^ (mb binary32 + 1) /\ 4 * Z.of_nat (length (fp nh)) + expo_value nh <= unit_exp binary32.
Proof.
  split; [wf_tac|]. split; [wf_tac|]. split; [reflexivity|]. split; [reflexivity|]. split; [reflexivity|]. split; [reflexivity|].
  split; [apply whole; [wf_tac|reflexivity]|]. split; [apply whole; [wf_tac|reflexivity]|]. split; [chk|].
  split; [vm_compute; reflexivity|]. split; [vm_compute; reflexivity|]. split; [vm_compute; reflexivity|]. split; [vm_compute; reflexivity|].
  split; [vm_compute; reflexivity|]. split; [vm_compute; reflexivity|]. split; [vm_compute; reflexivity|]. vm_compute. discriminate.
Qed.

Print Assumptions C77_safe_partial.
Print Assumptions C77_safe_refuted.
Print Assumptions C77_endptr_partial.
Print Assumptions C77_decimal.
Print Assumptions C77_hexadecimal.
Print Assumptions C77_nearest_refuted.
Print Assumptions C77_hex_prefix_refuted.
Print Assumptions C77_no_conversion_refuted.
Print Assumptions C77_infinity_partial.
Print Assumptions C77_infinity_refuted.
