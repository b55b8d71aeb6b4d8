(** Proofs about local time: transitions, zone files. *)
From Coq Require Import Sorted.
From Verif Require Import Base Time_Model Time_Spec TimeCal_Proof Time_Proof Tz_Model Tz_Spec Tz_Proof.
Open Scope Z_scope.

(** days_from_civil for days outside the month, too; day 0 only in January *)
Lemma days_any : forall y m d, 0 <= y <= 5800000 -> 1 <= m <= 12 -> 0 <= d <= 35 -> (d = 0 -> m = 1) ->
  days_from_civil y m d = Ok (D y m d) /\ -1000000 <= D y m d <= 2147000000.
Proof.
  intros y m d Hy Hm Hd Hz. unfold days_from_civil, D.
  set (yy := y - (if m <=? 2 then 1 else 0)). assert (Hyy : -1 <= yy <= 5800000) by (unfold yy; destruct (m <=? 2); lia).
  pose proof (Z.div_mod yy 400 ltac:(lia)) as Dm. pose proof (Z.mod_pos_bound yy 400 ltac:(lia)) as Hr.
  replace (if m >? 2 then u32 (m - 3) else u32 (m + 9)) with (if m >? 2 then m - 3 else m + 9)
    by (destruct (m >? 2) eqn:E; symmetry; apply u32_ok; lia).
  set (mp := if m >? 2 then m - 3 else m + 9). assert (Hmp : 0 <= mp <= 11 /\ (d = 0 -> mp = 10)) by (unfold mp; destruct (m >? 2) eqn:E; lia).
  set (era := yy / 400) in *. set (yoe := yy mod 400) in *. clearbody mp yy. destruct Hmp as [Hmp Hmz].
  assert (B : 0 <= (153 * mp + 2) / 5 + d - 1 <= 400) by lia. clear Hmz Hz.
  rewrite i32_ok by lia. cbn [bind].
  replace (if yy >=? 0 then yy else yy - 399) with (if yy >=? 0 then yy else yy - (400 - 1)) by (destruct (_ >=? _); lia).
  rewrite quot_floor by lia. fold era. replace (yy - era * 400) with yoe by lia. rewrite (u32_ok yoe) by lia.
  rewrite (u32_ok (153 * mp + 2)) by lia. set (q := (153 * mp + 2) / 5 + d - 1) in *. clearbody q.
  assert (B2 : 0 <= yoe * 365 + yoe / 4 - yoe / 100 <= 146096) by (clearbody yoe; lia).
  assert (B3 : -1 <= era <= 14500) by (clear B2; lia).
  rewrite (u32_ok q) by lia. rewrite u32_ok by lia.
  rewrite i32_ok by lia. cbn [bind]. rewrite to_i32_ok by lia. rewrite i32_ok by lia. cbn [bind]. rewrite i32_ok by lia. split; [reflexivity|lia].
Qed.
Lemma midnight : forall y mo d yd, 0 <= y <= 5800000 -> 0 <= mo <= 11 -> 0 <= d <= 35 -> (d = 0 -> mo = 0) ->
  timegm (tm0 y mo d yd) = Ok (86400 * D y (mo + 1) d).
Proof.
  intros y mo d yd Hy Hm Hd Hz. unfold timegm, tm0. cbn [tm_year tm_mon tm_mday tm_hour tm_min tm_sec].
  replace (y - 1900 + 1900) with y by lia. rewrite i32_ok by lia. cbn [bind]. rewrite i32_ok by lia. cbn [bind].
  rewrite (u32_ok (mo + 1)), (u32_ok d) by lia. destruct (days_any y (mo + 1) d Hy ltac:(lia) Hd ltac:(lia)) as [-> B]. cbn [bind].
  change (0 * 60) with 0. rewrite i32_ok by lia. cbn [bind]. change (0 * 60) with 0. rewrite i32_ok by lia. cbn [bind].
  replace (D y (mo + 1) d * 86400 + 0 + 0 + 0) with (86400 * D y (mo + 1) d) by lia. apply i64_ok. lia.
Qed.
Definition rule_ok (r : rule) : Prop :=
  match r_date r with
  | Julian d => 1 <= d <= 365
  | DayOfYear d => 0 <= d <= 365
  | MonthWeek m w d => 1 <= m <= 12 /\ 1 <= w <= 5 /\ 0 <= d <= 6
  end.
Lemma rule_text_ok : forall r s, rule_text r s -> rule_ok r.
Proof. intros r s H. inversion H as [d s' Hd|d s' t s1 Hd]; subst; inversion Hd; subst; unfold rule_ok; cbn [r_date]; unfold num_text in *; tauto. Qed.
Lemma rule_time_ok : forall r y, rule_ok r -> 0 <= y <= 5800000 ->
  time_from_rule r y = Ok (86400 * match r_date r with
                                   | Julian _ | DayOfYear _ => D y 1 0
                                   | MonthWeek m w d => D y m (1 + d + 7 * (w - 1))
                                   end).
Proof.
  intros r y H Hy. unfold time_from_rule, rule_ok in *. destruct (r_date r) as [d|d|m w d].
  - apply midnight; lia.
  - apply midnight; lia.
  - rewrite midnight by lia. cbn [bind tm_wday tm_mon tm0].
    replace (1 + Z.rem (7 + d - 0) 7 + (w - 1) * 7) with (1 + d + 7 * (w - 1)) by lia.
    rewrite midnight by lia. cbn [bind]. rewrite Z.eqb_refl, andb_false_r. rewrite midnight by lia. do 3 f_equal. lia.
Qed.
Lemma year_bound : forall n, 0 <= n <= 2000000000 -> let '(y, m, d) := C n in 0 <= y <= 5800000.
Proof.
  intros n Hn. pose proof (C_ok n) as H. destruct (C n) as [[y m] d]. destruct H as [V E]. pose proof (D_parts y m d V) as P. cbv zeta in P.
  destruct P as (_ & _ & P3 & P4). unfold D in E.
  set (yy := y - (if m <=? 2 then 1 else 0)) in *.
  pose proof (Z.div_mod yy 400 ltac:(lia)) as Dm. pose proof (Z.mod_pos_bound yy 400 ltac:(lia)) as Hr.
  assert (y - 1 <= yy <= y) by (unfold yy; destruct (m <=? 2); lia). lia.
Qed.
Lemma in_dst_ok : forall r0 r1 t, rule_ok r0 -> rule_ok r1 -> 0 <= t -> t / 86400 <= 2000000000 ->
  exists y, fst (fst (date (Z.to_nat (t / 86400)))) = y /\ 0 <= y <= 5800000 /\
  exists a b, time_from_rule r0 y = Ok a /\ time_from_rule r1 y = Ok b /\
  is_in_dst r0 r1 t = Ok (if to_i32 a <=? to_i32 b then (to_i32 a <=? t) && (t <? to_i32 b) else (to_i32 a <=? t) || (t <? to_i32 b)).
Proof.
  intros r0 r1 t H0 H1 Ht Hn. assert (N0 : 0 <= t / 86400) by (apply Z.div_pos; lia).
  pose proof (year_bound (t / 86400) ltac:(lia)) as B. pose proof (C_date (Z.to_nat (t / 86400))) as CD. rewrite Z2Nat.id in CD by exact N0.
  unfold is_in_dst. rewrite Z.quot_div_nonneg by lia. rewrite civil_ok by lia. rewrite <- CD. destruct (C (t / 86400)) as [[y m] d]. cbn [bind fst].
  exists y. split; auto. split; auto. eexists _, _. split; [apply rule_time_ok; auto|]. split; [apply rule_time_ok; auto|].
  rewrite (rule_time_ok r0 y) by auto. cbn [bind]. rewrite (rule_time_ok r1 y) by auto. cbn [bind]. destruct (_ <=? _); reflexivity.
Qed.
Lemma gmtime_shows : forall l, 0 <= l -> l / 86400 <= 2000000000 -> exists x, gmtime_r l = Ok x /\ shows l x.
Proof.
  intros l H0 Hn. pose proof (gmtime_ok l H0 ltac:(lia)) as G. cbv zeta in G. unfold shows. destruct (date (Z.to_nat (l / 86400))) as [[y m] d].
  eexists. split; [exact G|]. cbn [tm_sec tm_min tm_hour tm_mday tm_mon tm_year tm_wday tm_yday].
  split; [do 2 f_equal; [f_equal|]; lia|]. split; [clear; lia|].
  split; [apply Z.mod_pos_bound; lia|]. split; [apply Z.mod_pos_bound; lia|]. split; [apply Z.mod_pos_bound; lia|]. f_equal; lia.
Qed.

(** ** localtime_r with TZ in the POSIX format *)
Definition tz_is (e : tzenv) (s : list Z) : Prop := e_tz e = Some s \/ (e_tz e = Some [] /\ s = utc0).
Lemma std_nonempty : forall max name off s, std_text max name off s -> s <> [].
Proof. intros max name off s H. inversion H; subst; [|discriminate]. destruct (name_hd _ _ _ H0) as (c & n' & -> & _). discriminate. Qed.
Lemma tzset_parse : forall e max old s z, tz_is e s -> s <> [] -> parse_tz (s ++ [0]) max = Ok (Some z) -> do_tzset e max old = Ok z.
Proof.
  intros e max old s z [H|[H E]] N P; unfold do_tzset; rewrite H.
  - destruct s as [|c s]; [congruence|]. rewrite P. reflexivity.
  - rewrite E in P. rewrite P. reflexivity.
Qed.
Lemma local_std : forall e max old s name off t, tz_is e s -> std_text max name off s -> 0 <= t - off -> (t - off) / 86400 <= 2000000000 -> -10000000 <= off <= 10000000 ->
  exists x, localtime_r e max old t = Ok (x, false, - off, name) /\ shows (t - off) x.
Proof.
  intros e max old s name off t He Hs H0 Hn Ho. unfold localtime_r, unix_local_from_gmt.
  rewrite (tzset_parse e max old s _ He (std_nonempty _ _ _ _ Hs) (parse_std _ _ _ _ Hs)). cbn [bind z_daylight z_timezone z_std].
  replace (t + - off) with (t - off) by lia. rewrite i64_ok by lia. cbn [bind].
  destruct (gmtime_shows (t - off) H0 Hn) as (x & -> & S). cbn [bind]. eauto.
Qed.
Lemma clock_range : forall v s, clock_text v s -> 0 <= v <= 604860.
Proof. intros v s H. inversion H; subst; unfold num_text in *; lia. Qed.
Lemma offset_range : forall v s, offset_text v s -> -604860 <= v <= 604860.
Proof. intros v s H. inversion H; subst; pose proof (clock_range _ _ H0); lia. Qed.
Lemma std_range : forall max name off s, std_text max name off s -> -604860 <= off <= 604860.
Proof. intros max name off s H. inversion H; subst; eapply offset_range; eauto. Qed.
Lemma dst_range : forall max name so off r0 r1 s, dst_text max name so off r0 r1 s -> -604860 <= so <= 604860 -> -700000 <= off <= 700000.
Proof. intros. inversion H as [n o rs Hn Ho Hr]; subst. destruct Ho as [[_ ->]|Ho]; [lia|]. apply offset_range in Ho. lia. Qed.
Lemma dst_rules : forall max name so off r0 r1 s, dst_text max name so off r0 r1 s -> rule_ok r0 /\ rule_ok r1.
Proof.
  intros. inversion H as [n o rs Hn Ho Hr]; subst. destruct Hr as [[_ E]|(a & b & A & B & _)].
  - injection E as -> ->. unfold rule_ok. cbn. lia.
  - split; eapply rule_text_ok; eauto.
Qed.
Definition choose (z : tzstate) (d : bool) : Z * bool * list Z := if d then (z_dstoff z, true, z_dst z) else (- z_timezone z, false, z_std z).
Lemma local_dst : forall e max old s s1 name off name1 off1 r0 r1 t, e_tz e = Some (s ++ s1) -> std_text max name off s ->
  dst_text max name1 off off1 r0 r1 s1 -> 1000000 <= t -> t / 86400 <= 1000000000 ->
  exists d x, is_in_dst r0 r1 t = Ok d /\ shows (t - (if d then off1 else off)) x /\
    localtime_r e max old t = Ok (x, d, - (if d then off1 else off), if d then name1 else name).
Proof.
  intros e max old s s1 name off name1 off1 r0 r1 t He Hs Hd H0 Hn.
  assert (N : s ++ s1 <> []) by (pose proof (std_nonempty _ _ _ _ Hs); destruct s; [congruence|discriminate]).
  destruct (dst_rules _ _ _ _ _ _ _ Hd) as [R0 R1]. pose proof (std_range _ _ _ _ Hs) as B0. pose proof (dst_range _ _ _ _ _ _ _ Hd B0) as B1.
  destruct (in_dst_ok r0 r1 t R0 R1 ltac:(lia) ltac:(lia)) as (y & _ & _ & a & b & _ & _ & E).
  set (d := if to_i32 a <=? to_i32 b then _ else _) in E. exists d.
  unfold localtime_r, unix_local_from_gmt.
  pose proof (parse_dst _ _ _ _ _ _ _ _ _ Hs Hd) as P. rewrite app_assoc in P.
  rewrite (tzset_parse e max old (s ++ s1) _ (or_introl He) N P). cbn [bind z_daylight z_timezone z_std z_dst z_dstoff z_rules]. rewrite E. cbn [bind].
  clearbody d. destruct d; cbn [bind].
  - replace (t + - off1) with (t - off1) by lia. rewrite i64_ok by lia. cbn [bind].
    destruct (gmtime_shows (t - off1) ltac:(lia) ltac:(lia)) as (x & -> & S). cbn [bind]. eauto.
  - replace (t + - off) with (t - off) by lia. cbn [bind]. rewrite i64_ok by lia. cbn [bind].
    destruct (gmtime_shows (t - off) ltac:(lia) ltac:(lia)) as (x & -> & S). cbn [bind]. eauto.
Qed.

(** ** Zone files *)
Lemma byte_app : forall a c b i, i = Z.of_nat (length a) -> byte (a ++ c :: b) i = Ok c.
Proof.
  intros a c b i ->. unfold byte. replace (Z.of_nat (length a) <? 0) with false by lia. rewrite Nat2Z.id, nth_error_app2, Nat.sub_diag by lia. reflexivity.
Qed.
Lemma be32_app : forall a v b i, i = Z.of_nat (length a) -> be32 (a ++ big4 v ++ b) i = Ok (v mod 4294967296).
Proof.
  intros a v b i ->. unfold be32, big4. cbn [app]. rewrite byte_app by auto. cbn [bind].
  set (x0 := v / 16777216 mod 256). set (x1 := v / 65536 mod 256). set (x2 := v / 256 mod 256). set (x3 := v mod 256).
  replace (a ++ x0 :: x1 :: x2 :: x3 :: b) with ((a ++ [x0]) ++ x1 :: x2 :: x3 :: b) by (rewrite <- app_assoc; reflexivity).
  rewrite byte_app by (rewrite app_length; cbn; lia). cbn [bind].
  replace ((a ++ [x0]) ++ x1 :: x2 :: x3 :: b) with ((a ++ [x0; x1]) ++ x2 :: x3 :: b) by (rewrite <- !app_assoc; reflexivity).
  rewrite byte_app by (rewrite app_length; cbn; lia). cbn [bind].
  replace ((a ++ [x0; x1]) ++ x2 :: x3 :: b) with ((a ++ [x0; x1; x2]) ++ x3 :: b) by (rewrite <- !app_assoc; reflexivity).
  rewrite byte_app by (rewrite app_length; cbn; lia). cbn [bind]. f_equal. unfold x0, x1, x2, x3. clear. lia.
Qed.
Lemma be32s_app : forall a v b i, i = Z.of_nat (length a) -> in_i32 v -> be32s (a ++ big4 v ++ b) i = Ok v.
Proof. intros. unfold be32s. rewrite be32_app by auto. cbn [bind]. f_equal. unfold to_i32, in_i32 in *. lia. Qed.
Lemma big4_len : forall v, length (big4 v) = 4%nat. Proof. reflexivity. Qed.
Lemma flat4 : forall l, length (flat_map big4 l) = (4 * length l)%nat.
Proof. induction l; cbn [flat_map length]; [lia|]. rewrite app_length, IHl. cbn [big4 length]. lia. Qed.
Lemma type_len : forall ty, length (type_bytes ty) = 6%nat.
Proof. intros [[o d] a]. reflexivity. Qed.
Lemma flat6 : forall l, length (flat_map type_bytes l) = (6 * length l)%nat.
Proof. induction l; cbn [flat_map length]; [lia|]. rewrite app_length, IHl, type_len. lia. Qed.

Section File.
  Variables (z : zone) (f : list Z).
  Hypothesis W : wf_zone z.
  Hypothesis F : zone_file z f.
  Let T := Z.of_nat (length (transitions z)).
  Let N := Z.of_nat (length (types z)).
  (** the file as header and data *)
  Lemma file_split : exists h rest, length h = 44%nat /\ f = h ++ flat_map big4 (transitions z) ++ kinds z ++ flat_map type_bytes (types z) ++ abbrevs z ++ rest.
  Proof.
    destruct F as (v & res & g & s & l & rest & Hv & Hr & E).
    exists ([84; 90; 105; 102; v] ++ res ++ big4 g ++ big4 s ++ big4 l ++ big4 (Z.of_nat (length (transitions z))) ++ big4 (Z.of_nat (length (types z))) ++
      big4 (Z.of_nat (length (abbrevs z)))), rest.
    split; [rewrite !app_length, !big4_len, Hr; reflexivity|]. rewrite E, <- !app_assoc. reflexivity.
  Qed.
  Lemma header_ok : tz_header f = Ok (Some (T, N)).
  Proof.
    destruct F as (v & res & g & s & l & rest & Hv & Hr & E). destruct W as (_ & _ & _ & _ & _ & BT & BN).
    set (data := flat_map big4 (transitions z) ++ kinds z ++ flat_map type_bytes (types z) ++ abbrevs z ++ rest) in E.
    assert (E0 : f = 84 :: 90 :: 105 :: 102 :: v :: (res ++ big4 g ++ big4 s ++ big4 l ++ big4 T ++ big4 N ++ big4 (Z.of_nat (length (abbrevs z))) ++ data)) by exact E.
    assert (E1 : f = ([84; 90; 105; 102; v] ++ res ++ big4 g ++ big4 s ++ big4 l) ++ big4 T ++ (big4 N ++ big4 (Z.of_nat (length (abbrevs z))) ++ data))
      by (rewrite E, <- !app_assoc; reflexivity).
    assert (E2 : f = ([84; 90; 105; 102; v] ++ res ++ big4 g ++ big4 s ++ big4 l ++ big4 T) ++ big4 N ++ (big4 (Z.of_nat (length (abbrevs z))) ++ data))
      by (rewrite E, <- !app_assoc; reflexivity).
    assert (E3 : f = ([84; 90; 105; 102; v] ++ res ++ big4 g ++ big4 s ++ big4 l ++ big4 T ++ big4 N) ++ big4 (Z.of_nat (length (abbrevs z))) ++ data)
      by (rewrite E, <- !app_assoc; reflexivity).
    unfold tz_header.
    assert (B0 : byte f 0 = Ok 84 /\ byte f 1 = Ok 90 /\ byte f 2 = Ok 105 /\ byte f 3 = Ok 102 /\ byte f 4 = Ok v) by (rewrite E0; repeat split).
    destruct B0 as (-> & -> & -> & -> & ->). cbn [bind].
    assert (X1 : be32 f 32 = Ok T) by (rewrite E1, be32_app by (rewrite !app_length, !big4_len, Hr; reflexivity); rewrite Z.mod_small by (unfold T; lia); reflexivity).
    assert (X2 : be32 f 36 = Ok N) by (rewrite E2, be32_app by (rewrite !app_length, !big4_len, Hr; reflexivity); rewrite Z.mod_small by (unfold N; lia); reflexivity).
    rewrite X1, X2. cbn [bind]. rewrite E3 at 1. rewrite be32_app by (rewrite !app_length, !big4_len, Hr; reflexivity). cbn [bind].
    cbn in Hv. destruct Hv as [<-|[<-|[<-|[]]]]; reflexivity.
  Qed.
  Lemma ttinfo_ok : forall i o d a, nth_error (types z) i = Some (o, d, a) -> ttinfo_at f T (Z.of_nat i) = Ok (o, (if d : bool then 1 else 0), a).
  Proof.
    intros i o d a H. destruct file_split as (h & rest & Lh & E). destruct W as (_ & LK & _ & _ & FT & _ & _).
    destruct (nth_error_split _ _ H) as (t1 & t2 & Et & Li).
    assert (E1 : f = (h ++ flat_map big4 (transitions z) ++ kinds z ++ flat_map type_bytes t1) ++ big4 o ++ ([if d then 1 else 0; a] ++ flat_map type_bytes t2 ++ abbrevs z ++ rest)).
    { rewrite E, Et, flat_map_app. cbn [flat_map type_bytes]. rewrite <- !app_assoc. reflexivity. }
    assert (L1 : Z.of_nat (length (h ++ flat_map big4 (transitions z) ++ kinds z ++ flat_map type_bytes t1)) = 44 + T * 4 + T + Z.of_nat i * 6).
    { rewrite !app_length, flat4, flat6, LK, Lh. unfold T. lia. }
    assert (Bo : in_i32 o).
    { rewrite Forall_forall in FT. apply nth_error_In in H. exact (proj1 (FT _ H)). }
    unfold ttinfo_at. rewrite E1. set (pre := h ++ flat_map big4 (transitions z) ++ kinds z ++ flat_map type_bytes t1) in *.
    set (x := if d then 1 else 0). set (tl := flat_map type_bytes t2 ++ abbrevs z ++ rest).
    rewrite be32s_app by (auto; lia). cbn [bind]. cbn [app].
    replace (pre ++ big4 o ++ x :: a :: tl) with ((pre ++ big4 o) ++ x :: a :: tl) by (rewrite <- app_assoc; reflexivity).
    rewrite byte_app by (rewrite app_length, big4_len; lia). cbn [bind].
    replace ((pre ++ big4 o) ++ x :: a :: tl) with ((pre ++ big4 o ++ [x]) ++ a :: tl) by (rewrite <- !app_assoc; reflexivity).
    rewrite byte_app by (rewrite !app_length, big4_len; cbn [length]; lia). reflexivity.
  Qed.
  Lemma cstring_ok : forall s r, Forall (fun c => c <> 0) s -> cstring (s ++ 0 :: r) = Ok s.
  Proof. induction s as [|c s IH]; intros r Fs; [reflexivity|]. inversion Fs; subst. cbn [app cstring]. replace (c =? 0) with false by lia. rewrite IH by auto. reflexivity. Qed.
  Lemma abbrev_ok : forall a s, 0 <= a -> abbrev z a s -> abbrev_at f T N a = Ok s.
  Proof.
    intros a s Ha (r & E1 & Fs). destruct file_split as (h & rest & Lh & E). destruct W as (_ & LK & _).
    assert (La : (Z.to_nat a <= length (abbrevs z))%nat).
    { destruct (Nat.le_gt_cases (Z.to_nat a) (length (abbrevs z))) as [|G]; auto. rewrite skipn_all2 in E1 by lia. destruct s; discriminate. }
    unfold abbrev_at. set (pre := h ++ flat_map big4 (transitions z) ++ kinds z ++ flat_map type_bytes (types z)).
    assert (Ep : f = pre ++ abbrevs z ++ rest) by (unfold pre; rewrite E, <- !app_assoc; reflexivity).
    assert (Lp : Z.to_nat (44 + T * 4 + T + N * 6 + a) = (length pre + Z.to_nat a)%nat).
    { unfold pre. rewrite !app_length, flat4, flat6, LK, Lh. unfold T, N. lia. }
    rewrite Lp, Ep. rewrite skipn_app, skipn_all2 by lia. cbn [app]. replace (length pre + Z.to_nat a - length pre)%nat with (Z.to_nat a) by lia.
    rewrite skipn_app. replace (Z.to_nat a - length (abbrevs z))%nat with 0%nat by lia. cbn [skipn]. rewrite E1, <- app_assoc. cbn [app]. apply cstring_ok. auto.
  Qed.
  Lemma transition_ok : forall i x, nth_error (transitions z) i = Some x -> be32s f (44 + Z.of_nat i * 4) = Ok x.
  Proof.
    intros i x H. destruct file_split as (h & rest & Lh & E). destruct W as (_ & _ & FT & _).
    destruct (nth_error_split _ _ H) as (t1 & t2 & Et & Li). rewrite E, Et, flat_map_app. cbn [flat_map].
    replace (h ++ (flat_map big4 t1 ++ big4 x ++ flat_map big4 t2) ++ kinds z ++ flat_map type_bytes (types z) ++ abbrevs z ++ rest)
      with ((h ++ flat_map big4 t1) ++ big4 x ++ (flat_map big4 t2 ++ kinds z ++ flat_map type_bytes (types z) ++ abbrevs z ++ rest)) by (rewrite <- !app_assoc; reflexivity).
    apply be32s_app; [rewrite app_length, flat4; lia|]. rewrite Forall_forall in FT. apply FT. eapply nth_error_In; eauto.
  Qed.
  Lemma kind_ok : forall i k, nth_error (kinds z) i = Some k -> byte f (44 + T * 4 + Z.of_nat i) = Ok k.
  Proof.
    intros i k H. destruct file_split as (h & rest & Lh & E). destruct (nth_error_split _ _ H) as (t1 & t2 & Et & Li). rewrite E, Et.
    replace (h ++ flat_map big4 (transitions z) ++ (t1 ++ k :: t2) ++ flat_map type_bytes (types z) ++ abbrevs z ++ rest)
      with ((h ++ flat_map big4 (transitions z) ++ t1) ++ k :: (t2 ++ flat_map type_bytes (types z) ++ abbrevs z ++ rest)) by (rewrite <- !app_assoc; reflexivity).
    apply byte_app. rewrite !app_length, flat4. unfold T. lia.
  Qed.
  Lemma loop_found : forall t j x k i, nth_error (transitions z) j = Some x -> x > t -> (1 <= j)%nat -> (i + k)%nat = length (transitions z) -> (i <= j)%nat ->
    (forall q y, (1 <= q)%nat -> (q < j)%nat -> nth_error (transitions z) q = Some y -> y <= t) ->
    transition_loop f t (Z.of_nat i) k = Ok (Z.of_nat j - 1).
  Proof.
    intros t j x k. induction k as [|k IH]; intros i Hj Hx H1 L Hi B.
    - assert (j < length (transitions z))%nat by (apply nth_error_Some; congruence). lia.
    - cbn [transition_loop]. destruct (nth_error (transitions z) i) as [y|] eqn:Ey; [|apply nth_error_None in Ey; lia].
      rewrite (transition_ok i y Ey). cbn [bind]. destruct (Nat.eq_dec i j) as [->|].
      + assert (y = x) by congruence. subst y. replace (x >? t) with true by lia. replace (Z.of_nat j =? 0) with false by lia. reflexivity.
      + assert (G : negb (Z.of_nat i =? 0) && (y >? t) = false).
        { destruct i as [|i]; [reflexivity|]. specialize (B (S i) y ltac:(lia) ltac:(lia) Ey). replace (y >? t) with false by lia. apply andb_false_r. }
        rewrite G. replace (Z.of_nat i + 1) with (Z.of_nat (S i)) by lia. apply IH; auto; lia.
  Qed.
  Lemma loop_none : forall t k i, (i + k)%nat = length (transitions z) ->
    (forall q y, (1 <= q)%nat -> nth_error (transitions z) q = Some y -> y <= t) -> transition_loop f t (Z.of_nat i) k = Ok (-1).
  Proof.
    intros t. induction k as [|k IH]; intros i L B; [reflexivity|]. cbn [transition_loop].
    destruct (nth_error (transitions z) i) as [y|] eqn:Ey; [|apply nth_error_None in Ey; lia]. rewrite (transition_ok i y Ey). cbn [bind].
    assert (G : negb (Z.of_nat i =? 0) && (y >? t) = false).
    { destruct i as [|i]; [reflexivity|]. specialize (B (S i) y ltac:(lia) Ey). replace (y >? t) with false by lia. apply andb_false_r. }
    rewrite G. replace (Z.of_nat i + 1) with (Z.of_nat (S i)) by lia. apply IH; auto; lia.
  Qed.
  (** the type of entry k, as the answer *)
  Lemma lookup_type : forall t idx k o d a s, transition_loop f t 0 (length (transitions z)) = Ok idx ->
    (idx = -1 /\ k = 0 \/ exists i, idx = Z.of_nat i /\ nth_error (kinds z) i = Some k) ->
    nth_error (types z) (Z.to_nat k) = Some (o, d, a) -> abbrev z a s -> tzfile_lookup f t = Ok (Some (o, d, s)).
  Proof.
    intros t idx k o d a s HL HK HT HA. unfold tzfile_lookup. rewrite header_ok. cbn [bind]. replace (Z.to_nat T) with (length (transitions z)) by (unfold T; lia).
    rewrite HL. cbn [bind]. destruct W as (NE & _ & _ & FK & FT & _).
    assert (HB : (if idx >=? 0 then byte f (44 + T * 4 + idx) else Ok 0) = Ok k).
    { destruct HK as [[-> ->]|(i & -> & Hi)]; [reflexivity|]. replace (Z.of_nat i >=? 0) with true by lia. apply kind_ok. exact Hi. }
    rewrite HB. cbn [bind]. assert (NZ : (N =? 0) = false) by (unfold N; destruct (types z); [congruence|cbn [length]; lia]). rewrite NZ.
    assert (K0 : 0 <= k).
    { destruct HK as [[_ ->]|(i & _ & Hi)]; [lia|]. rewrite Forall_forall in FK. apply nth_error_In in Hi. specialize (FK _ Hi). lia. }
    assert (X : ttinfo_at f T k = Ok (o, (if d then 1 else 0), a)) by (rewrite <- (Z2Nat.id k K0); apply ttinfo_ok; exact HT).
    rewrite X. cbn [bind]. rewrite Forall_forall in FT. pose proof (FT _ (nth_error_In _ _ HT)) as [_ A0].
    rewrite (abbrev_ok a s A0 HA). cbn [bind]. destruct d; reflexivity.
  Qed.
End File.
Lemma sorted_nth : forall l i j x y, StronglySorted Z.lt l -> (i < j)%nat -> nth_error l i = Some x -> nth_error l j = Some y -> x < y.
Proof.
  induction l as [|a l IH]; intros i j x y H L Hi Hj; [destruct i; discriminate|]. inversion H; subst. destruct j as [|j]; [lia|]. cbn in Hj.
  destruct i as [|i]; cbn in Hi.
  - injection Hi as <-. rewrite Forall_forall in H3. apply H3. eapply nth_error_In; eauto.
  - apply (IH i j x y); auto; lia.
Qed.
Lemma lookup_between : forall z f t i a b k o d ab s, wf_zone z -> zone_file z f -> StronglySorted Z.lt (transitions z) ->
  nth_error (transitions z) i = Some a -> nth_error (transitions z) (S i) = Some b -> a <= t < b ->
  nth_error (kinds z) i = Some k -> nth_error (types z) (Z.to_nat k) = Some (o, d, ab) -> abbrev z ab s ->
  tzfile_lookup f t = Ok (Some (o, d, s)).
Proof.
  intros z f t i a b k o d ab s W F SS Ha Hb Ht Hk HT HA. apply (lookup_type z f W F t (Z.of_nat (S i) - 1) k o d ab s); auto.
  - change 0 with (Z.of_nat 0). eapply (loop_found z f W F t (S i) b); eauto; try lia. intros q y H1 H2 Hq.
    destruct (Nat.eq_dec q i) as [->|]; [assert (y = a) by congruence; lia|]. pose proof (sorted_nth _ q i y a SS ltac:(lia) Hq Ha). lia.
  - right. exists i. split; [lia|auto].
Qed.
Lemma lookup_first : forall z f t x y k o d ab s, wf_zone z -> zone_file z f -> StronglySorted Z.lt (transitions z) ->
  nth_error (transitions z) 0 = Some x -> nth_error (transitions z) 1 = Some y -> t < x ->
  nth_error (kinds z) 0 = Some k -> nth_error (types z) (Z.to_nat k) = Some (o, d, ab) -> abbrev z ab s ->
  tzfile_lookup f t = Ok (Some (o, d, s)).
Proof.
  intros z f t x y k o d ab s W F SS Hx Hy Ht Hk HT HA. apply (lookup_type z f W F t (Z.of_nat 1 - 1) k o d ab s); auto.
  - change 0 with (Z.of_nat 0). eapply (loop_found z f W F t 1 y); eauto; try lia. pose proof (sorted_nth _ 0 1 x y SS ltac:(lia) Hx Hy). lia.
  - right. exists 0%nat. auto.
Qed.
Lemma lookup_last : forall z f t o d ab s, wf_zone z -> zone_file z f ->
  (forall x, In x (transitions z) -> x <= t) -> nth_error (types z) 0 = Some (o, d, ab) -> abbrev z ab s ->
  tzfile_lookup f t = Ok (Some (o, d, s)).
Proof.
  intros z f t o d ab s W F B HT HA. eapply (lookup_type z f W F t (-1) 0); eauto.
  change 0 with (Z.of_nat 0). apply (loop_none z f W F); auto. intros q y _ Hq. apply B. eapply nth_error_In; eauto.
Qed.
