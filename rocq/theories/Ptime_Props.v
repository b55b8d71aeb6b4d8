(** Property C82: strptime. *)
From Verif Require Import Base Time_Model Time_Spec Time_Proof TimeCal_Proof Ptime_Model Ptime_Spec Ptime_Proof Ptime_Trip.
From Verif Require Ftime_Model Ftime_Spec Ftime_Props.
Open Scope Z_scope.

(** If the format reads the input up to [r] (Ptime_Spec.v), strptime returns a pointer to [r] and the members that the conversions name
    are stored; the year follows from %Y, %y and %C.  White space before the input is skipped.  For the C locale.
    Missing: an input of white space only, %u, numbers of more than two digits (four for %Y) and numbers directly followed by
    another digit, %c, %x, %X and the other conversions that abort (all refuted below). *)
Theorem C82_strptime_partial : forall t ws inp r f a, Forall space ws -> inp <> [] -> no_more space inp -> reads conv f inp r a -> 0 <= tm_hour t ->
  exists t', strptime Ftime_Model.c_locale (ws ++ inp) f t = Ok (Some (t', r)) /\
    tm_sec t' = tm_sec (stored t a) /\ tm_min t' = tm_min (stored t a) /\ tm_hour t' = tm_hour (stored t a) /\
    tm_mday t' = tm_mday (stored t a) /\ tm_mon t' = tm_mon (stored t a) /\
    (forall y, year_of (filter is_year a) y -> tm_year t' = y - 1900) /\
    (existsb is_wday a = true -> tm_wday t' = tm_wday (stored t a)) /\
    (existsb is_yday a = true -> tm_yday t' = tm_yday (stored t a)).
Proof.
  intros t ws inp r f a W NE N R H0. pose proof (reads_hours conv f inp r a conv_hours R) as HH. pose proof (reads_two conv f inp r a conv_two R) as TT.
  exists (result t (ws ++ inp) a r). split; [exact (strptime_ok t ws inp r f a W NE N R)|].
  destruct (result_plain t (ws ++ inp) a r H0 HH) as (P1 & P2 & P3 & P4 & P5). repeat (split; [assumption|]).
  split; [intros y Y; exact (result_year t (ws ++ inp) a r y Y TT)|]. split; [exact (result_wday t (ws ++ inp) a r H0 HH)|exact (result_yday t (ws ++ inp) a r H0 HH)].
Qed.
Print Assumptions C82_strptime_partial.

(** If year, month and day are given and the day of the week is not, tm_wday is the day of the week modulo 7; from day 15 of the month on
    it is the day of the week.  1 January 1970 was a Thursday (4); [date n] is the day n days later, and from a day before it
    n steps lead to it.  Missing: the first two weeks of a month, where tm_wday may be negative (refuted below). *)
Theorem C82_weekday_partial : forall t ws inp r f a t' y n k, Forall space ws -> inp <> [] -> no_more space inp -> reads conv f inp r a -> 0 <= tm_hour t ->
  strptime Ftime_Model.c_locale (ws ++ inp) f t = Ok (Some (t', r)) ->
  year_of (filter is_year a) y -> existsb is_mon a = true -> existsb is_mday a = true -> existsb is_wday a = false ->
  0 <= y -> valid_date y (tm_mon t' + 1) (tm_mday t') ->
  date n = (y, tm_mon t' + 1, tm_mday t') /\ k = 4 + Z.of_nat n \/ Nat.iter n next (y, tm_mon t' + 1, tm_mday t') = (1970, 1, 1) /\ k = 4 - Z.of_nat n ->
  (tm_wday t' - k) mod 7 = 0 /\ (15 <= tm_mday t' -> tm_wday t' = k mod 7).
Proof.
  intros t ws inp r f a t' y n k W NE N R H0 E Y M MD WD Y0 V K.
  rewrite (strptime_ok t ws inp r f a W NE N R) in E. fold (result t (ws ++ inp) a r) in E. apply (f_equal (fun x => match x with Ok (Some (u, _)) => u | _ => t end)) in E. cbv beta iota in E. subst t'.
  pose proof (result_year t (ws ++ inp) a r y Y (reads_two conv f inp r a conv_two R)) as YR.
  pose proof (result_any t (ws ++ inp) a r y Y) as AY.
  set (s := set_rest (run (init t (ws ++ inp)) a) r) in *.
  assert (WR : tm_wday (result t (ws ++ inp) a r) = day_determination (tm_mday (result t (ws ++ inp) a r)) (tm_mon (result t (ws ++ inp) a r)) y).
  { unfold result, to_tm in *. fold s in YR |- *. cbn [tm_wday tm_mday tm_mon tm_year] in *. destruct (finish_fields s) as (_ & _ & _ & F4 & F5 & _ & _ & F8). rewrite F8, AY, F4, F5, YR.
    unfold s. cbn [set_rest has_wday has_month has_mday]. destruct (run_flags a (init t (ws ++ inp))) as (-> & -> & _ & -> & _). rewrite M, MD, WD. cbn [init has_wday orb negb andb].
    replace (y - 1900 + 1900) with y by lia. reflexivity. }
  rewrite WR. destruct V as [V1 V2]. set (m := tm_mon (result t (ws ++ inp) a r)) in *. set (d := tm_mday (result t (ws ++ inp) a r)) in *. clearbody m d. clear WR YR s AY.
  assert (KD : D y (m + 1) d + 4 = k).
  { destruct K as [[K ->]|[K ->]].
    - pose proof (date_ok n) as Q. rewrite K in Q. destruct Q as [_ Q]. lia.
    - assert (G : forall n x, let '(a, b, c) := x in valid_date a b c -> let '(a', b', c') := Nat.iter n next x in valid_date a' b' c' /\ D a' b' c' = D a b c + Z.of_nat n).
      { clear. induction n as [|n IH]; intros [[a b] c] V; [cbn [Nat.iter nat_rect]; split; [exact V|lia]|]. change (Nat.iter (S n) next (a, b, c)) with (next (Nat.iter n next (a, b, c))).
        specialize (IH (a, b, c)). cbv beta iota in IH. specialize (IH V). destruct (Nat.iter n next (a, b, c)) as [[a1 b1] c1]. destruct IH as [V1 E1].
        pose proof (D_next a1 b1 c1 V1) as Q. destruct (next (a1, b1, c1)) as [[a2 b2] c2]. destruct Q as [V2 E2]. split; [exact V2|lia]. }
      specialize (G n (y, m + 1, d) (conj V1 V2)). rewrite K in G. destruct G as [_ G]. change (D 1970 1 1) with 0 in G. lia. }
  rewrite <- KD. split; [apply weekday_ok; lia|]. intros L. apply weekday_late; lia.
Qed.
(** If year and month are given and %j is not: tm_yday is the day of the year, for years that are no multiple of 4.
    Missing: the multiples of 4 (refuted below). *)
Theorem C82_yearday_partial : forall t ws inp r f a t' y, Forall space ws -> inp <> [] -> no_more space inp -> reads conv f inp r a -> 0 <= tm_hour t ->
  strptime Ftime_Model.c_locale (ws ++ inp) f t = Ok (Some (t', r)) ->
  year_of (filter is_year a) y -> existsb is_mon a = true -> existsb is_yday a = false ->
  y mod 4 <> 0 -> 0 <= tm_mon t' <= 11 -> tm_yday t' = year_day (y, tm_mon t' + 1, tm_mday t').
Proof.
  intros t ws inp r f a t' y W NE N R H0 E Y M YD Y4 V.
  rewrite (strptime_ok t ws inp r f a W NE N R) in E. fold (result t (ws ++ inp) a r) in E. apply (f_equal (fun x => match x with Ok (Some (u, _)) => u | _ => t end)) in E. cbv beta iota in E. subst t'.
  pose proof (result_year t (ws ++ inp) a r y Y (reads_two conv f inp r a conv_two R)) as YR.
  pose proof (result_any t (ws ++ inp) a r y Y) as AY.
  set (s := set_rest (run (init t (ws ++ inp)) a) r) in *.
  rewrite <- day_in_year_ok by lia. unfold result, to_tm in *. fold s in YR, V |- *. cbn [tm_yday tm_mday tm_mon tm_year] in *. destruct (finish_fields s) as (_ & _ & _ & F4 & F5 & _ & F7 & _). rewrite F7, AY, F4, F5, YR.
  unfold s. cbn [set_rest has_yday has_month]. destruct (run_flags a (init t (ws ++ inp))) as (-> & _ & -> & _). rewrite M, YD. cbn [init has_yday orb negb andb].
  rewrite Z.add_simpl_r. reflexivity.
Qed.
Print Assumptions C82_weekday_partial.
Print Assumptions C82_yearday_partial.

(** What strftime stores is read back, for formats made of %Y %m %d %e %H %M %S %a %A %b %h %B with a character between them that is
    neither a digit nor a letter: the whole text is read and the members are those strftime was given *)
Theorem C82_round_trip : forall x f ds out t0, Ftime_Spec.ftm_ok x -> tidy f ds -> Ftime_Spec.formatted Ftime_Model.c_locale x f out -> 0 <= tm_hour t0 ->
  exists t, strptime Ftime_Model.c_locale out f t0 = Ok (Some (t, [])) /\ forall d, In d ds -> member d t = member d (Ftime_Model.f_tm x).
Proof. exact trip_ok. Qed.
Print Assumptions C82_round_trip.

(** A number outside its range, wherever in the format: a null pointer *)
Theorem C82_range : forall t ws inp r f g a d lo hi r2 v, Forall space ws -> inp <> [] -> no_more space inp -> reads conv f inp r a ->
  In (d, (lo, hi)) [(100, (1, 31)); (101, (1, 31)); (72, (0, 23)); (73, (1, 12)); (106, (1, 366)); (109, (1, 12)); (77, (0, 59)); (83, (0, 60)); (117, (1, 7))] ->
  reads_number 2 r r2 v -> ~ lo <= v <= hi ->
  strptime Ftime_Model.c_locale (ws ++ inp) (f ++ 37 :: d :: g) t = Ok None.
Proof.
  intros t ws inp r f g a d lo hi r2 v W NE N R D RN B. rewrite (strptime_prefix t ws inp r f _ a W NE N R). set (s := set_rest (run (init t (ws ++ inp)) a) r).
  assert (Q : in_range lo hi s = Ok None) by exact (range_out lo hi s r r2 v eq_refl RN B).
  cbn [In] in D. repeat (destruct D as [D|D]; [injection D as <- <- <-; cbn [loop Z.eqb Pos.eqb negb]; unfold directive; cbn [Z.eqb Pos.eqb orb]; rewrite Q; reflexivity|]). destruct D.
Qed.
(** Another character than the one in the format, wherever in the format: a null pointer *)
Theorem C82_literal : forall t ws inp r f g a c, Forall space ws -> inp <> [] -> no_more space inp -> reads conv f inp r a ->
  c <> 37 -> ~ space c -> no_more (fun b => b = c) r ->
  strptime Ftime_Model.c_locale (ws ++ inp) (f ++ c :: g) t = Ok None.
Proof.
  intros t ws inp r f g a c W NE N R C SP M. rewrite (strptime_prefix t ws inp r f _ a W NE N R). cbn [loop]. replace (c =? 37) with false by lia. cbn [negb].
  rewrite <- space_ok in SP. destruct (Scanf_Model.is_space c); [congruence|]. cbn [set_rest rest]. destruct r as [|b r]; [reflexivity|]. cbn in M. replace (c =? b) with false by lia. reflexivity.
Qed.
Print Assumptions C82_range.
Print Assumptions C82_literal.

(** ** Defects *)
Definition t0 : tm := {| tm_sec := 0; tm_min := 0; tm_hour := 0; tm_mday := 0; tm_mon := 0; tm_year := 0; tm_wday := 0; tm_yday := 0 |}.
(** The digits after the number a conversion wants are not left for the next conversion: a number of three or more digits is refused, so
    "%H%M" does not read "1230" and "%j" never reads 100 to 366 *)
Theorem C82_adjacent_refuted : forall t ws inp r f g a d ds r2, Forall space ws -> inp <> [] -> no_more space inp -> reads conv f inp r a ->
  In d [67; 100; 101; 72; 73; 106; 109; 77; 83; 121; 117] ->
  r = ds ++ r2 -> Forall numeral ds -> no_more numeral r2 -> (2 < length ds)%nat -> Z.of_nat (length ds) < 2 ^ 31 ->
  strptime Ftime_Model.c_locale (ws ++ inp) (f ++ 37 :: d :: g) t = Ok None.
Proof.
  intros t ws inp r f g a d ds r2 W NE N R D E ND NM L B. rewrite (strptime_prefix t ws inp r f _ a W NE N R). set (s := set_rest (run (init t (ws ++ inp)) a) r).
  assert (Q : number 2 s = Ok None) by exact (number_long 2 s ds r2 L B ND NM E).
  cbn [In] in D. repeat (destruct D as [<-|D]; [cbn [loop Z.eqb Pos.eqb negb]; unfold directive, in_range; cbn [Z.eqb Pos.eqb orb]; rewrite Q; reflexivity|]). destruct D.
Qed.
(** %c %U %W %x %X %g %G %V %z %Z %s %E %O abort the process *)
Theorem C82_unimplemented_refuted : forall t ws inp r f g a d, Forall space ws -> inp <> [] -> no_more space inp -> reads conv f inp r a ->
  In d [99;85;87;120;88;103;71;86;122;90;115;69;79] ->
  strptime Ftime_Model.c_locale (ws ++ inp) (f ++ 37 :: d :: g) t = Abort.
Proof.
  intros t ws inp r f g a d W NE N R D. rewrite (strptime_prefix t ws inp r f _ a W NE N R).
  cbn [In] in D. repeat (destruct D as [<-|D]; [reflexivity|]). destruct D.
Qed.
(** 1 February 2001 was a Thursday (4): tm_wday is -3 *)
Theorem C82_weekday_refuted : exists t', strptime Ftime_Model.c_locale [50;48;48;49;45;48;50;45;48;49] [37;70] t0 = Ok (Some (t', [])) /\
  tm_year t' = 101 /\ tm_mon t' = 1 /\ tm_mday t' = 1 /\ tm_wday t' = -3.
Proof. eexists. split; [vm_compute; reflexivity|]. auto. Qed.
(** 1 March 2024 is day 60 of the year (counted from 0): tm_yday is 59, that of 29 February is 60 and that of 1 January is 1 *)
Theorem C82_yearday_refuted : exists t1 t2 t3,
  strptime Ftime_Model.c_locale [50;48;50;52;45;48;51;45;48;49] [37;70] t0 = Ok (Some (t1, [])) /\ tm_yday t1 = 59 /\ year_day (2024, 3, 1) = 60 /\
  strptime Ftime_Model.c_locale [50;48;50;52;45;48;50;45;50;57] [37;70] t0 = Ok (Some (t2, [])) /\ tm_yday t2 = 60 /\ year_day (2024, 2, 29) = 59 /\
  strptime Ftime_Model.c_locale [50;48;50;52;45;48;49;45;48;49] [37;70] t0 = Ok (Some (t3, [])) /\ tm_yday t3 = 1 /\ year_day (2024, 1, 1) = 0.
Proof. eexists _, _, _. repeat (split; [vm_compute; reflexivity|]). vm_compute. reflexivity. Qed.
(** %u on "1" (Monday) stores 0 (Sunday); %w takes "9"; %p takes any text and reads nothing; with %p first, "PM 03" is 3 o'clock;
    an empty input is refused even by an empty format *)
Theorem C82_small_refuted : (exists t', strptime Ftime_Model.c_locale [49] [37;117] t0 = Ok (Some (t', [])) /\ tm_wday t' = 0) /\
  (exists t', strptime Ftime_Model.c_locale [57] [37;119] t0 = Ok (Some (t', [])) /\ tm_wday t' = 9) /\
  strptime Ftime_Model.c_locale [120;120] [37;112] t0 = Ok (Some (t0, [120;120])) /\
  (exists t', strptime Ftime_Model.c_locale [80;77;32;48;51] [37;112;32;37;73] t0 = Ok (Some (t', [])) /\ tm_hour t' = 3) /\
  strptime Ftime_Model.c_locale [] [] t0 = Ok None.
Proof. repeat split; try (eexists; split; [vm_compute; reflexivity|reflexivity]). Qed.
Print Assumptions C82_adjacent_refuted.
Print Assumptions C82_unimplemented_refuted.
Print Assumptions C82_weekday_refuted.
Print Assumptions C82_yearday_refuted.
Print Assumptions C82_small_refuted.

(** ** Cases that meet the hypotheses *)
(** " 2023-05-17T" read by "%FT": 17 May 2023, a Wednesday, day 136 *)
Example C82_ex : reads conv [37;70;84] [50;48;50;51;45;48;53;45;49;55;84;33] [33] [Year 2023; Mon 4; Mday 17] /\ year_of (filter is_year [Year 2023; Mon 4; Mday 17]) 2023 /\
  (exists t', strptime Ftime_Model.c_locale [32;50;48;50;51;45;48;53;45;49;55;84;33] [37;70;84] t0 = Ok (Some (t', [33])) /\ tm_year t' = 123 /\ tm_mon t' = 4 /\ tm_mday t' = 17 /\ tm_wday t' = 3 /\ tm_yday t' = 136).
Proof.
  assert (NUM : forall w ds r v, ds <> [] -> Forall numeral ds -> no_more numeral r -> (length ds <= w)%nat -> value ds = v -> reads_number w (ds ++ r) r v).
  { intros w ds r v A1 A2 A3 A4 A5. exists [], ds. repeat (split; [solve [reflexivity|constructor|assumption]|]). auto. }
  split; [|split; [apply y_whole|eexists; split; [vm_compute; reflexivity|auto]]].
  apply (r_conv conv 70 [84] _ [84;33] [33] [Year 2023; Mon 4; Mday 17] []); [|apply r_char; [discriminate|unfold space; lia|apply r_end]].
  apply (c_composite 70 [37;89;45;37;109;45;37;100] [] [50;48;50;51;45;48;53;45;49;55;84;33]); [cbn; auto 10|constructor|discriminate|cbn; unfold space; lia|].
  apply (r_conv simple 89 _ _ [45;48;53;45;49;55;84;33] _ [Year 2023] [Mon 4; Mday 17]); [apply s_year; apply (NUM 4%nat [50;48;50;51]); try discriminate; [repeat constructor; unfold numeral; lia|cbn; unfold numeral; lia|cbn; lia|reflexivity]|].
  apply r_char; [discriminate|unfold space; lia|].
  apply (r_conv simple 109 _ _ [45;49;55;84;33] _ [Mon 4] [Mday 17]); [apply (s_mon _ _ 5); [apply (NUM 2%nat [48;53]); try discriminate; [repeat constructor; unfold numeral; lia|cbn; unfold numeral; lia|cbn; lia|reflexivity]|lia]|].
  apply r_char; [discriminate|unfold space; lia|].
  apply (r_conv simple 100 _ _ [84;33] _ [Mday 17] []); [apply (s_mday 100); [cbn; auto|apply (NUM 2%nat [49;55]); try discriminate; [repeat constructor; unfold numeral; lia|cbn; unfold numeral; lia|cbn; lia|reflexivity]|lia]|apply r_end].
Qed.
(** "%a %b %e %H:%M" can be read back *)
Example C82_ex_tidy : tidy [37;97;32;37;98;32;37;101;32;37;72;58;37;77] [97;98;101;72;77] /\ Ftime_Spec.ftm_ok Ftime_Props.ex_x.
Proof.
  split; [|unfold Ftime_Spec.ftm_ok; cbn; lia].
  repeat (apply t_next; [unfold convs; cbn [In]; auto 20|discriminate|unfold numeral; lia|unfold letter; lia|]). apply t_one. unfold convs. cbn [In]. auto 20.
Qed.
