(** Property C81: strftime and asctime_r. *)
From Verif Require Import Base Str_Spec Mem_Proof Time_Model Time_Proof Snprintf_Model Ftime_Model Ftime_Spec Ftime_Proof Check.
Open Scope Z_scope.

(** strftime stores the text of the format and a null byte and returns the length of the text, if both fit into max bytes; else
    it returns 0 and changes nothing outside the max bytes.  For every locale, all members of struct tm in their ranges and
    years 0 to 9999.  Missing: %c, %x and %X inside a longer format, and %g, %G, %s, %u, %V, %w, %W (see below). *)
Theorem C81_strftime_partial : forall depth l x dest max m fmt out, ftm_ok x -> formatted l x fmt out -> mapped m dest max ->
  ((length out < max)%nat -> exists m', strftime (S depth) l m dest max fmt x = Ok (m', length out) /\ written m m' dest (out ++ [0])) /\
  ((max <= length out)%nat -> exists m', strftime (S depth) l m dest max fmt x = Ok (m', 0%nat) /\ same_outside m m' dest max).
Proof.
  intros depth l x dest max m fmt out X F M. pose proof (strftime_ok depth l x dest max m fmt out X F M) as R. unfold result in R. split; intros H.
  - apply Nat.ltb_lt in H. rewrite H in R. exact R.
  - apply Nat.ltb_ge in H. rewrite H in R. exact R.
Qed.
(** %c, %x and %X alone give the text of the locale's format *)
Theorem C81_composite_partial : forall depth l x dest max m d f out, ftm_ok x ->
  (d, f) = (99, l_dt l) \/ (d, f) = (120, l_d l) \/ (d, f) = (88, l_t l) -> formatted l x f out -> mapped m dest max ->
  ((length out < max)%nat -> exists m', strftime (S (S depth)) l m dest max [37; d] x = Ok (m', length out) /\ written m m' dest (out ++ [0])) /\
  ((max <= length out)%nat -> exists m', strftime (S (S depth)) l m dest max [37; d] x = Ok (m', 0%nat) /\ same_outside m m' dest max).
Proof.
  intros depth l x dest max m d f out X D F M. pose proof (composite l x dest max out X depth m d f D F M) as R. unfold result in R. split; intros H.
  - apply Nat.ltb_lt in H. rewrite H in R. exact R.
  - apply Nat.ltb_ge in H. rewrite H in R. exact R.
Qed.
(** Whatever the format, as long as %O and %E come only before a conversion that allows them: strftime writes nothing outside the max
    bytes, and a result other than 0 is less than max and the index of a null byte.  (It may abort the process, at conversions it
    does not know.) *)
Theorem C81_safe_partial : forall depth l x dest max m fmt o1 o2 o3, ftm_ok x ->
  formatted l x (l_dt l) o1 -> formatted l x (l_d l) o2 -> formatted l x (l_t l) o3 ->
  proper [66;98;100;101;72;73;109;77;83;117;85;86;119;87;121] [99;67;120;88;121;89] fmt -> mapped m dest max ->
  match strftime (S (S depth)) l m dest max fmt x with
  | Ok (m', n) => same_outside m m' dest max /\ (n = 0%nat \/ (n < max)%nat /\ m' (dest + Z.of_nat n) = Some 0)
  | Abort => True
  | UB | Fuel => False
  end.
Proof. intros depth l x dest max m fmt o1 o2 o3 X F1 F2 F3 P M. exact (strftime_safe l x dest max o1 o2 o3 X F1 F2 F3 depth m fmt P M). Qed.
Print Assumptions C81_strftime_partial.
Print Assumptions C81_composite_partial.
Print Assumptions C81_safe_partial.

(** Friday, 29 November 2024, 14:05:09, day 333 of the year, UTC-3:30 *)
Definition ex_x : ftm := {| f_tm := {| tm_sec := 9; tm_min := 5; tm_hour := 14; tm_mday := 29; tm_mon := 10; tm_year := 124; tm_wday := 5; tm_yday := 333 |};
  f_gmtoff := -12600; f_zone := [78;83;84] |}.
Definition buf : mem := mem_of 100 (repeat 7 40).
Fixpoint read (m : mem) (p : Z) (n : nat) : list Z := match n with O => [] | S k => match m p with Some c => c :: read m (p + 1) k | None => [] end end.

(** %c, %x and %X drop what comes before and behind them: "at %X." gives "14:05:09" *)
Theorem C81_composite_refuted : exists m', strftime 2 c_locale buf 100 40 [97;116;32;37;88;46] ex_x = Ok (m', 8%nat) /\
  read m' 100 9 = [49;52;58;48;53;58;48;57;0].
Proof. eexists. split; vm_compute; reflexivity. Qed.
(** %g, %G, %s, %u, %V, %w and %W abort the process *)
Theorem C81_unknown_refuted : forall depth l x dest max m d, In d [103;71;115;117;86;119;87] ->
  strftime (S depth) l m dest max [37; d] x = Abort.
Proof.
  intros depth l x dest max m d H. cbn [strftime loop]. replace (max <? 0)%nat with false by (symmetry; apply Nat.ltb_ge; lia).
  cbn [In] in H. repeat (destruct H as [<-|H]; [reflexivity|]). destruct H.
Qed.
(** "%O+" is copied as it is, without looking at the size: with max = 1, bytes 1 and 2 behind the buffer are overwritten (and the process
    is stopped only then); "%E" at the end returns with the bytes behind the buffer overwritten *)
Theorem C81_modifier_refuted : exists m', strftime 2 c_locale buf 100 1 [37; 69] ex_x = Ok (m', 2%nat) /\ read m' 100 4 = [37; 69; 0; 7].
Proof. eexists. split; vm_compute; reflexivity. Qed.
(** years before 0: %y and %C are negative numbers *)
Theorem C81_negative_refuted : exists m', strftime 2 c_locale buf 100 40 [37; 121]
    {| f_tm := {| tm_sec := 0; tm_min := 0; tm_hour := 0; tm_mday := 1; tm_mon := 0; tm_year := -1905; tm_wday := 0; tm_yday := 0 |}; f_gmtoff := 0; f_zone := [] |} = Ok (m', 3%nat) /\
  read m' 100 4 = [45; 48; 53; 0].
Proof. eexists. split; vm_compute; reflexivity. Qed.
Print Assumptions C81_composite_refuted.
Print Assumptions C81_unknown_refuted.
Print Assumptions C81_modifier_refuted.
Print Assumptions C81_negative_refuted.

(** ** asctime_r: for years with four digits, 25 characters and a null byte: "Fri Nov 29 14:05:09 2024\n" *)
Definition asctime_text (t : tm) (year : list Z) : list Z :=
  firstn 3 (name_of day_names (tm_wday t)) ++ [32] ++ firstn 3 (name_of month_names (tm_mon t)) ++ [32] ++ padded (tm_mday t) ++ [32] ++
  two (tm_hour t) ++ [58] ++ two (tm_min t) ++ [58] ++ two (tm_sec t) ++ [32] ++ year ++ [10].
Lemma asctime_ok : forall m b t y, ftm_ok {| f_tm := t; f_gmtoff := 0; f_zone := [] |} \/ 
    (ftm_ok {| f_tm := {| tm_sec := tm_sec t; tm_min := tm_min t; tm_hour := tm_hour t; tm_mday := tm_mday t; tm_mon := tm_mon t; tm_year := 0; tm_wday := tm_wday t; tm_yday := tm_yday t |}; f_gmtoff := 0; f_zone := [] |} /\ 0 <= 1900 + tm_year t < 100000) ->
  plain_number (1900 + tm_year t) y -> mapped m b (length (asctime_text t y) + 1) ->
  exists m', asctime_r m b t = Ok m' /\ written m m' b (asctime_text t y ++ [0]).
Proof.
  intros m b t y V P M. unfold ftm_ok in V. cbn [f_tm f_gmtoff tm_sec tm_min tm_hour tm_mday tm_mon tm_year tm_wday tm_yday] in V.
  assert (B : 0 <= tm_sec t <= 60 /\ 0 <= tm_min t <= 59 /\ 0 <= tm_hour t <= 23 /\ 1 <= tm_mday t <= 31 /\ 0 <= tm_mon t <= 11 /\ 0 <= 1900 + tm_year t < 100000 /\ 0 <= tm_wday t <= 6) by (destruct V as [V|[V V1]]; lia). clear V.
  unfold asctime_r. replace (tm_wday t <? 0) with false by lia. replace (tm_wday t >? 6) with false by lia. replace (tm_mon t <? 0) with false by lia. replace (tm_mon t >? 11) with false by lia. cbn [orb].
  rewrite i32_ok by lia. cbn [bind]. replace (tm_year t + 1900) with (1900 + tm_year t) by lia. rewrite (plain_digits _ y) by (auto; lia).
  rewrite !digits_two by lia.
  assert (W3 : widthd 3 (tm_mday t) = [32] ++ padded (tm_mday t)).
  { rewrite <- width_two by lia. unfold widthd, precd. replace (tm_mday t <? 0) with false by lia. rewrite Z.abs_eq by lia. cbn [digits]. destruct (tm_mday t <? 10) eqn:E; [reflexivity|]. replace (tm_mday t / 10 <? 10) with true by lia. reflexivity. }
  rewrite W3. 
  assert (E : firstn 3 (name_of day_names (tm_wday t)) ++ [32] ++ firstn 3 (name_of month_names (tm_mon t)) ++ ([32] ++ padded (tm_mday t)) ++ [32] ++ two (tm_hour t) ++ [58] ++ two (tm_min t) ++ [58] ++ two (tm_sec t) ++ [32] ++ y ++ [10] ++ [0] = asctime_text t y ++ [0]).
  { unfold asctime_text. rewrite <- !app_assoc. reflexivity. }
  rewrite E. apply store_list_ok. rewrite app_length. exact M.
Qed.
Lemma names3 : forall ns i, Forall (fun n => 3 <= length n)%nat ns -> 0 <= i < Z.of_nat (length ns) -> length (firstn 3 (name_of ns i)) = 3%nat.
Proof.
  intros ns i F H. rewrite firstn_length. unfold name_of. rewrite Forall_forall in F. specialize (F (nth (Z.to_nat i) ns []) ltac:(apply nth_In; lia)). lia.
Qed.
Lemma asctime_length : forall t y, 0 <= tm_wday t <= 6 -> 0 <= tm_mon t <= 11 -> length (asctime_text t y) = (21 + length y)%nat.
Proof.
  intros t y H1 H2. unfold asctime_text. rewrite !app_length. rewrite (names3 day_names) by (try (repeat constructor); cbn; lia). rewrite (names3 month_names) by (try (repeat constructor); cbn; lia). cbn [length two padded]. lia.
Qed.
Theorem C81_asctime_partial : forall m b t, ftm_ok {| f_tm := t; f_gmtoff := 0; f_zone := [] |} -> 1000 <= 1900 + tm_year t -> mapped m b 26 ->
  exists m', asctime_r m b t = Ok m' /\
    written m m' b (asctime_text t (two ((1900 + tm_year t) / 100) ++ two ((1900 + tm_year t) mod 100)) ++ [0]) /\
    length (asctime_text t (two ((1900 + tm_year t) / 100) ++ two ((1900 + tm_year t) mod 100))) = 25%nat.
Proof.
  intros m b t V Y M. pose proof V as V'. unfold ftm_ok in V'. cbn [f_tm f_gmtoff tm_sec tm_min tm_hour tm_mday tm_mon tm_year tm_wday tm_yday] in V'.
  assert (L : length (asctime_text t (two ((1900 + tm_year t) / 100) ++ two ((1900 + tm_year t) mod 100))) = 25%nat) by (rewrite asctime_length by lia; reflexivity).
  destruct (asctime_ok m b t (two ((1900 + tm_year t) / 100) ++ two ((1900 + tm_year t) mod 100))) as (m' & E & W); auto.
  - unfold plain_number, two, value. cbn [app fold_left hd]. split; [discriminate|]. split; [repeat constructor; lia|]. split; [lia|]. lia.
  - rewrite L. exact M.
  - eauto.
Qed.
(** a year of five digits makes asctime_r write 27 bytes into the buffer of 26 that POSIX (and asctime) provide *)
Theorem C81_asctime_refuted : exists t m', asctime_r buf 100 t = Ok m' /\ buf 126 = Some 7 /\ m' 126 = Some 0 /\
  tm_year t + 1900 = 10000 /\ ftm_ok {| f_tm := {| tm_sec := tm_sec t; tm_min := tm_min t; tm_hour := tm_hour t; tm_mday := tm_mday t; tm_mon := tm_mon t; tm_year := 0; tm_wday := tm_wday t; tm_yday := tm_yday t |}; f_gmtoff := 0; f_zone := [] |}.
Proof.
  exists {| tm_sec := 9; tm_min := 5; tm_hour := 14; tm_mday := 29; tm_mon := 10; tm_year := 8100; tm_wday := 5; tm_yday := 333 |}. eexists.
  split; [vm_compute; reflexivity|]. split; [reflexivity|]. split; [vm_compute; reflexivity|]. split; [reflexivity|]. unfold ftm_ok. cbn. lia.
Qed.
Print Assumptions C81_asctime_partial.
Print Assumptions C81_asctime_refuted.

(** "%F %I%p" of the example: the hypotheses hold and the text is "2024-11-29 02PM" *)
Example C81_ex : ftm_ok ex_x /\ formatted c_locale ex_x [37;70;32;37;73;37;112] [50;48;50;52;45;49;49;45;50;57;32;48;50;80;77] /\ mapped buf 100 40.
Proof.
  split; [unfold ftm_ok; cbn; lia|]. split.
  - apply (fmt_field _ _ _ ([50;48;50;52] ++ [45] ++ [49;49] ++ [45] ++ [50;57]) _ [32;48;50;80;77]).
    + apply f_F; [apply f_year; split; [discriminate|]; split; [repeat constructor; lia|]; split; [reflexivity|cbn; discriminate]|exact (f_month c_locale ex_x)|exact (f_mday c_locale ex_x)].
    + apply fmt_char; [discriminate|]. apply (fmt_field _ _ _ [48;50] _ [80;77]); [exact (f_hour12 c_locale ex_x)|].
      apply (fmt_field _ _ _ [80;77] _ []); [|apply fmt_end]. apply (f_pm c_locale ex_x). cbn. lia.
  - intros i Hi. do 40 (destruct i as [|i]; [discriminate|]). lia.
Qed.
Example C81_ex_run : exists m', strftime 1 c_locale buf 100 40 [37;70;32;37;73;37;112;37;122;37;85] ex_x = Ok (m', 22%nat) /\
  read m' 100 23 = [50;48;50;52;45;49;49;45;50;57;32;48;50;80;77;45;48;51;51;48;52;55;0].
Proof. eexists. split; vm_compute; reflexivity. Qed.
(** the formats of the C locale satisfy the hypothesis of C81_safe_partial *)
Example C81_ex_locale : exists o1 o2 o3, formatted c_locale ex_x (l_dt c_locale) o1 /\ formatted c_locale ex_x (l_d c_locale) o2 /\ formatted c_locale ex_x (l_t c_locale) o3.
Proof.
  do 3 eexists. split; [|split].
  - cbn [l_dt c_locale]. apply fmt_field; [apply f_abday|]. apply fmt_char; [discriminate|]. apply fmt_field; [apply f_abmon|]. apply fmt_char; [discriminate|].
    apply fmt_field; [apply f_mday_e|]. apply fmt_char; [discriminate|]. apply fmt_field; [apply f_hour|]. apply fmt_char; [discriminate|]. apply fmt_field; [apply f_minute|]. apply fmt_char; [discriminate|].
    apply fmt_field; [apply f_second|]. apply fmt_char; [discriminate|]. apply fmt_field; [|apply fmt_end]. apply (f_year _ _ [50;48;50;52]).
    split; [discriminate|]; split; [repeat constructor; lia|]; split; [reflexivity|cbn; discriminate].
  - cbn [l_d c_locale]. apply fmt_field; [apply f_month|]. apply fmt_char; [discriminate|]. apply fmt_field; [apply f_mday|]. apply fmt_char; [discriminate|]. apply fmt_field; [apply f_yy|apply fmt_end].
  - cbn [l_t c_locale]. apply fmt_field; [apply f_hour|]. apply fmt_char; [discriminate|]. apply fmt_field; [apply f_minute|]. apply fmt_char; [discriminate|]. apply fmt_field; [apply f_second|apply fmt_end].
Qed.
