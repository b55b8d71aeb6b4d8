(** Proofs about syslog. *)
From Verif Require Import Base Mem_Model Inet_Model Hosts_Spec Users_Proof Syslog_Model Syslog_Spec.
Open Scope Z_scope.

(** ** Bits *)
Lemma valid_priority p : (Z.land p (Z.lnot 1023) =? 0) = true <-> 0 <= p < 1024.
Proof.
  rewrite Z.eqb_eq. change 1023 with (Z.ones 10). rewrite <- Z.ldiff_land. rewrite Z.ldiff_ones_r by lia. rewrite Z.shiftr_div_pow2, Z.shiftl_mul_pow2 by lia.
  change (2 ^ 10) with 1024. pose proof (Z.div_mod p 1024 ltac:(lia)). pose proof (Z.mod_pos_bound p 1024 ltac:(lia)). split; intro.
  - assert (p / 1024 = 0) by lia. lia.
  - rewrite Z.div_small by lia. lia.
Qed.
Lemma mask_bit mask i : 0 <= i -> (Z.land mask (2 ^ i) =? 0) = negb (Z.testbit mask i).
Proof.
  intro I. destruct (Z.testbit mask i) eqn:T; cbn [negb].
  - apply Z.eqb_neq. intro H. apply (f_equal (fun x => Z.testbit x i)) in H. rewrite Z.land_spec, T, Z.pow2_bits_true in H by lia. rewrite Z.bits_0 in H. discriminate.
  - apply Z.eqb_eq. apply Z.bits_inj. intro k. rewrite Z.land_spec, Z.bits_0. destruct (Z.eq_dec k i) as [->|N]; [rewrite T; reflexivity|]. rewrite Z.pow2_bits_false by auto. apply andb_false_r.
Qed.
Lemma level p : Z.land p 7 = p mod 8. Proof. change 7 with (Z.ones 3). rewrite Z.land_ones by lia. reflexivity. Qed.
Lemma facility_bits p : 0 <= p < 1024 -> (Z.land p LOG_FACMASK =? 0) = (p / 8 =? 0).
Proof.
  intro P. assert (A : forallb (fun p => Bool.eqb (Z.land p LOG_FACMASK =? 0) (p / 8 =? 0)) (map Z.of_nat (seq 0 1024)) = true) by (vm_compute; reflexivity).
  rewrite forallb_forall in A. apply eqb_prop. apply A. apply in_map_iff. exists (Z.to_nat p). split; [lia|]. apply in_seq. lia.
Qed.
Lemma enabled_dec mask p : enabled mask p <-> (Z.land mask (2 ^ (Z.land p 7)) =? 0) || negb (Z.land p (Z.lnot 1023) =? 0) = false.
Proof.
  rewrite level, mask_bit by (apply Z.mod_pos_bound; lia). rewrite orb_false_iff, !negb_false_iff, valid_priority. unfold enabled. tauto.
Qed.

(** ** Numbers *)
Lemma number_head f : forall n, 0 < n < 2 ^ Z.of_nat f -> exists c r, number f 10 n = c :: r /\ c <> 48.
Proof.
  induction f as [|f IH]; intros n N; [cbn in N; lia|]. cbn [number]. destruct (Z.ltb_spec n 10).
  - exists (48 + n), []. unfold digit_char. destruct (Z.ltb_spec n 10); [|lia]. split; [reflexivity|lia].
  - rewrite Nat2Z.inj_succ, Z.pow_succ_r in N by lia. pose proof (Z.div_mod n 10 ltac:(lia)). pose proof (Z.mod_pos_bound n 10 ltac:(lia)).
    destruct (IH (n / 10)) as (c & r & E & C); [split; [lia|apply Z.div_lt_upper_bound; lia]|]. exists c, (r ++ [digit_char (n mod 10)]). rewrite E. auto.
Qed.
Lemma number_length f : forall n, (length (number f 10 n) <= f)%nat.
Proof. induction f as [|f IH]; intro n; cbn [number]; [cbn; lia|]. destruct (n <? 10); [cbn; lia|]. rewrite app_length. cbn [length]. specialize (IH (n / 10)). lia. Qed.
Lemma dec_length n : (length (dec n) <= 65)%nat.
Proof. unfold dec, num. destruct (n <? 0); cbn [length]; match goal with |- context [number 64 10 ?x] => pose proof (number_length 64 x) end; lia. Qed.
Lemma dec_canonical n : 0 <= n < 2 ^ 64 -> canonical (dec n) n.
Proof.
  intro N. unfold dec. destruct (Z.ltb_spec n 0); [lia|]. unfold num. split; [apply number_decimal; [change (Z.of_nat 64) with 64; lia|lia]|].
  destruct (Z.eq_dec n 0) as [->|]; [left; reflexivity|]. right. apply number_head. change (Z.of_nat 64) with 64. lia.
Qed.
Lemma full_range p f : 0 <= p < 1024 -> 0 <= f < 2 ^ 31 -> 0 <= full_priority p f < 2 ^ 64.
Proof.
  intros P F. unfold full_priority. destruct (p / 8 =? 0); [|lia]. split; [apply Z.lor_nonneg; lia|].
  destruct (Z.eq_dec (Z.lor p f) 0) as [->|N]; [lia|]. assert (0 <= Z.lor p f) by (apply Z.lor_nonneg; lia). apply Z.log2_lt_pow2; [lia|].
  rewrite Z.log2_lor by lia. apply Z.max_lub_lt.
  - destruct (Z.eq_dec p 0) as [->|]; [cbn; lia|]. apply Z.log2_lt_pow2; lia.
  - destruct (Z.eq_dec f 0) as [->|]; [cbn; lia|]. apply Z.log2_lt_pow2; lia.
Qed.

(** ** The buffer *)
Lemma firstn_exact (a b : list Z) : firstn (length a) (a ++ b) = a. Proof. rewrite firstn_app, Nat.sub_diag, firstn_all. cbn [firstn]. apply app_nil_r. Qed.
Lemma skipn_exact (a b : list Z) : skipn (length a) (a ++ b) = b. Proof. rewrite skipn_app, Nat.sub_diag, skipn_all. reflexivity. Qed.
Lemma snprint_ok pre suf t : length (pre ++ suf) = 1024%nat -> (length pre < 1024)%nat ->
  exists suf', snprint (pre ++ suf) (length pre) t = Ok (pre ++ firstn (1023 - length pre) t ++ 0 :: suf') /\ length (pre ++ firstn (1023 - length pre) t ++ 0 :: suf') = 1024%nat.
Proof.
  intros L P. unfold snprint. destruct (Nat.ltb_spec 1024 (length pre)); [lia|]. destruct (Nat.eqb_spec 1024 (length pre)); [lia|].
  replace (1024 - length pre - 1)%nat with (1023 - length pre)%nat by lia. unfold wr. set (k := firstn (1023 - length pre) t).
  assert (K : (length k <= 1023 - length pre)%nat) by (unfold k; rewrite firstn_length; lia).
  rewrite app_length. cbn [length]. destruct (Nat.leb_spec (length pre + (length k + 1)) 1024); [|lia].
  exists (skipn (length pre + (length k + 1)) (pre ++ suf)). rewrite firstn_exact, <- app_assoc. split; [reflexivity|].
  rewrite !app_length. cbn [length]. rewrite skipn_length, L. lia.
Qed.
Lemma last_nth (l : list Z) : l <> [] -> nth_error l (length l - 1) = Some (last l 0).
Proof.
  induction l as [|a l IH] using rev_ind; [congruence|]. intros _. rewrite last_last, app_length. cbn [length]. rewrite nth_error_app2 by lia. replace (length l + 1 - 1 - length l)%nat with O by lia. reflexivity.
Qed.

Section Log.
Variable ans : list event -> Z.
Variable getpid : Z.
Definition good (s : state) : Prop := (length (log_ident s) <= 31)%nat /\ log_opt s = 0.

Lemma open_good x : good (fst x) -> good (fst (open_log ans x)).
Proof. destruct x as [s h]. intro G. unfold open_log. cbv zeta. destruct (0 <=? ans (Socket :: h)); exact G. Qed.
Lemma open_fields x : let y := open_log ans x in log_ident (fst y) = log_ident (fst x) /\ log_facility (fst y) = log_facility (fst x) /\ log_mask (fst y) = log_mask (fst x) /\
  (snd y = Socket :: snd x /\ log_fd (fst y) < 0 /\ use_mlibc_logger (fst y) = use_mlibc_logger (fst x) \/
   snd y = Connect (log_fd (fst y)) :: Socket :: snd x /\ 0 <= log_fd (fst y) /\ use_mlibc_logger (fst y) = (if ans (snd y) =? 0 then use_mlibc_logger (fst x) else true)).
Proof.
  destruct x as [s h]. unfold open_log. cbv zeta. destruct (Z.leb_spec 0 (ans (Socket :: h))); cbn; repeat split; auto.
Qed.

Lemma lost_dec e : is_lost_conn e = true <-> lost e.
Proof. unfold is_lost_conn, lost. rewrite !orb_true_iff, !Z.eqb_eq. tauto. Qed.
Definition sent (fd : Z) (l : list Z) (h h' : list event) : Prop :=
  (h' = Send fd l :: h /\ ~ lost (ans h')) \/
  (h' = Connect fd :: Send fd l :: h /\ lost (ans (Send fd l :: h)) /\ ans h' <> 0) \/
  (h' = Send fd l :: Connect fd :: Send fd l :: h /\ lost (ans (Send fd l :: h)) /\ ans (Connect fd :: Send fd l :: h) = 0).
Lemma deliver_sent fd l h : sent fd l h (snd (deliver ans fd l h)).
Proof.
  unfold deliver, sent. cbv zeta. destruct (Z.eqb_spec (ans (Send fd l :: h)) 0) as [E|E].
  - left. cbn [snd]. split; [reflexivity|]. rewrite E. unfold lost. lia.
  - destruct (is_lost_conn (ans (Send fd l :: h))) eqn:L; cbn [negb].
    + apply lost_dec in L. destruct (Z.eqb_spec (ans (Connect fd :: Send fd l :: h)) 0); cbn [negb snd]; auto.
    + left. split; [reflexivity|]. cbn [snd]. intro C. apply lost_dec in C. congruence.
Qed.

Lemma vsyslog_ok p time text s h : good s -> length time = 15%nat -> enabled (log_mask s) p -> Z.land p (log_mask s) <> 0 ->
  let o := connected ans (s, h) in
  exists h', vsyslog ans getpid p time text (s, h) = Ok (fst o, h') /\
    if use_mlibc_logger (fst o) then h' = Info (firstn 1023 (match text with Some t => t | None => [] end)) :: snd o
    else match text with
         | None => h' = snd o
         | Some t => sent (log_fd (fst o)) (line (dec (full_priority p (log_facility s))) time (log_ident s) t) (snd o) h'
         end.
Proof.
  intros G T E N. cbv zeta. unfold vsyslog. cbn [fst]. pose proof E as E'. apply enabled_dec in E'. rewrite E'. unfold vsyslog_. cbn [fst].
  destruct (Z.eqb_spec (Z.land p (log_mask s)) 0); [congruence|].
  assert (OF : log_ident (fst (connected ans (s, h))) = log_ident s /\ log_facility (fst (connected ans (s, h))) = log_facility s /\
     log_opt (fst (connected ans (s, h))) = 0).
  { unfold connected. cbn [fst]. destruct (log_fd s <? 0).
    - destruct (open_fields (s, h)) as (A & B & _). destruct (open_good (s, h) G) as [_ C]. auto.
    - destruct G. auto. }
  set (o := connected ans (s, h)) in *. clearbody o. destruct o as [s1 h1]. cbn [fst snd] in *. destruct OF as (O1 & O2 & O3).
  destruct (use_mlibc_logger s1); [eexists; split; reflexivity|].
  destruct E as [P _]. rewrite (facility_bits p P). rewrite O1, O2, O3. change (Z.land 0 LOG_PID) with 0. change (Z.land 0 LOG_CONS) with 0. change (Z.land 0 LOG_PERROR) with 0.
  cbv zeta. rewrite !Z.eqb_refl. cbn [app]. fold (full_priority p (log_facility s)). set (pr := full_priority p (log_facility s)).
  set (head := 60 :: dec pr ++ 62 :: time ++ [32]). set (header := 60 :: (dec pr ++ 62 :: time ++ [32]) ++ log_ident s ++ [58; 32]).
  assert (HH : header = head ++ log_ident s ++ [58; 32]) by reflexivity.
  assert (HL : (length header <= 120)%nat).
  { rewrite HH. unfold head. cbn [length app]. rewrite !app_length. cbn [length]. rewrite !app_length. cbn [length]. pose proof (dec_length pr). destruct G as [G1 _]. lia. }
  assert (HD : (length head <= length header)%nat) by (rewrite HH, app_length; lia).
  clearbody head.
  destruct (snprint_ok [] (repeat 170 1024) header) as (suf & SP & SL); [rewrite app_nil_l; apply repeat_length|cbn; lia|]. rewrite !app_nil_l in *. change (length (@nil Z)) with 0%nat in *. change (1023 - 0)%nat with 1023%nat in *.
  rewrite (firstn_all2 (n := 1023) header) in * by lia. rewrite SP. cbn [bind].
  destruct (snprint_ok header (0 :: suf) (match text with Some t => t | None => [] end)) as (suf2 & -> & SL2); [exact SL|lia|]. cbn [bind].
  destruct text as [t|]; [|eexists; split; reflexivity].
  set (L := if (1024 - length header <=? length t)%nat then 1023%nat else (length header + length t)%nat).
  assert (S1E : exists S1, S1 = header ++ firstn (1023 - length header) t) by eauto. destruct S1E as (S1 & S1E).
  assert (LS : L = length S1).
  { unfold L. rewrite S1E, app_length, firstn_length. destruct (Nat.leb_spec (1024 - length header) (length t)); lia. }
  assert (SB : header ++ firstn (1023 - length header) t ++ 0 :: suf2 = S1 ++ 0 :: suf2) by (rewrite S1E, <- app_assoc; reflexivity).
  rewrite SB in *. assert (SN : S1 <> []) by (rewrite S1E; unfold header; discriminate).
  assert (SF : S1 = firstn 1023 ([60] ++ dec pr ++ [62] ++ time ++ [32] ++ log_ident s ++ [58; 32] ++ t)).
  { rewrite S1E. replace ([60] ++ dec pr ++ [62] ++ time ++ [32] ++ log_ident s ++ [58; 32] ++ t) with (header ++ t).
    2: { unfold header. cbn [app]. rewrite <- !app_assoc. cbn [app]. rewrite <- ?app_assoc. reflexivity. }
    rewrite firstn_app. rewrite (firstn_all2 (n := 1023) header) by lia. reflexivity. }
  assert (SH : (length header <= length S1 <= 1023)%nat) by (rewrite S1E, app_length, firstn_length; lia).
  unfold read_at. rewrite LS. rewrite nth_error_app1 by (destruct S1; [congruence|cbn [length]; lia]). rewrite last_nth by exact SN. cbn [bind].
  unfold line. rewrite <- SF. destruct (Z.eqb_spec (last S1 0) 10) as [Q|Q]; cbn [negb bind].
  - unfold read_range at 1. rewrite SL2. cbn [Nat.add]. destruct (Nat.leb_spec (length S1) 1024); [|lia]. cbn [bind skipn]. rewrite firstn_exact.
    unfold read_range. rewrite SL2. destruct (Nat.leb_spec (length head + (length S1 - length head)) 1024); [|lia]. cbn [bind].
    pose proof (deliver_sent (log_fd s1) S1 h1) as DS. destruct (deliver ans (log_fd s1) S1 h1) as [fl h']. cbn [snd] in DS. rewrite andb_false_r. exists h'. split; [reflexivity|exact DS].
  - unfold wr. cbn [length]. destruct (Nat.leb_spec (length S1 + 1) 1024); [|lia]. cbn [bind]. rewrite firstn_exact.
    assert (WL : length (S1 ++ [10] ++ skipn (length S1 + 1) (S1 ++ 0 :: suf2)) = 1024%nat) by (rewrite !app_length, skipn_length, SL2; cbn [length]; lia).
    unfold read_range at 1. rewrite WL. cbn [Nat.add]. destruct (Nat.leb_spec (S (length S1)) 1024); [|lia]. cbn [bind skipn].
    replace (firstn (S (length S1)) (S1 ++ [10] ++ skipn (length S1 + 1) (S1 ++ 0 :: suf2))) with (S1 ++ [10]).
    2: { rewrite app_assoc. replace (S (length S1)) with (length (S1 ++ [10])) by (rewrite app_length; apply Nat.add_1_r). rewrite firstn_exact. reflexivity. }
    unfold read_range. rewrite WL. destruct (Nat.leb_spec (length head + (S (length S1) - length head)) 1024); [|lia]. cbn [bind].
    pose proof (deliver_sent (log_fd s1) (S1 ++ [10]) h1) as DS. destruct (deliver ans (log_fd s1) (S1 ++ [10]) h1) as [fl h']. cbn [snd] in DS. rewrite andb_false_r. exists h'. split; [reflexivity|exact DS].
Qed.
Lemma vsyslog_off p time text s h : (~ enabled (log_mask s) p \/ Z.land p (log_mask s) = 0) -> vsyslog ans getpid p time text (s, h) = Ok (s, h).
Proof.
  intro H. unfold vsyslog. cbn [fst]. destruct (_ || _) eqn:E; [reflexivity|]. destruct H as [H|H]; [elim H; apply enabled_dec; exact E|].
  unfold vsyslog_. cbn [fst]. rewrite H. reflexivity.
Qed.
Lemma vsyslog_fields p time text s h : good s -> length time = 15%nat -> exists s' h' new, vsyslog ans getpid p time text (s, h) = Ok (s', h') /\ good s' /\ log_ident s' = log_ident s /\
  log_facility s' = log_facility s /\ log_mask s' = log_mask s /\ h' = new ++ h /\ (use_mlibc_logger s = true -> use_mlibc_logger s' = true) /\
  Forall (fun e => match e with OpenConsole | Console _ _ | Stderr _ => False | Send _ _ => use_mlibc_logger s = false | _ => True end) new.
Proof.
  intros G T.
  assert (D : (enabled (log_mask s) p /\ Z.land p (log_mask s) <> 0) \/ (~ enabled (log_mask s) p \/ Z.land p (log_mask s) = 0)).
  { destruct (Z.eq_dec (Z.land p (log_mask s)) 0); [auto|]. destruct ((Z.land (log_mask s) (2 ^ (Z.land p 7)) =? 0) || negb (Z.land p (Z.lnot 1023) =? 0)) eqn:E.
    - right. left. rewrite enabled_dec. congruence.
    - left. rewrite enabled_dec. auto. }
  destruct D as [[E N]|D].
  2: { exists s, h, []. rewrite (vsyslog_off p time text s h D). repeat (split; [solve [auto | exact (proj1 G) | exact (proj2 G)]|]). constructor. }
  destruct (vsyslog_ok p time text s h G T E N) as (h' & V & R). cbv zeta in *.
  assert (O : exists on, snd (connected ans (s, h)) = on ++ h /\ good (fst (connected ans (s, h))) /\
     log_ident (fst (connected ans (s, h))) = log_ident s /\ log_facility (fst (connected ans (s, h))) = log_facility s /\
     log_mask (fst (connected ans (s, h))) = log_mask s /\
     (use_mlibc_logger s = true -> use_mlibc_logger (fst (connected ans (s, h))) = true) /\ Forall (fun e => match e with Socket | Connect _ => True | _ => False end) on).
  { unfold connected. cbn [fst]. destruct (log_fd s <? 0).
    - destruct (open_fields (s, h)) as (A & B & C & D). pose proof (open_good (s, h) G). cbn [fst snd] in *. destruct D as [(D1 & _ & D3)|(D1 & _ & D3)].
      + exists [Socket]. rewrite D1, D3. repeat (split; [solve [auto]|]). auto.
      + exists [Connect (log_fd (fst (open_log ans (s, h)))); Socket]. rewrite D1 at 1. repeat (split; [solve [auto]|]). split; [rewrite D3; intros ->; destruct (_ =? 0); reflexivity|auto].
    - exists []. cbn [fst snd]. repeat (split; [solve [auto]|]). auto. }
  set (o := connected ans (s, h)) in *. clearbody o. destruct o as [s1 h1]. cbn [fst snd] in *. destruct O as (on & -> & O1 & O2 & O3 & O4 & O5 & O6).
  assert (OF : Forall (fun e => match e with OpenConsole | Console _ _ | Stderr _ => False | Send _ _ => use_mlibc_logger s = false | _ => True end) on).
  { eapply Forall_impl; [|exact O6]. intros []; tauto. }
  destruct (use_mlibc_logger s1) eqn:U.
  - exists s1, h', (Info (firstn 1023 (match text with Some t => t | None => [] end)) :: on). rewrite V, R, U. repeat (split; [solve [auto]|]). constructor; auto.
  - assert (US : use_mlibc_logger s = false) by (destruct (use_mlibc_logger s); [|reflexivity]; discriminate (O5 eq_refl)).
    destruct text as [t|].
    + set (ln := line (dec (full_priority p (log_facility s))) time (log_ident s) t) in *. set (fd := log_fd s1) in *.
      assert (X : exists pre, h' = pre ++ on ++ h /\ Forall (fun e => match e with Send _ _ | Connect _ => True | _ => False end) pre).
      { destruct R as [(R & _)|[(R & _)|(R & _)]]; [exists [Send fd ln]|exists [Connect fd; Send fd ln]|exists [Send fd ln; Connect fd; Send fd ln]]; (split; [exact R|repeat constructor]). }
      destruct X as (pre & X & PF). exists s1, h', (pre ++ on). rewrite V. rewrite <- app_assoc. repeat (split; [solve [auto | congruence]|]). apply Forall_app. split; [|exact OF].
      eapply Forall_impl; [|exact PF]. intros []; tauto.
    + exists s1, h', on. rewrite V, R. repeat (split; [solve [auto | congruence]|]). exact OF.
Qed.

Definition fits (u : bool) (e : event) : Prop := match e with OpenConsole | Console _ _ | Stderr _ => False | Send _ _ => u = false | _ => True end.
Lemma fits_weak u e : fits u e -> fits false e. Proof. destruct e; cbn; auto. Qed.
Lemma step_fields c s h : good s -> 0 <= log_facility s < 2 ^ 31 -> proper_call c -> exists s' h' new, step ans getpid c (s, h) = Ok (s', h') /\ good s' /\ 0 <= log_facility s' < 2 ^ 31 /\
  log_ident s' = (match c with Openlog (Some i) _ _ => firstn 31 i | Openlog None _ _ => [] | _ => log_ident s end) /\
  log_facility s' = (match c with Openlog _ _ f => f | _ => log_facility s end) /\ log_mask s' = (match c with Setlogmask m => m | _ => log_mask s end) /\
  h' = new ++ h /\ (use_mlibc_logger s = true -> use_mlibc_logger s' = true) /\ Forall (fits (use_mlibc_logger s)) new.
Proof.
  intros G F P. destruct c as [i o f| |m|p tm t]; cbn [step proper_call] in *.
  - unfold openlog. set (s0 := {| log_ident := match i with Some i => firstn 31 i | None => [] end; log_options := o; log_facility := f; log_fd := log_fd s; log_opt := log_opt s;
      log_mask := log_mask s; use_mlibc_logger := use_mlibc_logger s |}).
    assert (G0 : good s0). { destruct G as [G1 G2]. split; [|exact G2]. unfold s0. cbn [log_ident]. destruct i; [rewrite firstn_length; lia|cbn; lia]. }
    assert (I0 : log_ident s0 = match i with Some i => firstn 31 i | None => [] end) by reflexivity.
    destruct (negb (Z.land o LOG_NDELAY =? 0) && (log_fd s0 <? 0)).
    + destruct (open_fields (s0, h)) as (A & B & C & D). pose proof (open_good (s0, h) G0) as G1. destruct (open_log ans (s0, h)) as [s1 h1]. cbn [fst snd] in *.
      destruct D as [(-> & _ & D)|(-> & _ & D)].
      * exists s1, (Socket :: h), [Socket]. rewrite A, B, C, I0, D. destruct i; repeat (split; [solve [auto]|]); repeat constructor.
      * exists s1, (Connect (log_fd s1) :: Socket :: h), [Connect (log_fd s1); Socket].
        assert (U : use_mlibc_logger s = true -> use_mlibc_logger s1 = true) by (rewrite D; cbn [use_mlibc_logger s0]; intros ->; destruct (_ =? 0); reflexivity).
        rewrite A, B, C, I0. destruct i; repeat (split; [solve [auto]|]); repeat constructor.
    + exists s0, h, []. destruct i; repeat (split; [solve [auto]|]); repeat constructor.
  - unfold closelog. eexists _, _, [Close (log_fd s)]. repeat (split; [solve [reflexivity | exact G | auto]|]). repeat constructor.
  - unfold setlogmask. cbn [snd]. eexists _, _, []. repeat (split; [solve [reflexivity | exact G | auto]|]). repeat constructor.
  - destruct (vsyslog_fields p tm t s h G P) as (s' & h' & new & V & G' & A & B & C & D & E & N). exists s', h', new. rewrite B. repeat (split; [solve [auto]|]). exact N.
Qed.
Lemma run_fields : forall cs s h, good s -> 0 <= log_facility s < 2 ^ 31 -> Forall proper_call cs -> exists s' h' new, run ans getpid cs (s, h) = Ok (s', h') /\ good s' /\ 0 <= log_facility s' < 2 ^ 31 /\
  log_ident s' = fold_left (fun a c => match c with Openlog (Some i) _ _ => firstn 31 i | Openlog None _ _ => [] | _ => a end) cs (log_ident s) /\
  log_facility s' = fold_left (fun a c => match c with Openlog _ _ f => f | _ => a end) cs (log_facility s) /\
  log_mask s' = fold_left (fun a c => match c with Setlogmask m => m | _ => a end) cs (log_mask s) /\
  h' = new ++ h /\ (use_mlibc_logger s = true -> use_mlibc_logger s' = true) /\ Forall (fits (use_mlibc_logger s)) new.
Proof.
  induction cs as [|c cs IH]; intros s h G F P.
  - exists s, h, []. cbn [run fold_left]. repeat (split; [solve [auto]|]). constructor.
  - inversion P; subst. destruct (step_fields c s h G F H1) as (s1 & h1 & n1 & ST & G1 & F1 & A & B & C & D & E & N). cbn [run]. rewrite ST. cbn [bind fold_left].
    destruct (IH s1 h1 G1 F1 H2) as (s2 & h2 & n2 & R & G2 & F2 & A2 & B2 & C2 & D2 & E2 & N2). rewrite A in A2. rewrite B in B2. rewrite C in C2.
    exists s2, h2, (n2 ++ n1). subst h1. rewrite <- app_assoc. repeat (split; [solve [auto]|]). apply Forall_app. split; [|exact N].
    destruct (use_mlibc_logger s) eqn:U; [rewrite E in N2 by reflexivity; exact N2|]. eapply Forall_impl; [|exact N2]. intros e. apply fits_weak.
Qed.
End Log.
Lemma init_good : good init. Proof. split; [cbn; lia|reflexivity]. Qed.
Lemma init_facility : 0 <= log_facility init < 2 ^ 31. Proof. change (log_facility init) with 8. lia. Qed.

(** * the socket *)
Lemma open_log_current ans s h : let '(s', h') := open_log ans (s, h) in log_fd s' = current ans h' /\ log_opt s' = log_opt s.
Proof. unfold open_log. destruct (0 <=? ans (Socket :: h)); split; reflexivity. Qed.
Lemma step_current ans pid c s h s' h' : log_opt s = 0 -> log_fd s = current ans h -> step ans pid c (s, h) = Ok (s', h') -> log_opt s' = 0 /\ log_fd s' = current ans h'.
Proof.
  intros O C E. destruct c as [i o f| |m|p tm t]; cbn [step] in E.
  - assert (E' : openlog ans i o f (s, h) = (s', h')) by congruence. clear E. rename E' into E. unfold openlog in E. destruct (_ && _) in E.
    + match type of E with open_log _ (?x, _) = _ => pose proof (open_log_current ans x h) as K end. rewrite E in K. destruct K as [K1 K2]. split; [rewrite K2; exact O|exact K1].
    + injection E as <- <-. auto.
  - injection E as <- <-. auto.
  - injection E as <- <-. auto.
  - unfold vsyslog in E. destruct (_ || _) in E; [injection E as <- <-; auto|]. unfold vsyslog_ in E. destruct (_ =? 0) in E; [injection E as <- <-; auto|].
    destruct (connected ans (s, h)) as [s1 h1] eqn:K. assert (G : log_opt s1 = 0 /\ log_fd s1 = current ans h1).
    { unfold connected in K. cbn [fst] in K. destruct (log_fd s <? 0); [|injection K as <- <-; auto]. pose proof (open_log_current ans s h) as W. rewrite K in W. destruct W as [W1 W2]. rewrite W2. auto. }
    clear K. destruct G as [G1 G2]. destruct (use_mlibc_logger s1); [injection E as <- <-; auto|]. cbv zeta in E. rewrite G1 in E. change (Z.land 0 LOG_CONS =? 0) with true in E. change (Z.land 0 LOG_PERROR =? 0) with true in E.
    cbn [negb] in E. rewrite ?andb_false_r in E. revert E.
    match goal with |- bind ?a _ = _ -> _ => destruct a as [b1| | |]; try discriminate end. cbn [bind].
    match goal with |- bind ?a _ = _ -> _ => destruct a as [b2| | |]; try discriminate end. cbn [bind].
    destruct t as [t|]; [|intro E; injection E as <- <-; auto].
    match goal with |- bind ?a _ = _ -> _ => destruct a as [b3| | |]; try discriminate end. cbn [bind].
    match goal with |- bind ?a _ = _ -> _ => destruct a as [[b4 l4]| | |]; try discriminate end. cbn [bind].
    match goal with |- bind ?a _ = _ -> _ => destruct a as [ln| | |]; try discriminate end. cbn [bind].
    match goal with |- bind ?a _ = _ -> _ => destruct a as [rs| | |]; try discriminate end. cbn [bind].
    unfold deliver. cbv zeta. destruct (ans (Send (log_fd s1) ln :: h1) =? 0); cbn [andb].
    { rewrite ?andb_false_r. intro E. injection E as <- <-. auto. }
    destruct (negb (is_lost_conn _)); [rewrite ?andb_false_r; intro E; injection E as <- <-; auto|].
    destruct (negb (_ =? 0)); rewrite ?andb_false_r; intro E; injection E as <- <-; auto.
Qed.
Lemma run_current ans pid : forall cs s h s' h', log_opt s = 0 -> log_fd s = current ans h -> run ans pid cs (s, h) = Ok (s', h') -> log_fd s' = current ans h'.
Proof.
  induction cs as [|c cs IH]; intros s h s' h' O C E; cbn [run] in E; [injection E as <- <-; exact C|].
  destruct (step ans pid c (s, h)) as [[s1 h1]| | |] eqn:S1; try discriminate. cbn [bind] in E. destruct (step_current ans pid c s h s1 h1 O C S1) as [O1 C1]. exact (IH s1 h1 s' h' O1 C1 E).
Qed.
Lemma run_app ans pid : forall a b x, run ans pid (a ++ b) x = (y <- run ans pid a x ;; run ans pid b y).
Proof. induction a as [|c a IH]; intros b x; [reflexivity|]. cbn [app run]. destruct (step ans pid c x) as [y| | |]; [cbn [bind]; apply IH|reflexivity..]. Qed.
