(** What TZ strings the parser accepts, and that it stays inside the string. *)
From Verif Require Import Base Time_Model Time_Spec Tz_Model Tz_Spec Tz_Proof.
Open Scope Z_scope.

(** a string with its terminator *)
Definition zs (s : list Z) : Prop := exists a, s = a ++ [0] /\ Forall (fun c => c <> 0) a.
Lemma zs_cons : forall c s, zs (c :: s) -> (c = 0 /\ s = []) \/ (c <> 0 /\ zs s).
Proof.
  intros c s (a & E & F). destruct a as [|x a]; cbn in E; injection E as -> ->; [auto|]. inversion F; subst. right. split; auto. exists a. auto.
Qed.
Lemma zs_nil : ~ zs [].
Proof. intros (a & E & _). destruct a; discriminate. Qed.

Definition sound {A} (P : A -> list Z -> Prop) (s : list Z) (r : res (option (A * list Z))) : Prop :=
  match r with
  | Ok None => True
  | Ok (Some (v, s')) => zs s' /\ exists d, s = d ++ s' /\ P v d
  | _ => False
  end.
Lemma sound_bind : forall A B (P : A -> list Z -> Prop) (Q : B -> list Z -> Prop) s r k, sound P s r ->
  (forall v s' d, zs s' -> P v d -> s = d ++ s' -> sound Q s (k (v, s'))) -> sound Q s (andthen r k).
Proof.
  intros A B P Q s r k H K. destruct r as [[[v s']|]| | |]; cbn in *; auto. destruct H as (H1 & d & E & Pd). eapply K; eauto.
Qed.

Lemma loop_sound : forall w hi s num, zs s -> (exists c s', s = c :: s' /\ digit c = true) -> 0 <= num <= hi -> hi * 10 + 9 < 2 ^ w ->
  sound (fun v d => d <> [] /\ Forall is_dec d /\ fold_left step10 d num = v /\ 0 <= v <= hi) s (getnum_loop w hi s num).
Proof.
  intros w hi. induction s as [|c s IH]; intros num Z0 (c0 & s0 & E & D) B W; [discriminate|]. injection E as <- <-.
  cbn [getnum_loop]. pose proof (proj1 (digit_iff c) D) as Dc. unfold is_dec in Dc.
  assert (E : num * 10 + (c - 48) = step10 num c) by (unfold step10; lia). rewrite E.
  assert (B1 : 0 <= step10 num c <= hi * 10 + 9) by (unfold step10; lia). rewrite Z.mod_small by lia.
  destruct (step10 num c >? hi) eqn:G; [exact I|].
  destruct (zs_cons _ _ Z0) as [[-> _]|[_ Z1]]; [discriminate|].
  destruct s as [|c1 s1]; [exfalso; exact (zs_nil Z1)|]. cbn [peek bind].
  destruct (digit c1) eqn:D1.
  - specialize (IH (step10 num c) Z1 ltac:(eauto) ltac:(lia) W).
    destruct (getnum_loop w hi (c1 :: s1) (step10 num c)) as [[[v s']|]| | |]; cbn [sound] in *; auto.
    destruct IH as (Z2 & d & E2 & N & F & V & R). split; auto. exists (c :: d). split; [cbn; congruence|]. split; [discriminate|].
    split; [constructor; [apply digit_iff; auto|auto]|]. split; auto.
  - cbn [sound]. split; auto. exists [c]. split; [reflexivity|]. split; [discriminate|]. split; [constructor; [apply digit_iff; auto|auto]|].
    split; [reflexivity|lia].
Qed.
Lemma getnum_sound : forall w lo hi s, zs s -> 0 <= hi -> hi * 10 + 9 < 2 ^ w -> sound (num_text lo hi) s (getnum w lo hi s).
Proof.
  intros w lo hi s Z0 H W. unfold getnum. destruct s as [|c s]; [exfalso; exact (zs_nil Z0)|]. cbn [peek bind].
  destruct (digit c) eqn:D; cbn [negb]; [|exact I].
  pose proof (loop_sound w hi (c :: s) 0 Z0 ltac:(eauto) ltac:(lia) W) as L.
  destruct (getnum_loop w hi (c :: s) 0) as [[[v s']|]| | |]; cbn [sound bind] in *; auto.
  destruct L as (Z1 & d & E & N & F & V & R). destruct (v <? lo) eqn:G; cbn [sound]; [exact I|]. split; auto. exists d. split; auto.
  unfold num_text, dec. change (fun a c : Z => 10 * a + (c - 48)) with step10. repeat split; auto; lia.
Qed.
Lemma zs_peek : forall s, zs s -> exists c s', s = c :: s'.
Proof. intros [|c s] H; [exfalso; exact (zs_nil H)|eauto]. Qed.
Lemma clock_sound : forall s, zs s -> sound clock_text s (clock s).
Proof.
  intros s Z0. unfold clock. eapply sound_bind; [apply getnum_sound; auto; lia|]. intros h s1 d1 Z1 P1 E1. cbv beta iota.
  destruct (zs_peek _ Z1) as (c & s1' & Ec). rewrite Ec in *. cbn [peek bind tl]. destruct (Z.eqb_spec c 58) as [->|Nc].
  - destruct (zs_cons _ _ Z1) as [[X _]|[_ Z1']]; [discriminate|].
    pose proof (getnum_sound 32 0 59 s1' Z1' ltac:(lia) ltac:(lia)) as G. destruct (getnum 32 0 59 s1') as [[[mi s2]|]| | |]; cbn [sound andthen] in *; auto.
    destruct G as (Z2 & d2 & E2 & P2). destruct (zs_peek _ Z2) as (c2 & s2' & Ec2). rewrite Ec2 in *. cbn [peek bind tl].
    destruct (Z.eqb_spec c2 58) as [->|Nc2].
    + destruct (zs_cons _ _ Z2) as [[X _]|[_ Z2']]; [discriminate|].
      pose proof (getnum_sound 32 0 60 s2' Z2' ltac:(lia) ltac:(lia)) as G. destruct (getnum 32 0 60 s2') as [[[sec s3]|]| | |]; cbn [sound andthen] in *; auto.
      destruct G as (Z3 & d3 & E3 & P3). split; auto. exists (d1 ++ 58 :: d2 ++ 58 :: d3). split.
      * subst. repeat (rewrite <- app_assoc; cbn [app]). reflexivity.
      * econstructor; eauto.
    + cbn [sound]. split; auto. exists (d1 ++ 58 :: d2). split.
      * subst. repeat (rewrite <- app_assoc; cbn [app]). reflexivity.
      * econstructor; eauto.
  - cbn [sound]. split; auto. exists d1. split; auto. econstructor; eauto.
Qed.
Lemma getoffset_sound : forall s, zs s -> sound offset_text s (getoffset s).
Proof.
  intros s Z0. rewrite getoffset_clock. destruct (zs_peek _ Z0) as (c & s' & E). subst. cbn [peek bind tl].
  destruct (Z.eqb_spec c 45) as [->|N1]; [|destruct (Z.eqb_spec c 43) as [->|N2]]; cbn [orb].
  - destruct (zs_cons _ _ Z0) as [[X _]|[_ Z1]]; [discriminate|]. pose proof (clock_sound s' Z1) as G.
    destruct (clock s') as [[[v s1]|]| | |]; cbn [sound andthen] in *; auto. destruct G as (Z2 & d & E & P). split; auto. exists (45 :: d).
    split; [cbn; congruence|apply off_minus; auto].
  - destruct (zs_cons _ _ Z0) as [[X _]|[_ Z1]]; [discriminate|]. pose proof (clock_sound s' Z1) as G.
    destruct (clock s') as [[[v s1]|]| | |]; cbn [sound andthen] in *; auto. destruct G as (Z2 & d & E & P). split; auto. exists (43 :: d).
    split; [cbn; congruence|apply off_plus; auto].
  - pose proof (clock_sound _ Z0) as G.
    destruct (clock (c :: s')) as [[[v s1]|]| | |]; cbn [sound andthen] in *; auto. destruct G as (Z2 & d & E & P). split; auto. exists d.
    split; auto. constructor; auto.
Qed.
Lemma getdate_sound : forall s, zs s -> sound date_text s (getdate s).
Proof.
  intros s Z0. unfold getdate. destruct (zs_peek _ Z0) as (c & s' & E). rewrite E in *. cbn [peek bind tl].
  destruct (Z.eqb_spec c 74) as [->|N1]; [|destruct (Z.eqb_spec c 77) as [->|N2]].
  - destruct (zs_cons _ _ Z0) as [[X _]|[_ Z1]]; [discriminate|]. pose proof (getnum_sound 16 1 365 s' Z1 ltac:(lia) ltac:(lia)) as G.
    destruct (getnum 16 1 365 s') as [[[v s1]|]| | |]; cbn [sound andthen] in *; auto. destruct G as (Z2 & d & E2 & P). split; auto. exists (74 :: d).
    split; [cbn; congruence|apply date_julian; auto].
  - destruct (zs_cons _ _ Z0) as [[X _]|[_ Z1]]; [discriminate|]. pose proof (getnum_sound 8 1 12 s' Z1 ltac:(lia) ltac:(lia)) as G.
    destruct (getnum 8 1 12 s') as [[[m s1]|]| | |]; cbn [sound andthen] in *; auto. destruct G as (Z2 & d & E2 & P).
    destruct (zs_peek _ Z2) as (c & s1' & Ec). rewrite Ec in *. cbn [peek bind tl]. destruct (Z.eqb_spec c 46) as [->|]; cbn [negb]; [|exact I].
    destruct (zs_cons _ _ Z2) as [[X _]|[_ Z3]]; [discriminate|]. pose proof (getnum_sound 8 1 5 s1' Z3 ltac:(lia) ltac:(lia)) as G.
    destruct (getnum 8 1 5 s1') as [[[wk s2]|]| | |]; cbn [sound andthen] in *; auto. destruct G as (Z4 & d2 & E3 & P2).
    destruct (zs_peek _ Z4) as (c2 & s2' & Ec2). rewrite Ec2 in *. cbn [peek bind tl]. destruct (Z.eqb_spec c2 46) as [->|]; cbn [negb]; [|exact I].
    destruct (zs_cons _ _ Z4) as [[X _]|[_ Z5]]; [discriminate|]. pose proof (getnum_sound 16 0 6 s2' Z5 ltac:(lia) ltac:(lia)) as G.
    destruct (getnum 16 0 6 s2') as [[[dd s3]|]| | |]; cbn [sound andthen] in *; auto. destruct G as (Z6 & d3 & E4 & P3).
    split; auto. exists (77 :: d ++ 46 :: d2 ++ 46 :: d3). split; [|apply date_month; auto].
    subst. repeat (rewrite <- app_assoc || cbn [app]). reflexivity.
  - destruct (digit c); [|exact I]. pose proof (getnum_sound 16 0 365 (c :: s') Z0 ltac:(lia) ltac:(lia)) as G.
    destruct (getnum 16 0 365 (c :: s')) as [[[v s1]|]| | |]; cbn [sound andthen] in *; auto. destruct G as (Z2 & d & E2 & P). split; auto. exists d.
    split; [auto|apply date_day; auto].
Qed.
Lemma getrule_sound : forall s, zs s -> sound rule_text s (getrule s).
Proof.
  intros s Z0. unfold getrule. pose proof (getdate_sound s Z0) as G.
  destruct (getdate s) as [[[d s1]|]| | |]; cbn [sound andthen] in *; auto. destruct G as (Z1 & t & E & P).
  destruct (zs_peek _ Z1) as (c & s1' & Ec). rewrite Ec in *. cbn [peek bind tl]. destruct (Z.eqb_spec c 47) as [->|].
  - destruct (zs_cons _ _ Z1) as [[X _]|[_ Z2]]; [discriminate|]. pose proof (getoffset_sound s1' Z2) as G.
    destruct (getoffset s1') as [[[v s2]|]| | |]; cbn [sound andthen] in *; auto. destruct G as (Z3 & t2 & E3 & P3). split; auto. exists (t ++ 47 :: t2).
    split; [subst; rewrite <- app_assoc; reflexivity|apply rule_time; auto].
  - cbn [sound]. split; auto. exists t. split; auto. apply rule_default; auto.
Qed.
(** the name: complete, or up to the end of the string *)
Lemma name_sound : forall q max s acc, zs s -> Forall (if q : bool then qchar else letter) acc -> (length acc <= S max)%nat ->
  match name_loop q max s acc with
  | Ok None => True
  | Ok (Some (name, s')) => zs s' /\ exists n, name = acc ++ n /\ Forall (if q then qchar else letter) name /\ (length name <= S max)%nat /\
      ((s' = [0] /\ s = n ++ [0]) \/
       ((3 <= length name <= max)%nat /\ s = n ++ (if q then [62] else []) ++ s'))
  | _ => False
  end.
Proof.
  intros q max. induction s as [|c s IH]; intros acc Z0 F L; [exfalso; exact (zs_nil Z0)|]. cbn [name_loop].
  destruct (Z.eqb_spec c 0) as [->|N0].
  - split; auto. exists []. rewrite app_nil_r. split; auto. split; auto. split; auto. left.
    destruct (zs_cons _ _ Z0) as [[_ ->]|[X _]]; [auto|congruence].
  - destruct (Nat.ltb_spec max (length acc)) as [|L1]; [exact I|].
    destruct (zs_cons _ _ Z0) as [[X _]|[_ Z1]]; [congruence|].
    assert (Step : (if q then qchar else letter) c -> match name_loop q max s (acc ++ [c]) with
      | Ok None => True
      | Ok (Some (name, s')) => zs s' /\ exists n, name = acc ++ n /\ Forall (if q then qchar else letter) name /\ (length name <= S max)%nat /\
          ((s' = [0] /\ c :: s = n ++ [0]) \/ ((3 <= length name <= max)%nat /\ c :: s = n ++ (if q then [62] else []) ++ s'))
      | _ => False end).
    { intros Q. specialize (IH (acc ++ [c]) Z1 ltac:(apply Forall_app; auto) ltac:(rewrite app_length; cbn; lia)).
      destruct (name_loop q max s (acc ++ [c])) as [[[name s']|]| | |]; auto. destruct IH as (Z2 & n & E & F2 & L2 & K). split; auto. exists (c :: n).
      split; [rewrite E, <- app_assoc; reflexivity|]. split; auto. split; auto. destruct K as [[K1 K2]|[K1 K2]]; [left|right]; split; auto; cbn [app]; congruence. }
    destruct (alpha c) eqn:A.
    + apply Step. apply alpha_iff in A. destruct q; auto. left. auto.
    + destruct (q && ((c =? 43) || (c =? 45) || digit c)) eqn:B.
      * destruct q; [|discriminate]. cbn [andb] in B. apply Step. right. destruct (Z.eqb_spec c 43); [auto|]. destruct (Z.eqb_spec c 45); [auto|].
        cbn [orb] in B. left. apply digit_iff. auto.
      * clear Step IH. destruct (Nat.ltb_spec (length acc) 3) as [|L3]; [exact I|]. destruct q.
        -- destruct (Z.eqb_spec c 62) as [->|]; [|exact I]. split; auto. exists []. rewrite app_nil_r. split; [reflexivity|]. split; [exact F|]. split; [lia|]. right. split; [lia|reflexivity].
        -- split; auto. exists []. rewrite app_nil_r. split; [reflexivity|]. split; [exact F|]. split; [lia|]. right. split; [lia|reflexivity].
Qed.
Lemma getname_sound : forall max s, zs s ->
  match getname max s with
  | Ok None => True
  | Ok (Some (name, s')) => zs s' /\ exists n, s = n ++ s' /\
      (name_text max name n \/ (s' = [0] /\ (length name <= S max)%nat /\ Forall qchar name /\ (n = name \/ n = 60 :: name)))
  | _ => False
  end.
Proof.
  intros max s Z0. unfold getname. destruct (zs_peek _ Z0) as (c & s' & E). rewrite E in *. cbn [peek bind tl].
  destruct (Z.eqb_spec c 60) as [->|N].
  - destruct (zs_cons _ _ Z0) as [[X _]|[_ Z1]]; [discriminate|]. pose proof (name_sound true max s' [] Z1 (Forall_nil _) ltac:(cbn; lia)) as G.
    destruct (name_loop true max s' []) as [[[name s1]|]| | |]; auto. destruct G as (Z2 & n & En & F & L & [[K1 K2]|[K1 K2]]); split; auto; cbn [app] in En; subst name.
    + exists (60 :: n). split; [cbn; congruence|]. right. auto.
    + exists (60 :: n ++ [62]). split; [rewrite K2; cbn [app]; rewrite <- app_assoc; reflexivity|]. left. apply name_quoted; auto.
  - pose proof (name_sound false max (c :: s') [] Z0 (Forall_nil _) ltac:(cbn; lia)) as G.
    destruct (name_loop false max (c :: s') []) as [[[name s1]|]| | |]; auto. destruct G as (Z2 & n & En & F & L & [[K1 K2]|[K1 K2]]); split; auto; cbn [app] in En; subst name.
    + exists n. split; [congruence|]. right. split; auto. split; auto. split; auto. eapply Forall_impl; [|exact F]. intros x Hx. left. exact Hx.
    + exists n. split; auto. left. constructor; auto.
Qed.

Lemma parse_rules_sound : forall s, zs s ->
  match parse_rules s with
  | Ok None => True
  | Ok (Some (r0, r1)) => exists rs, s = rs ++ [0] /\ (rs = [] /\ (r0, r1) = american \/ exists a b, rule_text r0 a /\ rule_text r1 b /\ rs = 44 :: a ++ 44 :: b)
  | _ => False
  end.
Proof.
  intros s Z0. unfold parse_rules. destruct (zs_peek _ Z0) as (c & s' & E). rewrite E in *. cbn [peek bind].
  destruct (Z.eqb_spec c 0) as [->|N].
  - destruct (zs_cons _ _ Z0) as [[_ ->]|[X _]]; [|congruence]. vm_compute. exists []. auto.
  - cbn [peek bind tl]. destruct (Z.eqb_spec c 44) as [->|]; cbn [negb]; [|exact I].
    destruct (zs_cons _ _ Z0) as [[X _]|[_ Z1]]; [discriminate|]. pose proof (getrule_sound s' Z1) as G.
    destruct (getrule s') as [[[r0 s1]|]| | |]; cbn [sound andthen] in *; auto. destruct G as (Z2 & a & E2 & P).
    destruct (zs_peek _ Z2) as (c & s1' & Ec). rewrite Ec in *. cbn [peek bind tl]. destruct (Z.eqb_spec c 44) as [->|]; cbn [negb]; [|exact I].
    destruct (zs_cons _ _ Z2) as [[X _]|[_ Z3]]; [discriminate|]. pose proof (getrule_sound s1' Z3) as G.
    destruct (getrule s1') as [[[r1 s2]|]| | |]; cbn [sound andthen] in *; auto. destruct G as (Z4 & b & E4 & P4).
    destruct (zs_peek _ Z4) as (c & s2' & Ec2). rewrite Ec2 in *. cbn [peek bind tl]. destruct (Z.eqb_spec c 0) as [->|]; cbn [negb]; [|exact I].
    destruct (zs_cons _ _ Z4) as [[_ ->]|[X _]]; [|congruence].
    exists (44 :: a ++ 44 :: b). split; [subst; cbn [app]; rewrite <- app_assoc; reflexivity|]. right. eauto.
Qed.

(** what is accepted *)
Definition accepted (max : nat) (s : list Z) (z : tzstate) : Prop :=
  exists a b, s = a ++ b /\ std_text max (z_std z) (z_timezone z) a /\
    (z_daylight z = true ->
      (exists off1 r0 r1, z_dstoff z = - off1 /\ z_rules z = Some (r0, r1) /\ dst_text max (z_dst z) (z_timezone z) off1 r0 r1 b) \/
      (z_rules z = Some american /\ z_dstoff z = 3600 - z_timezone z /\ (b = z_dst z \/ b = 60 :: z_dst z) /\ Forall qchar (z_dst z))).
Lemma app_last_inj : forall (a b : list Z) x, a ++ [x] = b ++ [x] -> a = b.
Proof. intros a b x H. apply app_inj_tail in H. tauto. Qed.
Lemma parse_sound : forall max s, Forall (fun c => c <> 0) s ->
  (parse_tz (s ++ [0]) max <> UB \/ exists a n, s = a ++ n /\ length n = S max /\ Forall qchar n) /\
  (forall z, parse_tz (s ++ [0]) max = Ok (Some z) -> accepted max s z).
Proof.
  intros max s Hs. assert (Z0 : zs (s ++ [0])) by (exists s; auto). unfold parse_tz.
  destruct (zs_peek _ Z0) as (c & s' & E). rewrite E. cbn [peek bind]. rewrite (colon_skip (c :: s') c eq_refl). rewrite <- E.
  assert (C : exists s1 pre, zs s1 /\ with_colon (s ++ [0]) = s1 /\ s ++ [0] = pre ++ s1 /\ (pre = [] \/ pre = [58])).
  { rewrite E. cbn [with_colon]. destruct (Z.eqb_spec c 58) as [->|].
    - rewrite E in Z0. destruct (zs_cons _ _ Z0) as [[X _]|[_ Z1]]; [discriminate|]. exists s', [58]. auto.
    - rewrite E in Z0. exists (c :: s'), []. auto. }
  destruct C as (s1 & pre & Z1 & -> & Epre & Dpre). pose proof (getname_sound max s1 Z1) as G.
  destruct (getname max s1) as [[[name s2]|]| | |]; cbn [andthen]; try contradiction; [|split; [left; discriminate|discriminate]].
  destruct G as (Z2 & n & En & K). pose proof (getoffset_sound s2 Z2) as Go.
  destruct K as [K|[-> _]]; [|cbn; split; [left; discriminate|discriminate]].
  destruct (getoffset s2) as [[[off s3]|]| | |]; cbn [andthen sound] in *; try contradiction; [|split; [left; discriminate|discriminate]].
  destruct Go as (Z3 & o & Eo & Po). rewrite (put_ok max name n K). cbn [bind].
  assert (St : std_text max name off (pre ++ n ++ o)) by (destruct Dpre as [->| ->]; cbn [app]; constructor; auto).
  assert (Es : s ++ [0] = (pre ++ n ++ o) ++ s3) by (rewrite Epre, En, Eo, <- !app_assoc; reflexivity). clear E Epre En Eo Dpre Po K Z1 Z2.
  remember (pre ++ n ++ o) as a eqn:Ea. clear Ea.
  destruct (zs_peek _ Z3) as (c3 & s3' & E3). rewrite E3 in *. cbn [peek bind].
  assert (Stop : forall n1 z, Some {| z_daylight := false; z_timezone := off; z_std := name; z_dst := n1; z_dstoff := 0; z_rules := no_rules |} = Some z -> accepted max s z).
  { intros n1 z X. injection X as <-. destruct Z3 as (b & Eb & _). exists a, b. rewrite Eb, app_assoc in Es. apply app_last_inj in Es. split; auto. split; [exact St|discriminate]. }
  destruct (Z.eqb_spec c3 0) as [->|N3]; [split; [left; discriminate|]; intros z X; injection X as X; exact (Stop name z (f_equal Some X))|].
  pose proof (getname_sound max (c3 :: s3') Z3) as G.
  destruct (getname max (c3 :: s3')) as [[[name1 s4]|]| | |]; try contradiction; cbn [bind]; [|split; [left; discriminate|]; intros z X; injection X as X; exact (Stop [] z (f_equal Some X))].
  destruct G as (Z4 & n1 & En1 & K). rewrite En1 in Es.
  assert (Kl : put_name max name1 = Ok name1 \/ (put_name max name1 = UB /\ exists p, s = p ++ name1 /\ length name1 = S max /\ Forall qchar name1)).
  { unfold put_name. destruct (Nat.leb_spec (length name1 + 1) (max + 1)) as [|L]; auto. right. split; auto.
    destruct K as [K|(-> & L2 & F & K)]; [inversion K; subst; lia|]. rewrite app_assoc in Es. apply app_last_inj in Es.
    destruct K as [->| ->]; [exists a|exists (a ++ [60]); rewrite <- app_assoc]; split; auto; split; auto; lia. }
  destruct Kl as [->|(-> & p & Ep & Lp & Fp)]; cbn [bind]; [|split; [right; eauto|discriminate]].
  destruct (zs_peek _ Z4) as (c4 & s4' & E4). rewrite E4. cbn [peek bind].
  destruct (negb (c4 =? 0) && negb (c4 =? 44)) eqn:B.
  - assert (K' : name_text max name1 n1).
    { destruct K as [K|(X & _)]; auto. rewrite X in E4. injection E4 as <- <-. discriminate. }
    rewrite <- E4 in *. pose proof (getoffset_sound s4 Z4) as G. destruct (getoffset s4) as [[[off1 s5]|]| | |]; cbn [sound] in *; try contradiction; cbn [bind];
      [|split; [left; discriminate|]; intros z X; injection X as X; exact (Stop name1 z (f_equal Some X))].
    destruct G as (Z5 & o1 & Eo1 & Po1). pose proof (parse_rules_sound s5 Z5) as G. destruct (parse_rules s5) as [[[r0 r1]|]| | |]; try contradiction; cbn [bind];
      [|split; [left; discriminate|]; intros z X; injection X as X; exact (Stop name1 z (f_equal Some X))].
    destruct G as (rs & Ers & Prs). split; [left; discriminate|]. intros z X. injection X as <-. exists a, (n1 ++ o1 ++ rs).
    split; [apply (app_last_inj _ _ 0); rewrite Es, Eo1, Ers, <- !app_assoc; reflexivity|]. split; [exact St|]. cbn [z_daylight z_dstoff z_rules z_dst z_timezone]. intros _. left.
    exists off1, r0, r1. split; auto. split; auto. constructor; auto.
  - pose proof (parse_rules_sound (c4 :: s4') ltac:(rewrite <- E4; auto)) as G. cbn [bind].
    destruct (parse_rules (c4 :: s4')) as [[[r0 r1]|]| | |]; try contradiction; cbn [bind];
      [|split; [left; discriminate|]; intros z X; injection X as X; exact (Stop name1 z (f_equal Some X))].
    destruct G as (rs & Ers & Prs). split; [left; discriminate|]. intros z X. injection X as <-. exists a, (n1 ++ rs).
    split; [apply (app_last_inj _ _ 0); rewrite Es, E4, Ers, <- !app_assoc; reflexivity|]. split; [exact St|]. cbn [z_daylight z_dstoff z_rules z_dst z_timezone z_std]. intros _.
    destruct K as [K|(X & L & F & K)].
    + left. exists (off - 3600), r0, r1. split; auto. split; auto. change (n1 ++ rs) with (n1 ++ [] ++ rs). constructor; auto.
    + right. rewrite X in E4. injection E4 as <- <-. destruct rs as [|x rs]; [|destruct rs; discriminate Ers].
      destruct Prs as [[_ Ea]|(u & v & _ & _ & Y)]; [|discriminate]. rewrite app_nil_r. split; [congruence|]. split; [lia|]. auto.
Qed.
