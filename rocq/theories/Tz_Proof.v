(** Proofs about the parsing of TZ. *)
From Verif Require Import Base Time_Model Time_Spec Tz_Model Tz_Spec.
Open Scope Z_scope.

Definition step10 (a c : Z) : Z := 10 * a + (c - 48).
Lemma digit_iff : forall c, digit c = true <-> is_dec c.
Proof. unfold digit, is_dec. intros. rewrite andb_true_iff, !Z.leb_le. lia. Qed.
Lemma fold_ge : forall s a, Forall is_dec s -> 0 <= a -> a <= fold_left step10 s a.
Proof.
  induction s as [|c s IH]; intros a F H; cbn [fold_left]; [lia|]. inversion F; subst. unfold is_dec in *.
  specialize (IH (step10 a c) H3). unfold step10 in *. lia.
Qed.
Lemma getnum_loop_ok : forall w hi s num c r, s <> [] -> Forall is_dec s -> 0 <= num -> fold_left step10 s num <= hi ->
  hi * 10 + 9 < 2 ^ w -> digit c = false -> getnum_loop w hi (s ++ c :: r) num = Ok (Some (fold_left step10 s num, c :: r)).
Proof.
  intros w hi. induction s as [|d s IH]; intros num c r N F H0 H W Hc; [congruence|]. inversion F as [|? ? Hd Ht]; subst.
  cbn [app getnum_loop fold_left] in *. assert (E : num * 10 + (d - 48) = step10 num d) by (unfold step10; lia). rewrite E.
  pose proof (fold_ge s (step10 num d) Ht) as G. unfold is_dec in Hd. assert (B : 0 <= step10 num d) by (unfold step10; lia). specialize (G B).
  rewrite Z.mod_small by lia. replace (step10 num d >? hi) with false by lia.
  destruct s as [|d' s'].
  - cbn [app peek bind]. rewrite Hc. reflexivity.
  - cbn [app peek bind]. inversion Ht; subst. rewrite (proj2 (digit_iff d')) by assumption.
    change (d' :: s' ++ c :: r) with ((d' :: s') ++ c :: r). apply IH; auto. discriminate.
Qed.
Lemma getnum_ok : forall w lo hi v s c r, num_text lo hi v s -> digit c = false -> hi * 10 + 9 < 2 ^ w ->
  getnum w lo hi (s ++ c :: r) = Ok (Some (v, c :: r)).
Proof.
  intros w lo hi v s c r (N & F & V & B) Hc W. unfold getnum. destruct s as [|d s]; [congruence|].
  inversion F; subst. cbn [app peek bind]. rewrite (proj2 (digit_iff d)) by assumption. cbn [negb].
  change (d :: s ++ c :: r) with ((d :: s) ++ c :: r). unfold dec in *.
  change (fun a c : Z => 10 * a + (c - 48)) with step10 in *.
  rewrite getnum_loop_ok by (auto; try discriminate; lia). cbn [bind].
  replace (_ <? lo) with false by lia. reflexivity.
Qed.
Lemma num_hd : forall lo hi v s, num_text lo hi v s -> exists c s', s = c :: s' /\ is_dec c.
Proof. intros lo hi v s (N & F & _). destruct s; [congruence|]. inversion F; subst. eauto. Qed.
Lemma clock_hd : forall v s, clock_text v s -> exists c s', s = c :: s' /\ is_dec c.
Proof.
  intros v s H. inversion H; subst.
  - eapply num_hd; eauto.
  - destruct (num_hd _ _ _ _ H0) as (c & s' & -> & D). exists c. eexists. split; [reflexivity|auto].
  - destruct (num_hd _ _ _ _ H0) as (c & s' & -> & D). exists c. eexists. split; [reflexivity|auto].
Qed.

Definition clock (s : list Z) : res (option (Z * list Z)) :=
  andthen (getnum 32 0 167 s) (fun '(h, s) =>
  c <- peek s ;;
  if c =? 58 then
    andthen (getnum 32 0 59 (tl s)) (fun '(mi, s) =>
    c <- peek s ;;
    if c =? 58 then
      andthen (getnum 32 0 60 (tl s)) (fun '(sec, s) => Ok (Some (h * 3600 + mi * 60 + sec, s)))
    else Ok (Some (h * 3600 + mi * 60, s)))
  else Ok (Some (h * 3600, s))).
Lemma clock_ok : forall v s c r, clock_text v s -> digit c = false -> c <> 58 -> clock (s ++ c :: r) = Ok (Some (v, c :: r)).
Proof.
  intros v s c r H Hc Hd. unfold clock. inversion H; subst.
  - rewrite (getnum_ok _ _ _ h) by (auto; lia). cbn [andthen peek bind]. replace (c =? 58) with false by lia. reflexivity.
  - rewrite <- app_assoc. cbn [app]. rewrite (getnum_ok _ _ _ h) by (auto; lia). cbn [andthen peek bind tl].
    change (58 =? 58) with true. cbv iota.
    rewrite (getnum_ok _ _ _ mi) by (auto; lia). cbn [andthen peek bind tl]. replace (c =? 58) with false by lia. reflexivity.
  - rewrite <- app_assoc. cbn [app]. rewrite (getnum_ok _ _ _ h) by (auto; lia). cbn [andthen peek bind tl].
    change (58 =? 58) with true. cbv iota.
    rewrite <- app_assoc. cbn [app]. rewrite (getnum_ok _ _ _ mi) by (auto; lia). cbn [andthen peek bind tl]. change (58 =? 58) with true. cbv iota.
    rewrite (getnum_ok _ _ _ sec) by (auto; lia). cbn [andthen peek bind tl]. reflexivity.
Qed.
(** getoffset as sign and clock *)
Lemma getoffset_clock : forall s, getoffset s =
  (c <- peek s ;; andthen (clock (if (c =? 45) || (c =? 43) then tl s else s))
     (fun '(off, s) => Ok (Some (if c =? 45 then - off else off, s)))).
Proof.
  intros s. unfold getoffset, clock. destruct (peek s) as [c| | |]; try reflexivity. cbn [bind].
  generalize (if (c =? 45) || (c =? 43) then tl s else s). intros u.
  destruct (getnum 32 0 167 u) as [[[h u1]|]| | |]; try reflexivity. cbn [andthen].
  destruct (peek u1) as [c1| | |]; try reflexivity.
Qed.
Lemma getoffset_ok : forall v s c r, offset_text v s -> digit c = false -> c <> 58 ->
  getoffset (s ++ c :: r) = Ok (Some (v, c :: r)).
Proof.
  intros v s c r H Hc Hd. rewrite getoffset_clock. inversion H; subst.
  - destruct (clock_hd _ _ H0) as (d & s' & -> & D). cbn [app peek bind tl]. unfold is_dec in D.
    replace (d =? 45) with false by lia. replace (d =? 43) with false by lia. cbn [orb].
    change (d :: s' ++ c :: r) with ((d :: s') ++ c :: r). rewrite (clock_ok v) by auto. reflexivity.
  - cbn [app peek bind tl]. change (43 =? 45) with false. change (43 =? 43) with true. cbn [orb]. rewrite (clock_ok v) by auto. reflexivity.
  - cbn [app peek bind tl]. change (45 =? 45) with true. cbn [orb]. rewrite (clock_ok v0) by auto. reflexivity.
Qed.
Lemma getdate_ok : forall d s c r, date_text d s -> digit c = false -> getdate (s ++ c :: r) = Ok (Some (d, c :: r)).
Proof.
  intros d s c r H Hc. unfold getdate. inversion H; subst.
  - cbn [app peek bind tl]. change (74 =? 74) with true. cbv iota. rewrite (getnum_ok _ _ _ d0) by (auto; lia). reflexivity.
  - destruct (num_hd _ _ _ _ H0) as (e & s' & -> & D). cbn [app peek bind tl].
    pose proof D as D'. unfold is_dec in D. replace (e =? 74) with false by lia. replace (e =? 77) with false by lia.
    rewrite (proj2 (digit_iff e) D').
    change (e :: s' ++ c :: r) with ((e :: s') ++ c :: r). rewrite (getnum_ok _ _ _ d0) by (auto; lia). reflexivity.
  - cbn [app peek bind tl]. change (77 =? 74) with false. change (77 =? 77) with true. cbv iota.
    rewrite <- app_assoc. cbn [app]. rewrite (getnum_ok _ _ _ m) by (auto; lia). cbn [andthen peek bind tl].
    change (46 =? 46) with true. cbn [negb].
    rewrite <- app_assoc. cbn [app]. rewrite (getnum_ok _ _ _ w) by (auto; lia). cbn [andthen peek bind tl].
    change (46 =? 46) with true. cbn [negb]. rewrite (getnum_ok _ _ _ d0) by (auto; lia). reflexivity.
Qed.
Lemma getrule_ok : forall x s c r, rule_text x s -> digit c = false -> c <> 58 -> c <> 47 ->
  getrule (s ++ c :: r) = Ok (Some (x, c :: r)).
Proof.
  intros x s c r H Hc H1 H2. unfold getrule. inversion H; subst.
  - rewrite (getdate_ok d) by auto. cbn [andthen peek bind]. replace (c =? 47) with false by lia. reflexivity.
  - rewrite <- app_assoc. cbn [app]. rewrite (getdate_ok d) by auto. cbn [andthen peek bind tl]. change (47 =? 47) with true. cbv iota.
    rewrite (getoffset_ok t) by auto. reflexivity.
Qed.

Lemma alpha_iff : forall c, alpha c = true <-> letter c.
Proof. unfold alpha, letter. intros. rewrite orb_true_iff, !andb_true_iff, !Z.leb_le. lia. Qed.
Definition qchar (c : Z) : Prop := letter c \/ is_dec c \/ c = 43 \/ c = 45.
Lemma name_run : forall q max n acc s, Forall (if q : bool then qchar else letter) n -> (length acc + length n <= max)%nat ->
  name_loop q max (n ++ s) acc = name_loop q max s (acc ++ n).
Proof.
  induction n as [|c n IH]; intros acc s F L; cbn [app]; [rewrite app_nil_r; reflexivity|].
  inversion F; subst. cbn [name_loop length] in *.
  assert (N0 : (c =? 0) = false) by (destruct q; unfold qchar, letter, is_dec in *; lia). rewrite N0.
  rewrite (proj2 (Nat.ltb_ge _ _)) by lia.
  assert (R : name_loop q max (n ++ s) (acc ++ [c]) = name_loop q max s (acc ++ c :: n)).
  { rewrite IH by (auto; rewrite app_length; cbn; lia). rewrite <- app_assoc. reflexivity. }
  destruct (alpha c) eqn:A; [exact R|].
  destruct q; cbn [andb] in *.
  - replace ((c =? 43) || (c =? 45) || digit c) with true; [exact R|]. symmetry.
    destruct H1 as [X|[X|[X|X]]]; [apply alpha_iff in X; congruence|..].
    + rewrite (proj2 (digit_iff c) X). rewrite !orb_true_r. reflexivity.
    + subst; reflexivity. + subst; reflexivity.
  - apply alpha_iff in H1. congruence.
Qed.
(** behind the name: no letter, no digit, sign or closing bracket confusion *)
Lemma getname_ok : forall max name n c r, name_text max name n -> alpha c = false ->
  getname max (n ++ c :: r) = Ok (Some (name, c :: r)).
Proof.
  intros max name n c r H Hc. unfold getname. inversion H; subst.
  - destruct n as [|a n]; [cbn in *; lia|]. inversion H0; subst. cbn [app peek bind].
    assert (X : (a =? 60) = false) by (unfold letter in *; lia). rewrite X.
    change (a :: n ++ c :: r) with ((a :: n) ++ c :: r). rewrite (name_run false) by (auto; cbn [length] in *; lia). cbn [name_loop app].
    destruct (c =? 0); [reflexivity|]. rewrite (proj2 (Nat.ltb_ge _ _)) by lia. rewrite Hc. cbn [andb].
    rewrite (proj2 (Nat.ltb_ge _ _)) by lia. reflexivity.
  - cbn [app peek bind tl]. change (60 =? 60) with true. cbv iota. rewrite <- app_assoc. cbn [app].
    rewrite (name_run true) by (auto; cbn; lia). cbn [name_loop app].
    change (62 =? 0) with false. cbv iota. rewrite (proj2 (Nat.ltb_ge _ _)) by lia. change (alpha 62) with false.
    change ((62 =? 43) || (62 =? 45) || digit 62) with false. cbn [andb].
    rewrite (proj2 (Nat.ltb_ge _ _)) by lia. reflexivity.
Qed.
Lemma put_ok : forall max name n, name_text max name n -> put_name max name = Ok name.
Proof. intros. unfold put_name. assert (length name <= max)%nat by (inversion H; subst; lia). rewrite (proj2 (Nat.leb_le _ _)) by lia. reflexivity. Qed.

Lemma offset_hd : forall v s, offset_text v s -> exists c s', s = c :: s' /\ (is_dec c \/ c = 43 \/ c = 45).
Proof.
  intros v s H. inversion H; subst; [|do 2 eexists; split; [reflexivity|auto]..].
  destruct (clock_hd _ _ H0) as (c & s' & -> & D). do 2 eexists; split; [reflexivity|auto].
Qed.
Lemma name_hd : forall max name s, name_text max name s -> exists c s', s = c :: s' /\ (letter c \/ c = 60).
Proof.
  intros max name s H. inversion H; subst; [|do 2 eexists; split; [reflexivity|auto]].
  destruct s as [|c s']; [cbn in *; lia|]. inversion H0; subst. eauto.
Qed.
Definition with_colon (s : list Z) : list Z := match s with c :: s' => if c =? 58 then s' else s | [] => [] end.
Lemma colon_skip : forall s c, peek s = Ok c -> (if c =? 58 then tl s else s) = with_colon s.
Proof. intros [|a s] c H; cbn in *; [discriminate|]. injection H as ->. reflexivity. Qed.
Lemma std_split : forall max name off s, std_text max name off s ->
  exists n o, name_text max name n /\ offset_text off o /\ forall t, with_colon (s ++ t) = n ++ o ++ t /\ exists c, peek (s ++ t) = Ok c.
Proof.
  intros max name off s H. inversion H; subst; exists n, o; split; auto; split; auto; intros t.
  - destruct (name_hd _ _ _ H0) as (c & n' & E & D). rewrite <- app_assoc. rewrite E. cbn [app with_colon].
    split; [|exists c; reflexivity]. replace (c =? 58) with false; auto. symmetry. unfold letter in D. lia.
  - cbn [app with_colon peek]. change (58 =? 58) with true. cbv iota. rewrite app_assoc. split; eauto.
Qed.

(** TZ = std offset *)
Lemma parse_std : forall max name off s, std_text max name off s ->
  parse_tz (s ++ [0]) max = Ok (Some {| z_daylight := false; z_timezone := off; z_std := name; z_dst := name; z_dstoff := 0; z_rules := no_rules |}).
Proof.
  intros max name off s H. destruct (std_split _ _ _ _ H) as (n & o & Hn & Ho & K). destruct (K [0]) as [E [c Ec]].
  unfold parse_tz. rewrite Ec. cbn [bind]. rewrite (colon_skip _ _ Ec), E.
  destruct (offset_hd _ _ Ho) as (c1 & o' & Eo & D).
  rewrite Eo. cbn [app]. rewrite (getname_ok max name n) by (auto; destruct (alpha c1) eqn:A; auto; apply alpha_iff in A; unfold letter, is_dec in *; lia).
  cbn [andthen]. change (c1 :: o' ++ [0]) with ((c1 :: o') ++ [0]). rewrite <- Eo. rewrite (getoffset_ok off) by (auto; lia).
  cbn [andthen]. rewrite (put_ok max name n) by auto. reflexivity.
Qed.

Lemma parse_rules_ok : forall r0 r1 rs,
  (rs = [] /\ (r0, r1) = american \/ exists a b, rule_text r0 a /\ rule_text r1 b /\ rs = 44 :: a ++ 44 :: b) ->
  parse_rules (rs ++ [0]) = Ok (Some (r0, r1)).
Proof.
  intros r0 r1 rs [[-> E]|(a & b & A & B & ->)].
  - rewrite E. vm_compute. reflexivity.
  - unfold parse_rules. cbn [app peek bind]. change (44 =? 0) with false. cbv iota. cbn [peek bind tl]. change (44 =? 44) with true. cbn [negb].
    rewrite <- app_assoc. cbn [app]. rewrite (getrule_ok r0) by (auto; lia). cbn [andthen peek bind tl]. change (44 =? 44) with true. cbn [negb].
    rewrite (getrule_ok r1) by (auto; lia). cbn [andthen peek bind]. reflexivity.
Qed.
(** TZ = std offset dst [offset] [,rule,rule] *)
Lemma parse_dst : forall max name off s name1 off1 r0 r1 s1, std_text max name off s -> dst_text max name1 off off1 r0 r1 s1 ->
  parse_tz (s ++ s1 ++ [0]) max = Ok (Some {| z_daylight := true; z_timezone := off; z_std := name; z_dst := name1; z_dstoff := - off1; z_rules := Some (r0, r1) |}).
Proof.
  intros max name off s name1 off1 r0 r1 s1 H H1. destruct (std_split _ _ _ _ H) as (n & o & Hn & Ho & K). inversion H1 as [n1 o1 rs Hn1 Ho1 Hrs]; subst.
  destruct (K ((n1 ++ o1 ++ rs) ++ [0])) as [E [c Ec]].
  unfold parse_tz. rewrite Ec. cbn [bind]. rewrite (colon_skip _ _ Ec), E. clear E Ec K.
  destruct (offset_hd _ _ Ho) as (c1 & o' & Eo & D). destruct (name_hd _ _ _ Hn1) as (c2 & n1' & En & D2).
  rewrite Eo. cbn [app]. rewrite (getname_ok max name n) by (auto; destruct (alpha c1) eqn:A; auto; apply alpha_iff in A; unfold letter, is_dec in *; lia).
  cbn [andthen]. change (c1 :: o' ++ (n1 ++ o1 ++ rs) ++ [0]) with ((c1 :: o') ++ (n1 ++ o1 ++ rs) ++ [0]). rewrite <- Eo.
  assert (T : (n1 ++ o1 ++ rs) ++ [0] = c2 :: (n1' ++ o1 ++ rs) ++ [0]) by (rewrite En; reflexivity).
  assert (C2 : digit c2 = false /\ c2 <> 58 /\ (c2 =? 0) = false).
  { split; [|unfold letter in D2; lia]. destruct (digit c2) eqn:A; auto. apply digit_iff in A. unfold letter, is_dec in *; lia. }
  destruct C2 as (C2a & C2b & C2c).
  rewrite T, (getoffset_ok off) by auto. cbn [andthen]. rewrite (put_ok max name n) by auto. cbn [bind peek]. rewrite C2c.
  rewrite <- T. rewrite <- !app_assoc. clear T.
  assert (R : exists c3 t3, rs ++ [0] = c3 :: t3 /\ (c3 = 0 \/ c3 = 44)).
  { destruct Hrs as [[-> _]|(a & b & _ & _ & ->)]; cbn [app]; eauto. }
  destruct R as (c3 & t3 & E3 & D3).
  assert (G : getname max (n1 ++ o1 ++ rs ++ [0]) = Ok (Some (name1, o1 ++ rs ++ [0]))).
  { destruct Ho1 as [[-> _]|Ho1]; cbn [app].
    - rewrite E3. apply getname_ok; auto. destruct D3; subst; reflexivity.
    - destruct (offset_hd _ _ Ho1) as (c4 & o4 & E4 & D4). rewrite E4. cbn [app]. apply getname_ok; auto.
      destruct (alpha c4) eqn:A; auto. apply alpha_iff in A. unfold letter, is_dec in *; lia. }
  rewrite G. cbn [bind]. rewrite (put_ok max name1 n1) by auto. cbn [bind].
  assert (O : (c <- peek (o1 ++ rs ++ [0]);; (if negb (c =? 0) && negb (c =? 44) then getoffset (o1 ++ rs ++ [0]) else Ok (Some (off - 3600, o1 ++ rs ++ [0]))))
      = Ok (Some (off1, rs ++ [0]))).
  { destruct Ho1 as [[-> ->]|Ho1]; cbn [app].
    - rewrite E3. cbn [peek bind]. destruct D3 as [->| ->]; reflexivity.
    - destruct (offset_hd _ _ Ho1) as (c4 & o4 & E4 & D4). rewrite E4. cbn [app peek bind].
      replace (c4 =? 0) with false by (unfold is_dec in D4; lia). replace (c4 =? 44) with false by (unfold is_dec in D4; lia). cbn [negb andb].
      change (c4 :: o4 ++ rs ++ [0]) with ((c4 :: o4) ++ rs ++ [0]). rewrite <- E4, E3. apply getoffset_ok; auto; destruct D3; subst; try reflexivity; lia. }
  destruct (peek (o1 ++ rs ++ [0])) as [c5| | |]; try discriminate. cbn [bind] in *. rewrite O. cbn [bind].
  rewrite (parse_rules_ok r0 r1) by auto. reflexivity.
Qed.
