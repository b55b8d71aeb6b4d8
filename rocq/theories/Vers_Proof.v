(** strverscmp implements the version order *)
From Coq Require Import Lia.
From Verif Require Import Base Str_Model Str_Spec Str_Proof StrSearch_Proof.
From Verif Require Import Ctype_Model Ctype_Spec Ctype_Proof Strtol_Spec Casestr_Model Casestr_Spec Casestr_Proof.
Open Scope Z_scope.

Lemma isdig_ok c : 0 <= c < 256 -> isdig c_locale c = Ok (digit c).
Proof. intros H. unfold isdig. now rewrite narrow_ok by lia. Qed.

(** comparison of the rest of two strings with a common prefix that ended in state [st] *)
Definition rest (st : place) (a b : list Z) : comparison :=
  match st with
  | Number => match Nat.compare (run a) (run b) with Eq => lex (version Number a) (version Number b) | c => c end
  | _ => lex (version st a) (version st b)
  end.

Lemma lex_cons c a b : lex (c :: a) (c :: b) = lex a b.
Proof. cbn. now rewrite Z.compare_refl. Qed.

Lemma rest_step st c a b : rest st (c :: a) (c :: b) = rest (after st c) a b.
Proof.
  unfold rest. destruct st; unfold after; cbn [version run after].
  - destruct (digit c) eqn:D; cbn [andb].
    + destruct (Z.eqb_spec c 48) as [->|N]; cbn [negb app]; unfold after; rewrite D.
      * now rewrite lex_cons.
      * rewrite (proj2 (Z.eqb_neq c 48) N). cbn [lex].
        replace (1000 + Z.of_nat (S (run a)) ?= 1000 + Z.of_nat (S (run b))) with (Nat.compare (run a) (run b)).
        2: { destruct (Nat.compare_spec (run a) (run b)); symmetry;
             [apply Z.compare_eq_iff|apply Z.compare_lt_iff|apply Z.compare_gt_iff]; lia. }
        now rewrite Z.compare_refl.
    + unfold after; rewrite D. cbn [app]. now rewrite lex_cons.
  - unfold after. destruct (digit c) eqn:D; cbn [app].
    + cbn [Nat.compare]. now rewrite lex_cons.
    + cbn. now rewrite Z.compare_refl.
  - unfold after. destruct (digit c) eqn:D; cbn [app].
    + destruct (c =? 48); now rewrite lex_cons.
    + now rewrite lex_cons.
  - unfold after. destruct (digit c) eqn:D; cbn [app]; now rewrite lex_cons.
Qed.

(** head of a string, 0 at its end *)
Definition okhd (a : list Z) : Prop := 0 <= hd0 a < 256 /\ (hd0 a = 0 -> a = []).

Lemma version_plain st a : st = Number \/ st = Fraction -> exists t, version st a = hd0 a :: t.
Proof. intros [->| ->]; destruct a; cbn; eauto. Qed.

Lemma version_zeros a : exists t, version Zeros a = (if digit (hd0 a) then hd0 a else 1000 + hd0 a) :: t.
Proof. destruct a; cbn; eauto. Qed.

Lemma version_text a : digit (hd0 a) = false \/ hd0 a = 48 -> exists t, version Text a = hd0 a :: t.
Proof.
  destruct a as [|c a]; cbn; eauto. intros [D| ->].
  - rewrite D. cbn. eauto.
  - cbn. eauto.
Qed.

Lemma version_num a : digit (hd0 a) = true -> hd0 a <> 48 -> exists t, version Text a = (1000 + Z.of_nat (run a)) :: hd0 a :: t.
Proof.
  destruct a as [|c a]. cbn; discriminate. cbn [hd0]. intros D N. cbn [version].
  rewrite D, (proj2 (Z.eqb_neq c 48) N). cbn. eauto.
Qed.

Lemma run_zero a : digit (hd0 a) = false -> run a = 0%nat.
Proof. destruct a as [|c a]; cbn; auto. intros ->; auto. Qed.
Lemma run_pos a : digit (hd0 a) = true -> (0 < run a)%nat.
Proof. destruct a as [|c a]; cbn. discriminate. intros ->; lia. Qed.

(** what the code computes at the first difference *)
Definition diff (st : place) (a b : list Z) : Z :=
  let x := hd0 a in let y := hd0 b in
  match st with
  | Number => match Nat.compare (run a) (run b) with Gt => 1 | Lt => -1 | Eq => x - y end
  | Text => if negb (x =? 48) && negb (y =? 48) then
              match Nat.compare (run a) (run b) with Gt => 1 | Lt => -1 | Eq => x - y end
            else x - y
  | Zeros => if digit x || digit y then (x - 48) mod 256 - (y - 48) mod 256 else x - y
  | Fraction => x - y
  end.

Lemma cmp_sub x y : (x - y ?= 0) = (x ?= y).
Proof. destruct (Z.compare_spec x y); [apply Z.compare_eq_iff|apply Z.compare_lt_iff|apply Z.compare_gt_iff]; lia. Qed.

Lemma lex_hd x y s t : x <> y -> lex (x :: s) (y :: t) = (x ?= y).
Proof. intros N. cbn. destruct (Z.compare_spec x y); auto. congruence. Qed.

Lemma digit_iff c : digit c = true <-> 48 <= c <= 57.
Proof. unfold digit. rewrite Bool.andb_true_iff, !Z.leb_le. tauto. Qed.
Lemma digit_niff c : digit c = false <-> c < 48 \/ 57 < c.
Proof. unfold digit. rewrite Bool.andb_false_iff, !Z.leb_gt. tauto. Qed.

Lemma sub_mod c : 0 <= c < 256 -> (c - 48) mod 256 = if c <? 48 then c + 208 else c - 48.
Proof.
  intros H. destruct (Z.ltb_spec c 48).
  - replace (c - 48) with (c + 208 + (-1) * 256) by lia. rewrite Z.mod_add by lia. apply Z.mod_small; lia.
  - apply Z.mod_small; lia.
Qed.

Lemma diff_ok st a b : 0 <= hd0 a < 256 -> 0 <= hd0 b < 256 -> hd0 a <> hd0 b -> (diff st a b ?= 0) = rest st a b.
Proof.
  intros Ba Bb N. unfold diff, rest. cbv zeta. destruct st.
  - (* Text *)
    destruct (digit (hd0 a)) eqn:Da, (digit (hd0 b)) eqn:Db.
    + destruct (Z.eqb_spec (hd0 a) 48) as [Ea|Ea], (Z.eqb_spec (hd0 b) 48) as [Eb|Eb]; cbn [negb andb]; try congruence.
      * destruct (version_text a (or_intror Ea)) as [t ->]. destruct (version_num b Db Eb) as [u ->].
        rewrite cmp_sub, lex_hd by lia. pose proof (proj1 (digit_iff _) Db).
        rewrite !(proj2 (Z.compare_lt_iff _ _)) by lia. reflexivity.
      * destruct (version_text b (or_intror Eb)) as [t ->]. destruct (version_num a Da Ea) as [u ->].
        rewrite cmp_sub, lex_hd by lia. pose proof (proj1 (digit_iff _) Da).
        rewrite !(proj2 (Z.compare_gt_iff _ _)) by lia. reflexivity.
      * destruct (version_num a Da Ea) as [t ->]. destruct (version_num b Db Eb) as [u ->]. cbn [lex].
        destruct (Nat.compare_spec (run a) (run b)) as [E|E|E].
        -- rewrite E, Z.compare_refl, cmp_sub. destruct (Z.compare_spec (hd0 a) (hd0 b)); auto; congruence.
        -- now rewrite (proj2 (Z.compare_lt_iff (1000 + _) _)) by lia.
        -- now rewrite (proj2 (Z.compare_gt_iff (1000 + _) _)) by lia.
    + destruct (version_text b (or_introl Db)) as [u ->]. pose proof (run_zero b Db) as Rb. pose proof (run_pos a Da) as Ra.
      pose proof (proj1 (digit_iff _) Da). pose proof (proj1 (digit_niff _) Db).
      destruct (Z.eqb_spec (hd0 a) 48) as [Ea|Ea]; cbn [negb andb].
      * destruct (version_text a (or_intror Ea)) as [t ->]. now rewrite cmp_sub, lex_hd by lia.
      * rewrite (proj2 (Z.eqb_neq (hd0 b) 48)) by lia. cbn [negb].
        destruct (version_num a Da Ea) as [t ->]. rewrite (proj2 (Nat.compare_gt_iff _ _)) by lia.
        rewrite lex_hd by lia. now rewrite (proj2 (Z.compare_gt_iff (1000 + _) _)) by lia.
    + destruct (version_text a (or_introl Da)) as [u ->]. pose proof (run_zero a Da) as Ra. pose proof (run_pos b Db) as Rb.
      pose proof (proj1 (digit_iff _) Db). pose proof (proj1 (digit_niff _) Da).
      rewrite (proj2 (Z.eqb_neq (hd0 a) 48)) by lia. cbn [negb andb].
      destruct (Z.eqb_spec (hd0 b) 48) as [Eb|Eb]; cbn [negb andb].
      * destruct (version_text b (or_intror Eb)) as [t ->]. now rewrite cmp_sub, lex_hd by lia.
      * destruct (version_num b Db Eb) as [t ->]. rewrite (proj2 (Nat.compare_lt_iff _ _)) by lia.
        rewrite lex_hd by lia. now rewrite (proj2 (Z.compare_lt_iff _ (1000 + _))) by lia.
    + destruct (version_text a (or_introl Da)) as [t ->]. destruct (version_text b (or_introl Db)) as [u ->].
      rewrite (run_zero a Da), (run_zero b Db). cbn [Nat.compare].
      rewrite lex_hd by auto. destruct (negb (hd0 a =? 48) && negb (hd0 b =? 48)); apply cmp_sub.
  - (* Number *)
    destruct (version_plain Number a (or_introl eq_refl)) as [t ->].
    destruct (version_plain Number b (or_introl eq_refl)) as [u ->].
    rewrite lex_hd by auto. destruct (Nat.compare_spec (run a) (run b)); auto. apply cmp_sub.
  - (* Zeros *)
    destruct (version_zeros a) as [t ->]. destruct (version_zeros b) as [u ->].
    destruct (digit (hd0 a)) eqn:Da, (digit (hd0 b)) eqn:Db; cbn [orb]; rewrite cmp_sub.
    + rewrite lex_hd by auto. rewrite !sub_mod by lia. pose proof (proj1 (digit_iff _) Da). pose proof (proj1 (digit_iff _) Db).
      rewrite !(proj2 (Z.ltb_ge _ _)) by lia.
      destruct (Z.compare_spec (hd0 a) (hd0 b)); [apply Z.compare_eq_iff|apply Z.compare_lt_iff|apply Z.compare_gt_iff]; lia.
    + pose proof (proj1 (digit_iff _) Da). pose proof (proj1 (digit_niff _) Db). rewrite lex_hd by lia. rewrite !sub_mod by lia.
      rewrite (proj2 (Z.ltb_ge (hd0 a) _)) by lia.
      rewrite (proj2 (Z.compare_lt_iff _ (1000 + _))) by lia. apply Z.compare_lt_iff.
      destruct (Z.ltb_spec (hd0 b) 48); lia.
    + pose proof (proj1 (digit_iff _) Db). pose proof (proj1 (digit_niff _) Da). rewrite lex_hd by lia. rewrite !sub_mod by lia.
      rewrite (proj2 (Z.ltb_ge (hd0 b) _)) by lia.
      rewrite (proj2 (Z.compare_gt_iff (1000 + _) _)) by lia. apply Z.compare_gt_iff.
      destruct (Z.ltb_spec (hd0 a) 48); lia.
    + rewrite lex_hd by lia. destruct (Z.compare_spec (hd0 a) (hd0 b)); symmetry;
      [apply Z.compare_eq_iff|apply Z.compare_lt_iff|apply Z.compare_gt_iff]; lia.
  - (* Fraction *)
    destruct (version_plain Fraction a (or_intror eq_refl)) as [t ->].
    destruct (version_plain Fraction b (or_intror eq_refl)) as [u ->].
    rewrite lex_hd by auto. apply cmp_sub.
Qed.

(** the scan *)
Definition hdn (a : list Z) i : Z := nth i a 0.

Lemma hd_skip (a : list Z) i : hd0 (skipn i a) = nth i a 0.
Proof. revert i. induction a as [|c a IH]; intros [|i]; cbn; auto. Qed.

Lemma longer_ok fuel : forall m p q a b j, str_at m p a -> str_at m q b ->
  (j <= length a)%nat -> (j <= length b)%nat -> (length a - j < fuel)%nat ->
  vers_longer c_locale fuel m p q j =
    Ok (match Nat.compare (run (skipn j a)) (run (skipn j b)) with Gt => Some 1 | Lt => Some (-1) | Eq => None end).
Proof.
  induction fuel as [|f IH]; intros m p q a b j Ha Hb Ja Jb Hf; [lia|]. cbn [vers_longer].
  rewrite (str_load _ _ _ j Ha Ja), (str_load _ _ _ j Hb Jb). cbn [bind].
  assert (Ba : 0 <= nth j a 0 < 256).
  { destruct (Nat.eq_dec j (length a)) as [->|]. rewrite str_end; lia. pose proof (str_pos _ _ _ j Ha ltac:(lia)); lia. }
  assert (Bb : 0 <= nth j b 0 < 256).
  { destruct (Nat.eq_dec j (length b)) as [->|]. rewrite str_end; lia. pose proof (str_pos _ _ _ j Hb ltac:(lia)); lia. }
  rewrite (isdig_ok _ Ba), (isdig_ok _ Bb). cbn [bind].
  destruct (digit (nth j a 0)) eqn:Da, (digit (nth j b 0)) eqn:Db; cbn [negb].
  - assert (j < length a)%nat. { destruct (Nat.eq_dec j (length a)) as [->|]; [rewrite str_end in Da; discriminate|lia]. }
    assert (j < length b)%nat. { destruct (Nat.eq_dec j (length b)) as [->|]; [rewrite str_end in Db; discriminate|lia]. }
    rewrite (IH m p q a b (S j)) by (auto; lia). rewrite (nth_skip a j), (nth_skip b j) by lia. cbn [run].
    rewrite Da, Db. reflexivity.
  - assert (R : digit (hd0 (skipn j a)) = true) by (rewrite hd_skip; auto). pose proof (run_pos _ R).
    rewrite (run_zero (skipn j b)) by (rewrite hd_skip; auto). rewrite (proj2 (Nat.compare_gt_iff _ _)) by lia. reflexivity.
  - assert (R : digit (hd0 (skipn j b)) = true) by (rewrite hd_skip; auto). pose proof (run_pos _ R).
    rewrite (run_zero (skipn j a)) by (rewrite hd_skip; auto). rewrite (proj2 (Nat.compare_lt_iff _ _)) by lia. reflexivity.
  - rewrite (run_zero (skipn j a)), (run_zero (skipn j b)) by (rewrite hd_skip; auto). reflexivity.
Qed.

(** what (i, dp, z) say about the place reached *)
Definition scan_at (st : place) (a : list Z) (i dp : nat) (z : bool) : Prop :=
  match st with
  | Text => dp = i /\ z = true
  | Number => (dp < i)%nat /\ nth dp a 0 <> 48
  | Zeros => (dp < i)%nat /\ nth dp a 0 = 48 /\ z = true
  | Fraction => (dp < i)%nat /\ nth dp a 0 = 48 /\ z = false
  end.

Lemma prefix_ok fuel : forall m p q a b i dp z st, str_at m p a -> str_at m q b ->
  (i <= length a)%nat -> (i <= length b)%nat -> (length a - i < fuel)%nat ->
  scan_at st a i dp z -> (forall k, (k < i)%nat -> nth k a 0 = nth k b 0) ->
  exists o, vers_prefix c_locale fuel m p q i dp z = Ok o /\
    match o with
    | None => skipn i a = skipn i b
    | Some (i', dp', z') => exists st', scan_at st' a i' dp' z' /\ (i' <= length a)%nat /\ (i' <= length b)%nat /\
        nth i' a 0 <> nth i' b 0 /\ (forall k, (k < i')%nat -> nth k a 0 = nth k b 0) /\
        rest st (skipn i a) (skipn i b) = rest st' (skipn i' a) (skipn i' b)
    end.
Proof.
  induction fuel as [|f IH]; intros m p q a b i dp z st Ha Hb Ia Ib Hf Hs Hk; [lia|]. cbn [vers_prefix].
  rewrite (str_load _ _ _ i Ha Ia), (str_load _ _ _ i Hb Ib). cbn [bind].
  destruct (Z.eqb_spec (nth i a 0) (nth i b 0)) as [E|N].
  2: { eexists. split; [reflexivity|]. exists st. repeat split; auto. }
  destruct (Z.eqb_spec (nth i a 0) 0) as [E0|N0].
  - eexists. split; [reflexivity|]. cbn.
    assert (i = length a). { destruct (Nat.eq_dec i (length a)); auto. pose proof (str_pos _ _ _ i Ha ltac:(lia)). lia. }
    assert (i = length b). { destruct (Nat.eq_dec i (length b)); auto. pose proof (str_pos _ _ _ i Hb ltac:(lia)). lia. }
    rewrite !skipn_all2 by lia. reflexivity.
  - assert (La : (i < length a)%nat). { destruct (Nat.eq_dec i (length a)) as [->|]; [now rewrite str_end in N0|lia]. }
    assert (Lb : (i < length b)%nat). { destruct (Nat.eq_dec i (length b)) as [->|]; [rewrite str_end in E; congruence|lia]. }
    pose proof (str_pos _ _ _ i Ha La) as Pa. rewrite isdig_ok by lia. cbn [bind].
    assert (Step : rest st (skipn i a) (skipn i b) = rest (after st (nth i a 0)) (skipn (S i) a) (skipn (S i) b)).
    { rewrite (nth_skip a i), (nth_skip b i) by lia. rewrite <- E. apply rest_step. }
    assert (Hk' : forall k, (k < S i)%nat -> nth k a 0 = nth k b 0).
    { intros k Hlt. destruct (Nat.eq_dec k i) as [->|]; auto. apply Hk; lia. }
    set (c := nth i a 0) in *.
    assert (Go : forall dp' z', scan_at (after st c) a (S i) dp' z' ->
      exists o, vers_prefix c_locale f m p q (S i) dp' z' = Ok o /\
      match o with
      | None => skipn i a = skipn i b
      | Some (i', dp', z') => exists st', scan_at st' a i' dp' z' /\ (i' <= length a)%nat /\ (i' <= length b)%nat /\
          nth i' a 0 <> nth i' b 0 /\ (forall k, (k < i')%nat -> nth k a 0 = nth k b 0) /\
          rest st (skipn i a) (skipn i b) = rest st' (skipn i' a) (skipn i' b)
      end).
    { intros dp' z' Hsc. destruct (IH m p q a b (S i) dp' z' (after st c) Ha Hb) as [o [Eo Ho]]; auto; try lia.
      exists o. split; auto. destruct o as [[[i' d'] z'']|].
      - destruct Ho as [st' [H1 [H2 [H3 [H4 [H5 H6]]]]]]. exists st'. repeat split; auto. now rewrite Step.
      - rewrite (nth_skip a i), (nth_skip b i) by lia. fold c. now rewrite <- E, Ho. }
    destruct (digit c) eqn:D; cbn [negb].
    + destruct (Z.eqb_spec c 48) as [E48|N48]; cbn [negb]; apply Go; unfold after; rewrite D.
      * rewrite E48. cbn [Z.eqb Pos.eqb]. destruct st; cbn in Hs |- *.
        -- destruct Hs as [-> ->]. repeat split; auto.
        -- split; [lia|tauto].
        -- repeat split; try tauto; lia.
        -- repeat split; try tauto; lia.
      * rewrite (proj2 (Z.eqb_neq c 48) N48). destruct st; cbn in Hs |- *.
        -- destruct Hs as [-> ->]. split; [lia|exact N48].
        -- split; [lia|tauto].
        -- repeat split; try tauto; lia.
        -- repeat split; try tauto; lia.
    + apply Go. unfold after. rewrite D. cbn. auto.
Qed.

Lemma nth_byte m p a i : str_at m p a -> (i <= length a)%nat -> 0 <= nth i a 0 < 256.
Proof.
  intros Ha Hi. destruct (Nat.eq_dec i (length a)) as [->|]. rewrite str_end; lia.
  pose proof (str_pos _ _ _ i Ha ltac:(lia)); lia.
Qed.

Lemma strverscmp_ok fuel m p q a b : str_at m p a -> str_at m q b -> (length a < fuel)%nat ->
  exists r, strverscmp c_locale fuel m p q = Ok r /\ (r ?= 0) = vers a b.
Proof.
  intros Ha Hb Hf. unfold strverscmp.
  destruct (prefix_ok fuel m p q a b 0 0 true Text Ha Hb) as [o [Eo Ho]]; try (cbn; auto; lia).
  rewrite Eo. cbn [bind]. destruct o as [[[i dp] z]|].
  2: { cbn in Ho. exists 0. split; auto. subst b. unfold vers. symmetry. apply lex_refl. }
  destruct Ho as [st [Hs [Ia [Ib [Nd [Hk R]]]]]]. cbn [skipn] in R. change (rest Text a b) with (vers a b) in R.
  pose proof (nth_byte _ _ _ i Ha Ia) as Ba. pose proof (nth_byte _ _ _ i Hb Ib) as Bb.
  rewrite (str_load _ _ _ i Ha Ia), (str_load _ _ _ i Hb Ib). cbn [bind].
  assert (Hdp : (dp <= i)%nat) by (destruct st; cbn in Hs; lia).
  rewrite (str_load _ _ _ dp Ha) by lia. cbn [bind].
  exists (diff st (skipn i a) (skipn i b)).
  split; [|rewrite R; apply diff_ok; rewrite !hd_skip; auto].
  rewrite !isdig_ok by auto. rewrite (longer_ok fuel m p q a b i Ha Hb Ia Ib) by lia.
  destruct (Nat.eq_dec dp i) as [E|N].
  - subst dp. destruct st; cbn in Hs; try lia. destruct Hs as [_ ->]. unfold diff. cbv zeta. rewrite !hd_skip.
    destruct (Z.eqb_spec (nth i a 0) 48) as [E48|N48]; cbn [negb andb bind].
    + rewrite Nat.ltb_irrefl. cbn. reflexivity.
    + rewrite (str_load _ _ _ i Hb Ib). cbn [bind]. destruct (Z.eqb_spec (nth i b 0) 48); cbn [negb bind].
      * rewrite Nat.ltb_irrefl. cbn. reflexivity.
      * destruct (Nat.compare _ _); reflexivity.
  - assert (Lt : (dp < i)%nat) by lia. pose proof (Hk dp Lt) as Ed.
    rewrite (proj2 (Nat.ltb_lt dp i) Lt). unfold diff. cbv zeta. rewrite !hd_skip.
    destruct st; cbn in Hs.
    + lia.
    + destruct Hs as [_ N48]. rewrite (proj2 (Z.eqb_neq _ _) N48). cbn [negb].
      rewrite (str_load _ _ _ dp Hb) by lia. cbn [bind]. rewrite <- Ed, (proj2 (Z.eqb_neq _ _) N48). cbn [negb andb bind].
      destruct (Nat.compare _ _); reflexivity.
    + destruct Hs as [_ [E48 ->]]. rewrite E48. cbn [Z.eqb Pos.eqb negb andb bind].
      destruct (digit (nth i a 0) || digit (nth i b 0)); reflexivity.
    + destruct Hs as [_ [E48 ->]]. rewrite E48. cbn [Z.eqb Pos.eqb negb andb bind]. reflexivity.
Qed.

(** ** facts about the order itself *)
Lemma version_inj a : forall st b, Forall (fun c => 0 < c < 256) a -> Forall (fun c => 0 < c < 256) b ->
  version st a = version st b -> a = b.
Proof.
  induction a as [|x a IH]; intros st [|y b] Ha Hb E; auto.
  - exfalso. inversion Hb; subst. cbn [version] in E. destruct st; cbn [app] in E.
    + destruct (digit y && negb (y =? 48)); cbn [app] in E; apply (f_equal (hd 7)) in E; cbn [hd] in E; lia.
    + apply (f_equal (hd 7)) in E; cbn [hd] in E; lia.
    + destruct (digit y) eqn:D; apply (f_equal (hd 7)) in E; cbn [hd] in E; lia.
    + apply (f_equal (hd 7)) in E; cbn [hd] in E; lia.
  - exfalso. inversion Ha; subst. cbn [version] in E. destruct st; cbn [app] in E.
    + destruct (digit x && negb (x =? 48)); cbn [app] in E; apply (f_equal (hd 7)) in E; cbn [hd] in E; lia.
    + apply (f_equal (hd 7)) in E; cbn [hd] in E; lia.
    + destruct (digit x) eqn:D; apply (f_equal (hd 7)) in E; cbn [hd] in E; lia.
    + apply (f_equal (hd 7)) in E; cbn [hd] in E; lia.
  - inversion Ha as [|? ? Hx Ha']; subst. inversion Hb as [|? ? Hy Hb']; subst.
    assert (x = y /\ version (after st x) a = version (after st y) b) as [-> E'].
    { cbn [version] in E. destruct st.
      - destruct (digit x && negb (x =? 48)), (digit y && negb (y =? 48)); cbn [app] in E.
        + split; [exact (f_equal (fun l => hd 7 (tl l)) E)|exact (f_equal (fun l => tl (tl l)) E)].
        + apply (f_equal (hd 7)) in E; cbn [hd] in E; lia.
        + apply (f_equal (hd 7)) in E; cbn [hd] in E; lia.
        + split; [exact (f_equal (hd 7) E)|exact (f_equal (@tl Z) E)].
      - cbn [app] in E. injection E; auto.
      - destruct (digit x) eqn:Dx, (digit y) eqn:Dy; cbn [app] in E;
        pose proof (f_equal (hd 7) E) as E1; pose proof (f_equal (@tl Z) E) as E2; cbn [hd tl] in E1, E2;
        try (apply digit_iff in Dx); try (apply digit_iff in Dy); split; try lia; auto.
      - cbn [app] in E. injection E; auto. }
    f_equal. eapply IH; eauto.
Qed.

Lemma rest_app st p a b : rest st (p ++ a) (p ++ b) = rest (fold_left after p st) a b.
Proof. revert st. induction p as [|c p IH]; intros st; auto. cbn [app fold_left]. now rewrite rest_step. Qed.

Lemma ends_text_state p : ends_text p -> fold_left after p Text = Text.
Proof.
  intros [->|[q [c [-> D]]]]; auto. rewrite fold_left_app. cbn. unfold after. now rewrite D.
Qed.

Lemma run_app ds t : Forall (fun c => digit c = true) ds -> starts_text t -> run (ds ++ t) = length ds.
Proof.
  intros H Ht. induction H as [|c ds Hc _ IH]; cbn.
  - destruct Ht as [->|[p [c [-> D]]]]; auto. cbn. now rewrite D.
  - now rewrite Hc, IH.
Qed.

Lemma dig_digit c : digit c = true -> dig c = Some (c - 48).
Proof. unfold digit, dig. intros ->. reflexivity. Qed.

Lemma dv_fold ds : Forall (fun c => digit c = true) ds -> forall v,
  fold_left (fun v c => match dig c with Some d => v * 10 + d | None => v end) ds v =
  v * 10 ^ Z.of_nat (length ds) + digits_value 10 ds.
Proof.
  unfold digits_value. intros H. induction H as [|c ds Hc Hs IH]; intros v.
  - cbn. lia.
  - cbn [fold_left length]. rewrite (dig_digit c Hc). rewrite (IH (v * 10 + (c - 48))), (IH (0 * 10 + (c - 48))).
    rewrite Nat2Z.inj_succ, Z.pow_succ_r by lia. ring.
Qed.

Lemma dv_cons c ds : digit c = true -> Forall (fun c => digit c = true) ds ->
  digits_value 10 (c :: ds) = (c - 48) * 10 ^ Z.of_nat (length ds) + digits_value 10 ds.
Proof.
  intros Hc H. unfold digits_value at 1. cbn [fold_left]. rewrite (dig_digit c Hc). rewrite (dv_fold ds H). ring.
Qed.

Lemma dv_bound ds : Forall (fun c => digit c = true) ds -> 0 <= digits_value 10 ds < 10 ^ Z.of_nat (length ds).
Proof.
  intros H. induction H as [|c ds Hc Hs IH]. cbn; lia.
  rewrite (dv_cons c ds Hc Hs). apply digit_iff in Hc. cbn [length]. rewrite Nat2Z.inj_succ, Z.pow_succ_r by lia. nia.
Qed.

Lemma dv_low ds : plain_number ds -> 10 ^ (Z.of_nat (length ds) - 1) <= digits_value 10 ds.
Proof.
  intros [N [H Z0]]. destruct ds as [|c ds]; [congruence|]. cbn [hd0] in Z0. inversion H as [|? ? Hc Hs]; subst.
  rewrite (dv_cons c ds Hc Hs). apply digit_iff in Hc. pose proof (dv_bound ds Hs).
  cbn [length]. replace (Z.of_nat (S (length ds)) - 1) with (Z.of_nat (length ds)) by lia.
  assert (0 < 10 ^ Z.of_nat (length ds)) by (apply Z.pow_pos_nonneg; lia). nia.
Qed.

Lemma version_number_app ds t : Forall (fun c => digit c = true) ds ->
  version Number (ds ++ t) = ds ++ version Number t.
Proof.
  intros H. induction H as [|c ds Hc _ IH]; auto. cbn [app version]. unfold after. rewrite Hc. now rewrite IH.
Qed.

Lemma lex_app_digits a : forall b s t, length a = length b -> a <> b ->
  Forall (fun c => digit c = true) a -> Forall (fun c => digit c = true) b ->
  lex (a ++ s) (b ++ t) = (digits_value 10 a ?= digits_value 10 b).
Proof.
  induction a as [|x a IH]; intros [|y b] s t L N Ha Hb; cbn in L; try lia. congruence.
  injection L as L. inversion Ha as [|? ? Dx Ha']; subst. inversion Hb as [|? ? Dy Hb']; subst.
  rewrite (dv_cons x a Dx Ha'), (dv_cons y b Dy Hb'). rewrite L. cbn [app lex].
  pose proof (dv_bound a Ha') as Ba. pose proof (dv_bound b Hb') as Bb. rewrite L in Ba.
  assert (0 < 10 ^ Z.of_nat (length b)) by (apply Z.pow_pos_nonneg; lia).
  destruct (Z.compare_spec x y) as [->|C|C].
  - rewrite IH; auto; [|congruence].
    destruct (Z.compare_spec (digits_value 10 a) (digits_value 10 b)); symmetry;
    [apply Z.compare_eq_iff|apply Z.compare_lt_iff|apply Z.compare_gt_iff]; lia.
  - symmetry. apply Z.compare_lt_iff. nia.
  - symmetry. apply Z.compare_gt_iff. nia.
Qed.

Lemma vers_numbers p n1 n2 t1 t2 : ends_text p -> plain_number n1 -> plain_number n2 -> n1 <> n2 ->
  starts_text t1 -> starts_text t2 ->
  vers (p ++ n1 ++ t1) (p ++ n2 ++ t2) = (digits_value 10 n1 ?= digits_value 10 n2).
Proof.
  intros Hp H1 H2 N T1 T2. change (rest Text (p ++ n1 ++ t1) (p ++ n2 ++ t2) = (digits_value 10 n1 ?= digits_value 10 n2)).
  rewrite rest_app, (ends_text_state p Hp). unfold rest.
  pose proof (dv_low n1 H1) as L1. pose proof (dv_low n2 H2) as L2.
  destruct H1 as [N1 [D1 Z1]], H2 as [N2 [D2 Z2]].
  pose proof (dv_bound n1 D1) as B1. pose proof (dv_bound n2 D2) as B2.
  assert (V : forall n t, n <> [] -> Forall (fun c => digit c = true) n -> hd0 n <> 48 -> starts_text t ->
    version Text (n ++ t) = (1000 + Z.of_nat (length n)) :: n ++ version Number t).
  { intros n t Nn Dn Zn Tt. rewrite <- (run_app n t Dn Tt). destruct n as [|c n]; [congruence|]. cbn [hd0] in Zn.
    inversion Dn as [|? ? Dc Dn']; subst. cbn [app version]. rewrite Dc, (proj2 (Z.eqb_neq _ _) Zn). cbn [negb andb app].
    unfold after. rewrite Dc, (proj2 (Z.eqb_neq _ _) Zn). now rewrite version_number_app. }
  rewrite (V n1 t1), (V n2 t2) by auto. cbn [lex].
  destruct (Nat.lt_trichotomy (length n1) (length n2)) as [L|[L|L]].
  - rewrite (proj2 (Z.compare_lt_iff _ _)) by lia. symmetry. apply Z.compare_lt_iff.
    assert (10 ^ Z.of_nat (length n1) <= 10 ^ (Z.of_nat (length n2) - 1)) by (apply Z.pow_le_mono_r; lia). lia.
  - rewrite L, Z.compare_refl. apply lex_app_digits; auto.
  - rewrite (proj2 (Z.compare_gt_iff (1000 + _) _)) by lia. symmetry. apply Z.compare_gt_iff.
    assert (10 ^ Z.of_nat (length n2) <= 10 ^ (Z.of_nat (length n1) - 1)) by (apply Z.pow_le_mono_r; lia). lia.
Qed.

Lemma version_nodigit a : Forall (fun c => digit c = false) a -> version Text a = a ++ [0].
Proof.
  intros H. induction H as [|c a Hc _ IH]; auto. cbn [version]. unfold after. rewrite Hc. cbn. now rewrite IH.
Qed.

Lemma lex_app0 a : forall b, Forall (fun c => 0 < c) a -> Forall (fun c => 0 < c) b -> lex (a ++ [0]) (b ++ [0]) = lex a b.
Proof.
  induction a as [|x a IH]; intros [|y b] Ha Hb; auto.
  - inversion Hb; subst. cbn. destruct y; try lia; reflexivity.
  - inversion Ha; subst. cbn. destruct x; try lia; reflexivity.
  - inversion Ha; inversion Hb; subst. cbn. destruct (x ?= y); auto.
Qed.
