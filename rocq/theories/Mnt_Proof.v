From Verif Require Scanf_Model Scanf_Proof Users_Proof.
From Verif Require Import Scanf_Spec.
From Verif Require Import Base Hosts_Model Hosts_Spec Hosts_Proof Mnt_Model Mnt_Spec.
Open Scope Z_scope.

Definition pieces : list directive := [Space [32]; Count Scanf_Model.TInt; Word [] false; Count Scanf_Model.TInt].
Definition nums : list directive := [Space [32]; Int Dec Scanf_Model.TInt true; Space [32]; Int Dec Scanf_Model.TInt true].
Definition dirs : list directive := pieces ++ pieces ++ pieces ++ pieces ++ nums.
Lemma fmt_dirs : format dirs = fmt. Proof. reflexivity. Qed.
Lemma dirs_ok : ok_format dirs.
Proof. cbn. repeat split; try discriminate; auto; try (constructor; [left; reflexivity|constructor]); try constructor; try lia. Qed.
Lemma scan_line line ret outs : ascii line -> scans dirs 0 line 0 ret outs -> Scanf_Model.sscanf line fmt = Ok (ret, outs).
Proof. intros A S0. rewrite <- fmt_dirs. apply Scanf_Proof.sscanf_ok; auto using dirs_ok; discriminate. Qed.

Notation I32 n := (Scanf_Model.SInt Scanf_Model.TInt ((n) mod 2 ^ 32)).
Definition starts_space (r : list Z) : Prop := exists c t, r = c :: t /\ space c.
Lemma wordy_nospace w : wordy w -> Forall (fun c => ~ space c) w.
Proof. intros [F _]. revert F. apply Forall_impl. intros c H. unfold space. lia. Qed.
Lemma wordy_hd w r : wordy w -> forall c t, w ++ r = c :: t -> ~ space c.
Proof. intros [F N] c t E. destruct w as [|x w]; [congruence|]. injection E as -> _. inversion F; subst. unfold space. lia. Qed.
Lemma blank_space b : Forall blank b -> Forall space b.
Proof. apply Forall_impl. intros c [->| ->]; unfold space; lia. Qed.

Lemma piece_ok D n b w rest k ret outs : Forall blank b -> wordy w -> starts_space rest ->
  scans D (n + Z.of_nat (length b) + Z.of_nat (length w)) rest k ret outs ->
  scans (pieces ++ D) n (b ++ w ++ rest) k ret (I32 (n + Z.of_nat (length b)) :: I32 (n + Z.of_nat (length b) + Z.of_nat (length w)) :: outs).
Proof.
  intros B W (c & t & -> & SC) S0. unfold pieces. cbn [app].
  apply (sc_go (Space [32]) _ n b (w ++ c :: t) k None). { constructor. split; [apply blank_space; exact B|apply wordy_hd; exact W]. }
  cbn [counts]. rewrite Z.add_0_r. apply (sc_go (Count Scanf_Model.TInt) _ _ [] (w ++ c :: t) k (Some _)). { apply st_count. }
  cbn [counts length]. rewrite !Z.add_0_r. apply (sc_go (Word [] false) _ _ w (c :: t) k None).
  { apply (st_word [] false _ [] w (c :: t)). - split; [constructor|apply wordy_hd; exact W]. - exact (proj2 W). - split; [apply wordy_nospace; exact W|]. left. split; [reflexivity|]. intros c' r' E. injection E as <- _. auto. }
  cbn [counts]. rewrite Z.add_0_r. apply (sc_go (Count Scanf_Model.TInt) _ _ [] (c :: t) k (Some _)). { apply st_count. }
  cbn [counts length]. rewrite !Z.add_0_r. exact S0.
Qed.

Lemma dec_number ds v : Hosts_Spec.decimal ds v -> number 10 ds v /\ ds <> [] /\ 0 <= v.
Proof.
  intro D. induction D as [d R|l v d D (N & NE & P) R].
  - split; [|split; [discriminate|lia]]. apply (number_snoc 10 [] (48 + d) 0 d); [constructor|]. split; [left; lia|lia].
  - split; [|split; [destruct l; discriminate|lia]]. replace (10 * v + d) with (v * 10 + d) by lia. apply number_snoc; [exact N|]. split; [left; lia|lia].
Qed.
Lemma int_step t z n rest : int_text t z -> starts_space rest ->
  exists v, step (Int Dec Scanf_Model.TInt true) n (t ++ rest) (Go (Some (Scanf_Model.SInt Scanf_Model.TInt v)) rest) /\ to_int v = z /\ (forall c r, t ++ rest = c :: r -> ~ space c).
Proof.
  intros T (c & r & -> & SC). 
  assert (ST : stops 10 (c :: r)). { intros c' r' v E D. injection E as <- _. unfold digit_value in D. unfold space in SC. lia. }
  assert (G : forall sg f ds v, signed_ sg f -> Hosts_Spec.decimal ds v -> step (Int Dec Scanf_Model.TInt true) n ((sg ++ ds) ++ c :: r) (Go (Some (Scanf_Model.SInt Scanf_Model.TInt ((f * v) mod 2 ^ 32))) (c :: r)) /\ (forall x y, (sg ++ ds) ++ c :: r = x :: y -> ~ space x)).
  { intros sg f ds v SG D. destruct (dec_number ds v D) as (N & NE & P).
    assert (HS : forall x y, (sg ++ ds) ++ c :: r = x :: y -> ~ space x). { destruct (decimal_digits ds v D) as [(d & q & E & DD) _]. subst ds. unfold is_digit in DD. intros x y E. destruct SG; cbn in E; injection E as <- _; unfold space; lia. }
    split; [|exact HS]. rewrite <- app_assoc. apply (st_int Dec Scanf_Model.TInt true n [] sg f ds (c :: r) v); [|exact SG|constructor; auto].
    split; [constructor|]. rewrite app_assoc. exact HS. }
  inversion T as [ds v D V|ds v D V|ds v D V]; subst.
  - destruct (G [] 1 t z s_none D) as [G1 G2]. destruct (dec_number _ _ D) as (_ & _ & P). eexists. split; [exact G1|]. split; [|exact G2]. unfold to_int. rewrite Z.mod_small by lia. destruct (Z.ltb_spec (1 * z) 2147483648); lia.
  - destruct (G [43] 1 ds z s_plus D) as [G1 G2]. destruct (dec_number _ _ D) as (_ & _ & P). eexists. split; [exact G1|]. split; [|exact G2]. unfold to_int. rewrite Z.mod_small by lia. destruct (Z.ltb_spec (1 * z) 2147483648); lia.
  - destruct (G [45] (-1) ds v s_minus D) as [G1 G2]. destruct (dec_number _ _ D) as (_ & _ & P). eexists. split; [exact G1|]. split; [|exact G2]. unfold to_int. destruct (Z.eq_dec v 0) as [->|NZ]; [reflexivity|].
    assert (X : (-1 * v) mod 2 ^ 32 = 2 ^ 32 - v) by (symmetry; apply (Z.mod_unique_pos _ _ (-1)); lia). rewrite X. destruct (Z.ltb_spec (2 ^ 32 - v) 2147483648); lia.
Qed.

Lemma nums_full n b4 t5 b5 t6 rest z5 z6 : gap b4 -> int_text t5 z5 -> gap b5 -> int_text t6 z6 -> starts_space rest ->
  exists v5 v6 ret, scans nums n (b4 ++ t5 ++ b5 ++ t6 ++ rest) 0 ret [Scanf_Model.SInt Scanf_Model.TInt v5; Scanf_Model.SInt Scanf_Model.TInt v6] /\ to_int v5 = z5 /\ to_int v6 = z6.
Proof.
  intros B4 T5 B5 T6 SR. 
  assert (SB5 : starts_space (b5 ++ t6 ++ rest)). { destruct B5 as [F N]. destruct b5 as [|c b5]; [congruence|]. exists c, (b5 ++ t6 ++ rest). split; [reflexivity|]. apply blank_space in F. inversion F; assumption. }
  destruct (int_step t5 z5 (n + Z.of_nat (length b4)) (b5 ++ t6 ++ rest) T5 SB5) as (v5 & S5 & E5 & H5).
  destruct (int_step t6 z6 (n + Z.of_nat (length b4) + Z.of_nat (length t5) + Z.of_nat (length b5)) rest T6 SR) as (v6 & S6 & E6 & H6).
  exists v5, v6. eexists. split; [|auto]. unfold nums.
  apply (sc_go (Space [32]) _ n b4 _ 0 None). { constructor. split; [apply blank_space; exact (proj1 B4)|exact H5]. }
  apply (sc_go (Int Dec Scanf_Model.TInt true) _ _ t5 _ _ (Some _)). { exact S5. }
  apply (sc_go (Space [32]) _ _ b5 _ _ None). { constructor. split; [apply blank_space; exact (proj1 B5)|exact H6]. }
  apply (sc_go (Int Dec Scanf_Model.TInt true) _ _ t6 _ _ (Some _)). { exact S6. }
  apply sc_nil.
Qed.
Lemma nums_bare n b : Forall space b -> exists ret, scans nums n b 0 ret [].
Proof.
  intro B. eexists. unfold nums. rewrite <- (app_nil_r b). apply (sc_go (Space [32]) _ n b [] 0 None). { constructor. split; [exact B|discriminate]. }
  apply sc_end. apply (st_int_end _ _ _ _ []). constructor.
Qed.

Lemma gap_space b r : gap b -> starts_space (b ++ r).
Proof. intros [F N]. destruct b as [|c b]; [congruence|]. exists c, (b ++ r). split; [reflexivity|]. apply blank_space in F. inversion F; assumption. Qed.

Lemma cut_at_ok x c y : cut_at (Z.of_nat (length x)) (x ++ c :: y) = Ok (x ++ 0 :: y).
Proof.
  unfold cut_at. rewrite app_length. cbn [length]. replace ((0 <=? Z.of_nat (length x)) && (Z.of_nat (length x) <? Z.of_nat (length x + S (length y)))) with true by lia.
  rewrite Nat2Z.id, firstn_app, firstn_all, Nat.sub_diag, skipn_app, skipn_all2 by lia. replace (S (length x) - length x)%nat with 1%nat by lia. cbn. rewrite app_nil_r. reflexivity.
Qed.
Lemma cstr_word w y : (forall c, In c w -> c <> 0) -> cstr (w ++ 0 :: y) = w.
Proof. induction w as [|c w IH]; intro H; [reflexivity|]. cbn. destruct (Z.eqb_spec c 0) as [->|N]; [elim (H 0); [left|]; reflexivity|]. f_equal. apply IH. intros d I. apply H. right. exact I. Qed.
Lemma at_ok x w y : wordy w -> at_ (Z.of_nat (length x)) (x ++ w ++ 0 :: y) = w.
Proof. intros [F _]. unfold at_. rewrite Nat2Z.id, skipn_app, skipn_all, Nat.sub_diag. cbn [app skipn]. apply cstr_word. intros c I. rewrite Forall_forall in F. specialize (F c I). lia. Qed.
Lemma to_int_small n : 0 <= n < 2 ^ 31 -> to_int (n mod 2 ^ 32) = n.
Proof. intro R. unfold to_int. rewrite Z.mod_small by lia. destruct (Z.ltb_spec n 2147483648); lia. Qed.

(** a line with four fields and any tail *)
Lemma fields_ok b0 w1 b1 w2 b2 w3 b3 w4 tail outs ret fr pa : Forall blank b0 -> wordy w1 -> hd 0 w1 <> 35 -> gap b1 -> wordy w2 -> gap b2 -> wordy w3 -> gap b3 -> wordy w4 -> starts_space tail ->
  let line := b0 ++ w1 ++ b1 ++ w2 ++ b2 ++ w3 ++ b3 ++ w4 ++ tail in ascii line -> Z.of_nat (length line) < 2 ^ 31 ->
  scans nums (Z.of_nat (length (b0 ++ w1 ++ b1 ++ w2 ++ b2 ++ w3 ++ b3 ++ w4))) tail 0 ret outs ->
  exists f p, one_line line fr pa = Ok (Some (Mnt w1 w2 w3 w4 f p), f, p) /\ f = stored_at outs 0 fr /\ p = stored_at outs 1 pa.
Proof.
  intros B0 W1 H1 B1 W2 B2 W3 B3 W4 TL line A L S0.
  assert (SC : scans dirs 0 line 0 ret (I32 (Z.of_nat (length b0)) :: I32 (Z.of_nat (length (b0 ++ w1))) :: I32 (Z.of_nat (length (b0 ++ w1 ++ b1))) :: I32 (Z.of_nat (length (b0 ++ w1 ++ b1 ++ w2))) :: I32 (Z.of_nat (length (b0 ++ w1 ++ b1 ++ w2 ++ b2))) :: I32 (Z.of_nat (length (b0 ++ w1 ++ b1 ++ w2 ++ b2 ++ w3))) :: I32 (Z.of_nat (length (b0 ++ w1 ++ b1 ++ w2 ++ b2 ++ w3 ++ b3))) :: I32 (Z.of_nat (length (b0 ++ w1 ++ b1 ++ w2 ++ b2 ++ w3 ++ b3 ++ w4))) :: outs)).
  { pose proof (piece_ok nums (Z.of_nat (length (b0 ++ w1 ++ b1 ++ w2 ++ b2 ++ w3))) b3 w4 tail 0 ret outs (proj1 B3) W4 TL) as P4.
    pose proof (piece_ok (pieces ++ nums) (Z.of_nat (length (b0 ++ w1 ++ b1 ++ w2))) b2 w3 (b3 ++ w4 ++ tail) 0 ret) as P3.
    pose proof (piece_ok (pieces ++ pieces ++ nums) (Z.of_nat (length (b0 ++ w1))) b1 w2 (b2 ++ w3 ++ b3 ++ w4 ++ tail) 0 ret) as P2.
    pose proof (piece_ok (pieces ++ pieces ++ pieces ++ nums) 0 b0 w1 (b1 ++ w2 ++ b2 ++ w3 ++ b3 ++ w4 ++ tail) 0 ret) as P1.
    assert (LL : forall (x y : list Z), Z.of_nat (length x) + Z.of_nat (length y) = Z.of_nat (length (x ++ y))) by (intros; rewrite app_length; lia).
    rewrite !LL in P4. rewrite <- !app_assoc in P4. specialize (P4 S0).
    specialize (P3 _ (proj1 B2) W3 (gap_space b3 _ B3) ltac:(rewrite !LL, <- !app_assoc; exact P4)). rewrite !LL in P3. rewrite <- !app_assoc in P3.
    specialize (P2 _ (proj1 B1) W2 (gap_space b2 _ B2) ltac:(rewrite !LL, <- !app_assoc; exact P3)). rewrite !LL in P2. rewrite <- !app_assoc in P2.
    rewrite !Z.add_0_l, !LL in P1. specialize (P1 _ B0 W1 (gap_space b1 _ B1) P2). exact P1. }
  unfold one_line. rewrite (scan_line line _ _ A SC). cbn [bind]. unfold stored_at. cbn [nth_error].
  assert (TS : forall x y, line = x ++ y -> to_int (Z.of_nat (length x) mod 2 ^ 32) = Z.of_nat (length x)) by (intros x y E; apply to_int_small; rewrite E, app_length in L; lia).
  rewrite (TS b0 _ eq_refl).
  rewrite (TS (b0 ++ w1) (b1 ++ w2 ++ b2 ++ w3 ++ b3 ++ w4 ++ tail)) by (unfold line; rewrite <- !app_assoc; reflexivity).
  rewrite (TS (b0 ++ w1 ++ b1) (w2 ++ b2 ++ w3 ++ b3 ++ w4 ++ tail)) by (unfold line; rewrite <- !app_assoc; reflexivity).
  rewrite (TS (b0 ++ w1 ++ b1 ++ w2) (b2 ++ w3 ++ b3 ++ w4 ++ tail)) by (unfold line; rewrite <- !app_assoc; reflexivity).
  rewrite (TS (b0 ++ w1 ++ b1 ++ w2 ++ b2) (w3 ++ b3 ++ w4 ++ tail)) by (unfold line; rewrite <- !app_assoc; reflexivity).
  rewrite (TS (b0 ++ w1 ++ b1 ++ w2 ++ b2 ++ w3) (b3 ++ w4 ++ tail)) by (unfold line; rewrite <- !app_assoc; reflexivity).
  rewrite (TS (b0 ++ w1 ++ b1 ++ w2 ++ b2 ++ w3 ++ b3) (w4 ++ tail)) by (unfold line; rewrite <- !app_assoc; reflexivity).
  rewrite (TS (b0 ++ w1 ++ b1 ++ w2 ++ b2 ++ w3 ++ b3 ++ w4) tail) by (unfold line; rewrite <- !app_assoc; reflexivity).
  destruct B1 as [_ N1], B2 as [_ N2], B3 as [_ N3]. destruct b1 as [|c1 b1]; [congruence|]. destruct b2 as [|c2 b2]; [congruence|]. destruct b3 as [|c3 b3]; [congruence|]. destruct TL as (c4 & b4 & -> & _).
  rewrite Nat2Z.id. assert (E0 : exists x w, w1 = x :: w /\ x <> 35) by (destruct w1 as [|x w]; [destruct W1; congruence|]; exists x, w; auto). destruct E0 as (x & w & Ew1 & NX).
  assert (NT : nth_error (line ++ [0]) (length b0) = Some x) by (unfold line; rewrite <- !app_assoc, nth_error_app2, Nat.sub_diag, Ew1 by lia; reflexivity). rewrite NT. cbn [bind].
  replace (x =? 35) with false by lia. cbn [orb].
  replace (Z.of_nat (length (b0 ++ w1)) =? Z.of_nat (length line)) with false by (unfold line; rewrite !app_length; cbn [length]; lia).
  assert (EL : line ++ [0] = (b0 ++ w1) ++ c1 :: (b1 ++ w2 ++ c2 :: b2 ++ w3 ++ c3 :: b3 ++ w4 ++ c4 :: b4 ++ [0])) by (unfold line; rewrite <- ?app_assoc; cbn [app]; rewrite <- ?app_assoc; cbn [app]; rewrite <- ?app_assoc; cbn [app]; rewrite <- ?app_assoc; cbn [app]; reflexivity).
  rewrite EL, cut_at_ok. cbn [bind].
  replace ((b0 ++ w1) ++ 0 :: b1 ++ w2 ++ c2 :: b2 ++ w3 ++ c3 :: b3 ++ w4 ++ c4 :: b4 ++ [0]) with ((b0 ++ w1 ++ 0 :: b1 ++ w2) ++ c2 :: b2 ++ w3 ++ c3 :: b3 ++ w4 ++ c4 :: b4 ++ [0]) by (rewrite <- ?app_assoc; cbn [app]; rewrite <- ?app_assoc; reflexivity).
  replace (length (b0 ++ w1 ++ (c1 :: b1) ++ w2)) with (length (b0 ++ w1 ++ 0 :: b1 ++ w2)) by (rewrite !app_length; cbn [length]; rewrite !app_length; cbn [length]; lia). rewrite cut_at_ok. cbn [bind].
  replace ((b0 ++ w1 ++ 0 :: b1 ++ w2) ++ 0 :: b2 ++ w3 ++ c3 :: b3 ++ w4 ++ c4 :: b4 ++ [0]) with ((b0 ++ w1 ++ 0 :: b1 ++ w2 ++ 0 :: b2 ++ w3) ++ c3 :: b3 ++ w4 ++ c4 :: b4 ++ [0]) by (rewrite <- ?app_assoc; cbn [app]; rewrite <- ?app_assoc; cbn [app]; rewrite <- ?app_assoc; reflexivity).
  replace (length (b0 ++ w1 ++ (c1 :: b1) ++ w2 ++ (c2 :: b2) ++ w3)) with (length (b0 ++ w1 ++ 0 :: b1 ++ w2 ++ 0 :: b2 ++ w3)) by (rewrite !app_length; cbn [length]; rewrite !app_length; cbn [length]; rewrite !app_length; cbn [length]; lia). rewrite cut_at_ok. cbn [bind].
  replace ((b0 ++ w1 ++ 0 :: b1 ++ w2 ++ 0 :: b2 ++ w3) ++ 0 :: b3 ++ w4 ++ c4 :: b4 ++ [0]) with ((b0 ++ w1 ++ 0 :: b1 ++ w2 ++ 0 :: b2 ++ w3 ++ 0 :: b3 ++ w4) ++ c4 :: b4 ++ [0]) by (rewrite <- ?app_assoc; cbn [app]; rewrite <- ?app_assoc; cbn [app]; rewrite <- ?app_assoc; cbn [app]; rewrite <- ?app_assoc; reflexivity).
  replace (length (b0 ++ w1 ++ (c1 :: b1) ++ w2 ++ (c2 :: b2) ++ w3 ++ (c3 :: b3) ++ w4)) with (length (b0 ++ w1 ++ 0 :: b1 ++ w2 ++ 0 :: b2 ++ w3 ++ 0 :: b3 ++ w4)) by (rewrite !app_length; cbn [length]; rewrite !app_length; cbn [length]; rewrite !app_length; cbn [length]; rewrite !app_length; cbn [length]; lia). rewrite cut_at_ok. cbn [bind].
  eexists _, _. split; [|split; reflexivity]. do 4 f_equal. f_equal.
  - replace ((b0 ++ w1 ++ 0 :: b1 ++ w2 ++ 0 :: b2 ++ w3 ++ 0 :: b3 ++ w4) ++ 0 :: b4 ++ [0]) with (b0 ++ w1 ++ 0 :: (b1 ++ w2 ++ 0 :: b2 ++ w3 ++ 0 :: b3 ++ w4) ++ 0 :: b4 ++ [0]) by (rewrite <- ?app_assoc; cbn [app]; rewrite <- ?app_assoc; cbn [app]; rewrite <- ?app_assoc; cbn [app]; rewrite <- ?app_assoc; reflexivity). apply at_ok. exact W1.
  - replace ((b0 ++ w1 ++ 0 :: b1 ++ w2 ++ 0 :: b2 ++ w3 ++ 0 :: b3 ++ w4) ++ 0 :: b4 ++ [0]) with ((b0 ++ w1 ++ 0 :: b1) ++ w2 ++ 0 :: (b2 ++ w3 ++ 0 :: b3 ++ w4) ++ 0 :: b4 ++ [0]) by (rewrite <- ?app_assoc; cbn [app]; rewrite <- ?app_assoc; cbn [app]; rewrite <- ?app_assoc; cbn [app]; rewrite <- ?app_assoc; reflexivity).
    replace (length (b0 ++ w1 ++ c1 :: b1)) with (length (b0 ++ w1 ++ 0 :: b1)) by (rewrite !app_length; reflexivity). apply at_ok. exact W2.
  - replace ((b0 ++ w1 ++ 0 :: b1 ++ w2 ++ 0 :: b2 ++ w3 ++ 0 :: b3 ++ w4) ++ 0 :: b4 ++ [0]) with ((b0 ++ w1 ++ 0 :: b1 ++ w2 ++ 0 :: b2) ++ w3 ++ 0 :: (b3 ++ w4) ++ 0 :: b4 ++ [0]) by (rewrite <- ?app_assoc; cbn [app]; rewrite <- ?app_assoc; cbn [app]; rewrite <- ?app_assoc; cbn [app]; rewrite <- ?app_assoc; reflexivity).
    replace (length (b0 ++ w1 ++ (c1 :: b1) ++ w2 ++ c2 :: b2)) with (length (b0 ++ w1 ++ 0 :: b1 ++ w2 ++ 0 :: b2)) by (rewrite !app_length; cbn [length]; rewrite !app_length; cbn [length]; lia). apply at_ok. exact W3.
  - replace ((b0 ++ w1 ++ 0 :: b1 ++ w2 ++ 0 :: b2 ++ w3 ++ 0 :: b3 ++ w4) ++ 0 :: b4 ++ [0]) with ((b0 ++ w1 ++ 0 :: b1 ++ w2 ++ 0 :: b2 ++ w3 ++ 0 :: b3) ++ w4 ++ 0 :: b4 ++ [0]) by (rewrite <- ?app_assoc; cbn [app]; rewrite <- ?app_assoc; cbn [app]; rewrite <- ?app_assoc; cbn [app]; rewrite <- ?app_assoc; reflexivity).
    replace (length (b0 ++ w1 ++ (c1 :: b1) ++ w2 ++ (c2 :: b2) ++ w3 ++ c3 :: b3)) with (length (b0 ++ w1 ++ 0 :: b1 ++ w2 ++ 0 :: b2 ++ w3 ++ 0 :: b3)) by (rewrite !app_length; cbn [length]; rewrite !app_length; cbn [length]; rewrite !app_length; cbn [length]; lia). apply at_ok. exact W4.
Qed.

Lemma ascii_line l : Forall (fun c => c = 9 \/ 32 <= c <= 126) l -> ascii (l ++ [10]).
Proof. intro F. apply Forall_app. split; [revert F; apply Forall_impl; intros; lia|repeat constructor; lia]. Qed.
Lemma full_line l m fr pa : full l m -> Forall (fun c => c = 9 \/ 32 <= c <= 126) l -> Z.of_nat (length l) < 2 ^ 31 - 2 -> one_line (l ++ [10]) fr pa = Ok (Some m, freq m, passno m).
Proof.
  intros F A L. destruct F as [b0 m b1 b2 b3 b4 t5 b5 t6 rest B0 W1 H1 B1 W2 B2 W3 B3 W4 B4 T5 B5 T6 R].
  assert (SR : starts_space (rest ++ [10])) by (destruct R as [->|(c & r & -> & [->| ->])]; [exists 10, []|exists 32, (r ++ [10])|exists 9, (r ++ [10])]; (split; [reflexivity|unfold space; lia])).
  destruct (nums_full (Z.of_nat (length (b0 ++ fsname m ++ b1 ++ dir m ++ b2 ++ type_ m ++ b3 ++ opts m))) b4 t5 b5 t6 (rest ++ [10]) (freq m) (passno m) B4 T5 B5 T6 SR) as (v5 & v6 & ret & S0 & E5 & E6).
  assert (EL : (b0 ++ fsname m ++ b1 ++ dir m ++ b2 ++ type_ m ++ b3 ++ opts m ++ b4 ++ t5 ++ b5 ++ t6 ++ rest) ++ [10] = b0 ++ fsname m ++ b1 ++ dir m ++ b2 ++ type_ m ++ b3 ++ opts m ++ (b4 ++ t5 ++ b5 ++ t6 ++ rest ++ [10])) by (rewrite <- !app_assoc; reflexivity).
  pose proof (ascii_line _ A) as A'. assert (L' : Z.of_nat (length ((b0 ++ fsname m ++ b1 ++ dir m ++ b2 ++ type_ m ++ b3 ++ opts m ++ b4 ++ t5 ++ b5 ++ t6 ++ rest) ++ [10])) < 2 ^ 31) by (rewrite app_length; cbn [length]; lia).
  rewrite EL in *. destruct (fields_ok b0 (fsname m) b1 (dir m) b2 (type_ m) b3 (opts m) (b4 ++ t5 ++ b5 ++ t6 ++ rest ++ [10]) _ ret fr pa B0 W1 H1 B1 W2 B2 W3 B3 W4 (gap_space b4 _ B4) A' L' S0) as (f & p & O & -> & ->).
  rewrite O. unfold stored_at. cbn [nth_error]. rewrite E5, E6. destruct m; reflexivity.
Qed.
Lemma bare_line l m fr pa : bare l m -> Forall (fun c => c = 9 \/ 32 <= c <= 126) l -> Z.of_nat (length l) < 2 ^ 31 - 2 -> one_line (l ++ [10]) fr pa = Ok (Some (Mnt (fsname m) (dir m) (type_ m) (opts m) fr pa), fr, pa).
Proof.
  intros F A L. destruct F as [b0 m b1 b2 b3 b4 B0 W1 H1 B1 W2 B2 W3 B3 W4 B4 E5 E6].
  assert (SR : Forall space (b4 ++ [10])) by (apply Forall_app; split; [apply blank_space; exact B4|repeat constructor; unfold space; lia]).
  assert (SS : starts_space (b4 ++ [10])) by (destruct b4 as [|c b4]; [exists 10, []; split; [reflexivity|unfold space; lia]|exists c, (b4 ++ [10]); inversion SR; auto]).
  destruct (nums_bare (Z.of_nat (length (b0 ++ fsname m ++ b1 ++ dir m ++ b2 ++ type_ m ++ b3 ++ opts m))) (b4 ++ [10]) SR) as (ret & S0).
  assert (EL : (b0 ++ fsname m ++ b1 ++ dir m ++ b2 ++ type_ m ++ b3 ++ opts m ++ b4) ++ [10] = b0 ++ fsname m ++ b1 ++ dir m ++ b2 ++ type_ m ++ b3 ++ opts m ++ (b4 ++ [10])) by (rewrite <- !app_assoc; reflexivity).
  pose proof (ascii_line _ A) as A'. assert (L' : Z.of_nat (length ((b0 ++ fsname m ++ b1 ++ dir m ++ b2 ++ type_ m ++ b3 ++ opts m ++ b4) ++ [10])) < 2 ^ 31) by (rewrite app_length; cbn [length]; lia).
  rewrite EL in *. destruct (fields_ok b0 (fsname m) b1 (dir m) b2 (type_ m) b3 (opts m) (b4 ++ [10]) _ ret fr pa B0 W1 H1 B1 W2 B2 W3 B3 W4 SS A' L' S0) as (f & p & O & -> & ->).
  rewrite O. reflexivity.
Qed.
Lemma empty_line l fr pa : empty l -> Z.of_nat (length l) < 2 ^ 31 - 2 -> one_line (l ++ [10]) fr pa = Ok (None, fr, pa).
Proof.
  intros E L. assert (A : ascii (l ++ [10])) by (apply ascii_line; revert E; apply Forall_impl; intros c [->| ->]; lia).
  assert (SR : Forall space (l ++ [10])) by (apply Forall_app; split; [apply blank_space; exact E|repeat constructor; unfold space; lia]).
  assert (SC : scans dirs 0 (l ++ [10]) 0 (-1) [I32 (Z.of_nat (length (l ++ [10])))]).
  { unfold dirs, pieces. cbn [app]. rewrite <- (app_nil_r (l ++ [10])) at 1. apply (sc_go (Space [32]) _ 0 (l ++ [10]) [] 0 None). { constructor. split; [exact SR|discriminate]. }
    cbn [counts]. rewrite Z.add_0_l. apply (sc_go (Count Scanf_Model.TInt) _ _ [] [] 0 (Some _)). { apply st_count. }
    apply (sc_end _ _ _ _ 0). apply (st_word_end _ _ _ []). constructor. }
  unfold one_line. rewrite (scan_line _ _ _ A SC). cbn [bind]. unfold stored_at. cbn [nth_error].
  rewrite to_int_small by (rewrite app_length; cbn [length]; lia). rewrite Nat2Z.id, nth_error_app2, Nat.sub_diag by lia. cbn [nth_error bind]. rewrite Z.eqb_refl. cbn [orb]. rewrite Bool.orb_true_r. reflexivity.
Qed.
Lemma comment_line l fr pa : comment l -> Forall (fun c => c = 9 \/ 32 <= c <= 126) l -> Z.of_nat (length l) < 2 ^ 31 - 2 -> exists f p, one_line (l ++ [10]) fr pa = Ok (None, f, p).
Proof.
  intros (b & r & -> & B) F L. pose proof (ascii_line _ F) as A. rewrite <- app_assoc in A |- *. cbn [app] in A |- *.
  destruct (Scanf_Proof.scans_total (tl (tl dirs)) (Z.of_nat (length b)) (35 :: r ++ [10]) 0) as (ret & outs & S0).
  { pose proof dirs_ok as D. cbn [dirs pieces app ok_format] in D. exact (proj2 (proj2 (proj2 (proj2 D)))). }
  assert (SC : scans dirs 0 (b ++ 35 :: r ++ [10]) 0 ret (I32 (Z.of_nat (length b)) :: outs)).
  { unfold dirs, pieces. cbn [app]. apply (sc_go (Space [32]) _ 0 b _ 0 None). { constructor. split; [apply blank_space; exact B|]. intros c t E. injection E as <- _. unfold space. lia. }
    cbn [counts]. rewrite Z.add_0_l. apply (sc_go (Count Scanf_Model.TInt) _ _ [] _ 0 (Some _)). { apply st_count. }
    cbn [counts length]. rewrite !Z.add_0_r. exact S0. }
  unfold one_line. rewrite (scan_line _ _ _ A SC). cbn [bind]. 
  rewrite app_length in L. cbn [length] in L. assert (X : forall d, stored_at (I32 (Z.of_nat (length b)) :: outs) 0 d = Z.of_nat (length b)) by (intro d; unfold stored_at; cbn [nth_error]; apply to_int_small; lia). rewrite X. rewrite Nat2Z.id. rewrite <- app_assoc, nth_error_app2, Nat.sub_diag by lia. cbn [app nth_error bind]. change (35 =? 35) with true. cbn [orb]. eauto.
Qed.

Lemma read_line_ok size l r e : fits size l -> read_line size (Stream (l ++ [10] ++ r) e) = (l ++ [10], Stream r e).
Proof.
  intros (F & L & Z0). unfold read_line. cbn [ahead eof].
  assert (N : ~ In 10 l) by (intro I; rewrite Forall_forall in F; specialize (F 10 I); lia).
  set (room := match size with None => _ | Some b => _ end). assert (R : (length l < room)%nat) by (unfold room; destruct size; [lia|rewrite !app_length; cbn; lia]).
  rewrite (fgets_ok l room r N R). rewrite rev_app_distr. cbn [rev app]. change (10 =? 10) with true. rewrite Bool.orb_true_r. cbn [negb]. rewrite Bool.orb_false_r. reflexivity.
Qed.
Lemma newline_in l : existsb (fun c => c =? 10) (l ++ [10]) = true.
Proof. rewrite existsb_app. cbn. apply Bool.orb_true_r. Qed.
Lemma read_end size : (forall b, size = Some b -> (2 <= b)%nat) -> read_line size (Stream [] false) = ([], Stream [] true).
Proof. intro H. unfold read_line. cbn [ahead]. destruct size as [b|]; [|reflexivity]. specialize (H b eq_refl). destruct b as [|[|b]]; try lia. reflexivity. Qed.
Lemma read_end2 size : exists e, read_line size (Stream [] true) = ([], Stream [] e) /\ e = true.
Proof. exists true. unfold read_line. cbn [ahead eof]. destruct size as [[|[|b]]|]; split; reflexivity. Qed.

Definition carry_ok (ls : list (list Z)) (fr pa : Z) : Prop := (forall l m, In l ls -> ~ bare l m) \/ ((forall l, In l ls -> ~ comment l) /\ fr = 0 /\ pa = 0).
Lemma get_ok size : (forall b, size = Some b -> (2 <= b)%nat) -> forall ls ms fuel fr pa, listed ls ms -> Forall (fits size) ls -> carry_ok ls fr pa -> (length ls < fuel)%nat ->
  match ms with
  | [] => get_loop fuel size fr pa (Stream (text ls) false) = Ok (None, Stream [] true)
  | m :: ms' => exists ls', get_loop fuel size fr pa (Stream (text ls) false) = Ok (Some m, Stream (text ls') false) /\ listed ls' ms' /\ Forall (fits size) ls' /\ (length ls' < length ls)%nat /\ (forall l, In l ls' -> In l ls)
  end.
Proof.
  intros SZ ls ms fuel fr pa LS. revert fuel fr pa. induction LS as [|l m ls ms G LS IH|l m ls ms G LS IH|l ls ms G LS IH|l ls ms G LS IH]; intros fuel fr pa F C K.
  - destruct fuel as [|fuel]; [lia|]. cbn [get_loop text map concat]. rewrite (read_end size SZ). reflexivity.
  - destruct fuel as [|fuel]; [lia|]. inversion F as [|? ? F1 F2]; subst. cbn [get_loop]. unfold text. cbn [map concat]. rewrite <- app_assoc. fold (text ls). rewrite (read_line_ok size l (text ls) false F1). cbn [eof]. rewrite newline_in. cbn [negb].
    rewrite (full_line l m fr pa G (proj1 F1) (proj1 (proj2 F1))). cbn [bind]. exists ls. repeat split; auto. intros; right; assumption.
  - destruct fuel as [|fuel]; [lia|]. inversion F as [|? ? F1 F2]; subst. cbn [get_loop]. unfold text. cbn [map concat]. rewrite <- app_assoc. fold (text ls). rewrite (read_line_ok size l (text ls) false F1). cbn [eof]. rewrite newline_in. cbn [negb].
    rewrite (bare_line l m fr pa G (proj1 F1) (proj1 (proj2 F1))). cbn [bind]. exists ls. split; [|repeat split; auto; intros; right; assumption].
    destruct C as [C|(_ & -> & ->)]; [elim (C l m); [left; reflexivity|exact G]|]. destruct G as [b0 m b1 b2 b3 b4 ? ? ? ? ? ? ? ? ? ? E5 E6]. destruct m; cbn in *. subst. reflexivity.
  - destruct fuel as [|fuel]; [lia|]. inversion F as [|? ? F1 F2]; subst. cbn [length] in K. cbn [get_loop]. unfold text. cbn [map concat]. rewrite <- app_assoc. fold (text ls). rewrite (read_line_ok size l (text ls) false F1). cbn [eof]. rewrite newline_in. cbn [negb].
    destruct (comment_line l fr pa G (proj1 F1) (proj1 (proj2 F1))) as (f & p & O). rewrite O. cbn [bind].
    assert (C' : carry_ok ls f p). { destruct C as [C|(C & _)]; [left; intros x y I; apply C; right; exact I|]. elim (C l); [left; reflexivity|exact G]. }
    specialize (IH fuel f p F2 C' ltac:(lia)). destruct ms as [|m ms]; [exact IH|]. destruct IH as (ls' & I1 & I2 & I3 & I4 & I5). exists ls'. repeat split; auto; [cbn [length]; lia|]. intros; right; auto.
  - destruct fuel as [|fuel]; [lia|]. inversion F as [|? ? F1 F2]; subst. cbn [length] in K. cbn [get_loop]. unfold text. cbn [map concat]. rewrite <- app_assoc. fold (text ls). rewrite (read_line_ok size l (text ls) false F1). cbn [eof]. rewrite newline_in. cbn [negb].
    rewrite (empty_line l fr pa G (proj1 (proj2 F1))). cbn [bind].
    assert (C' : carry_ok ls fr pa). { destruct C as [C|(C & E1 & E2)]; [left; intros x y I; apply C; right; exact I|]. right. repeat split; auto. intros x I. apply C. right. exact I. }
    specialize (IH fuel fr pa F2 C' ltac:(lia)). destruct ms as [|m ms]; [exact IH|]. destruct IH as (ls' & I1 & I2 & I3 & I4 & I5). exists ls'. repeat split; auto; [cbn [length]; lia|]. intros; right; auto.
Qed.
Lemma calls_end k fuel size : (0 < fuel)%nat -> calls k fuel size (Stream [] true) = Ok (repeat None k).
Proof.
  intro F. induction k as [|k IH]; [reflexivity|]. cbn [calls repeat]. unfold getmntent. destruct fuel as [|fuel]; [lia|]. cbn [get_loop]. destruct (read_end2 size) as (e & R & ->). rewrite R. cbn [eof bind]. rewrite IH. reflexivity.
Qed.
Lemma calls_ok size : (forall b, size = Some b -> (2 <= b)%nat) -> forall k ls ms fuel, listed ls ms -> Forall (fits size) ls -> separate ls -> (length ls < fuel)%nat ->
  calls k fuel size (Stream (text ls) false) = Ok (map (nth_error ms) (seq 0 k)).
Proof.
  intros SZ k. induction k as [|k IH]; intros ls ms fuel LS F SP K; [reflexivity|]. cbn [calls]. unfold getmntent.
  assert (C : carry_ok ls 0 0) by (destruct SP as [SP|SP]; [right; auto|left; exact SP]).
  pose proof (get_ok size SZ ls ms fuel 0 0 LS F C K) as G. destruct ms as [|m ms].
  - rewrite G. cbn [bind]. rewrite calls_end by lia. cbn [bind]. f_equal. clear. change (seq 0 (S k)) with (0%nat :: seq 1 k). cbn [map nth_error]. f_equal. generalize 1%nat. induction k as [|k IHk]; intro a; [reflexivity|]. cbn [repeat seq map]. rewrite (IHk (S a)). f_equal. destruct a; reflexivity.
  - destruct G as (ls' & G & LS' & F' & L' & I'). rewrite G. cbn [bind]. rewrite (IH ls' ms fuel LS' F'); [|destruct SP as [SP|SP]; [left; intros l X; apply SP; auto|right; intros l x X; apply SP; auto]|lia].
    cbn [bind]. f_equal. cbn [seq map nth_error]. f_equal. rewrite <- seq_shift, map_map. reflexivity.
Qed.

(** ** addmntent *)
Lemma dec_text z : - 2 ^ 31 <= z < 2 ^ 31 -> int_text (dec z) z.
Proof.
  intro R. unfold dec, Inet_Model.num. destruct (Z.ltb_spec z 0).
  - replace z with (- (- z)) at 2 by lia. apply i_minus; [|lia]. apply Users_Proof.number_decimal; [|lia]. change (Z.of_nat 64) with 64. lia.
  - apply i_plain; [|lia]. apply Users_Proof.number_decimal; [|lia]. change (Z.of_nat 64) with 64. lia.
Qed.
Definition line_of (m : mnt) : list Z := fsname m ++ [9] ++ dir m ++ [9] ++ type_ m ++ [9] ++ opts m ++ [9] ++ dec (freq m) ++ [9] ++ dec (passno m).
Lemma line_full m : proper m -> full (line_of m) m.
Proof.
  intros (W1 & H1 & W2 & W3 & W4 & F & P). assert (G : gap [9]) by (split; [repeat constructor; right; reflexivity|discriminate]).
  unfold line_of. rewrite <- (app_nil_r (dec (passno m))). apply (full_i [] m [9] [9] [9] [9] (dec (freq m)) [9] (dec (passno m)) []); auto using dec_text.
Qed.
Lemma int_text_chars t z : int_text t z -> Forall (fun c => c = 9 \/ 32 <= c <= 126) t.
Proof.
  assert (D : forall ds v, Hosts_Spec.decimal ds v -> Forall (fun c => c = 9 \/ 32 <= c <= 126) ds) by (intros ds v D; induction D; [repeat constructor; lia|apply Forall_app; split; [assumption|repeat constructor; lia]]).
  destruct 1; [|constructor; [lia|]..]; eauto.
Qed.
Lemma wordy_chars w : wordy w -> Forall (fun c => c = 9 \/ 32 <= c <= 126) w.
Proof. intros [F _]. revert F. apply Forall_impl. lia. Qed.
Lemma line_chars m : proper m -> Forall (fun c => c = 9 \/ 32 <= c <= 126) (line_of m).
Proof.
  intros (W1 & H1 & W2 & W3 & W4 & F & P). unfold line_of. assert (T : Forall (fun c => c = 9 \/ 32 <= c <= 126) [9]) by (repeat constructor; auto).
  repeat (apply Forall_app; split); auto using wordy_chars; eapply int_text_chars; apply dec_text; assumption.
Qed.
Lemma text_app a b : text (a ++ b) = text a ++ text b.
Proof. unfold text. rewrite map_app, concat_app. reflexivity. Qed.
Lemma add_text ls m : addmntent (text ls) m = text (ls ++ [line_of m]).
Proof. rewrite text_app. unfold addmntent, text at 3, line_of. cbn [map concat]. rewrite app_nil_r, <- !app_assoc. reflexivity. Qed.
Lemma listed_app a x b y : listed a x -> listed b y -> listed (a ++ b) (x ++ y).
Proof. intros A B. induction A; cbn [app]; [exact B|apply l_full|apply l_bare|apply l_comment|apply l_empty]; assumption. Qed.
Lemma add_all ms : forall ls, fold_left addmntent ms (text ls) = text (ls ++ map line_of ms).
Proof. induction ms as [|m ms IH]; intro ls; cbn [fold_left map]; [rewrite app_nil_r; reflexivity|]. rewrite add_text, IH, <- app_assoc. reflexivity. Qed.
Lemma all_listed ms : Forall proper ms -> listed (map line_of ms) ms.
Proof. induction 1; cbn; [constructor|]. apply l_full; [apply line_full; assumption|assumption]. Qed.

Lemma prefix_spec t s : prefix t s = true <-> exists r, s = t ++ r.
Proof.
  revert s. induction t as [|a t IH]; intro s; cbn.
  - split; [exists s; reflexivity|reflexivity].
  - destruct s as [|b s]; [split; [discriminate|intros (r & E); discriminate]|]. rewrite Bool.andb_true_iff, Z.eqb_eq, IH. split; [intros (-> & r & ->); exists r; reflexivity|intros (r & E); injection E as -> ->; eauto].
Qed.
Lemma strstr_some s t : (exists i, strstr s t = Some i) <-> exists a b, s = a ++ t ++ b.
Proof.
  induction s as [|c s IH].
  - cbn [strstr]. destruct (prefix t []) eqn:P.
    + apply prefix_spec in P. destruct P as (r & E). split; [intros _; exists [], r; exact E|eauto].
    + split; [intros (i & E); discriminate|]. intros (a & b & E). destruct a, t; discriminate.
  - cbn [strstr]. destruct (prefix t (c :: s)) eqn:P.
    + apply prefix_spec in P. destruct P as (r & E). split; [intros _; exists [], r; exact E|eauto].
    + split.
      * intros (i & E). destruct (strstr s t) as [j|]; [|discriminate]. destruct (proj1 IH (ex_intro _ j eq_refl)) as (a & b & ->). exists (c :: a), b. reflexivity.
      * intros (a & b & E). destruct a as [|x a]; [assert (prefix t (c :: s) = true) by (apply prefix_spec; exists b; exact E); congruence|]. injection E as _ ->. destruct (proj2 IH) as (i & I); [exists a, b; reflexivity|]. rewrite I. eauto.
Qed.

Lemma strstr_first s t : forall i, strstr s t = Some i -> (exists a b, s = a ++ t ++ b /\ length a = i) /\ forall a b, s = a ++ t ++ b -> (i <= length a)%nat.
Proof.
  induction s as [|c s IH]; cbn [strstr]; intros i H.
  - destruct (prefix t []) eqn:P; [|discriminate]. injection H as <-. apply prefix_spec in P. destruct P as (r & P). split; [exists [], r; split; [exact P|reflexivity]|intros; lia].
  - destruct (prefix t (c :: s)) eqn:P. { injection H as <-. apply prefix_spec in P. destruct P as (r & P). split; [exists [], r; split; [exact P|reflexivity]|intros; lia]. }
    destruct (strstr s t) as [j|]; [|discriminate]. injection H as <-. destruct (IH j eq_refl) as [(a & b & -> & <-) M]. split.
    + exists (c :: a), b. split; reflexivity.
    + intros [|y a'] b' E; [|cbn; injection E as _ E; apply M in E; lia]. cbn [app] in E. assert (prefix t (c :: a ++ t ++ b) = true) by (apply prefix_spec; eexists; exact E). congruence.
Qed.
Lemma fgets_cut k : forall l r, ~ In 10 l -> (k <= length l)%nat -> fgets k (l ++ r) = (firstn k l, skipn k l ++ r).
Proof.
  induction k as [|k IH]; intros l r N L; [reflexivity|]. destruct l as [|c l]; [cbn in L; lia|]. cbn [app fgets firstn skipn]. destruct (Z.eqb_spec c 10) as [->|NE]; [elim N; left; reflexivity|].
  rewrite IH; [reflexivity| |cbn in L; lia]. intro I. apply N. right. exact I.
Qed.
Lemma drop_line l r : ~ In 10 l -> drop_while (fun c => negb (c =? 10)) (l ++ 10 :: r) = 10 :: r.
Proof. induction l as [|c l IH]; intro N; cbn [app drop_while]; [reflexivity|]. destruct (Z.eqb_spec c 10) as [->|NE]; [elim N; left; reflexivity|]. cbn [negb]. apply IH. intro I. apply N. right. exact I. Qed.
Lemma long_line b l r fuel : (2 <= b)%nat -> ~ In 10 l -> (b < length l + 2)%nat -> r <> [] -> hd 0 r <> 10 -> (0 < fuel)%nat ->
  exists s, getmntent fuel (Some b) (Stream (l ++ 10 :: r) false) = Ok (None, s) /\ (ahead s = r \/ ahead s = 10 :: r) /\ eof s = false.
Proof.
  intros B N L R0 R1 F. destruct fuel as [|fuel]; [lia|]. unfold getmntent. cbn [get_loop]. unfold read_line. cbn [ahead eof]. rewrite fgets_cut by (auto; lia).
  rewrite firstn_length_le by lia. rewrite Nat.leb_refl. cbn [orb negb ahead eof].
  assert (X : existsb (fun c => c =? 10) (firstn (b - 1) l) = false). { apply not_true_is_false. intro X. apply existsb_exists in X. destruct X as (c & I & E). apply Z.eqb_eq in E. subst c. apply N. rewrite <- (firstn_skipn (b - 1) l). apply in_or_app. left. exact I. }
  rewrite X. cbn [negb]. eexists. split; [reflexivity|]. unfold skip_rest. cbn [ahead eof].
  assert (NS : ~ In 10 (skipn (b - 1) l)). { intro I. apply N. rewrite <- (firstn_skipn (b - 1) l). apply in_or_app. right. exact I. }
  destruct (skipn (b - 1) l) as [|c s]; cbn [app]; [split; [right; reflexivity|reflexivity]|]. destruct (Z.eqb_spec c 10) as [->|NE]; [elim NS; left; reflexivity|].
  change (c :: s ++ 10 :: r) with ((c :: s) ++ 10 :: r). rewrite (drop_line _ r NS). cbn [drop_while Z.eqb Pos.eqb]. destruct r as [|y r]; [congruence|]. cbn in R1. cbn [drop_while]. replace (y =? 10) with false by lia. cbn. auto.
Qed.
