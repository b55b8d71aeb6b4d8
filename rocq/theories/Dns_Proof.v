(** Lemmas about DNS messages. *)
From Verif Require Import Base Dns_Model Dns_Spec.
Open Scope Z_scope.

Lemma get_ok msg i l k b : bytes_in msg i l -> nth_error l k = Some b -> get msg (i + Z.of_nat k) = Ok b.
Proof. intros [H0 H] E. unfold get. replace (Z.to_nat (i + Z.of_nat k)) with (Z.to_nat i + k)%nat by lia. rewrite (H k b E). reflexivity. Qed.
Lemma get0 msg i b l : bytes_in msg i (b :: l) -> get msg i = Ok b.
Proof. intros H. rewrite <- (Z.add_0_r i) at 1. exact (get_ok msg i (b :: l) 0 b H eq_refl). Qed.
Lemma bytes_tl msg i b l : bytes_in msg i (b :: l) -> bytes_in msg (i + 1) l.
Proof. intros [H0 H]. split; [lia|]. intros k c E. replace (Z.to_nat (i + 1) + k)%nat with (Z.to_nat i + S k)%nat by lia. apply H. exact E. Qed.
Lemma bytes_app msg i a b : bytes_in msg i (a ++ b) -> bytes_in msg i a /\ bytes_in msg (i + Z.of_nat (length a)) b.
Proof.
  revert i. induction a as [|c a IH]; intros i H.
  - split; [split; [exact (proj1 H)|intros [|k] x E; discriminate E]|]. cbn [length]. rewrite Z.add_0_r. exact H.
  - pose proof (bytes_tl _ _ _ _ H) as T. destruct (IH _ T) as [I1 I2]. split.
    + split; [exact (proj1 H)|]. intros k x E. apply (proj2 H). cbn [app]. rewrite <- (nth_error_app1 (c :: a) b) in E; [exact E|]. apply nth_error_Some. congruence.
    + cbn [length]. replace (i + Z.of_nat (S (length a))) with (i + 1 + Z.of_nat (length a)) by lia. exact I2.
Qed.
Lemma slice_ok msg l : forall i, bytes_in msg i l -> slice msg i (length l) = Ok l.
Proof.
  induction l as [|b l IH]; intros i H; [reflexivity|]. cbn [length slice]. rewrite (get0 _ _ _ _ H). cbn [bind]. rewrite (IH _ (bytes_tl _ _ _ _ H)). reflexivity.
Qed.
Lemma name_first msg p ls q : name_at msg p ls q -> exists b, get msg p = Ok b /\ (b = 0 <-> ls = []).
Proof.
  intros H. destruct H as [p B|p l ls q L B _|p hi lo ls q HI LO B NE _].
  - exists 0. split; [exact (get0 _ _ _ _ B)|tauto].
  - exists (Z.of_nat (length l)). split; [exact (get0 _ _ _ _ B)|]. split; intros E; [lia|discriminate].
  - exists (192 + hi). split; [exact (get0 _ _ _ _ B)|]. split; intros E; [lia|congruence].
Qed.
Lemma read_ok msg p ls q : name_at msg p ls q -> exists h, forall fuel, (h <= fuel)%nat -> read_name fuel msg p = Ok (dotted ls, q).
Proof.
  induction 1 as [p B|p l ls q L B N IH|p hi lo ls q HI LO B NE N IH].
  - exists 1%nat. intros [|k] F; [lia|]. cbn [read_name]. rewrite (get0 _ _ _ _ B). reflexivity.
  - destruct IH as [h IH]. exists (S h). intros [|k] F; [lia|]. cbn [read_name]. rewrite (get0 _ _ _ _ B). cbn [bind].
    replace (192 <=? Z.of_nat (length l)) with false by lia. replace (Z.of_nat (length l) <? 64) with true by lia. replace (Z.of_nat (length l) =? 0) with false by lia.
    rewrite Nat2Z.id, (slice_ok msg l _ (bytes_tl _ _ _ _ B)). cbn [bind]. destruct (name_first _ _ _ _ N) as (b & G & Z0). rewrite G. cbn [bind]. rewrite IH by lia. cbn [bind].
    destruct ls as [|l2 ls].
    + replace (b =? 0) with true by (symmetry; apply Z.eqb_eq, Z0; reflexivity). cbn [dotted app]. rewrite app_nil_r. reflexivity.
    + replace (b =? 0) with false by (symmetry; apply Z.eqb_neq; intros E; apply Z0 in E; discriminate). reflexivity.
  - destruct IH as [h IH]. exists (S h). intros [|k] F; [lia|]. cbn [read_name]. rewrite (get0 _ _ _ _ B). cbn [bind]. replace (192 <=? 192 + hi) with true by lia.
    rewrite (get0 _ _ _ _ (bytes_tl _ _ _ _ B)). cbn [bind]. replace (192 + hi - 192) with hi by lia. rewrite IH by lia. reflexivity.
Qed.

Lemma get16_ok msg i n l : bytes_in msg i (two_bytes n ++ l) -> get16 msg i = Ok n.
Proof.
  intros H. unfold get16. cbn [two_bytes app] in H. rewrite (get0 _ _ _ _ H). cbn [bind]. rewrite (get0 _ _ _ _ (bytes_tl _ _ _ _ H)). cbn [bind]. f_equal. pose proof (Z.div_mod n 256). lia.
Qed.
Lemma get16_any msg i l : (2 <= length l)%nat -> bytes_in msg i l -> exists n, get16 msg i = Ok n.
Proof.
  intros L H. destruct l as [|a [|b l]]; cbn in L; try lia. unfold get16. rewrite (get0 _ _ _ _ H). cbn [bind]. rewrite (get0 _ _ _ _ (bytes_tl _ _ _ _ H)). cbn [bind]. eexists. reflexivity.
Qed.
(** the part of a record before its data *)
Lemma head_ok msg p owner ty len d : record_head msg p owner ty len d -> exists h, forall fuel, (h <= fuel)%nat -> exists q class, read_name fuel msg p = Ok (dotted owner, q) /\
  get16 msg q = Ok ty /\ get16 msg (q + 2) = Ok class /\ get16 msg (q + 8) = Ok len /\ d = q + 10.
Proof.
  intros (q & class & ttl & N & LC & LT & B & -> & _). destruct (read_ok _ _ _ _ N) as [h R]. exists h. intros fuel F.
  destruct (bytes_app _ _ _ _ B) as [_ B1]. cbn [two_bytes length] in B1. change (Z.of_nat 2) with 2 in B1.
  destruct (bytes_app _ _ _ _ B1) as [B2 B3]. destruct (get16_any msg (q + 2) class ltac:(lia) B2) as [c C]. rewrite LC in B3. change (Z.of_nat 2) with 2 in B3.
  destruct (bytes_app _ _ _ _ B3) as [_ B4]. rewrite LT in B4. change (Z.of_nat 4) with 4 in B4. replace (q + 2 + 2 + 4) with (q + 8) in B4 by lia.
  exists q, c. split; [apply R, F|]. split; [exact (get16_ok _ _ _ _ B)|]. split; [exact C|]. split; [|reflexivity]. apply (get16_ok _ _ len []). rewrite app_nil_r. exact B4.
Qed.

Definition add (f : family) (r : record) (s : found) : found :=
  {| addrs := addrs s ++ addresses (inet_ok f) (inet6_ok f) [r]; aliases := aliases s ++ renamed [r]; canon := canonical (canon s) [r] |}.
Lemma add_none f r s : addresses (inet_ok f) (inet6_ok f) [r] = [] -> renamed [r] = [] -> canonical (canon s) [r] = canon s -> add f r s = s.
Proof. intros H1 H2 H3. unfold add. rewrite H1, H2, H3, !app_nil_r. destruct s; reflexivity. Qed.
Lemma answer_ok msg p r q f : record_at msg p r q -> exists h, forall fuel s, (h <= fuel)%nat -> answer fuel msg f p s = Ok (q, add f r s).
Proof.
  intros H. destruct H as [p owner a d H L B|p owner a d H L B|p owner target d len H LB N|p owner target d len H LB N|p owner d ty len H TB LB NI]; destruct (head_ok _ _ _ _ _ _ H) as [h HH].
  - exists h. intros fuel s F. destruct (HH fuel F) as (q & c & R & G1 & G2 & G3 & ->). unfold answer. rewrite R. cbn [bind]. rewrite G1. cbn [bind]. rewrite G2. cbn [bind]. rewrite G3. cbn [bind].
    change (1 =? 1) with true. cbv iota. destruct (inet_ok f) eqn:I; cbn [negb].
    + change (16 <? 4) with false. cbv iota. pose proof (slice_ok msg a _ B) as SL. rewrite L in SL. change (Z.to_nat 4) with 4%nat. rewrite SL. cbn [bind]. unfold add. cbn [addresses renamed canonical]. rewrite I, !app_nil_r. reflexivity.
    + rewrite add_none; [reflexivity| | |]; cbn [addresses renamed canonical]; try rewrite I; reflexivity.
  - exists h. intros fuel s F. destruct (HH fuel F) as (q & c & R & G1 & G2 & G3 & ->). unfold answer. rewrite R. cbn [bind]. rewrite G1. cbn [bind]. rewrite G2. cbn [bind]. rewrite G3. cbn [bind].
    change (28 =? 1) with false. change (28 =? 28) with true. cbv iota. destruct (inet6_ok f) eqn:I; cbn [negb].
    + change (16 <? 16) with false. cbv iota. pose proof (slice_ok msg a _ B) as SL. rewrite L in SL. change (Z.to_nat 16) with 16%nat. rewrite SL. cbn [bind]. unfold add. cbn [addresses renamed canonical]. rewrite I, !app_nil_r. reflexivity.
    + rewrite add_none; [reflexivity| | |]; cbn [addresses renamed canonical]; try rewrite I; reflexivity.
  - destruct (read_ok _ _ _ _ N) as [h2 R2]. exists (Nat.max h h2). intros fuel s F. destruct (HH fuel ltac:(lia)) as (q & c & R & G1 & G2 & G3 & ->). unfold answer. rewrite R. cbn [bind]. rewrite G1. cbn [bind]. rewrite G2. cbn [bind]. rewrite G3. cbn [bind].
    change (5 =? 1) with false. change (5 =? 28) with false. change (5 =? 5) with true. cbv iota. rewrite R2 by lia. cbn [bind]. unfold add. cbn [addresses renamed canonical]. rewrite !app_nil_r. reflexivity.
  - exists h. intros fuel s F. destruct (HH fuel F) as (q & c & R & G1 & G2 & G3 & ->). unfold answer. rewrite R. cbn [bind]. rewrite G1. cbn [bind]. rewrite G2. cbn [bind]. rewrite G3. cbn [bind].
    change (12 =? 1) with false. change (12 =? 28) with false. change (12 =? 5) with false. cbv iota. rewrite add_none; reflexivity.
  - exists h. intros fuel s F. destruct (HH fuel F) as (q & c & R & G1 & G2 & G3 & ->). unfold answer. rewrite R. cbn [bind]. rewrite G1. cbn [bind]. rewrite G2. cbn [bind]. rewrite G3. cbn [bind].
    cbn [In] in NI. replace (ty =? 1) with false by lia. replace (ty =? 28) with false by lia. replace (ty =? 5) with false by lia. rewrite add_none; reflexivity.
Qed.
Definition collect (f : family) (rs : list record) (s : found) : found :=
  {| addrs := addrs s ++ addresses (inet_ok f) (inet6_ok f) rs; aliases := aliases s ++ renamed rs; canon := canonical (canon s) rs |}.
Lemma collect_cons f r rs s : collect f rs (add f r s) = collect f (r :: rs) s.
Proof. unfold collect, add. cbn [addrs aliases canon]. rewrite <- !app_assoc. destruct r; cbn [addresses renamed canonical]; rewrite ?app_nil_r, <- ?app_assoc; reflexivity. Qed.
Lemma answers_ok msg f p rs : records msg p rs -> exists h, forall fuel s, (h <= fuel)%nat -> answers (length rs) fuel msg f p s = Ok (collect f rs s).
Proof.
  induction 1 as [p|p r rs q R _ IH].
  - exists 0%nat. intros fuel s _. cbn [length answers]. unfold collect. cbn [addresses renamed canonical]. rewrite !app_nil_r. destruct s; reflexivity.
  - destruct IH as [h IH]. destruct (answer_ok msg p r q f R) as [h2 A2]. exists (Nat.max h h2). intros fuel s F. cbn [length answers]. rewrite A2 by lia. cbn [bind]. rewrite IH by lia. rewrite collect_cons. reflexivity.
Qed.
Lemma questions_ok msg n p r : question_list msg n p r -> exists h, forall fuel, (h <= fuel)%nat -> questions n fuel msg p = Ok r.
Proof.
  induction 1 as [p|n p ls q r x N L B _ IH].
  - exists 0%nat. reflexivity.
  - destruct IH as [h IH]. destruct (read_ok _ _ _ _ N) as [h2 R]. exists (Nat.max h h2). intros fuel F. cbn [questions]. rewrite R by lia. cbn [bind]. apply IH. lia.
Qed.
Lemma bytes_len msg l : bytes_in msg 0 l -> (length l <= length msg)%nat.
Proof.
  intros [_ H]. destruct l as [|c l]; [cbn; lia|]. assert (nth_error msg (length l) <> None).
  { destruct (nth_error (c :: l) (length l)) as [b|] eqn:E; [pose proof (H (length l) b E) as HH; cbn in HH; rewrite HH; discriminate|]. apply nth_error_None in E. cbn in E. lia. }
  apply nth_error_Some in H0. cbn. lia.
Qed.
Lemma reply_head msg id flags rs : reply msg id flags rs -> (length msg <? 12)%nat = false /\ get16 msg 0 = Ok id /\ get16 msg 2 = Ok flags /\
  exists nq p, get16 msg 4 = Ok nq /\ get16 msg 6 = Ok (Z.of_nat (length rs)) /\ question_list msg (Z.to_nat nq) 12 p /\ records msg p rs.
Proof.
  intros (nq & rest & p & _ & _ & _ & L & B & Q & R). split.
  - apply Nat.ltb_ge. apply bytes_len in B. rewrite !app_length, L in B. cbn in B. lia.
  - split; [exact (get16_ok _ _ _ _ B)|]. destruct (bytes_app _ _ _ _ B) as [_ B1]. split; [exact (get16_ok _ _ _ _ B1)|].
    destruct (bytes_app _ _ _ _ B1) as [_ B2]. destruct (bytes_app _ _ _ _ B2) as [_ B3]. exists nq, p. split; [exact (get16_ok _ _ _ _ B2)|]. split; [exact (get16_ok _ _ _ _ B3)|]. auto.
Qed.
Lemma shorts_ok fuel f n s got short : Forall (fun m => (length m < 12)%nat) short -> lookup_name fuel f (short ++ got) n s = lookup_name fuel f got n s.
Proof. induction 1 as [|m short H _ IH]; [reflexivity|]. cbn [app lookup_name]. apply Nat.ltb_lt in H. rewrite H. exact IH. Qed.
Lemma shorts_addr fuel size got short : Forall (fun m => (length m < 12)%nat) short -> lookup_addr fuel size (short ++ got) = lookup_addr fuel size got.
Proof. induction 1 as [|m short H _ IH]; [reflexivity|]. cbn [app lookup_addr]. apply Nat.ltb_lt in H. rewrite H. exact IH. Qed.

(** ** The query *)
Lemma split_label l : forall cur r, ~ In 46 l -> split cur (l ++ 46 :: r) = (cur ++ l) :: split [] r.
Proof.
  induction l as [|c l IH]; intros cur r H; [cbn; rewrite app_nil_r; reflexivity|]. cbn [app split]. replace (c =? 46) with false by (symmetry; apply Z.eqb_neq; intros ->; apply H; left; reflexivity).
  rewrite IH by (intros I; apply H; right; exact I). rewrite <- app_assoc. reflexivity.
Qed.
Lemma split_last l : forall cur, ~ In 46 l -> split cur l = [cur ++ l].
Proof.
  induction l as [|c l IH]; intros cur H; [cbn; rewrite app_nil_r; reflexivity|]. cbn [split]. replace (c =? 46) with false by (symmetry; apply Z.eqb_neq; intros ->; apply H; left; reflexivity).
  rewrite IH by (intros I; apply H; right; exact I). rewrite <- app_assoc. reflexivity.
Qed.
Lemma split_dotted ls : ls <> [] -> Forall (fun l => ~ In 46 l) ls -> split [] (dotted ls) = ls.
Proof.
  induction ls as [|l ls IH]; intros NE F; [congruence|]. inversion F as [|? ? F1 F2]; subst. destruct ls as [|l2 ls]; [cbn [dotted]; apply (split_last l [] F1)|].
  change (dotted (l :: l2 :: ls)) with (l ++ 46 :: dotted (l2 :: ls)). rewrite split_label by exact F1. rewrite IH by (auto; discriminate). reflexivity.
Qed.
Lemma bytes_at_end a b c : bytes_in (a ++ b ++ c) (Z.of_nat (length a)) b.
Proof.
  split; [lia|]. intros k x E. rewrite Nat2Z.id. rewrite nth_error_app2 by lia. replace (length a + k - length a)%nat with k by lia. rewrite nth_error_app1; [exact E|]. apply nth_error_Some. congruence.
Qed.
Lemma encode_name ls : Forall (fun l => 1 <= Z.of_nat (length l) <= 63) ls -> forall pre post,
  name_at (pre ++ encode ls ++ [0] ++ post) (Z.of_nat (length pre)) ls (Z.of_nat (length pre + length (encode ls) + 1)).
Proof.
  induction 1 as [|l ls L _ IH]; intros pre post.
  - cbn [encode map concat app length]. replace (Z.of_nat (length pre + 0 + 1)) with (Z.of_nat (length pre) + 1) by lia. apply n_root. apply (bytes_at_end pre [0] post).
  - change (encode (l :: ls)) with (((Z.of_nat (length l)) mod 256 :: l) ++ encode ls). rewrite Z.mod_small by lia. apply n_label; [exact L| |].
    + rewrite <- !app_assoc. apply bytes_at_end.
    + specialize (IH (pre ++ Z.of_nat (length l) :: l) post). rewrite <- !app_assoc in IH |- *. rewrite !app_length in IH |- *. cbn [length] in IH |- *.
      replace (Z.of_nat (length pre) + 1 + Z.of_nat (length l)) with (Z.of_nat (length pre + S (length l))) by lia.
      rewrite Nat.add_assoc. exact IH.
Qed.
