From Verif Require Import Base Mem_Model Mem_Proof Str_Model Str_Spec Str_Proof.
Open Scope Z_scope.

Lemma nth_skip (l : list Z) i : (i < length l)%nat -> skipn i l = nth i l 0 :: skipn (S i) l.
Proof.
  revert i; induction l as [|c l IH]; intros i Hi; cbn in Hi; [lia|].
  destruct i; [reflexivity|]. cbn [skipn nth]. apply IH; lia.
Qed.

(** ** Comparison *)
Lemma lex_eq a : forall b, lex a b = Eq <-> a = b.
Proof.
  induction a as [|x a IH]; intros [|y b]; cbn; split; try discriminate; try reflexivity.
  - destruct (Z.compare_spec x y) as [->|H|H]; try discriminate. intros E. apply IH in E. congruence.
  - intros E. injection E as -> ->. rewrite Z.compare_refl. apply IH. reflexivity.
Qed.

Lemma lex_antisym a : forall b, lex b a = CompOpp (lex a b).
Proof.
  induction a as [|x a IH]; intros [|y b]; cbn; try reflexivity.
  rewrite (Z.compare_antisym x y). destruct (x ?= y); cbn; [apply IH|reflexivity|reflexivity].
Qed.

Lemma lex_trans a : forall b c, lex a b = Lt -> lex b c = Lt -> lex a c = Lt.
Proof.
  induction a as [|x a IH]; intros [|y b] [|z c]; cbn; try discriminate; try reflexivity.
  destruct (Z.compare_spec x y), (Z.compare_spec y z), (Z.compare_spec x z);
    try discriminate; try reflexivity; try lia; intros; eapply IH; eassumption.
Qed.

Lemma memcmp_loop_ok k : forall m p q a b i, bytes_at m p a -> bytes_at m q b -> length a = length b ->
  (k + i = length a)%nat ->
  exists r, memcmp_loop k m p q i = Ok r /\ (r ?= 0) = lex (skipn i a) (skipn i b).
Proof.
  induction k as [|k IH]; intros m p q a b i Ha Hb Hl Hk; cbn [memcmp_loop].
  - exists 0. split; [reflexivity|]. rewrite !skipn_all2 by lia. reflexivity.
  - rewrite (bytes_load _ _ _ i Ha), (bytes_load _ _ _ i Hb) by lia. cbn [bind].
    rewrite (nth_skip a i), (nth_skip b i) by lia. cbn [lex].
    destruct (Z.compare_spec (nth i a 0) (nth i b 0)) as [E|H|H].
    + replace (_ <? _) with false by lia. replace (_ >? _) with false by lia. apply IH; try assumption; lia.
    + replace (_ <? _) with true by lia. exists (-1). auto.
    + replace (_ <? _) with false by lia. replace (_ >? _) with true by lia. exists 1. auto.
Qed.

Lemma memcmp_ok m p q a b : bytes_at m p a -> bytes_at m q b -> length a = length b ->
  exists r, memcmp m p q (length a) = Ok r /\ (r ?= 0) = lex a b.
Proof. intros Ha Hb Hl. apply (memcmp_loop_ok (length a) m p q a b 0 Ha Hb Hl). lia. Qed.

Lemma strcmp_loop_ok fuel : forall m p q a b i, str_at m p a -> str_at m q b ->
  (i <= length a)%nat -> (i <= length b)%nat -> (length a - i < fuel)%nat ->
  exists r, strcmp_loop fuel m p q i = Ok r /\ (r ?= 0) = lex (skipn i a) (skipn i b).
Proof.
  induction fuel as [|f IH]; intros m p q a b i Ha Hb Hia Hib Hf; [lia|]. cbn [strcmp_loop].
  rewrite (str_load _ _ _ i Ha Hia), (str_load _ _ _ i Hb Hib). cbn [bind].
  destruct (Nat.eq_dec i (length a)) as [Ea|Ea], (Nat.eq_dec i (length b)) as [Eb|Eb].
  - rewrite !nth_overflow by lia. exists 0. cbn. rewrite !skipn_all2 by lia. auto.
  - pose proof (str_pos _ _ _ i Hb ltac:(lia)). rewrite (nth_overflow a) by lia.
    replace ((0 =? 0) && (nth i b 0 =? 0)) with false by lia. replace (0 <? _) with true by lia.
    exists (-1). split; [reflexivity|]. rewrite (skipn_all2 a) by lia. rewrite (nth_skip b i) by lia. reflexivity.
  - pose proof (str_pos _ _ _ i Ha ltac:(lia)). rewrite (nth_overflow b) by lia.
    replace ((nth i a 0 =? 0) && (0 =? 0)) with false by lia. replace (_ <? 0) with false by lia.
    replace (_ >? 0) with true by lia.
    exists 1. split; [reflexivity|]. rewrite (skipn_all2 b) by lia. rewrite (nth_skip a i) by lia. reflexivity.
  - pose proof (str_pos _ _ _ i Ha ltac:(lia)). pose proof (str_pos _ _ _ i Hb ltac:(lia)).
    replace ((nth i a 0 =? 0) && (nth i b 0 =? 0)) with false by lia.
    rewrite (nth_skip a i), (nth_skip b i) by lia. cbn [lex].
    destruct (Z.compare_spec (nth i a 0) (nth i b 0)) as [E|Hc|Hc].
    + replace (_ <? _) with false by lia. replace (_ >? _) with false by lia. apply IH; try assumption; lia.
    + replace (_ <? _) with true by lia. exists (-1). auto.
    + replace (_ <? _) with false by lia. replace (_ >? _) with true by lia. exists 1. auto.
Qed.

Lemma strcmp_ok fuel m p q a b : str_at m p a -> str_at m q b -> (length a < fuel)%nat ->
  exists r, strcmp fuel m p q = Ok r /\ (r ?= 0) = lex a b.
Proof. intros Ha Hb Hf. apply (strcmp_loop_ok fuel m p q a b 0 Ha Hb); lia. Qed.

Lemma strncmp_loop_ok k : forall m p q a b n i, nstr_at m p n a -> nstr_at m q n b ->
  (i <= length a)%nat -> (i <= length b)%nat -> (k + i = n)%nat ->
  exists r, strncmp_loop k m p q i = Ok r /\ (r ?= 0) = lex (skipn i a) (skipn i b).
Proof.
  induction k as [|k IH]; intros m p q a b n i Ha Hb Hia Hib Hk; cbn [strncmp_loop];
    pose proof (nstr_len _ _ _ _ Ha); pose proof (nstr_len _ _ _ _ Hb).
  - exists 0. rewrite !skipn_all2 by lia. auto.
  - destruct (Nat.eq_dec i (length a)) as [Ea|Ea], (Nat.eq_dec i (length b)) as [Eb|Eb].
    + (assert (La : load m (p + Z.of_nat i) = Ok 0) by (rewrite Ea; apply (nstr_end _ _ _ _ Ha); lia)); rewrite La; cbn [bind]. (assert (Lb : load m (q + Z.of_nat i) = Ok 0) by (rewrite Eb; apply (nstr_end _ _ _ _ Hb); lia)); rewrite Lb; cbn [bind].
      exists 0. cbn. rewrite !skipn_all2 by lia. auto.
    + (assert (La : load m (p + Z.of_nat i) = Ok 0) by (rewrite Ea; apply (nstr_end _ _ _ _ Ha); lia)); rewrite La; cbn [bind].
      destruct (nstr_load _ _ _ _ i Hb ltac:(lia)) as [-> Hc]. cbn [bind].
      replace ((0 =? 0) && (nth i b 0 =? 0)) with false by lia. replace (0 <? _) with true by lia.
      exists (-1). split; [reflexivity|]. rewrite (skipn_all2 a) by lia. rewrite (nth_skip b i) by lia. reflexivity.
    + destruct (nstr_load _ _ _ _ i Ha ltac:(lia)) as [-> Hc]. cbn [bind].
      (assert (Lb : load m (q + Z.of_nat i) = Ok 0) by (rewrite Eb; apply (nstr_end _ _ _ _ Hb); lia)); rewrite Lb; cbn [bind]. cbn [bind].
      replace ((nth i a 0 =? 0) && (0 =? 0)) with false by lia. replace (_ <? 0) with false by lia.
      replace (_ >? 0) with true by lia.
      exists 1. split; [reflexivity|]. rewrite (skipn_all2 b) by lia. rewrite (nth_skip a i) by lia. reflexivity.
    + destruct (nstr_load _ _ _ _ i Ha ltac:(lia)) as [-> Hca].
      destruct (nstr_load _ _ _ _ i Hb ltac:(lia)) as [-> Hcb]. cbn [bind].
      replace ((nth i a 0 =? 0) && (nth i b 0 =? 0)) with false by lia.
      rewrite (nth_skip a i), (nth_skip b i) by lia. cbn [lex].
      destruct (Z.compare_spec (nth i a 0) (nth i b 0)) as [E|Hc|Hc].
      * replace (_ <? _) with false by lia. replace (_ >? _) with false by lia. apply (IH m p q a b n); try assumption; lia.
      * replace (_ <? _) with true by lia. exists (-1). auto.
      * replace (_ <? _) with false by lia. replace (_ >? _) with true by lia. exists 1. auto.
Qed.

Lemma strncmp_ok m p q a b n : nstr_at m p n a -> nstr_at m q n b ->
  exists r, strncmp m p q n = Ok r /\ (r ?= 0) = lex a b.
Proof. intros Ha Hb. apply (strncmp_loop_ok n m p q a b n 0 Ha Hb); lia. Qed.

(** ** Searching *)
Lemma nth_error_nth0 (l : list Z) i c : nth_error l i = Some c -> nth i l 0 = c /\ (i < length l)%nat.
Proof.
  intros H. assert (i < length l)%nat by (apply nth_error_Some; congruence). split; [|assumption].
  rewrite nth_error_nth' with (d := 0) in H by assumption. congruence.
Qed.

Lemma first_ix_intro (P : Z -> Prop) l i : (i < length l)%nat -> P (nth i l 0) ->
  (forall j, (j < i)%nat -> ~ P (nth j l 0)) -> first_ix P l i.
Proof.
  intros Hi HP Hj. split.
  - exists (nth i l 0). split; [apply nth_error_nth'; exact Hi|exact HP].
  - intros j c Hlt Hc. apply nth_error_nth0 in Hc as [<- _]. apply Hj, Hlt.
Qed.

Lemma last_ix_intro (P : Z -> Prop) l i : (i < length l)%nat -> P (nth i l 0) ->
  (forall j, (i < j < length l)%nat -> ~ P (nth j l 0)) -> last_ix P l i.
Proof.
  intros Hi HP Hj. split.
  - exists (nth i l 0). split; [apply nth_error_nth'; exact Hi|exact HP].
  - intros j c Hlt Hc. apply nth_error_nth0 in Hc as [<- Hl]. apply Hj. lia.
Qed.

Lemma memchr_loop_ok k : forall m p c l n i, bytes_at m p l ->
  (length l = n \/ ((length l <= n)%nat /\ In (c mod 256) l)) -> (k + i = n)%nat -> (i <= length l)%nat ->
  (forall j, (j < i)%nat -> nth j l 0 <> c mod 256) ->
  exists r, memchr_loop k m p c i = Ok r /\
    match r with
    | Some q => exists i, q = p + Z.of_nat i /\ first_ix (eq (c mod 256)) l i
    | None => ~ In (c mod 256) l
    end.
Proof.
  assert (HA : forall (l : list Z) x i, (length l <= i)%nat -> (forall j, (j < i)%nat -> nth j l 0 <> x) -> ~ In x l).
  { intros l x i Hl Hj Hin. apply In_nth with (d := 0) in Hin as [j [H1 H2]]. apply (Hj j); [lia|exact H2]. }
  induction k as [|k IH]; intros m p c l n i Hb Hl Hk Hi Hj; cbn [memchr_loop].
  - exists None. split; [reflexivity|]. apply (HA _ _ i); [destruct Hl as [Hl|[Hl _]]; lia|exact Hj].
  - assert (Hlt : (i < length l)%nat).
    { destruct (Nat.eq_dec i (length l)) as [E|E]; [|lia]. destruct Hl as [Hl|[Hl1 Hl2]]; [lia|].
      exfalso. revert Hl2. apply (HA _ _ i); [lia|exact Hj]. }
    rewrite (bytes_load _ _ _ i Hb Hlt). cbn [bind].
    destruct (Z.eqb_spec (nth i l 0) (c mod 256)) as [E|E].
    + eexists. split; [reflexivity|]. exists i. split; [reflexivity|]. apply first_ix_intro; [exact Hlt|symmetry; exact E|].
      intros j Hj' HE. apply (Hj j Hj'). symmetry; exact HE.
    + apply (IH m p c l n (S i) Hb Hl); [lia|lia|].
      intros j Hj'. destruct (Nat.eq_dec j i) as [->|]; [exact E|apply Hj; lia].
Qed.

Lemma memchr_ok m p c l n : bytes_at m p l ->
  (length l = n \/ ((length l <= n)%nat /\ In (c mod 256) l)) ->
  exists r, memchr m p c n = Ok r /\
    match r with
    | Some q => exists i, q = p + Z.of_nat i /\ first_ix (eq (c mod 256)) l i
    | None => ~ In (c mod 256) l
    end.
Proof. intros Hb Hl. apply (memchr_loop_ok n m p c l n 0 Hb Hl); [lia|lia|intros; lia]. Qed.

Lemma memrchr_ok_gen k : forall m p c l, bytes_at m p l -> (k <= length l)%nat ->
  (forall j, (k <= j < length l)%nat -> nth j l 0 <> c mod 256) ->
  exists r, memrchr m p c k = Ok r /\
    match r with
    | Some q => exists i, q = p + Z.of_nat i /\ last_ix (eq (c mod 256)) l i
    | None => ~ In (c mod 256) l
    end.
Proof.
  induction k as [|k IH]; intros m p c l Hb Hk Hj; cbn [memrchr].
  - exists None. split; [reflexivity|]. intros Hin. apply In_nth with (d := 0) in Hin as [j [H1 H2]].
    apply (Hj j); [lia|exact H2].
  - rewrite (bytes_load _ _ _ k Hb) by lia. cbn [bind].
    destruct (Z.eqb_spec (nth k l 0) (c mod 256)) as [E|E].
    + eexists. split; [reflexivity|]. exists k. split; [reflexivity|]. apply last_ix_intro; [lia|symmetry; exact E|].
      intros j Hj' HE. apply (Hj j); [lia|]. symmetry; exact HE.
    + apply IH; [exact Hb|lia|]. intros j Hj'. destruct (Nat.eq_dec j k) as [->|]; [exact E|apply Hj; lia].
Qed.

Lemma memrchr_ok m p c l : bytes_at m p l ->
  exists r, memrchr m p c (length l) = Ok r /\
    match r with
    | Some q => exists i, q = p + Z.of_nat i /\ last_ix (eq (c mod 256)) l i
    | None => ~ In (c mod 256) l
    end.
Proof. intros Hb. apply memrchr_ok_gen; [exact Hb|lia|intros; lia]. Qed.

(** strings as arrays including the terminator *)
Lemma nth_app0 (s : list Z) i : nth i (s ++ [0]) 0 = nth i s 0.
Proof.
  destruct (le_lt_dec (length s) i) as [H|H]; [|apply app_nth1, H].
  rewrite app_nth2, (nth_overflow s) by lia. destruct (i - length s)%nat as [|[|?]]; reflexivity.
Qed.

Lemma strchr_loop_ok fuel : forall m p s cc i, str_at m p s -> (i <= length s)%nat -> (length s - i < fuel)%nat ->
  (forall j, (j < i)%nat -> nth j s 0 <> cc) ->
  exists r, strchr_loop fuel m p cc i = Ok r /\
    match r with
    | Some q => exists i, q = p + Z.of_nat i /\ first_ix (eq cc) (s ++ [0]) i
    | None => ~ In cc (s ++ [0])
    end.
Proof.
  induction fuel as [|f IH]; intros m p s cc i Hs Hi Hf Hj; [lia|]. cbn [strchr_loop].
  rewrite (str_load _ _ _ i Hs Hi). cbn [bind].
  assert (HF : nth i s 0 = cc -> first_ix (eq cc) (s ++ [0]) i).
  { intros E. apply first_ix_intro; [rewrite app_length; cbn; lia|rewrite nth_app0; symmetry; exact E|].
    intros j Hj'. rewrite nth_app0. intros HE. apply (Hj j Hj'). symmetry; exact HE. }
  destruct (Nat.eq_dec i (length s)) as [E|E].
  - rewrite (nth_overflow s) by lia. cbn [Z.eqb]. destruct (Z.eqb_spec cc 0) as [->|Hn].
    + eexists. split; [reflexivity|]. exists i. split; [reflexivity|]. apply HF. apply nth_overflow; lia.
    + exists None. split; [reflexivity|]. intros Hin. apply in_app_or in Hin as [Hin|[Hin|[]]]; [|congruence].
      apply In_nth with (d := 0) in Hin as [j [H1 H2]]. apply (Hj j); [lia|exact H2].
  - pose proof (str_pos _ _ _ i Hs ltac:(lia)). replace (nth i s 0 =? 0) with false by lia.
    destruct (Z.eqb_spec (nth i s 0) cc) as [E'|E'].
    + eexists. split; [reflexivity|]. exists i. split; [reflexivity|apply HF, E'].
    + apply IH; [exact Hs|lia|lia|]. intros j Hj'. destruct (Nat.eq_dec j i) as [->|]; [exact E'|apply Hj; lia].
Qed.

Lemma strchr_ok fuel m p s c : str_at m p s -> (length s < fuel)%nat ->
  exists r, strchr fuel m p c = Ok r /\
    match r with
    | Some q => exists i, q = p + Z.of_nat i /\ first_ix (eq (c mod 256)) (s ++ [0]) i
    | None => ~ In (c mod 256) (s ++ [0])
    end.
Proof. intros Hs Hf. apply strchr_loop_ok; [exact Hs|lia|lia|intros; lia]. Qed.

Lemma strchrnul_loop_ok fuel : forall m p s cc i, str_at m p s -> (i <= length s)%nat -> (length s - i < fuel)%nat ->
  (forall j, (j < i)%nat -> nth j s 0 <> cc) ->
  exists k, strchrnul_loop fuel m p cc i = Ok (p + Z.of_nat k) /\
    first_ix (fun x => x = cc \/ x = 0) (s ++ [0]) k.
Proof.
  induction fuel as [|f IH]; intros m p s cc i Hs Hi Hf Hj; [lia|]. cbn [strchrnul_loop].
  rewrite (str_load _ _ _ i Hs Hi). cbn [bind].
  assert (HF : nth i s 0 = cc \/ nth i s 0 = 0 -> first_ix (fun x => x = cc \/ x = 0) (s ++ [0]) i).
  { intros E. apply first_ix_intro; [rewrite app_length; cbn; lia|rewrite nth_app0; exact E|].
    intros j Hj'. rewrite nth_app0. pose proof (str_pos _ _ _ j Hs ltac:(lia)). specialize (Hj j Hj'). lia. }
  destruct (Z.eqb_spec (nth i s 0) 0) as [E|E]; [eexists; split; [reflexivity|apply HF; tauto]|].
  destruct (Z.eqb_spec (nth i s 0) cc) as [E'|E']; [eexists; split; [reflexivity|apply HF; tauto]|].
  assert (i <> length s) by (intros ->; rewrite str_end in E; lia).
  apply IH; [exact Hs|lia|lia|]. intros j Hj'. destruct (Nat.eq_dec j i) as [->|]; [exact E'|apply Hj; lia].
Qed.

Lemma strchrnul_ok fuel m p s c : str_at m p s -> (length s < fuel)%nat ->
  exists k, strchrnul fuel m p c = Ok (p + Z.of_nat k) /\
    first_ix (fun x => x = c mod 256 \/ x = 0) (s ++ [0]) k.
Proof. intros Hs Hf. apply strchrnul_loop_ok; [exact Hs|lia|lia|intros; lia]. Qed.

Lemma strrchr_loop_ok k : forall m p s cc, str_at m p s -> (k <= length s)%nat ->
  (forall j, (k < j <= length s)%nat -> nth j s 0 <> cc) ->
  exists r, strrchr_loop k m p cc = Ok r /\
    match r with
    | Some q => exists i, q = p + Z.of_nat i /\ last_ix (eq cc) (s ++ [0]) i
    | None => ~ In cc (s ++ [0])
    end.
Proof.
  induction k as [|k IH]; intros m p s cc Hs Hk Hj; cbn [strrchr_loop];
  rewrite (str_load _ _ _ _ Hs Hk); cbn [bind].
  - destruct (Z.eqb_spec (nth 0 s 0) cc) as [E|E].
    + eexists. split; [reflexivity|]. exists 0%nat. split; [reflexivity|].
      apply last_ix_intro; [rewrite app_length; cbn; lia|rewrite nth_app0; symmetry; exact E|].
      intros j Hj'. rewrite app_length in Hj'; cbn in Hj'. rewrite nth_app0. intros HE. apply (Hj j); [lia|]. symmetry; exact HE.
    + exists None. split; [reflexivity|]. intros Hin. apply In_nth with (d := 0) in Hin as [j [H1 H2]].
      rewrite nth_app0 in H2. rewrite app_length in H1; cbn in H1. destruct (Nat.eq_dec j 0) as [->|]; [congruence|]. apply (Hj j); [lia|exact H2].
  - destruct (Z.eqb_spec (nth (S k) s 0) cc) as [E|E].
    + eexists. split; [reflexivity|]. exists (S k). split; [reflexivity|].
      apply last_ix_intro; [rewrite app_length; cbn; lia|rewrite nth_app0; symmetry; exact E|].
      intros j Hj'. rewrite app_length in Hj'; cbn in Hj'. rewrite nth_app0. intros HE. apply (Hj j); [lia|]. symmetry; exact HE.
    + apply IH; [exact Hs|lia|]. intros j Hj'. destruct (Nat.eq_dec j (S k)) as [->|]; [exact E|apply Hj; lia].
Qed.

Lemma strrchr_ok fuel m p s c : str_at m p s -> (length s < fuel)%nat ->
  exists r, strrchr fuel m p c = Ok r /\
    match r with
    | Some q => exists i, q = p + Z.of_nat i /\ last_ix (eq (c mod 256)) (s ++ [0]) i
    | None => ~ In (c mod 256) (s ++ [0])
    end.
Proof.
  intros Hs Hf. unfold strrchr. rewrite (strlen_ok _ _ _ _ Hs Hf). cbn [bind].
  apply strrchr_loop_ok; [exact Hs|lia|intros; lia].
Qed.

Lemma in_chrs_ok fuel m p s c : str_at m p s -> (length s < fuel)%nat -> 0 < c < 256 ->
  in_chrs fuel m p c = Ok (existsb (Z.eqb c) s).
Proof.
  intros Hs Hf Hc. unfold in_chrs. destruct (strchr_ok fuel m p s c Hs Hf) as [r [E R]]. rewrite E. cbn [bind].
  rewrite Z.mod_small in R by lia. f_equal. destruct r as [q|].
  - destruct R as [i [_ [[x [Hn <-]] _]]]. symmetry. apply existsb_exists. exists c. split; [|apply Z.eqb_refl].
    apply nth_error_In in Hn. apply in_app_or in Hn as [Hn|[Hn|[]]]; [exact Hn|lia].
  - symmetry. apply not_true_is_false. intros H. apply existsb_exists in H as [x [Hx Hxc]].
    apply Z.eqb_eq in Hxc. subst x. apply R, in_or_app. auto.
Qed.

Lemma existsb_in c s : existsb (Z.eqb c) s = true <-> In c s.
Proof.
  rewrite existsb_exists. split; [intros [x [H E]]; apply Z.eqb_eq in E; congruence|].
  intros H. exists c. split; [exact H|apply Z.eqb_refl].
Qed.

Lemma existsb_nin c s : existsb (Z.eqb c) s = false <-> ~ In c s.
Proof. rewrite <- existsb_in. destruct (existsb _ _); split; congruence. Qed.

(** [span_loop inv] stops at the first byte whose membership equals [inv], or the terminator *)
Lemma span_loop_ok inv cf fuel : forall m p q s cs i, str_at m p s -> str_at m q cs ->
  (i <= length s)%nat -> (length s - i < fuel)%nat -> (length cs < cf)%nat ->
  (forall j, (j < i)%nat -> existsb (Z.eqb (nth j s 0)) cs = negb inv) ->
  exists k, span_loop inv cf fuel m p q i = Ok k /\ (k <= length s)%nat /\
    (forall j, (j < k)%nat -> existsb (Z.eqb (nth j s 0)) cs = negb inv) /\
    (k = length s \/ existsb (Z.eqb (nth k s 0)) cs = inv).
Proof.
  induction fuel as [|f IH]; intros m p q s cs i Hs Hq Hi Hf Hcf Hj; [lia|]. cbn [span_loop].
  rewrite (str_load _ _ _ i Hs Hi). cbn [bind].
  destruct (Nat.eq_dec i (length s)) as [E|E].
  - subst i. rewrite str_end. cbn [Z.eqb]. exists (length s). auto.
  - pose proof (str_pos _ _ _ i Hs ltac:(lia)) as Hp. replace (nth i s 0 =? 0) with false by lia.
    rewrite (in_chrs_ok cf m q cs _ Hq Hcf Hp). cbn [bind].
    destruct (Bool.eqb (existsb (Z.eqb (nth i s 0)) cs) inv) eqn:EB.
    + apply eqb_prop in EB. exists i. auto.
    + apply IH; [exact Hs|exact Hq|lia|lia|exact Hcf|]. intros j Hj'.
      destruct (Nat.eq_dec j i) as [->|]; [|apply Hj; lia].
      apply eqb_false_iff in EB. destruct (existsb _ _), inv; cbn; congruence.
Qed.

Lemma strspn_ok fuel m p q s cs : str_at m p s -> str_at m q cs -> (length s < fuel)%nat -> (length cs < fuel)%nat ->
  exists k, strspn fuel m p q = Ok k /\ first_ix (fun c => ~ In c cs) (s ++ [0]) k.
Proof.
  intros Hs Hq H1 H2. destruct (span_loop_ok false fuel fuel m p q s cs 0 Hs Hq) as [k [E [Hk [Hj He]]]]; try (intros; lia).
  exists k. split; [exact E|]. apply first_ix_intro; [rewrite app_length; cbn; lia| |].
  - rewrite nth_app0. destruct He as [->|He]; [|apply existsb_nin, He].
    rewrite str_end. destruct Hq as [_ Hf]. rewrite Forall_forall in Hf. intros Hin. specialize (Hf _ Hin). lia.
  - intros j Hlt. rewrite nth_app0. specialize (Hj j Hlt). cbn in Hj. apply existsb_in in Hj. tauto.
Qed.

Lemma strcspn_ok fuel m p q s cs : str_at m p s -> str_at m q cs -> (length s < fuel)%nat -> (length cs < fuel)%nat ->
  exists k, strcspn fuel m p q = Ok k /\ first_ix (fun c => In c cs \/ c = 0) (s ++ [0]) k.
Proof.
  intros Hs Hq H1 H2. destruct (span_loop_ok true fuel fuel m p q s cs 0 Hs Hq) as [k [E [Hk [Hj He]]]]; try (intros; lia).
  exists k. split; [exact E|]. apply first_ix_intro; [rewrite app_length; cbn; lia| |].
  - rewrite nth_app0. destruct He as [->|He]; [right; apply str_end|left; apply existsb_in, He].
  - intros j Hlt. rewrite nth_app0. specialize (Hj j Hlt). cbn in Hj. apply existsb_nin in Hj.
    pose proof (str_pos _ _ _ j Hs ltac:(lia)). intros [Hx|Hx]; [tauto|lia].
Qed.

Lemma strpbrk_loop_ok cf fuel : forall m p q s cs i, str_at m p s -> str_at m q cs ->
  (i <= length s)%nat -> (length s - i < fuel)%nat -> (length cs < cf)%nat ->
  (forall j, (j < i)%nat -> ~ In (nth j s 0) cs) ->
  exists r, strpbrk_loop cf fuel m p q i = Ok r /\
    match r with
    | Some a => exists k, a = p + Z.of_nat k /\ first_ix (fun c => In c cs) s k
    | None => forall c, In c s -> ~ In c cs
    end.
Proof.
  induction fuel as [|f IH]; intros m p q s cs i Hs Hq Hi Hf Hcf Hj; [lia|]. cbn [strpbrk_loop].
  rewrite (str_load _ _ _ i Hs Hi). cbn [bind].
  destruct (Nat.eq_dec i (length s)) as [E|E].
  - subst i. rewrite str_end. cbn [Z.eqb]. exists None. split; [reflexivity|].
    intros c Hc. apply In_nth with (d := 0) in Hc as [j [H1 <-]]. apply Hj, H1.
  - pose proof (str_pos _ _ _ i Hs ltac:(lia)) as Hp. replace (nth i s 0 =? 0) with false by lia.
    rewrite (in_chrs_ok cf m q cs _ Hq Hcf Hp). cbn [bind].
    destruct (existsb _ cs) eqn:EB.
    + eexists. split; [reflexivity|]. exists i. split; [reflexivity|].
      apply first_ix_intro; [lia|apply existsb_in, EB|exact Hj].
    + apply IH; [exact Hs|exact Hq|lia|lia|exact Hcf|]. intros j Hj'.
      destruct (Nat.eq_dec j i) as [->|]; [apply existsb_nin, EB|apply Hj; lia].
Qed.

Lemma strpbrk_ok fuel m p q s cs : str_at m p s -> str_at m q cs -> (length s < fuel)%nat -> (length cs < fuel)%nat ->
  exists r, strpbrk fuel m p q = Ok r /\
    match r with
    | Some a => exists k, a = p + Z.of_nat k /\ first_ix (fun c => In c cs) s k
    | None => forall c, In c s -> ~ In c cs
    end.
Proof. intros. apply strpbrk_loop_ok; try assumption; try (intros; lia). Qed.

(** ** Substrings *)
Lemma occurs_nth pat s i : occurs pat s i <->
  (i + length pat <= length s)%nat /\ forall j, (j < length pat)%nat -> nth (i + j) s 0 = nth j pat 0.
Proof.
  split.
  - intros [a [b [-> <-]]]. rewrite !app_length. split; [lia|]. intros j Hj.
    rewrite app_nth2 by lia. rewrite app_nth1 by lia. f_equal. lia.
  - intros [Hl Hj]. exists (firstn i s), (skipn (length pat) (skipn i s)).
    split; [|rewrite firstn_length; lia].
    rewrite <- (firstn_skipn i s) at 1. f_equal.
    rewrite <- (firstn_skipn (length pat) (skipn i s)) at 1.
    f_equal.
    assert (HLf : length (firstn (length pat) (skipn i s)) = length pat)
      by (rewrite firstn_length, skipn_length; lia).
    apply nth_ext with (d := 0) (d' := 0); [exact HLf|].
    intros j Hlt. rewrite HLf in Hlt. rewrite <- (Hj j Hlt).
    rewrite <- (firstn_skipn i s) at 2. rewrite app_nth2; rewrite firstn_length; [|lia].
    replace (i + j - Nat.min i (length s))%nat with j by lia.
    rewrite <- (firstn_skipn (length pat) (skipn i s)) at 2. rewrite app_nth1; [reflexivity|]. lia.
Qed.

Lemma strstr_inner_ok fuel : forall m p q s pat i j, str_at m p s -> str_at m q pat ->
  (j <= length pat)%nat -> (i + j <= length s)%nat -> (length pat - j < fuel)%nat ->
  (forall k, (k < j)%nat -> nth (i + k) s 0 = nth k pat 0) ->
  exists b, strstr_inner fuel m p q i j = Ok b /\ (b = true <-> occurs pat s i).
Proof.
  induction fuel as [|f IH]; intros m p q s pat i j Hs Hq Hj Hij Hf Hk; [lia|]. cbn [strstr_inner].
  rewrite (str_load _ _ _ j Hq Hj). cbn [bind].
  destruct (Nat.eq_dec j (length pat)) as [E|E].
  - subst j. rewrite str_end. cbn [Z.eqb]. exists true. split; [reflexivity|]. split; [|reflexivity]. intros _.
    apply occurs_nth. split; [lia|exact Hk].
  - pose proof (str_pos _ _ _ j Hq ltac:(lia)). replace (nth j pat 0 =? 0) with false by lia.
    rewrite (str_load _ _ _ _ Hs Hij). cbn [bind].
    destruct (Z.eqb_spec (nth (i + j) s 0) 0) as [E0|E0].
    + exists false. split; [reflexivity|]. split; [discriminate|]. intros Ho. apply occurs_nth in Ho as [Hl Ho].
      rewrite (Ho j) in E0 by lia. lia.
    + destruct (Z.eqb_spec (nth (i + j) s 0) (nth j pat 0)) as [E1|E1].
      * apply IH; try assumption; try lia.
        -- destruct (Nat.eq_dec (i + j) (length s)) as [EE|]; [|lia]. rewrite EE, str_end in E0. lia.
        -- intros k Hk'. destruct (Nat.eq_dec k j) as [->|]; [exact E1|apply Hk; lia].
      * exists false. split; [reflexivity|]. split; [discriminate|]. intros Ho. apply occurs_nth in Ho as [Hl Ho].
        rewrite (Ho j) in E1 by lia. congruence.
Qed.

Lemma strstr_loop_ok cf fuel : forall m p q s pat i, str_at m p s -> str_at m q pat -> pat <> [] ->
  (i <= length s)%nat -> (length s - i < fuel)%nat -> (length pat < cf)%nat ->
  (forall k, (k < i)%nat -> ~ occurs pat s k) ->
  exists r, strstr_loop cf fuel m p q i = Ok r /\ leftmost pat s p r.
Proof.
  induction fuel as [|f IH]; intros m p q s pat i Hs Hq Hne Hi Hf Hcf Hk; [lia|]. cbn [strstr_loop].
  rewrite (str_load _ _ _ i Hs Hi). cbn [bind].
  destruct (Nat.eq_dec i (length s)) as [E|E].
  - subst i. rewrite str_end. cbn [Z.eqb]. exists None. split; [reflexivity|]. intros k Ho.
    destruct (le_lt_dec (length s) k) as [H|H]; [|apply (Hk k H Ho)].
    apply occurs_nth in Ho as [Hl _]. destruct pat; [congruence|cbn in Hl; lia].
  - pose proof (str_pos _ _ _ i Hs ltac:(lia)). replace (nth i s 0 =? 0) with false by lia.
    destruct (strstr_inner_ok cf m p q s pat i 0 Hs Hq) as [b [Eb Hb]]; try (intros; lia).
    rewrite Eb. cbn [bind]. destruct b.
    + eexists. split; [reflexivity|]. exists i. split; [reflexivity|]. split; [apply Hb; reflexivity|exact Hk].
    + apply IH; try assumption; try lia. intros k Hk'. destruct (Nat.eq_dec k i) as [->|]; [|apply Hk; lia].
      intros Ho. apply Hb in Ho. discriminate.
Qed.

Lemma strstr_ok fuel m p q s pat : str_at m p s -> str_at m q pat -> (length s < fuel)%nat -> (length pat < fuel)%nat ->
  exists r, strstr fuel m p q = Ok r /\ leftmost pat s p r.
Proof.
  intros Hs Hq H1 H2. unfold strstr. pose proof (str_load _ _ _ 0%nat Hq ltac:(lia)) as HL.
  rewrite Z.add_0_r in HL. rewrite HL. cbn [bind]. destruct pat as [|c pat].
  - cbn. eexists. split; [reflexivity|]. exists 0%nat. split; [lia|]. split; [|intros; lia].
    exists [], s. auto.
  - pose proof (str_pos _ _ _ 0%nat Hq ltac:(cbn; lia)) as Hc. replace (nth 0 (c :: pat) 0 =? 0) with false by lia.
    apply strstr_loop_ok; try assumption; try congruence; try (intros; lia).
Qed.

Lemma memmem_inner_ok k : forall m p q s pat i j, bytes_at m p s -> bytes_at m q pat -> (k + j = length pat)%nat ->
  (forall k, (k < j)%nat -> nth (i + k) s 0 = nth k pat 0) -> (i + j <= length s)%nat ->
  exists b, memmem_inner k m p q (length s) i j = Ok b /\ (b = true <-> occurs pat s i).
Proof.
  induction k as [|k IH]; intros m p q s pat i j Hs Hq Hk Hj Hij; cbn [memmem_inner].
  - exists true. split; [reflexivity|]. split; [|reflexivity]. intros _. apply occurs_nth. split; [lia|].
    intros x Hx. apply Hj. lia.
  - destruct (Nat.leb_spec (length s) (i + j)) as [H|H].
    + exists false. split; [reflexivity|]. split; [discriminate|]. intros Ho. apply occurs_nth in Ho as [Hl _]. lia.
    + rewrite (bytes_load _ _ _ _ Hs H), (bytes_load _ _ _ j Hq) by lia. cbn [bind].
      destruct (Z.eqb_spec (nth (i + j) s 0) (nth j pat 0)) as [E1|E1].
      * apply IH; try assumption; try lia.
        intros x Hx. destruct (Nat.eq_dec x j) as [->|]; [exact E1|apply Hj; lia].
      * exists false. split; [reflexivity|]. split; [discriminate|]. intros Ho. apply occurs_nth in Ho as [Hl Ho].
        rewrite (Ho j) in E1 by lia. congruence.
Qed.

Lemma memmem_loop_ok k : forall m p q s pat i, bytes_at m p s -> bytes_at m q pat -> (s <> [] \/ pat <> []) ->
  (k + i = length s)%nat -> (forall x, (x < i)%nat -> ~ occurs pat s x) ->
  exists r, memmem_loop k m p (length s) q (length pat) i = Ok r /\ leftmost pat s p r.
Proof.
  induction k as [|k IH]; intros m p q s pat i Hs Hq Hne Hk Hj; cbn [memmem_loop].
  - exists None. split; [reflexivity|]. intros x Ho.
    destruct (le_lt_dec i x) as [H|H]; [|apply (Hj x H Ho)].
    assert (Hp : pat = []) by (apply occurs_nth in Ho as [Hl _]; destruct pat; [reflexivity|cbn in Hl; lia]).
    subst pat. destruct Hne as [Hne|Hne]; [|congruence].
    destruct s as [|c s]; [congruence|]. cbn in Hk. apply (Hj 0%nat); [lia|]. exists [], (c :: s). auto.
  - destruct (memmem_inner_ok (length pat) m p q s pat i 0 Hs Hq) as [b [Eb Hb]]; try (intros; lia).
    rewrite Eb. cbn [bind]. destruct b.
    + eexists. split; [reflexivity|]. exists i. split; [reflexivity|]. split; [apply Hb; reflexivity|exact Hj].
    + apply IH; try assumption; try lia. intros x Hx. destruct (Nat.eq_dec x i) as [->|]; [|apply Hj; lia].
      intros Ho. apply Hb in Ho. discriminate.
Qed.

Lemma memmem_ok m p q s pat : bytes_at m p s -> bytes_at m q pat -> (s <> [] \/ pat <> []) ->
  exists r, memmem m p (length s) q (length pat) = Ok r /\ leftmost pat s p r.
Proof. intros. apply memmem_loop_ok; try assumption; try (intros; lia). Qed.
