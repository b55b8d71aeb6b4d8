From Verif Require Import Base Hash_Model Hash_Spec.
From Coq Require Permutation.

Definition pos (n s d : nat) : nat := (s + d) mod n.
Lemma pos_lt n s d : n <> 0 -> pos n s d < n.
Proof. intros. apply Nat.mod_upper_bound, H. Qed.
Lemma pos_next n s d : n <> 0 -> (pos n s d + 1) mod n = pos n s (S d).
Proof. intros. unfold pos. rewrite Nat.add_mod_idemp_l by assumption. f_equal. lia. Qed.
Lemma pos_inj n s d d' : s < n -> d < n -> d' < n -> pos n s d = pos n s d' -> d = d'.
Proof.
  intros Hs Hd Hd' E. unfold pos in E.
  assert (C : forall x, x < 2 * n -> x mod n = if x <? n then x else x - n).
  { intros x Hx. destruct (x <? n) eqn:Ex; [apply Nat.mod_small; lia|].
    replace x with ((x - n) + 1 * n) at 1 by lia. rewrite Nat.mod_add by lia. apply Nat.mod_small. lia. }
  rewrite !C in E by lia. destruct (s + d <? n) eqn:E1, (s + d' <? n) eqn:E2; lia.
Qed.
Lemma pos_0 n s : s < n -> pos n s 0 = s.
Proof. intros. unfold pos. rewrite Nat.add_0_r. apply Nat.mod_small, H. Qed.
Lemma pos_n n s : s < n -> pos n s n = s.
Proof. intros. unfold pos. replace (s + n) with (s + 1 * n) by lia. rewrite Nat.mod_add by lia. apply Nat.mod_small, H. Qed.
Lemma pos_ex n s i : s < n -> i < n -> exists d, d < n /\ pos n s d = i.
Proof.
  intros Hs Hi. destruct (Nat.le_gt_cases s i).
  - exists (i - s). split; [lia|]. unfold pos. replace (s + (i - s)) with i by lia. apply Nat.mod_small, Hi.
  - exists (n + i - s). split; [lia|]. unfold pos. replace (s + (n + i - s)) with (i + 1 * n) by lia.
    rewrite Nat.mod_add by lia. apply Nat.mod_small, Hi.
Qed.
Lemma pos_wrap n s d : s < n -> d < n -> pos n s (S d) = s -> S d = n.
Proof.
  intros Hs Hd E. destruct (Nat.eq_dec (S d) n) as [|N]; [assumption|].
  exfalso. rewrite <- (pos_0 n s Hs) in E at 2. apply pos_inj in E; lia.
Qed.

Notation used t i e := (nth_error t i = Some (Some e)).
Notation free t i := (nth_error t i = Some None).

Lemma key_eqb_spec a b : reflect (a = b) (key_eqb a b).
Proof. unfold key_eqb. destruct list_eq_dec; constructor; assumption. Qed.

Lemma slot (t : list (option (key * Z))) i : i < length t -> (exists e, used t i e) \/ free t i.
Proof. intros H. destruct (nth_error t i) as [[e|]|] eqn:E; [left; eauto|right; auto|]. apply nth_error_None in E. lia. Qed.

(** the search loop *)
Lemma probe_ok t n s k a : length t = n -> s < n -> forall fuel d, d < n -> n - d < fuel ->
  (forall d', d' < d -> (exists e, used t (pos n s d') e /\ fst e <> k) \/ (a = ENTER /\ free t (pos n s d'))) ->
  (exists d' e, d' < n /\ probe fuel t n s (pos n s d) k a = Ok (Hit (pos n s d')) /\ used t (pos n s d') e /\ fst e = k) \/
  (a = FIND /\ probe fuel t n s (pos n s d) k a = Ok NotFound /\
     exists d1, d1 <= n /\ (forall d', d' < d1 -> exists e, used t (pos n s d') e /\ fst e <> k) /\ (d1 < n -> free t (pos n s d1))) \/
  (a = ENTER /\ probe fuel t n s (pos n s d) k a = Ok Absent /\
     forall d', d' < n -> (exists e, used t (pos n s d') e /\ fst e <> k) \/ free t (pos n s d')).
Proof.
  intros Ht Hs. induction fuel as [|f IH]; intros d Hd Hf Hpre; [lia|]. cbn [probe].
  destruct (slot t (pos n s d)) as [[e He]|He]; [rewrite Ht; apply pos_lt; lia| |]; rewrite He.
  - destruct (key_eqb_spec (fst e) k) as [Ek|Ek].
    + left. exists d, e. auto.
    + rewrite pos_next by lia. destruct (Nat.eqb_spec (pos n s (S d)) s) as [E|E].
      * apply pos_wrap in E; [|assumption|assumption]. 
        assert (Hall : forall d', d' < n -> (exists e, used t (pos n s d') e /\ fst e <> k) \/ (a = ENTER /\ free t (pos n s d'))).
        { intros d' Hd'. destruct (Nat.eq_dec d' d) as [->|]; [left; eauto|]. apply Hpre. lia. }
        destruct a.
        -- right; left. split; [reflexivity|]. split; [reflexivity|]. exists n. split; [lia|]. split; [|lia].
           intros d' Hd'. destruct (Hall d' Hd') as [H|[H _]]; [exact H|discriminate].
        -- right; right. split; [reflexivity|]. split; [reflexivity|]. intros d' Hd'. destruct (Hall d' Hd') as [H|[_ H]]; auto.
      * assert (S d <> n) by (intros E0; apply E; rewrite E0; apply pos_n, Hs).
        apply (IH (S d)); [lia|lia|]. intros d' Hd'. destruct (Nat.eq_dec d' d) as [->|]; [left; eauto|]. apply Hpre. lia.
  - destruct a.
    + right; left. split; [reflexivity|]. split; [reflexivity|]. exists d. split; [lia|]. split; [|auto].
      intros d' Hd'. destruct (Hpre d' Hd') as [H|[H _]]; [exact H|discriminate].
    + rewrite pos_next by lia. destruct (Nat.eqb_spec (pos n s (S d)) s) as [E|E].
      * apply pos_wrap in E; [|assumption|assumption]. right; right. split; [reflexivity|]. split; [reflexivity|].
        intros d' Hd'. destruct (Nat.eq_dec d' d) as [->|]; [right; auto|]. destruct (Hpre d' ltac:(lia)) as [H|[_ H]]; auto.
      * assert (S d <> n) by (intros E0; apply E; rewrite E0; apply pos_n, Hs).
        apply (IH (S d)); [lia|lia|]. intros d' Hd'. destruct (Nat.eq_dec d' d) as [->|]; [right; auto|]. apply Hpre. lia.
Qed.

(** the insertion loop *)
Lemma place_ok t n s x : length t = n -> s < n -> forall fuel d, d < n -> n - d < fuel ->
  (forall d', d' < d -> exists e, used t (pos n s d') e) -> (exists d', d' < n /\ free t (pos n s d')) ->
  exists d', d' < n /\ place fuel t n (pos n s d) x = Ok (set_nth t (pos n s d') (Some x), pos n s d') /\ free t (pos n s d') /\
    forall d'', d'' < d' -> exists e, used t (pos n s d'') e.
Proof.
  intros Ht Hs. induction fuel as [|f IH]; intros d Hd Hf Hpre Hfree; [lia|]. cbn [place].
  destruct (slot t (pos n s d)) as [[e He]|He]; [rewrite Ht; apply pos_lt; lia| |]; rewrite He.
  - rewrite pos_next by lia.
    assert (Hpre' : forall d', d' < S d -> exists e, used t (pos n s d') e).
    { intros d' Hd'. destruct (Nat.eq_dec d' d) as [->|]; [eauto|]. apply Hpre. lia. }
    apply IH; auto; [|lia].
    destruct Hfree as (d' & Hd' & Hfr). destruct (Nat.lt_ge_cases d' (S d)) as [L|L]; [|lia].
    destruct (Hpre' d' L) as [e' He']. congruence.
  - exists d. auto.
Qed.

Lemma set_nth_len {A} (l : list A) : forall i x, length (set_nth l i x) = length l.
Proof. induction l as [|y l IH]; intros [|i] x; cbn; [reflexivity..|]. f_equal. apply IH. Qed.
Lemma set_nth_eq {A} (l : list A) : forall i x j, i < length l ->
  nth_error (set_nth l i x) j = if j =? i then Some x else nth_error l j.
Proof.
  induction l as [|y l IH]; intros [|i] x [|j] Hi; cbn in *; try lia; [reflexivity..|].
  apply IH. lia.
Qed.

(** ** Invariant *)
Fixpoint count_used (t : list (option (key * Z))) : nat :=
  match t with [] => 0 | Some _ :: t' => S (count_used t') | None :: t' => count_used t' end.

Record inv (hash : key -> nat) (h : htab) (l : list (key * Z)) : Prop := {
  i_pos : size h <> 0;
  i_len : length (table h) = size h;
  i_fill : filled h = length l;
  i_cap : length l <= size h;
  i_nodup : NoDup (map fst l);
  i_probe : forall k d, In (k, d) l -> exists j, j < size h /\ used (table h) (pos (size h) (hash k mod size h) j) (k, d) /\
              forall j', j' < j -> exists e, used (table h) (pos (size h) (hash k mod size h) j') e;
  i_used : forall i e, used (table h) i e -> In e l;
  i_once : forall i j e e', used (table h) i e -> used (table h) j e' -> fst e = fst e' -> i = j;
  i_cnt : count_used (table h) = length l
}.

Lemma assoc_In l k d : NoDup (map fst l) -> In (k, d) l -> assoc k l = Some d.
Proof.
  induction l as [|[k' d'] l IH]; intros Hn Hi; [destruct Hi|]. cbn in *. inversion Hn; subst.
  destruct list_eq_dec as [->|Ne].
  - destruct Hi as [E|Hi]; [congruence|]. exfalso. apply H1. change k with (fst (k, d)). apply in_map, Hi.
  - destruct Hi as [E|Hi]; [congruence|auto].
Qed.
Lemma assoc_None l k : assoc k l = None <-> ~ In k (map fst l).
Proof.
  induction l as [|[k' d'] l IH]; cbn; [tauto|]. destruct list_eq_dec as [->|Ne]; [split; [discriminate|tauto]|].
  rewrite IH. tauto.
Qed.
Lemma assoc_Some l k d : assoc k l = Some d -> In (k, d) l.
Proof.
  induction l as [|[k' d'] l IH]; cbn; [discriminate|]. destruct list_eq_dec as [->|]; [|auto]. intros [= ->]. auto.
Qed.

(** pigeonhole: distinct used slots carry distinct log entries *)
Lemma count_free t : count_used t < length t -> exists i, i < length t /\ free t i.
Proof.
  induction t as [|[e|] t IH]; cbn; [lia| |].
  - intros H. destruct IH as (i & Hi & E); [lia|]. exists (S i). split; [lia|exact E].
  - intros _. exists 0. split; [lia|reflexivity].
Qed.
Lemma count_set t : forall i x, free t i -> count_used (set_nth t i (Some x)) = S (count_used t).
Proof.
  induction t as [|[e|] t IH]; intros [|i] x H; cbn in *; try discriminate; try reflexivity; f_equal; auto.
Qed.

Lemma hsearch_step hash h l it a : inv hash h l ->
  exists h' r, hsearch hash h it a = Ok (h', r) /\ size h' = size h /\
    inv hash h' (fst (step (size h) l it a)) /\
    answer_of h' r (fst it) = Some (snd (step (size h) l it a)) /\
    (forall i e, used (table h) i e -> used (table h') i e).
Proof.
  intros I. pose proof I as [Ipos Ilen Ifill Icap Ind Ipr Ius Ion Hc].
  destruct it as [k v]. unfold hsearch, step. cbn [fst snd].
  set (s := hash k mod size h). assert (Hs : s < size h) by (apply Nat.mod_upper_bound, Ipos).
  assert (Ematch : forall A (x y : A), match size h with O => x | S _ => y end = y) by (destruct (size h); [congruence|reflexivity]).
  rewrite Ematch. clear Ematch. cbv zeta.
  pose proof (probe_ok (table h) (size h) s k a Ilen Hs (S (size h)) 0 ltac:(lia) ltac:(lia) ltac:(intros; lia)) as P.
  rewrite (pos_0 _ _ Hs) in P. fold s.
  destruct P as [(d & e & Hd & -> & Hu & Ek)|[(-> & -> & d1 & Hd1 & Hb & Hf)|(-> & -> & Hb)]]; cbn [bind].
  - pose proof (Ius _ _ Hu) as Hin. destruct e as [k' v']. cbn in Ek. subst k'.
    rewrite (assoc_In _ _ _ Ind Hin). cbn [fst snd]. exists h, (Ret (pos (size h) s d)). repeat (split; auto).
    cbn. rewrite Hu. destruct list_eq_dec; congruence.
  - assert (A : assoc k l = None).
    { destruct (assoc k l) as [v'|] eqn:A; [|reflexivity]. apply assoc_Some in A. exfalso.
      destruct (Ipr _ _ A) as (j & Hj & Hu & Hbefore). fold s in Hu, Hbefore.
      destruct (Nat.lt_ge_cases j d1) as [L|L].
      - destruct (Hb j L) as (e & He & Hne). rewrite Hu in He. injection He as <-. cbn in Hne. congruence.
      - specialize (Hf ltac:(lia)). destruct (Nat.eq_dec j d1) as [->|]; [congruence|].
        destruct (Hbefore d1 ltac:(lia)) as [e He]. congruence. }
    rewrite A. exists h, Esrch. repeat (split; auto).
  - assert (A : assoc k l = None).
    { destruct (assoc k l) as [v'|] eqn:A; [|reflexivity]. apply assoc_Some in A. exfalso.
      destruct (Ipr _ _ A) as (j & Hj & Hu & _). fold s in Hu.
      destruct (Hb j Hj) as [(e & He & Hne)|He]; [|congruence]. rewrite Hu in He. injection He as <-. cbn in Hne. congruence. }
    rewrite A, Ifill. destruct (size h =? length l) eqn:Ef.
    + replace (length l <? size h) with false by lia. exists h, Enomem. repeat (split; auto).
    + replace (length l <? size h) with true by lia. cbn [fst snd].
      destruct (place_ok (table h) (size h) s (k, v) Ilen Hs (S (size h)) 0) as (d & Hd & E & Hfree & Hbefore); try lia.
      { destruct (count_free (table h)) as (i & Hi & Hfi); [lia|]. rewrite Ilen in Hi. destruct (pos_ex (size h) s i Hs Hi) as (d & Hd & <-). eauto. }
      rewrite (pos_0 _ _ Hs) in E. rewrite E. cbn [bind].
      set (p := pos (size h) s d) in *. assert (Hp : p < length (table h)) by (rewrite Ilen; apply pos_lt, Ipos).
      set (h' := {| table := set_nth (table h) p (Some (k, v)); size := size h; filled := S (length l) |}).
      assert (Keep : forall i e, used (table h) i e -> used (table h') i e).
      { intros i e He. cbn. rewrite set_nth_eq by exact Hp. destruct (Nat.eqb_spec i p) as [->|]; [congruence|exact He]. }
      assert (New : used (table h') p (k, v)) by (cbn; rewrite set_nth_eq, Nat.eqb_refl by exact Hp; reflexivity).
      assert (Inv : forall i e, used (table h') i e -> (i = p /\ e = (k, v)) \/ (i <> p /\ used (table h) i e)).
      { intros i e He. cbn in He. rewrite set_nth_eq in He by exact Hp. destruct (Nat.eqb_spec i p) as [->|]; [left; split; congruence|right; auto]. }
      assert (Cnt : count_used (table h') = length (l ++ [(k, v)])).
      { cbn. rewrite count_set by exact Hfree. rewrite app_length. cbn. lia. }
      exists h', (Ret p). split; [reflexivity|]. split; [reflexivity|]. split; [|split; [|exact Keep]].
      * apply assoc_None in A. constructor; cbn [size filled].
        -- exact Ipos.
        -- cbn. rewrite set_nth_len. exact Ilen.
        -- rewrite app_length. cbn. lia.
        -- rewrite app_length. cbn. lia.
        -- rewrite map_app. cbn. apply (Permutation.Permutation_NoDup (l := k :: map fst l)).
           ++ apply Permutation.Permutation_cons_append.
           ++ constructor; assumption.
        -- intros k0 d0 Hin. apply in_app_iff in Hin as [Hin|[[= <- <-]|[]]].
           ++ destruct (Ipr _ _ Hin) as (j & Hj & Hu & Hbf). exists j. split; [exact Hj|]. split; [apply Keep, Hu|].
              intros j' Hj'. destruct (Hbf j' Hj') as [e He]. exists e. apply Keep, He.
           ++ exists d. split; [exact Hd|]. split; [exact New|].
              intros j' Hj'. destruct (Hbefore j' Hj') as [e He]. exists e. apply Keep, He.
        -- intros i e He. apply in_app_iff. destruct (Inv _ _ He) as [[_ ->]|[_ He']]; [right; left; reflexivity|left; eauto].
        -- intros i j e e' He He' Ek. destruct (Inv _ _ He) as [[-> ->]|[Ni He1]]; destruct (Inv _ _ He') as [[-> ->]|[Nj He2]]; auto.
           ++ exfalso. apply A. cbn in Ek. rewrite Ek. apply in_map. eauto.
           ++ exfalso. apply A. cbn in Ek. rewrite <- Ek. apply in_map. eauto.
           ++ eauto.
        -- exact Cnt.
      * unfold answer_of. rewrite New. destruct list_eq_dec; [reflexivity|congruence].
Qed.

Lemma run_ok hash ops : forall h l, inv hash h l ->
  exists h', run hash h ops = Ok (h', map Some (snd (steps (size h) l ops))) /\ size h' = size h /\
             inv hash h' (fst (steps (size h) l ops)) /\
             (forall i e, used (table h) i e -> used (table h') i e).
Proof.
  induction ops as [|[it a] ops IH]; intros h l I; [exists h; repeat split; auto; apply I|].
  cbn [run steps]. destruct (hsearch_step hash h l it a I) as (h1 & r & -> & Es & I1 & Ea & K1). cbn [bind].
  destruct (step (size h) l it a) as [l1 an]. cbn [fst snd] in *.
  destruct (IH h1 l1 I1) as (h2 & -> & Es2 & I2 & K2). cbn [bind]. rewrite Es in *.
  destruct (steps (size h) l1 ops) as [l2 ans]. cbn [fst snd] in *. exists h2. rewrite Ea. split; [reflexivity|]. split; [exact Es2|].
  split; [exact I2|]. auto.
Qed.

Lemma count_repeat n : count_used (repeat None n) = 0.
Proof. induction n; cbn; auto. Qed.
Lemma inv_init hash n : n <> 0 -> inv hash {| table := repeat None n; size := n; filled := 0 |} [].
Proof.
  assert (Nu : forall n i e, ~ used (repeat (@None (key * Z)) n) i e).
  { induction n0 as [|n0 IH]; intros [|i] e; cbn; try discriminate. apply IH. }
  intros Hn. constructor; cbn [size table filled length].
  - exact Hn.
  - apply repeat_length.
  - reflexivity.
  - lia.
  - constructor.
  - intros k d [].
  - intros i e H. exfalso. eapply Nu, H.
  - intros i j e e' H. exfalso. eapply Nu, H.
  - apply count_repeat.
Qed.
