From Coq Require Import String.
From Verif Require Import Base Sigstr_Model Sigstr_Spec.
Open Scope Z_scope.

Definition good (n : Z) : bool :=
  match sig2str n with
  | Some s => (List.length s <? SIG2STR_MAX)%nat && match str2sig s with Ok (Some v) => v =? n | _ => false end
  | None => false
  end.
Lemma good_all : forallb good (map Z.of_nat (seq 1 64)) = true. Proof. vm_compute. reflexivity. Qed.
Lemma round_ok n : 0 < n < 65 -> exists s, sig2str n = Some s /\ (List.length s < 16)%nat /\ str2sig s = Ok (Some n).
Proof.
  intros N. pose proof (proj1 (forallb_forall _ _) good_all n) as G. assert (I : In n (map Z.of_nat (seq 1 64))).
  { apply in_map_iff. exists (Z.to_nat n). split; [lia|]. apply in_seq. lia. }
  specialize (G I). unfold good in G. destruct (sig2str n) as [s|]; [|discriminate]. exists s. split; [reflexivity|]. apply andb_prop in G. destruct G as [L G]. split; [now apply Nat.ltb_lt in L|].
  destruct (str2sig s) as [[v|]| | |]; try discriminate. apply Z.eqb_eq in G. now subst.
Qed.
Lemma bad_ok n : n <= 0 \/ 65 <= n -> sig2str n = None.
Proof. intros N. unfold sig2str. destruct (n <=? 0) eqn:A; [reflexivity|]. destruct (NSIG <=? n) eqn:B; [reflexivity|]. apply Z.leb_gt in A, B. unfold NSIG in B. lia. Qed.

Lemma digits_ok ds : Forall (fun c => 48 <= c <= 57) ds -> forall a, digits ds a = Some (fold_left (fun a c => 10 * a + (c - 48)) ds a).
Proof. induction 1 as [|c ds C F IH]; intros a; cbn [digits fold_left]; [reflexivity|]. rewrite (proj2 (Z.leb_le 48 c)), (proj2 (Z.leb_le c 57)) by lia. cbn [andb]. apply IH. Qed.
Lemma value_nonneg ds : Forall (fun c => 48 <= c <= 57) ds -> forall a, 0 <= a -> 0 <= fold_left (fun a c => 10 * a + (c - 48)) ds a.
Proof. induction 1 as [|c ds C F IH]; intros a A; cbn [fold_left]; [exact A|]. apply IH. lia. Qed.
Lemma whole_ok ds : decimal ds -> whole ds = if value ds <=? LONG_MAX then Some (value ds) else None.
Proof.
  intros [N F]. pose proof (value_nonneg ds F 0 (Z.le_refl 0)) as P. fold (value ds) in P. destruct ds as [|c ds]; [contradiction|]. assert (C : 48 <= c <= 57) by now inversion F.
  unfold whole. cbn [skip]. replace (space c) with false. 2:{ unfold space. symmetry. apply orb_false_intro; [apply Z.eqb_neq; lia|]. apply andb_false_intro2. apply Z.leb_gt. lia. }
  cbn [sign]. rewrite (proj2 (Z.eqb_neq c 45)), (proj2 (Z.eqb_neq c 43)) by lia. rewrite digits_ok by exact F. fold (value (c :: ds)).
  rewrite (proj2 (Z.leb_le (- 2 ^ 63) (value (c :: ds)))) by (change (2 ^ 63) with 9223372036854775808; lia). reflexivity.
Qed.
Lemma value_range s v : whole s = Some v -> - 2 ^ 63 <= v <= LONG_MAX.
Proof.
  unfold whole. destruct s as [|c s]; [intros [= <-]; unfold LONG_MAX; lia|]. destruct (sign (skip (c :: s))) as [neg u]. destruct u; [discriminate|]. destruct (digits _ _) as [w|]; [|discriminate].
  cbn zeta. destruct ((- 2 ^ 63 <=? (if neg then - w else w)) && ((if neg then - w else w) <=? LONG_MAX))%bool eqn:E; [|discriminate]. intros [= <-]. apply andb_prop in E. destruct E as [A B]. apply Z.leb_le in A, B. lia.
Qed.
Lemma names_range : forallb (fun kt => (0 <? fst kt) && (fst kt <? 65)) names = true. Proof. vm_compute. reflexivity. Qed.
Lemma by_name_in l s k : by_name l s = Some k -> In (k, s) l.
Proof. induction l as [|[j t] l IH]; cbn [by_name]; [discriminate|]. destruct (list_eq_dec Z.eq_dec s t) as [->|]; [intros [= <-]; now left|intros E; right; auto]. Qed.
Lemma prefixed_app p s t : prefixed p s = Some t -> s = p ++ t.
Proof.
  revert s. induction p as [|c p IH]; intros s; cbn [prefixed]; [intros [= <-]; reflexivity|]. destruct s as [|d s]; [discriminate|]. destruct (c =? d) eqn:E; [|discriminate]. apply Z.eqb_eq in E. subst d.
  intros Q. cbn [app]. f_equal. auto.
Qed.
Lemma ladd_cases a b : (exists v, ladd a b = Ok v /\ v = a + b) \/ ladd a b = UB /\ (a + b < - 2 ^ 63 \/ LONG_MAX < a + b).
Proof. unfold ladd. destruct (Z.leb_spec (- 2 ^ 63) (a + b)) as [A|A]; destruct (Z.leb_spec (a + b) LONG_MAX) as [B|B]; cbn [andb]; [left; eauto|right; auto ..]. Qed.

Lemma long_max : LONG_MAX = 9223372036854775807. Proof. reflexivity. Qed.
Lemma min63 : - 2 ^ 63 = -9223372036854775808. Proof. reflexivity. Qed.
Lemma all_ok s : (exists r, str2sig s = Ok r /\ forall v, r = Some v -> 0 < v < 65) \/ str2sig s = UB /\ exists t, s = z "RTMIN+" ++ t.
Proof.
  unfold str2sig. destruct (by_name names s) as [k|] eqn:K.
  { left. exists (Some k). split; [reflexivity|]. intros v [= <-]. apply by_name_in in K. pose proof (proj1 (forallb_forall _ _) names_range _ K) as R. cbn [fst] in R. apply andb_prop in R. destruct R as [A B]. apply Z.ltb_lt in A, B. lia. }
  assert (NN : exists r : option Z, @Ok (option Z) None = Ok r /\ forall v, r = Some v -> 0 < v < 65) by (exists None; split; [reflexivity|discriminate]).
  destruct (prefixed (z "RTMIN+") s) as [t|] eqn:P1.
  { destruct (whole t) as [o|] eqn:W; [|now left]. destruct (Z.ltb_spec o 0) as [O|O]; [now left|]. destruct (ladd_cases SIGRTMIN o) as [[v [-> V]]|[-> _]].
    - left. cbn [bind]. destruct (Z.leb_spec SIGRTMAX v) as [B|B]; [exact NN|]. exists (Some v). split; [reflexivity|]. intros w [= <-]. unfold SIGRTMIN, SIGRTMAX in *. lia.
    - right. split; [reflexivity|]. exists t. now apply prefixed_app. }
  left. destruct (prefixed (z "RTMAX-") s) as [t|].
  { destruct (whole t) as [o|] eqn:W; [|exact NN]. apply value_range in W. destruct (Z.ltb_spec o 0) as [O|O]; [exact NN|]. destruct (ladd_cases SIGRTMAX (- o)) as [[v [-> V]]|[_ B]].
    - cbn [bind]. destruct (Z.leb_spec v SIGRTMIN) as [B|B]; [exact NN|]. exists (Some v). split; [reflexivity|]. intros w [= <-]. unfold SIGRTMIN, SIGRTMAX in *. lia.
    - exfalso. unfold SIGRTMAX in B. rewrite long_max, min63 in *. lia. }
  destruct (prefixed (z "SIG#") s) as [t|]; [|exact NN]. destruct (whole t) as [v|]; [|exact NN]. destruct (Z.leb_spec v 0) as [A|A]; [exact NN|]. destruct (Z.leb_spec NSIG v) as [B|B]; [exact NN|].
  exists (Some v). split; [reflexivity|]. intros w [= <-]. unfold NSIG in B. cbn [orb]. lia.
Qed.
Lemma range_ok s v : str2sig s = Ok (Some v) -> 0 < v < 65.
Proof. intros E. destruct (all_ok s) as [[r [F R]]|[F _]]; [|congruence]. apply R. congruence. Qed.
Lemma safe_ok s : ~ (exists t, s = z "RTMIN+" ++ t) -> exists r, str2sig s = Ok r.
Proof. intros N. destruct (all_ok s) as [[r [F _]]|[_ F]]; [eauto|contradiction]. Qed.

Lemma rtmin_ok ds : decimal ds -> value ds <= LONG_MAX - 35 \/ LONG_MAX < value ds -> str2sig (z "RTMIN+" ++ ds) = Ok (if value ds <? 29 then Some (35 + value ds) else None).
Proof.
  intros D R. pose proof (value_nonneg ds (proj2 D) 0 (Z.le_refl 0)) as P. fold (value ds) in P. unfold str2sig. replace (by_name names (z "RTMIN+" ++ ds)) with (@None Z) by reflexivity.
  replace (prefixed (z "RTMIN+") (z "RTMIN+" ++ ds)) with (Some ds) by reflexivity. rewrite (whole_ok ds D). rewrite long_max in *. destruct (Z.leb_spec (value ds) 9223372036854775807) as [L|L].
  - rewrite (proj2 (Z.ltb_ge (value ds) 0)) by lia. destruct (ladd_cases SIGRTMIN (value ds)) as [[v [-> V]]|[_ B]]; [|exfalso; unfold SIGRTMIN in B; rewrite long_max, min63 in B; lia].
    cbn [bind]. unfold SIGRTMIN, SIGRTMAX in *. destruct (Z.leb_spec 64 v); destruct (Z.ltb_spec (value ds) 29); try lia; try reflexivity. now rewrite V.
  - destruct (Z.ltb_spec (value ds) 29); [lia|reflexivity].
Qed.
Lemma rtmax_ok ds : decimal ds -> str2sig (z "RTMAX-" ++ ds) = Ok (if value ds <? 29 then Some (64 - value ds) else None).
Proof.
  intros D. pose proof (value_nonneg ds (proj2 D) 0 (Z.le_refl 0)) as P. fold (value ds) in P. unfold str2sig. replace (by_name names (z "RTMAX-" ++ ds)) with (@None Z) by reflexivity.
  replace (prefixed (z "RTMIN+") (z "RTMAX-" ++ ds)) with (@None (list Z)) by reflexivity. replace (prefixed (z "RTMAX-") (z "RTMAX-" ++ ds)) with (Some ds) by reflexivity.
  rewrite (whole_ok ds D). rewrite long_max in *. destruct (Z.leb_spec (value ds) 9223372036854775807) as [L|L].
  - rewrite (proj2 (Z.ltb_ge (value ds) 0)) by lia. destruct (ladd_cases SIGRTMAX (- value ds)) as [[v [-> V]]|[_ B]]; [|exfalso; unfold SIGRTMAX in B; rewrite long_max, min63 in B; lia].
    cbn [bind]. unfold SIGRTMIN, SIGRTMAX in *. destruct (Z.leb_spec v 35); destruct (Z.ltb_spec (value ds) 29); try lia; try reflexivity. now rewrite V.
  - destruct (Z.ltb_spec (value ds) 29); [lia|reflexivity].
Qed.
Lemma signum_ok ds : decimal ds -> str2sig (z "SIG#" ++ ds) = Ok (if (0 <? value ds) && (value ds <? 65) then Some (value ds) else None).
Proof.
  intros D. pose proof (value_nonneg ds (proj2 D) 0 (Z.le_refl 0)) as P. fold (value ds) in P. unfold str2sig. replace (by_name names (z "SIG#" ++ ds)) with (@None Z) by reflexivity.
  replace (prefixed (z "RTMIN+") (z "SIG#" ++ ds)) with (@None (list Z)) by reflexivity. replace (prefixed (z "RTMAX-") (z "SIG#" ++ ds)) with (@None (list Z)) by reflexivity. replace (prefixed (z "SIG#") (z "SIG#" ++ ds)) with (Some ds) by reflexivity.
  rewrite (whole_ok ds D). rewrite long_max. unfold NSIG. destruct (Z.leb_spec (value ds) 9223372036854775807) as [L|L].
  - destruct (Z.leb_spec (value ds) 0); destruct (Z.leb_spec 65 (value ds)); destruct (Z.ltb_spec 0 (value ds)); destruct (Z.ltb_spec (value ds) 65); try lia; reflexivity.
  - destruct (Z.ltb_spec 0 (value ds)); destruct (Z.ltb_spec (value ds) 65); try lia; reflexivity.
Qed.
Lemma names_letters : forallb (fun kt => match snd kt with c :: _ => 57 <? c | [] => false end) names = true. Proof. vm_compute. reflexivity. Qed.
Lemma plain_ok ds : decimal ds -> str2sig ds = Ok None.
Proof.
  intros [N F]. destruct ds as [|c ds]; [contradiction|]. assert (C : 48 <= c <= 57) by now inversion F. unfold str2sig. destruct (by_name names (c :: ds)) as [k|] eqn:K.
  { apply by_name_in in K. pose proof (proj1 (forallb_forall _ _) names_letters _ K) as R. cbn [snd] in R. apply Z.ltb_lt in R. lia. }
  assert (P : forall d p, 57 < d -> prefixed (d :: p) (c :: ds) = None) by (intros d p D; cbn [prefixed]; rewrite (proj2 (Z.eqb_neq d c)) by lia; reflexivity).
  change (z "RTMIN+") with (82 :: z "TMIN+"). change (z "RTMAX-") with (82 :: z "TMAX-"). change (z "SIG#") with (83 :: z "IG#"). now rewrite !P by lia.
Qed.
