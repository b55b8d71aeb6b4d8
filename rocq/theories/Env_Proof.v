From Verif Require Import Base Env_Model Env_Spec.
Open Scope Z_scope.

Lemma find_eq_none s : find_eq s = None <-> name_ok s.
Proof.
  unfold name_ok. induction s as [|c s IH]; cbn; [tauto|]. destruct (Z.eqb_spec c 61) as [->|N].
  - split; [discriminate|]. intros H. exfalso. apply H. auto.
  - destruct (find_eq s) as [k|]; cbn; [|split; [|auto]; intros _ [H|H]; [congruence|tauto]].
    split; [discriminate|]. intros H. exfalso. destruct IH as [_ IH]. discriminate IH. tauto.
Qed.
Lemma find_eq_name n v : name_ok n -> find_eq (n ++ 61 :: v) = Some (length n).
Proof.
  unfold name_ok. induction n as [|c n IH]; cbn; intros H; [reflexivity|]. destruct (Z.eqb_spec c 61) as [->|N]; [tauto|].
  rewrite IH by tauto. reflexivity.
Qed.
Lemma find_eq_some s k : find_eq s = Some k -> exists n v, s = n ++ 61 :: v /\ name_ok n /\ length n = k.
Proof.
  revert k. induction s as [|c s IH]; cbn; intros k H; [discriminate|]. destruct (Z.eqb_spec c 61) as [->|N].
  - injection H as <-. exists [], s. repeat split; auto. intros [].
  - destruct (find_eq s) as [k'|]; [|discriminate]. injection H as <-. destruct (IH k' eq_refl) as (n & v & -> & Hn & <-).
    exists (c :: n), v. repeat split. intros [->|H]; [congruence|contradiction].
Qed.
Lemma firstn_name (n v : str) : firstn (length n) (n ++ 61 :: v) = n.
Proof. induction n; cbn; [reflexivity|]. f_equal. assumption. Qed.
Lemma skipn_name (n v : str) : skipn (length n + 1) (n ++ 61 :: v) = v.
Proof. induction n; cbn; auto. Qed.
Lemma str_eqb_eq a b : str_eqb a b = true <-> a = b.
Proof. unfold str_eqb. destruct list_eq_dec; split; congruence. Qed.
Lemma name_dec n : {name_ok n} + {~ name_ok n}.
Proof. unfold name_ok. destruct (in_dec Z.eq_dec 61 n); [right; tauto|left; assumption]. Qed.
Lemma split_inj (n v n' v' : str) : name_ok n -> name_ok n' -> n ++ 61 :: v = n' ++ 61 :: v' -> n = n' /\ v = v'.
Proof.
  intros H H' E. pose proof (find_eq_name n v H) as F. rewrite E, (find_eq_name n' v' H') in F. injection F as F.
  pose proof (firstn_name n v) as G. rewrite E, <- F, firstn_name in G. subst n'. split; [reflexivity|]. apply app_inv_head in E. congruence.
Qed.

(** the first string assigning [name] *)
Lemma find_index_some l name k : find_index l name = Some k -> exists v, nth_error l k = Some (name ++ 61 :: v) /\ name_ok name.
Proof.
  revert k. induction l as [|s l IH]; cbn; intros k H; [discriminate|].
  assert (R : option_map S (find_index l name) = Some k -> exists v, nth_error (s :: l) k = Some (name ++ 61 :: v) /\ name_ok name).
  { destruct (find_index l name) as [k'|]; [|discriminate]. intros [= <-]. apply IH. reflexivity. }
  destruct (find_eq s) as [e|] eqn:E; [|auto]. destruct (str_eqb (firstn e s) name) eqn:Es; [|auto].
  injection H as <-. apply str_eqb_eq in Es. destruct (find_eq_some s e E) as (n & v & -> & Hn & <-).
  rewrite firstn_name in Es. subst n. exists v. auto.
Qed.
Lemma find_index_none l name v : name_ok name -> find_index l name = None -> ~ In (name ++ 61 :: v) l.
Proof.
  intros Hn. induction l as [|s l IH]; cbn; intros H; [tauto|]. intros [->|Hi].
  - rewrite find_eq_name, firstn_name in H by exact Hn. rewrite (proj2 (str_eqb_eq name name) eq_refl) in H. discriminate.
  - revert Hi. apply IH. destruct (find_eq s) as [e|]; [destruct (str_eqb (firstn e s) name); [discriminate|]|]; destruct (find_index l name); [discriminate| |discriminate|]; reflexivity.
Qed.
Lemma find_index_bad l name : ~ name_ok name -> find_index l name = None.
Proof. intros H. destruct (find_index l name) as [k|] eqn:E; [|reflexivity]. apply find_index_some in E as (v & _ & Hn). contradiction. Qed.

Lemma set_nth_len {A} (l : list A) : forall i x, length (set_nth l i x) = length l.
Proof. induction l as [|y l IH]; intros [|i] x; cbn; [reflexivity..|]. f_equal. apply IH. Qed.
Lemma set_nth_eq {A} (l : list A) : forall i x j, (i < length l)%nat ->
  nth_error (set_nth l i x) j = if (j =? i)%nat then Some x else nth_error l j.
Proof.
  induction l as [|y l IH]; intros [|i] x [|j] Hi; cbn in *; try lia; [reflexivity..|]. apply IH. lia.
Qed.
Lemma nth_removelast {A} (l : list A) : forall j, nth_error (removelast l) j = if (S j <? length l)%nat then nth_error l j else None.
Proof.
  induction l as [|a [|b l] IH]; intros [|j]; cbn; try reflexivity.
  - change (nth_error (removelast (b :: l)) j = if (S (S j) <? S (S (length l)))%nat then nth_error (b :: l) j else None).
    rewrite IH. cbn. reflexivity.
Qed.
Lemma last_nth {A} (l : list A) d : l <> [] -> nth_error l (length l - 1) = Some (last l d).
Proof.
  induction l as [|a [|b l] IH]; intros H; [congruence|reflexivity|]. cbn in *. rewrite <- IH by discriminate. f_equal. 
  rewrite Nat.sub_0_r. reflexivity.
Qed.

(** ** Invariant *)
Definition inv (s : state) (m : map_) : Prop := unambiguous (env s) /\ lists (env s) m.

Lemma getenv_ok s m name : inv s m -> getenv s name = Ok (m name).
Proof.
  intros [U L]. unfold getenv. destruct (find_index (env s) name) as [k|] eqn:E.
  - apply find_index_some in E as (v & Ek & Hn). cbv zeta. rewrite (nth_error_nth (env s) k ([] : str) Ek), find_eq_name, skipn_name by exact Hn.
    destruct (L name v) as [L1 _]. do 2 f_equal. symmetry. apply (L1 Hn). eapply nth_error_In, Ek.
  - f_equal. destruct (name_dec name) as [Hn|Hn]; [|symmetry; apply (proj2 (L name []) Hn)].
    destruct (m name) as [v|] eqn:Em; [|reflexivity]. exfalso. apply (find_index_none _ _ v Hn E). apply (proj1 (L name v) Hn), Em.
Qed.

Lemma inv_ext s m m' : (forall n, m n = m' n) -> inv s m -> inv s m'.
Proof. intros E [U L]. split; [exact U|]. intros n v. rewrite <- E. apply L. Qed.

Lemma unassign_ok s m name : own s = true -> inv s m ->
  exists s', unassign s name = Ok s' /\ own s' = true /\ inv s' (assign_ m name None).
Proof.
  intros Ho [U L]. unfold unassign. rewrite Ho. destruct (find_index (env s) name) as [k|] eqn:E.
  - apply find_index_some in E as (v & Ek & Hn).
    assert (Hk : (k < length (env s))%nat) by (apply nth_error_Some; congruence).
    destruct (env s) as [|s0 l0] eqn:El; [cbn in Hk; lia|]. rewrite <- El in *. clear s0 l0 El.
    eexists. split; [reflexivity|]. cbn [own]. split; [reflexivity|]. set (l := env s) in *. set (n := length l) in *.
    set (l' := removelast (set_nth l k (last l []))).
    assert (N' : forall j, nth_error l' j = if (S j <? n)%nat then (if (j =? k)%nat then nth_error l (n - 1) else nth_error l j) else None).
    { intros j. unfold l'. rewrite nth_removelast, set_nth_len, set_nth_eq by exact Hk. fold n.
      unfold n. rewrite <- (last_nth l []) by (intros Hl; unfold n in Hk; rewrite Hl in Hk; cbn in Hk; lia). reflexivity. }
    (* positions in l' correspond to positions in l other than k *)
    assert (To : forall j x, nth_error l' j = Some x -> exists i, i <> k /\ nth_error l i = Some x /\ (j = i \/ (j = k /\ i = (n - 1)%nat))).
    { intros j x. rewrite N'. destruct (S j <? n)%nat eqn:Ej; [|discriminate]. destruct (Nat.eqb_spec j k) as [->|Njk].
      - intros H. exists (n - 1)%nat. repeat split; auto. lia.
      - intros H. exists j. auto. }
    assert (From : forall i x, i <> k -> nth_error l i = Some x -> exists j, nth_error l' j = Some x).
    { intros i x Hik Hi. assert (i < n)%nat by (apply nth_error_Some; congruence). destruct (Nat.eq_dec i (n - 1)) as [->|].
      - exists k. rewrite N'. replace (S k <? n)%nat with true by lia. rewrite Nat.eqb_refl. exact Hi.
      - exists i. rewrite N'. replace (S i <? n)%nat with true by lia. replace (i =? k)%nat with false by lia. exact Hi. }
    split; cbn [env].
    + intros i j n0 v0 w0 Hn0 Hi Hj. destruct (To i _ Hi) as (i' & Ni & Hi' & Ci). destruct (To j _ Hj) as (j' & Nj & Hj' & Cj).
      assert (i' = j') by (eapply U; eauto). 
      assert (i < n - 1 /\ j < n - 1)%nat.
      { pose proof (N' i) as A. pose proof (N' j) as B. rewrite Hi in A. rewrite Hj in B.
        destruct (S i <? n)%nat eqn:E1; [|discriminate]. destruct (S j <? n)%nat eqn:E2; [|discriminate]. lia. }
      lia.
    + intros n0 v0. split.
      * intros Hn0. unfold assign_. destruct list_eq_dec as [->|Nn].
        -- split; [|discriminate]. intros Hi. exfalso. apply In_nth_error in Hi as [j Hj]. destruct (To j _ Hj) as (i & Ni & Hi & _).
           apply Ni. eapply U; eauto.
        -- rewrite <- (proj1 (L n0 v0) Hn0). split; intros Hi; apply In_nth_error in Hi as [j Hj].
           ++ destruct (To j _ Hj) as (i & _ & Hi & _). eapply nth_error_In, Hi.
           ++ destruct (From j (n0 ++ 61 :: v0)) as (j' & Hj'); [|exact Hj|eapply nth_error_In, Hj'].
              intros ->. rewrite Ek in Hj. injection Hj as Hj. apply split_inj in Hj as [? _]; auto.
      * intros Hn0. unfold assign_. destruct list_eq_dec; [reflexivity|]. apply (proj2 (L n0 v0) Hn0).
  - eexists. split; [reflexivity|]. split; [exact Ho|]. apply (inv_ext s m); [|split; assumption].
    intros n. unfold assign_. destruct list_eq_dec as [->|]; [|reflexivity].
    destruct (name_dec name) as [Hn|Hn]; [|apply (proj2 (L name []) Hn)].
    destruct (m name) as [v|] eqn:Em; [|reflexivity]. exfalso. apply (find_index_none _ _ v Hn E). apply (proj1 (L name v) Hn), Em.
Qed.

Lemma assign_ok s m name value ow : own s = true -> inv s m -> name_ok name ->
  exists s', assign s name (name ++ 61 :: value) ow = Ok s' /\ own s' = true /\
    inv s' (if ow then assign_ m name (Some value) else match m name with None => assign_ m name (Some value) | Some _ => m end).
Proof.
  intros Ho [U L] Hn. unfold assign. rewrite Ho. destruct (find_index (env s) name) as [k|] eqn:E.
  - apply find_index_some in E as (v & Ek & _). assert (Hk : (k < length (env s))%nat) by (apply nth_error_Some; congruence).
    assert (Em : m name = Some v) by (apply (proj1 (L name v) Hn); eapply nth_error_In, Ek).
    eexists. split; [reflexivity|]. destruct ow; [|rewrite Em; split; [exact Ho|split; assumption]].
    cbn [own]. split; [reflexivity|]. split; cbn [env].
    + intros i j n0 v0 w0 Hn0. rewrite !set_nth_eq by exact Hk. destruct (Nat.eqb_spec i k) as [->|Ni], (Nat.eqb_spec j k) as [->|Nj]; auto.
      * intros [= Hi] Hj. apply split_inj in Hi as [-> _]; auto. exfalso. apply Nj. eapply U; eauto.
      * intros Hj [= Hi]. apply split_inj in Hi as [-> _]; auto. exfalso. apply Ni. eapply U; eauto.
      * intros Hi Hj. eapply U; eauto.
    + intros n0 v0. split; intros Hn0.
      * unfold assign_. destruct list_eq_dec as [->|Nn].
        -- split.
           ++ intros Hi. apply In_nth_error in Hi as [j Hj]. rewrite set_nth_eq in Hj by exact Hk. destruct (Nat.eqb_spec j k) as [_|Nj].
              ** injection Hj as Hj. apply split_inj in Hj as [_ ->]; auto.
              ** exfalso. apply Nj. eapply U; eauto.
           ++ intros [= ->]. apply (nth_error_In _ k). rewrite set_nth_eq, Nat.eqb_refl by exact Hk. reflexivity.
        -- rewrite <- (proj1 (L n0 v0) Hn0). split; intros Hi; apply In_nth_error in Hi as [j Hj].
           ++ rewrite set_nth_eq in Hj by exact Hk. destruct (Nat.eqb_spec j k) as [_|Nj]; [|eapply nth_error_In, Hj].
              injection Hj as Hj. apply split_inj in Hj as [? _]; auto. congruence.
           ++ apply (nth_error_In _ j). rewrite set_nth_eq by exact Hk. destruct (Nat.eqb_spec j k) as [->|Nj]; [|exact Hj].
              rewrite Ek in Hj. injection Hj as Hj. apply split_inj in Hj as [? _]; auto. congruence.
      * unfold assign_. destruct list_eq_dec as [->|]; [contradiction|]. apply (proj2 (L n0 v0) Hn0).
  - assert (Em : m name = None).
    { destruct (m name) as [v|] eqn:Em; [|reflexivity]. exfalso. apply (find_index_none _ _ v Hn E). apply (proj1 (L name v) Hn), Em. }
    assert (Abs : forall v, ~ In (name ++ 61 :: v) (env s)) by (intros v; apply find_index_none; assumption).
    eexists. split; [reflexivity|]. cbn [own]. split; [reflexivity|].
    replace (if ow then assign_ m name (Some value) else match m name with None => assign_ m name (Some value) | Some _ => m end)
      with (assign_ m name (Some value)) by (rewrite Em; destruct ow; reflexivity).
    assert (Nth : forall i x, nth_error (env s ++ [name ++ 61 :: value]) i = Some x ->
              nth_error (env s) i = Some x \/ (i = length (env s) /\ x = name ++ 61 :: value)).
    { intros i x Hi. destruct (Nat.lt_ge_cases i (length (env s))) as [Hl|Hl]; [left; rewrite nth_error_app1 in Hi by exact Hl; exact Hi|].
      rewrite nth_error_app2 in Hi by exact Hl. right. destruct (i - length (env s))%nat as [|q] eqn:Eq; [|destruct q; discriminate].
      injection Hi as <-. split; [lia|reflexivity]. }
    split; cbn [env].
    + intros i j n0 v0 w0 Hn0 Hi Hj. apply Nth in Hi as [Hi|[-> Hi]]; apply Nth in Hj as [Hj|[-> Hj]]; auto.
      * eapply U; eauto.
      * apply split_inj in Hj as [-> _]; auto. exfalso. eapply Abs, nth_error_In, Hi.
      * apply split_inj in Hi as [-> _]; auto. exfalso. eapply Abs, nth_error_In, Hj.
    + intros n0 v0. split; intros Hn0.
      * rewrite in_app_iff. unfold assign_. destruct list_eq_dec as [->|Nn].
        -- split.
           ++ intros [Hi|[Hi|[]]]; [exfalso; eapply Abs, Hi|]. apply split_inj in Hi as [_ ->]; auto.
           ++ intros [= ->]. right; left; reflexivity.
        -- rewrite <- (proj1 (L n0 v0) Hn0). split; [|tauto]. intros [Hi|[Hi|[]]]; [exact Hi|]. apply split_inj in Hi as [? _]; auto. congruence.
      * unfold assign_. destruct list_eq_dec as [->|]; [contradiction|]. apply (proj2 (L n0 v0) Hn0).
Qed.

Lemma step_ok s m o m' : inv s m -> map_step m o m' -> exists s', step s o = Ok s' /\ inv s' m'.
Proof.
  intros I M. assert (I' : inv (update_vector s) m) by exact I. destruct M; cbn [step].
  - unfold setenv. rewrite (proj2 (find_eq_none n) H).
    destruct (assign_ok (update_vector s) m n v ow eq_refl I' H) as (s' & -> & _ & J). cbn [bind]. eauto.
  - unfold setenv. destruct (find_eq n) as [e|] eqn:E; [cbn; eauto|]. apply find_eq_none in E. contradiction.
  - unfold putenv. rewrite find_eq_name, firstn_name by exact H.
    destruct (assign_ok (update_vector s) m n v true eq_refl I' H) as (s' & -> & _ & J). eauto.
  - unfold putenv. rewrite (proj2 (find_eq_none n) H).
    destruct (unassign_ok (update_vector s) m n eq_refl I') as (s' & -> & _ & J). eauto.
  - unfold unsetenv. destruct (unassign_ok (update_vector s) m n eq_refl I') as (s' & -> & _ & J). eauto.
  - eexists. split; [reflexivity|]. split; assumption.
Qed.

Lemma run_ok m ops m' : map_run m ops m' -> forall s, inv s m -> exists s', run s ops = Ok s' /\ inv s' m'.
Proof.
  induction 1 as [m|m o m1 ops m2 Hs Hr IH]; intros s I; cbn [run]; [eauto|].
  destruct (step_ok s m o m1 I Hs) as (s1 & -> & I1). cbn [bind]. apply IH, I1.
Qed.
