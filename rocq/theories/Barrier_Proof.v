(** Proofs about barriers. *)
From Verif Require Import Barrier_Model Barrier_Spec.
Open Scope Z_scope.

(** ** Arithmetic of the counter word *)
Section Count.
Variable c : Z.
Hypothesis C : 1 <= c <= 2 ^ 31.

Definition sh := Z.log2_up c.
Definition G := max_generations c.
Definition M := 2 ^ sh.

Lemma sh_range : 0 <= sh <= 31.
Proof.
  unfold sh. split; [apply Z.log2_up_nonneg|].
  replace 31 with (Z.log2_up (2 ^ 31)) by reflexivity. apply Z.log2_up_le_mono. lia.
Qed.

Lemma c_le_M : c <= M.
Proof.
  unfold M, sh. destruct (Z.eq_dec c 1) as [->|N]; [cbn; lia|].
  apply Z.log2_up_spec. lia.
Qed.

Lemma M_pos : 1 <= M.
Proof. pose proof c_le_M. lia. Qed.

Lemma MG : M * G = 2 ^ 32.
Proof.
  unfold M, G, max_generations. fold sh. pose proof sh_range. rewrite <- Z.pow_add_r by lia.
  f_equal. lia.
Qed.

Lemma G_pos : 2 <= G.
Proof.
  pose proof MG as E. pose proof M_pos. pose proof sh_range.
  assert (M <= 2 ^ 31) by (unfold M; apply Z.pow_le_mono_r; lia).
  assert (1 <= G) by nia. destruct (Z.eq_dec G 1); [|lia]. rewrite e in E. lia.
Qed.

Lemma G_le : 2 <= c -> G <= 2 ^ 31.
Proof.
  intros H. pose proof MG as E. pose proof c_le_M. pose proof G_pos. nia.
Qed.

Definition word (a : Z) : Z := ((a / c) mod G) * M + a mod c.

Lemma word_gen : forall a, Z.shiftr (word a) sh = (a / c) mod G.
Proof.
  intros a. pose proof sh_range. rewrite Z.shiftr_div_pow2 by lia. fold M. unfold word.
  pose proof M_pos. rewrite Z.div_add_l by lia.
  rewrite (Z.div_small (a mod c) M); [lia|].
  pose proof (Z.mod_pos_bound a c ltac:(lia)). pose proof c_le_M. lia.
Qed.

Lemma word_waiters : forall a, Z.land (word a) (2 ^ sh - 1) = a mod c.
Proof.
  intros a. pose proof sh_range. replace (2 ^ sh - 1) with (Z.ones sh) by (rewrite Z.ones_equiv; lia).
  rewrite Z.land_ones by lia. fold M. unfold word. rewrite Z.add_comm, Z.mod_add by (pose proof M_pos; lia).
  apply Z.mod_small. pose proof (Z.mod_pos_bound a c ltac:(lia)). pose proof c_le_M. lia.
Qed.

Lemma div_last : forall a, a mod c = c - 1 -> (a + 1) / c = a / c + 1 /\ (a + 1) mod c = 0.
Proof.
  intros a H. pose proof (Z.div_mod a c ltac:(lia)) as E.
  assert (a + 1 = (a / c + 1) * c) as -> by nia.
  split; [apply Z.div_mul|apply Z.mod_mul]; lia.
Qed.

Lemma div_notlast : forall a, a mod c <> c - 1 -> (a + 1) / c = a / c /\ (a + 1) mod c = a mod c + 1.
Proof.
  intros a H. pose proof (Z.div_mod a c ltac:(lia)) as E. pose proof (Z.mod_pos_bound a c ltac:(lia)).
  assert (a + 1 = c * (a / c) + (a mod c + 1)) as E2 by lia.
  split; symmetry; [apply (Z.div_unique (a + 1) c _ (a mod c + 1))|apply (Z.mod_unique (a + 1) c (a / c))]; lia.
Qed.

Lemma word_last : forall a, a mod c = c - 1 ->
  u32 (Z.shiftl (u32 ((a / c) mod G + 1)) sh) = word (a + 1).
Proof.
  intros a H. destruct (div_last a H) as [D R]. pose proof sh_range. pose proof G_pos. pose proof M_pos.
  rewrite Z.shiftl_mul_pow2 by lia. fold M. unfold word. rewrite D, R.
  unfold u32. pose proof MG as E.
  pose proof (Z.mod_pos_bound (a / c) G ltac:(lia)) as B.
  assert (G <= 2 ^ 32) by nia.
  rewrite <- E. rewrite Z.add_0_r.
  destruct (Z.eq_dec ((a / c) mod G) (G - 1)) as [X|X].
  - rewrite X. replace (G - 1 + 1) with G by lia.
    replace ((a / c + 1) mod G) with 0.
    + rewrite Z.mul_0_l. destruct (Z.eq_dec M 1) as [M1|M1].
      * rewrite M1, Z.mul_1_l, Z.mod_same, Z.mul_0_l, Z.mod_0_l by lia. reflexivity.
      * rewrite (Z.mod_small G (M * G)) by nia.
        replace (G * M) with (1 * (M * G)) by lia. apply Z.mod_mul. nia.
    + rewrite Z.add_mod, X by lia. destruct (Z.eq_dec G 1); [lia|].
      rewrite (Z.mod_small 1 G) by lia. replace (G - 1 + 1) with (1 * G) by lia. symmetry; apply Z.mod_mul; lia.
  - rewrite (Z.mod_small ((a / c) mod G + 1) (M * G)) by nia.
    assert ((a / c + 1) mod G = (a / c) mod G + 1) as ->.
    { rewrite Z.add_mod, (Z.mod_small 1 G) by lia. apply Z.mod_small. lia. }
    apply Z.mod_small. nia.
Qed.

Lemma word_next : forall a, a mod c <> c - 1 -> u32 (word a + 1) = word (a + 1).
Proof.
  intros a H. destruct (div_notlast a H) as [D R]. unfold word. rewrite D, R. unfold u32.
  pose proof (Z.mod_pos_bound a c ltac:(lia)). pose proof c_le_M. pose proof G_pos. pose proof M_pos.
  pose proof (Z.mod_pos_bound (a / c) G ltac:(lia)). pose proof MG as E.
  rewrite Z.mod_small; [lia|]. nia.
Qed.

Lemma u32_waiters : forall a, (u32 (a mod c + 1) =? c) = (a mod c =? c - 1).
Proof.
  intros a. pose proof (Z.mod_pos_bound a c ltac:(lia)). unfold u32. rewrite Z.mod_small by lia.
  destruct (Z.eqb_spec (a mod c + 1) c), (Z.eqb_spec (a mod c) (c - 1)); lia || reflexivity.
Qed.

(** one turn of the loop in terms of the number of arrivals that [old] stands for *)
Lemma turn_word : forall t a weak s,
  turn c t (word a) weak s =
  if (waiting s =? word a) && negb weak then
    arrive s t (word (a + 1))
      (if a mod c =? c - 1 then StoreSeq ((a / c) mod G) else LoadSeq ((a / c) mod G))
  else go s t (Loop (waiting s)).
Proof.
  intros t a weak s. unfold turn. fold sh. pose proof sh_range as R.
  destruct (Z.ltb_spec sh 32) as [_|X]; [|lia]. cbn zeta.
  rewrite word_gen, word_waiters, u32_waiters.
  destruct (Z.eqb_spec (a mod c) (c - 1)) as [E|E].
  - rewrite (word_last a E). reflexivity.
  - rewrite (word_next a E). reflexivity.
Qed.

(** ** The first invariant: tickets and results *)
Definition reg (a k : Z) : Prop := 0 <= k < a.
Definition last (k : Z) : Prop := k mod c = c - 1.

Definition pinv (a k : Z) (p : pc) : Prop :=
  match p with
  | Loop old => exists a0, 0 <= a0 /\ old = word a0
  | StoreSeq g => reg a k /\ g = (k / c) mod G /\ last k
  | WakeSeq => reg a k /\ last k
  | LoadSeq g | WaitSeq g _ | SleepSeq g _ => reg a k /\ g = (k / c) mod G /\ ~ last k
  | Leave r | WakeInside r =>
      reg a k /\ ((r = PTHREAD_BARRIER_SERIAL_THREAD /\ last k) \/ (r = 0 /\ ~ last k))
  | Undefined => False
  | _ => True
  end.

Definition registered (p : pc) : bool :=
  match p with
  | StoreSeq _ | WakeSeq | LoadSeq _ | WaitSeq _ _ | SleepSeq _ _ | Leave _ | WakeInside _ => true
  | _ => false
  end.

Definition logok (a : Z) (e : Z * Z) : Prop :=
  reg a (fst e) /\
  ((snd e = PTHREAD_BARRIER_SERIAL_THREAD /\ last (fst e)) \/ (snd e = 0 /\ ~ last (fst e))).

Record inv1 (s : state) : Prop := {
  i_arr : 0 <= arrived s;
  i_word : waiting s = word (arrived s);
  i_pc : forall t, pinv (arrived s) (ticket s t) (at_ s t);
  i_log : forall e, In e (log s) -> logok (arrived s) e;
  i_dist : forall t u, registered (at_ s t) = true -> registered (at_ s u) = true ->
           ticket s t = ticket s u -> t = u;
  i_new : forall t, registered (at_ s t) = true -> ~ In (ticket s t) (map fst (log s));
  i_nodup : NoDup (map fst (log s)) }.

Lemma inv1_upd : forall s f sq ins d, inv1 s ->
  (forall u, pinv (arrived s) (ticket s u) (f u)) ->
  (forall u, registered (f u) = true -> registered (at_ s u) = true) ->
  inv1 {| waiting := waiting s; seq := sq; inside := ins; at_ := f; arrived := arrived s;
          ticket := ticket s; log := log s; destroyed := d |}.
Proof.
  intros s f sq ins d I P R. destruct I. constructor; cbn; auto.
Qed.

Lemma inv1_set : forall s t p sq ins d, inv1 s ->
  pinv (arrived s) (ticket s t) p -> (registered p = true -> registered (at_ s t) = true) ->
  inv1 {| waiting := waiting s; seq := sq; inside := ins; at_ := setf (at_ s) t p; arrived := arrived s;
          ticket := ticket s; log := log s; destroyed := d |}.
Proof.
  intros s t p sq ins d I P R. apply inv1_upd; [exact I| |]; intros u; unfold setf;
    destruct (Z.eqb_spec u t) as [->|N]; auto. apply (i_pc s I).
Qed.

Lemma pinv_mono : forall a k p, pinv a k p -> pinv (a + 1) k p.
Proof. intros a k p H. destruct p; cbn in *; unfold reg in *; try tauto; repeat split; try tauto; lia. Qed.

Lemma inv1_arrive : forall s t p s', inv1 s -> registered (at_ s t) = false ->
  pinv (arrived s + 1) (arrived s) p ->
  arrive s t (word (arrived s + 1)) p = Some s' -> inv1 s'.
Proof.
  intros s t p s' I N P H. injection H as <-. destruct I. constructor; cbn.
  - lia.
  - reflexivity.
  - intros u. unfold setf. destruct (Z.eqb_spec u t) as [->|X]; [exact P|]. apply pinv_mono; auto.
  - intros e He. destruct (i_log0 e He) as [A B]. split; [unfold reg in *; lia|exact B].
  - assert (Q : forall u, registered (at_ s u) = true -> ticket s u <> arrived s).
    { intros u Hu. pose proof (i_pc0 u) as X. destruct (at_ s u); try discriminate; cbn in X; unfold reg in X; lia. }
    intros u v. unfold setf. destruct (Z.eqb_spec u t) as [->|X], (Z.eqb_spec v t) as [->|Y]; auto.
    + intros _ Hv E. elim (Q v Hv). lia.
    + intros Hu _ E. elim (Q u Hu). lia.
  - intros u. unfold setf. destruct (Z.eqb_spec u t) as [->|X]; auto.
    intros _ Hin. apply in_map_iff in Hin as (e & E & He). destruct (i_log0 e He) as [A _]. unfold reg in A. lia.
  - exact i_nodup0.
Qed.

Lemma inv1_return : forall s t ins f r s', inv1 s -> at_ s t = Leave r \/ at_ s t = WakeInside r ->
  (forall u, pinv (arrived s) (ticket s u) (f u)) ->
  (forall u, registered (f u) = true -> registered (at_ s u) = true) ->
  return_ s t ins f r = Some s' -> inv1 s'.
Proof.
  intros s t ins f r s' I A P R H. injection H as <-. destruct I.
  assert (Rt : registered (at_ s t) = true) by (destruct A as [-> | ->]; reflexivity).
  constructor; cbn; auto.
  - intros u. unfold setf. destruct (Z.eqb_spec u t) as [->|X]; [exact Logic.I|apply P].
  - intros e [<-|He]; [|auto]. pose proof (i_pc0 t) as X. unfold logok. cbn. destruct A as [E|E]; rewrite E in X; exact X.
  - intros u v. unfold setf. destruct (Z.eqb_spec u t) as [->|X], (Z.eqb_spec v t) as [->|Y]; try discriminate; auto.
  - intros u. unfold setf. destruct (Z.eqb_spec u t) as [->|X]; [discriminate|].
    intros Hu [E|Hin]; [|exact (i_new0 u (R u Hu) Hin)].
    apply X. symmetry. apply i_dist0; auto.
  - constructor; auto.
Qed.

Lemma wake_seq_pinv : forall a k p, pinv a k p -> pinv a k (wake_seq p).
Proof. intros a k p H. destruct p; cbn in *; auto. Qed.
Lemma wake_inside_pinv : forall a k p, pinv a k p -> pinv a k (wake_inside p).
Proof. intros a k p H. destruct p; cbn in *; auto. Qed.

Lemma step_inv1 : forall t a s s', inv1 s -> step c t a s = Some s' -> inv1 s'.
Proof.
  intros t a s s' I H. unfold step in H. pose proof (i_pc s I t) as Pt.
  destruct (at_ s t) as [| |old|g| |g|g cur|g cur|r|r| | |e|e] eqn:P; destruct a; try discriminate;
    cbn [pinv] in Pt;
    try (unfold go in H; injection H as <-; apply inv1_set; [exact I|cbn; tauto|rewrite P; cbn; congruence]).
  - (* EnterLoad *)
    unfold go in H. injection H as <-. apply inv1_set; [exact I| |discriminate].
    exists (arrived s). split; [apply I|apply I].
  - (* Loop *)
    destruct Pt as (a0 & N0 & ->). rewrite turn_word in H. rewrite andb_true_r in H.
    destruct (Z.eqb_spec (waiting s) (word a0)) as [E|E].
    + (* a0 and the number of arrivals agree on everything that matters *)
      rewrite (i_word s I) in E.
      assert (X : (a0 / c) mod G = (arrived s / c) mod G /\ a0 mod c = arrived s mod c).
      { split; [rewrite <- !word_gen|rewrite <- !word_waiters]; rewrite E; reflexivity. }
      destruct X as [X1 X2].
      assert (word (a0 + 1) = word (arrived s + 1)) as W.
      { destruct (Z.eq_dec (a0 mod c) (c - 1)) as [L|L].
        - rewrite <- !word_last by congruence. rewrite X1. reflexivity.
        - rewrite <- !word_next by congruence. rewrite E. reflexivity. }
      rewrite W, X1, X2 in H.
      refine (inv1_arrive s t _ s' I _ _ H); [rewrite P; reflexivity|].
      pose proof (i_arr s I).
      destruct (Z.eqb_spec (arrived s mod c) (c - 1)); cbn; repeat split; try (unfold reg; lia); try assumption.
    + unfold go in H. injection H as <-. apply inv1_set; [exact I| |discriminate].
      exists (arrived s). split; apply I.
  - destruct Pt as (a0 & N0 & ->). rewrite turn_word in H. rewrite andb_false_r in H.
    unfold go in H. injection H as <-. apply inv1_set; [exact I| |discriminate].
    exists (arrived s). split; apply I.
  - (* WakeSeq *)
    injection H as <-. apply inv1_upd; [exact I| |]; intros u; unfold setf, wake_with;
      destruct (Z.eqb_spec u t) as [->|N].
    + cbn. tauto.
    + apply wake_seq_pinv, I.
    + rewrite P. reflexivity.
    + destruct (at_ s u); cbn; auto.
  - destruct ((0 <? u32 (seq s - g)) && (u32 (seq s - g) <? 2 ^ 31)); unfold go in H; injection H as <-;
      apply inv1_set; try exact I; try (rewrite P; reflexivity); cbn; tauto.
  - destruct (seq s =? cur); unfold go in H; injection H as <-; apply inv1_set;
      try exact I; try (rewrite P; reflexivity); cbn; tauto.
  - (* Leave *)
    destruct (inside s =? 1).
    + injection H as <-. apply inv1_set; [exact I|exact Pt|rewrite P; reflexivity].
    + refine (inv1_return s t _ _ r s' I (or_introl P) (i_pc s I) _ H). auto.
  - refine (inv1_return s t _ _ r s' I (or_intror P) _ _ H).
    + intros u. apply wake_inside_pinv, I.
    + intros u. unfold wake_with. destruct (at_ s u); cbn; auto.
  - destruct (inside s =? 0); [injection H as <-|unfold go in H; injection H as <-];
      (apply inv1_set; [exact I|exact Logic.I|discriminate]).
  - destruct (inside s =? e); unfold go in H; injection H as <-;
      (apply inv1_set; [exact I|exact Logic.I|discriminate]).
Qed.

(** ** The second invariant: nobody leaves early *)
Record early (s : state) : Prop := {
  e_seq : 0 <= seq s <= arrived s / c;
  e_pc : forall t r, at_ s t = Leave r \/ at_ s t = WakeInside r -> complete c s (ticket s t / c);
  e_log : forall k r, In (k, r) (log s) -> complete c s (k / c) }.

Definition inv2 (s : state) : Prop := inv1 s /\ (arrived s <= c * G -> early s).

Lemma last_complete : forall a k, reg a k -> last k -> (k / c + 1) * c <= a.
Proof.
  intros a k R L. unfold reg, last in *. pose proof (Z.div_mod k c ltac:(lia)). nia.
Qed.

Lemma gen_small : forall a k, a <= c * G -> reg a k -> (k / c) mod G = k / c.
Proof.
  intros a k B R. unfold reg in R. apply Z.mod_small. split.
  - apply Z.div_pos; lia.
  - apply Z.div_lt_upper_bound; lia.
Qed.

Lemma gen_le : forall a k, reg a k -> 0 <= k / c <= a / c.
Proof.
  intros a k R. unfold reg in R. split; [apply Z.div_pos; lia|apply Z.div_le_mono; lia].
Qed.

Lemma early_upd : forall s t p ins d sq, early s -> 0 <= sq <= arrived s / c ->
  (forall r, p = Leave r \/ p = WakeInside r -> complete c s (ticket s t / c)) ->
  early {| waiting := waiting s; seq := sq; inside := ins; at_ := setf (at_ s) t p; arrived := arrived s;
           ticket := ticket s; log := log s; destroyed := d |}.
Proof.
  intros s t p ins d sq E Q P. destruct E. constructor; cbn; auto.
  intros u r. unfold setf. destruct (Z.eqb_spec u t) as [->|N]; eauto.
Qed.

Lemma complete_mono : forall s s' g, arrived s <= arrived s' -> complete c s g -> complete c s' g.
Proof. unfold complete. intros; lia. Qed.

Lemma step_inv2 : forall t a s s', inv2 s -> step c t a s = Some s' -> inv2 s'.
Proof.
  intros t a s s' [I J] H. split; [exact (step_inv1 t a s s' I H)|].
  pose proof (i_pc s I t) as Pt. unfold step in H.
  destruct (at_ s t) as [| |old|g| |g|g cur|g cur|r|r| | |e|e] eqn:P; destruct a; try discriminate;
    cbn [pinv] in Pt;
    try (unfold go in H; injection H as <-; cbn [arrived]; intros B; specialize (J B);
         apply early_upd; [exact J|exact (e_seq s J)|intros r [X|X]; discriminate]).
  - (* Loop *)
    destruct Pt as (a0 & N0 & ->). rewrite turn_word in H.
    destruct ((waiting s =? word a0) && negb false).
    + injection H as <-. cbn [arrived]. intros B. specialize (J ltac:(lia)). destruct J. constructor; cbn.
      * split; [tauto|]. transitivity (arrived s / c); [tauto|]. apply Z.div_le_mono; lia.
      * intros u r. unfold setf. destruct (Z.eqb_spec u t) as [->|N].
        -- destruct (a0 mod c =? c - 1); intros [X|X]; discriminate.
        -- intros X. apply (complete_mono s); [cbn; lia|eauto].
      * intros k r X. apply (complete_mono s); [cbn; lia|eauto].
    + unfold go in H; injection H as <-; cbn [arrived]; intros B; specialize (J B);
        apply early_upd; [exact J|exact (e_seq s J)|intros r [X|X]; discriminate].
  - destruct Pt as (a0 & N0 & ->). rewrite turn_word in H. rewrite andb_false_r in H.
    unfold go in H; injection H as <-; cbn [arrived]; intros B; specialize (J B);
      apply early_upd; [exact J|exact (e_seq s J)|intros r [X|X]; discriminate].
  - (* StoreSeq *)
    injection H as <-; cbn [arrived]; intros B; specialize (J B).
    destruct Pt as (R & -> & L). rewrite (gen_small _ _ B R).
    apply early_upd; [exact J| |intros r [X|X]; discriminate].
    pose proof (last_complete _ _ R L) as K. pose proof (gen_le _ _ R) as X. pose proof G_pos.
    assert (ticket s t / c + 1 <= arrived s / c) by (apply Z.div_le_lower_bound; lia).
    assert (arrived s / c <= G) by (apply Z.div_le_upper_bound; lia).
    destruct (Z.eq_dec M 1) as [M1|M1].
    + pose proof MG as E. rewrite M1 in E.
      unfold u32. destruct (Z.eq_dec (ticket s t / c + 1) (2 ^ 32)) as [Y|Y].
      * rewrite Y, Z.mod_same by lia. lia.
      * rewrite Z.mod_small by lia. lia.
    + pose proof MG as E. pose proof M_pos. unfold u32. rewrite Z.mod_small by nia. lia.
  - (* WakeSeq *)
    injection H as <-; cbn [arrived]; intros B; specialize (J B). destruct J. constructor; cbn; auto.
    intros u r. unfold setf, wake_with. destruct (Z.eqb_spec u t) as [->|N].
    + intros _. apply (last_complete (arrived s)); tauto.
    + intros X. apply (e_pc0 u r). destruct (at_ s u); cbn in X; tauto || (destruct X; discriminate).
  - (* LoadSeq *)
    destruct ((0 <? u32 (seq s - g)) && (u32 (seq s - g) <? 2 ^ 31)) eqn:D; unfold go in H; injection H as <-;
      cbn [arrived]; intros B; specialize (J B); apply early_upd; try exact J; try exact (e_seq s J);
      intros r [X|X]; try discriminate.
    destruct Pt as (R & -> & L). rewrite (gen_small _ _ B R) in D.
    apply andb_true_iff in D as [D1 D2]. apply Z.ltb_lt in D1, D2.
    assert (2 <= c). { unfold last in L. destruct (Z.eq_dec c 1) as [->|]; [|lia]. rewrite Z.mod_1_r in L. lia. }
    pose proof (e_seq s J) as Q. pose proof (gen_le _ _ R) as K. pose proof (G_le ltac:(lia)) as GL.
    assert (arrived s / c <= G) by (apply Z.div_le_upper_bound; lia).
    assert (ticket s t / c < seq s).
    { destruct (Z_lt_ge_dec (ticket s t / c) (seq s)) as [Y|Y]; [exact Y|]. exfalso.
      destruct (Z.eq_dec (seq s) (ticket s t / c)) as [Z1|Z1].
      - rewrite Z1, Z.sub_diag in D1. unfold u32 in D1. rewrite Z.mod_0_l in D1 by lia. lia.
      - assert (u32 (seq s - ticket s t / c) = seq s - ticket s t / c + 2 ^ 32) as U.
        { unfold u32. symmetry. apply (Z.mod_unique _ _ (-1)); lia. }
        rewrite U in D2.
        assert (ticket s t / c < G) by (apply Z.div_lt_upper_bound; unfold reg in R; lia). lia. }
    unfold complete. pose proof (Z.mul_div_le (arrived s) c ltac:(lia)). nia.
  - destruct (seq s =? cur); unfold go in H; injection H as <-; cbn [arrived]; intros B; specialize (J B);
      apply early_upd; try exact J; try exact (e_seq s J); intros r [X|X]; discriminate.
  - (* Leave *)
    destruct (inside s =? 1).
    + injection H as <-; cbn [arrived]; intros B; specialize (J B).
      apply early_upd; try exact J; try exact (e_seq s J). intros _ _. apply (e_pc s J t r); auto.
    + injection H as <-; cbn [arrived]; intros B; specialize (J B). destruct J. constructor; cbn; auto.
      * intros u q. unfold setf. destruct (Z.eqb_spec u t) as [->|N]; [intros [X|X]; discriminate|]. apply e_pc0.
      * intros k q [X|X]; [|eauto]. injection X as <- <-. apply (e_pc0 t r); auto.
  - injection H as <-; cbn [arrived]; intros B; specialize (J B). destruct J. constructor; cbn; auto.
    + intros u q. unfold setf, wake_with. destruct (Z.eqb_spec u t) as [->|N]; [intros [X|X]; discriminate|].
      intros X. apply (e_pc0 u q). destruct (at_ s u); cbn in X; tauto || (destruct X; discriminate).
    + intros k q [X|X]; [|eauto]. injection X as <- <-. apply (e_pc0 t r); auto.
  - destruct (inside s =? 0); [injection H as <-|unfold go in H; injection H as <-];
      cbn [arrived]; intros B; specialize (J B);
      apply early_upd; try exact J; try exact (e_seq s J); intros r [X|X]; discriminate.
  - destruct (inside s =? e); unfold go in H; injection H as <-; cbn [arrived]; intros B; specialize (J B);
      apply early_upd; try exact J; try exact (e_seq s J); intros r [X|X]; discriminate.
Qed.

Lemma word_0 : word 0 = 0.
Proof. unfold word. rewrite Z.div_0_l, !Z.mod_0_l by (pose proof G_pos; lia). lia. Qed.

Lemma init_inv2 : inv2 init.
Proof.
  split.
  - constructor; cbn -[word Z.le]; try tauto; try lia; try discriminate;
      first [symmetry; apply word_0 | constructor].
  - intros _. constructor; cbn [seq arrived at_ log init In].
    + rewrite Z.div_0_l; lia.
    + intros t r [X|X]; discriminate.
    + tauto.
Qed.

(** ** The third invariant: as many users as the barrier is for *)
Section Users.
Variable users : list Z.
Hypothesis U : Z.of_nat (length users) <= c.

Definition in_call (p : pc) : bool :=
  match p with
  | Ready | DestroyLoad | DestroyWait _ | DestroySleep _ => false
  | _ => true
  end.

Definition storing (s : state) (u : Z) : Prop := exists g, at_ s u = StoreSeq g.

Record live (s : state) : Prop := {
  l_cur : exists W, NoDup W /\ Z.of_nat (length W) = arrived s mod c /\
          (forall t, In t W -> waits s t /\ ticket s t / c = arrived s / c);
  l_gen : forall t, waits s t -> arrived s / c - 1 <= ticket s t / c;
  l_store : forall t, storing s t -> ticket s t / c = arrived s / c - 1 /\ seq s = arrived s / c - 1;
  l_seq : (exists t, storing s t) \/ seq s = arrived s / c;
  l_sleep : forall t, sleeps s t ->
            ticket s t / c = arrived s / c \/ (exists u, storing s u) \/ (exists u, at_ s u = WakeSeq);
  l_wait : forall t g cur, at_ s t = WaitSeq g cur \/ at_ s t = SleepSeq g cur -> cur <= ticket s t / c }.

Record inv3 (s : state) : Prop := {
  v_2 : inv2 s;
  v_users : forall t, in_call (at_ s t) = true -> In t users;
  v_live : arrived s < c * G -> live s }.

Lemma one_store : forall s t u, inv1 s -> live s -> storing s t -> storing s u -> t = u.
Proof.
  intros s t u I L Ht Hu. destruct (l_store s L t Ht) as [A _]. destruct (l_store s L u Hu) as [B _].
  destruct Ht as [g Ht], Hu as [h Hu].
  apply (i_dist s I); [rewrite Ht; reflexivity|rewrite Hu; reflexivity|].
  pose proof (i_pc s I t) as X. pose proof (i_pc s I u) as Y. rewrite Ht in X. rewrite Hu in Y. cbn in X, Y.
  destruct X as (_ & _ & X), Y as (_ & _ & Y). unfold last in *.
  pose proof (Z.div_mod (ticket s t) c ltac:(lia)). pose proof (Z.div_mod (ticket s u) c ltac:(lia)). congruence.
Qed.

(** [t] moves to [p] without changing the words; who else storing/waking stays *)
Lemma live_move : forall s t p ins d lg, live s ->
  (forall g, at_ s t <> StoreSeq g) -> at_ s t <> WakeSeq ->
  (forall g, p <> StoreSeq g) ->
  (waits s t -> match p with LoadSeq _ | WaitSeq _ _ | SleepSeq _ _ => True | _ => ticket s t / c <> arrived s / c end) ->
  (match p with LoadSeq _ | WaitSeq _ _ | SleepSeq _ _ => waits s t | _ => True end) ->
  ((exists g cur, p = SleepSeq g cur) ->
     ticket s t / c = arrived s / c \/ (exists u, storing s u) \/ (exists u, at_ s u = WakeSeq)) ->
  (forall g cur, p = WaitSeq g cur \/ p = SleepSeq g cur -> cur <= ticket s t / c) ->
  live {| waiting := waiting s; seq := seq s; inside := ins; at_ := setf (at_ s) t p; arrived := arrived s;
          ticket := ticket s; log := lg; destroyed := d |}.
Proof.
  intros s t p ins d lg L N1 N2 N3 H1 H2 H3 H4.
  assert (ST : forall u, storing s u -> storing {| waiting := waiting s; seq := seq s; inside := ins;
      at_ := setf (at_ s) t p; arrived := arrived s; ticket := ticket s; log := lg; destroyed := d |} u).
  { intros u [g X]. exists g. cbn. rewrite setf_other; [exact X|]. intros ->. elim (N1 g X). }
  assert (WK : forall u, at_ s u = WakeSeq -> setf (at_ s) t p u = WakeSeq).
  { intros u X. rewrite setf_other; [exact X|]. intros ->. contradiction. }
  destruct L. constructor; cbn [arrived seq ticket].
  - destruct l_cur0 as (W & A & B & D). exists W. repeat split; auto.
    + destruct (D t0 H) as [X Y]. unfold waits. cbn. unfold setf. destruct (Z.eqb_spec t0 t) as [->|N]; [|exact X].
      specialize (H1 X). destruct p; try contradiction; exact Logic.I.
    + apply D; assumption.
  - intros u. unfold waits. cbn. unfold setf. destruct (Z.eqb_spec u t) as [->|N].
    + intros X. apply l_gen0. destruct p; try contradiction; exact H2.
    + apply l_gen0.
  - intros u [g X]. cbn in X. unfold setf in X. destruct (Z.eqb_spec u t) as [->|N].
    + elim (N3 g X).
    + apply l_store0. exists g; exact X.
  - destruct l_seq0 as [(u & X)|X]; [left; exists u; auto|right; exact X].
  - intros u (g & cur & X). cbn in X. unfold setf in X.
    assert (Y : ticket s u / c = arrived s / c \/ (exists u, storing s u) \/ (exists u, at_ s u = WakeSeq)).
    { destruct (Z.eqb_spec u t) as [->|N].
      - apply H3. eauto.
      - apply l_sleep0. exists g, cur; exact X. }
    destruct Y as [Y|[(v & Y)|(v & Y)]]; [auto|right; left; exists v; auto|right; right; exists v; cbn; auto].
  - intros u g cur. cbn. unfold setf. destruct (Z.eqb_spec u t) as [->|N]; eauto.
Qed.

Lemma live_wake_inside : forall s ins d lg, live s ->
  live {| waiting := waiting s; seq := seq s; inside := ins; at_ := wake_with wake_inside (at_ s);
          arrived := arrived s; ticket := ticket s; log := lg; destroyed := d |}.
Proof.
  intros s ins d lg L. set (s1 := {| waiting := waiting s |}).
  assert (WT : forall u, waits s1 u <-> waits s u).
  { intros u. unfold waits, s1, wake_with; cbn. destruct (at_ s u); cbn; tauto. }
  assert (ST : forall u, storing s1 u <-> storing s u).
  { intros u. unfold storing, s1, wake_with; cbn. destruct (at_ s u); cbn; split; intros [g X]; exists g; try discriminate X; exact X. }
  assert (SL : forall u g cur, at_ s1 u = SleepSeq g cur -> at_ s u = SleepSeq g cur).
  { intros u g cur. unfold s1, wake_with; cbn. destruct (at_ s u); cbn; auto; discriminate. }
  assert (WS : forall u, at_ s u = WakeSeq -> at_ s1 u = WakeSeq).
  { intros u X. unfold s1, wake_with; cbn. rewrite X; reflexivity. }
  destruct L. constructor; cbn [arrived seq ticket].
  - destruct l_cur0 as (W & A & B & D). exists W. repeat split; auto; [apply WT|]; apply D; assumption.
  - intros u X. apply l_gen0, WT, X.
  - intros u X. apply l_store0, ST, X.
  - destruct l_seq0 as [(u & X)|X]; [left; exists u; apply ST; exact X|right; exact X].
  - intros u (g & cur & X). destruct (l_sleep0 u) as [Y|[(v & Y)|(v & Y)]]; [exists g, cur; auto|auto| |].
    + right; left. exists v. apply ST; exact Y.
    + right; right. exists v. auto.
  - intros u g cur [X|X]; apply (l_wait0 u g cur); [left|right; auto].
    unfold s1, wake_with in X; cbn in X. destruct (at_ s u); cbn in X; auto; discriminate.
Qed.

Lemma wait_gen : forall s t, inv1 s -> waits s t -> reg (arrived s) (ticket s t) /\ ~ last (ticket s t).
Proof.
  intros s t I H. pose proof (i_pc s I t) as X. unfold waits in H.
  destruct (at_ s t); try contradiction; cbn in X; tauto.
Qed.

Lemma u32_diff : forall q g, 0 <= q <= 2 ^ 31 -> 0 <= g < 2 ^ 31 ->
  (0 <? u32 (q - g)) && (u32 (q - g) <? 2 ^ 31) = true -> g < q.
Proof.
  intros q g Q Hg D. apply andb_true_iff in D as [D1 D2]. apply Z.ltb_lt in D1, D2.
  destruct (Z_lt_ge_dec g q) as [Y|Y]; [exact Y|]. exfalso.
  destruct (Z.eq_dec q g) as [Z1|Z1].
  - subst. rewrite Z.sub_diag in D1. unfold u32 in D1. rewrite Z.mod_0_l in D1 by lia. lia.
  - assert (u32 (q - g) = q - g + 2 ^ 32) as E; [|lia].
    unfold u32. symmetry. apply (Z.mod_unique _ _ (-1)); lia.
Qed.

Lemma u32_diff2 : forall q g, 0 <= q <= 2 ^ 31 -> 0 <= g < 2 ^ 31 ->
  (0 <? u32 (q - g)) && (u32 (q - g) <? 2 ^ 31) = false -> q <= g \/ q - g = 2 ^ 31.
Proof.
  intros q g Q Hg D. destruct (Z_lt_ge_dec g q) as [Y|Y]; [|lia]. right.
  assert (u32 (q - g) = q - g) as E by (unfold u32; apply Z.mod_small; lia). rewrite E in D.
  apply andb_false_iff in D as [D|D]; apply Z.ltb_ge in D; lia.
Qed.

(** at the moment a generation becomes complete, everybody else in a call is in that generation *)
Lemma all_in : forall s t, inv1 s -> live s -> (forall t, in_call (at_ s t) = true -> In t users) ->
  at_ s t <> Ready -> in_call (at_ s t) = true -> ~ waits s t -> arrived s mod c = c - 1 ->
  forall u, in_call (at_ s u) = true -> u = t \/ (waits s u /\ ticket s u / c = arrived s / c).
Proof.
  intros s t I L UU _ Ht Nt E u Hu. destruct (l_cur s L) as (W & A & B & D).
  destruct (Z.eq_dec u t) as [->|Nu]; [left; reflexivity|].
  destruct (in_dec Z.eq_dec u W) as [X|X]; [right; apply D; exact X|]. exfalso.
  assert (~ In t W) by (intros Y; destruct (D t Y); contradiction).
  assert (ND : NoDup (u :: t :: W)).
  { constructor; [intros [Y|Y]; [congruence|contradiction]|constructor; assumption]. }
  assert (IN : incl (u :: t :: W) users).
  { intros x [<-|[<-|Y]]; auto. apply UU. destruct (D x Y) as [Z1 _]. unfold waits in Z1.
    destruct (at_ s x); try contradiction; reflexivity. }
  pose proof (NoDup_incl_length ND IN) as Le. cbn [length] in Le. lia.
Qed.

Lemma step_inv3 : forall t a s s', inv3 s -> (a = CallWait -> In t users) -> step c t a s = Some s' -> inv3 s'.
Proof.
  intros t a s s' V RU H. destruct V as [V2 VU VL]. pose proof (step_inv2 t a s s' V2 H) as V2'.
  assert (VU' : forall u, in_call (at_ s' u) = true -> In u users).
  { assert (TT : in_call (at_ s t) = true -> In t users) by apply VU.
    assert (SET : forall f p, (forall u, in_call (f u) = true -> In u users) ->
       (in_call p = true -> In t users) -> forall u, in_call (setf f t p u) = true -> In u users).
    { intros f p F Q u. unfold setf. destruct (Z.eqb_spec u t) as [->|N]; auto. }
    unfold step in H. clear V2'.
    destruct (at_ s t) as [| |old|g| |g|g cur|g cur|r|r| | |e|e] eqn:P; destruct a; try discriminate;
      cbn [in_call] in TT;
      try (unfold go in H; injection H as <-; cbn [at_]; apply SET; [exact VU|intros; auto; discriminate]).
    - unfold turn in H. cbn zeta in H.
      repeat match type of H with (if ?b then _ else _) = _ => destruct b end;
        unfold go, arrive in H; injection H as <-; cbn [at_]; apply SET; auto.
    - unfold turn in H. cbn zeta in H.
      repeat match type of H with (if ?b then _ else _) = _ => destruct b end;
        unfold go, arrive in H; injection H as <-; cbn [at_]; apply SET; auto.
    - injection H as <-; cbn [at_]; apply SET; auto. intros u. unfold wake_with. intros X. apply VU.
      destruct (at_ s u); cbn in *; auto.
    - cbn zeta in H. repeat match type of H with (if ?b then _ else _) = _ => destruct b end;
        unfold go in H; injection H as <-; cbn [at_]; apply SET; auto.
    - cbn zeta in H. repeat match type of H with (if ?b then _ else _) = _ => destruct b end;
        unfold go in H; injection H as <-; cbn [at_]; apply SET; auto.
    - destruct (inside s =? 1); [|unfold return_ in H]; injection H as <-; cbn [at_]; apply SET; auto; discriminate.
    - unfold return_ in H; injection H as <-; cbn [at_]; apply SET; [|discriminate].
      intros u. unfold wake_with. intros X. apply VU. destruct (at_ s u); cbn in *; auto.
    - destruct (inside s =? 0); [|unfold go in H]; injection H as <-; cbn [at_]; apply SET; auto; discriminate.
    - destruct (inside s =? e); unfold go in H; injection H as <-; cbn [at_]; apply SET; auto; discriminate. }
  constructor; [exact V2'|exact VU'|]. clear VU'.
  destruct V2 as [I J]. pose proof (i_pc s I t) as Pt. unfold step in H.
  assert (MV : forall p ins d lg, arrived s < c * G ->
    (forall g, at_ s t <> StoreSeq g) -> at_ s t <> WakeSeq ->
    match p with StoreSeq _ | LoadSeq _ | WaitSeq _ _ | SleepSeq _ _ => False | _ => True end -> ~ waits s t ->
    live {| waiting := waiting s; seq := seq s; inside := ins; at_ := setf (at_ s) t p; arrived := arrived s;
          ticket := ticket s; log := lg; destroyed := d |}).
  { intros p ins d lg B N1 N2 N3 N4. apply live_move; auto.
    - intros g X. rewrite X in N3. exact N3.
    - intros X. contradiction.
    - destruct p; try contradiction; exact Logic.I.
    - intros (g & cur & X). rewrite X in N3. contradiction.
    - intros g cur [X|X]; rewrite X in N3; contradiction. }
  destruct (at_ s t) as [| |old|g| |g|g cur|g cur|r|r| | |e|e] eqn:P; destruct a; try discriminate;
    cbn [pinv] in Pt;
    try (unfold go in H; injection H as <-; cbn [arrived]; intros B; apply MV;
         [exact B|intros; discriminate|discriminate|exact Logic.I|unfold waits; rewrite P; tauto]).
  - (* Loop *)
    destruct Pt as (a0 & N0 & ->). rewrite turn_word in H. rewrite andb_true_r in H.
    destruct (Z.eqb_spec (waiting s) (word a0)) as [E|E].
    2:{ unfold go in H; injection H as <-; cbn [arrived]; intros B; apply MV;
         [exact B|intros; discriminate|discriminate|exact Logic.I|unfold waits; rewrite P; tauto]. }
    assert (X2 : a0 mod c = arrived s mod c).
    { rewrite <- !word_waiters. rewrite <- E, (i_word s I). reflexivity. }
    rewrite X2 in H. clear V2'. injection H as <-. cbn [arrived]. intros B.
    assert (B0 : arrived s < c * G) by lia. specialize (VL B0).
    pose proof (gen_le (arrived s)) as GL.
    assert (NW : ~ waits s t) by (unfold waits; rewrite P; tauto).
    destruct (Z.eqb_spec (arrived s mod c) (c - 1)) as [Q|Q].
    + (* the last of its generation *)
      destruct (div_last _ Q) as [D1 D2].
      assert (AL : forall u, in_call (at_ s u) = true -> u = t \/ (waits s u /\ ticket s u / c = arrived s / c)).
      { apply all_in; auto; rewrite P; [discriminate|reflexivity]. }
      assert (NS : forall u, ~ storing s u).
      { intros u [g X]. destruct (AL u) as [->|[Y _]]; [rewrite X; reflexivity|congruence|].
        unfold waits in Y. rewrite X in Y. exact Y. }
      constructor; cbn [arrived seq ticket].
      * exists []. rewrite D2. repeat split; [constructor|contradiction|contradiction].
      * rewrite D1. intros u. unfold waits. cbn. unfold setf. destruct (Z.eqb_spec u t) as [->|N]; [tauto|].
        intros X. destruct (AL u) as [Y|[_ Y]]; [destruct (at_ s u); cbn in *; tauto|congruence|lia].
      * rewrite D1. intros u [g X]. cbn in X. unfold setf in *. destruct (Z.eqb_spec u t) as [->|N].
        -- split; [lia|]. destruct (l_seq s VL) as [(v & Y)|Y]; [elim (NS v Y)|lia].
        -- elim (NS u). exists g; exact X.
      * left. exists t. red. cbn. rewrite setf_same. eauto.
      * intros u _. right; left. exists t. red. cbn. rewrite setf_same. eauto.
      * intros u g cur. cbn. unfold setf. destruct (Z.eqb_spec u t) as [->|N]; [intros [X|X]; discriminate|].
        apply (l_wait s VL).
    + (* not the last *)
      destruct (div_notlast _ Q) as [D1 D2].
      assert (ST : forall u, storing s u <-> storing
         {| waiting := word (a0 + 1); seq := seq s; inside := inside s;
            at_ := setf (at_ s) t (LoadSeq ((a0 / c) mod G)); arrived := arrived s + 1;
            ticket := setf (ticket s) t (arrived s); log := log s; destroyed := destroyed s |} u).
      { intros u. unfold storing; cbn; unfold setf. destruct (Z.eqb_spec u t) as [->|N]; [|tauto].
        split; intros [g X]; [rewrite P in X|]; discriminate. }
      destruct VL. constructor; cbn [arrived seq ticket]; rewrite ?D1.
      * destruct l_cur0 as (W & A1 & A2 & A3). exists (t :: W). rewrite D2. repeat split.
        -- constructor; [|exact A1]. intros Y. destruct (A3 t Y); contradiction.
        -- cbn [length]. lia.
        -- unfold waits. cbn. unfold setf. destruct (Z.eqb_spec t0 t) as [->|N]; [exact Logic.I|].
           destruct H as [Y|Y]; [congruence|]. apply A3; exact Y.
        -- unfold setf. destruct (Z.eqb_spec t0 t) as [->|N]; [reflexivity|].
           destruct H as [Y|Y]; [congruence|]. apply A3; exact Y.
      * intros u. unfold waits. cbn. unfold setf. destruct (Z.eqb_spec u t) as [->|N]; [lia|]. apply l_gen0.
      * intros u Y. apply ST in Y. destruct (l_store0 u Y) as [Y1 Y2].
        split; [|exact Y2]. unfold setf. destruct (Z.eqb_spec u t) as [->|N]; [|exact Y1].
        destruct Y as [g Y]. rewrite P in Y. discriminate.
      * destruct l_seq0 as [(u & Y)|Y]; [left; exists u; apply ST; exact Y|right; exact Y].
      * intros u (g & cur & Y). cbn in Y. unfold setf in Y |- *. destruct (Z.eqb_spec u t) as [->|N]; [discriminate|].
        destruct (l_sleep0 u) as [Z1|[(v & Z1)|(v & Z1)]]; [exists g, cur; exact Y|left; exact Z1| |].
        -- right; left. exists v. apply ST; exact Z1.
        -- right; right. exists v. cbn. destruct (Z.eqb_spec v t) as [->|N2]; [congruence|exact Z1].
      * intros u g cur. cbn. unfold setf. destruct (Z.eqb_spec u t) as [->|N]; [intros [X|X]; discriminate|].
        apply l_wait0.
  - destruct Pt as (a0 & N0 & ->). rewrite turn_word in H. rewrite andb_false_r in H.
    unfold go in H; injection H as <-; cbn [arrived]; intros B; apply MV;
         [exact B|intros; discriminate|discriminate|exact Logic.I|unfold waits; rewrite P; tauto].
  - (* StoreSeq *)
    clear V2' MV. injection H as <-; cbn [arrived]; intros B. specialize (VL B).
    destruct Pt as (R & -> & L). rewrite (gen_small _ _ (Z.lt_le_incl _ _ B) R).
    assert (S : storing s t) by (eexists; exact P).
    destruct (l_store s VL t S) as [A1 A2].
    assert (ON : forall u, storing s u -> u = t).
    { intros u Hu. exact (one_store s u t I VL Hu S). }
    assert (U32 : u32 (ticket s t / c + 1) = arrived s / c).
    { rewrite A1. replace (arrived s / c - 1 + 1) with (arrived s / c) by lia.
      assert (arrived s / c <= G) by (apply Z.div_le_upper_bound; lia).
      pose proof (i_arr s I). assert (0 <= arrived s / c) by (apply Z.div_pos; lia).
      assert (arrived s / c < G) by (apply Z.div_lt_upper_bound; lia).
      pose proof MG as E. pose proof M_pos. pose proof G_pos.
      unfold u32. apply Z.mod_small. nia. }
    destruct VL. constructor; cbn [arrived seq ticket]; rewrite U32.
    + destruct l_cur0 as (W & X1 & X2 & X3). exists W. repeat split; auto.
      * unfold waits. cbn. unfold setf. destruct (Z.eqb_spec t0 t) as [->|N]; [|apply X3; assumption].
        destruct (X3 t H) as [Y _]. unfold waits in Y. rewrite P in Y. contradiction.
      * apply X3; assumption.
    + intros u. unfold waits. cbn. unfold setf. destruct (Z.eqb_spec u t) as [->|N]; [tauto|]. apply l_gen0.
    + intros u [g X]. cbn in X. unfold setf in X. destruct (Z.eqb_spec u t) as [->|N]; [discriminate|].
      elim N. apply ON. exists g; exact X.
    + right; reflexivity.
    + intros u _. right; right. exists t. cbn. rewrite setf_same. reflexivity.
    + intros u g cur. cbn. unfold setf. destruct (Z.eqb_spec u t) as [->|N]; [intros [X|X]; discriminate|].
      apply l_wait0.
  - (* WakeSeq *)
    clear V2' MV. injection H as <-; cbn [arrived]; intros B. specialize (VL B).
    destruct VL. constructor; cbn [arrived seq ticket].
    + destruct l_cur0 as (W & X1 & X2 & X3). exists W. repeat split; auto.
      * unfold waits. cbn. unfold setf, wake_with. destruct (X3 t0 H) as [Y _]. unfold waits in Y.
        destruct (Z.eqb_spec t0 t) as [->|N]; [rewrite P in Y; contradiction|].
        destruct (at_ s t0); cbn; tauto.
      * apply X3; assumption.
    + intros u. unfold waits. cbn. unfold setf, wake_with. destruct (Z.eqb_spec u t) as [->|N]; [tauto|].
      intros X. apply l_gen0. unfold waits. destruct (at_ s u); cbn in *; tauto.
    + intros u [g X]. cbn in X. unfold setf, wake_with in X. destruct (Z.eqb_spec u t) as [->|N]; [discriminate|].
      apply l_store0. exists g. destruct (at_ s u); cbn in X; congruence.
    + destruct l_seq0 as [(u & g & X)|X]; [left|right; exact X]. exists u, g. cbn. unfold setf, wake_with.
      destruct (Z.eqb_spec u t) as [->|N]; [congruence|]. rewrite X; reflexivity.
    + intros u (g & cur & X). exfalso. cbn in X. unfold setf, wake_with in X.
      destruct (Z.eqb_spec u t) as [->|N]; [discriminate|]. destruct (at_ s u); discriminate.
    + intros u g cur. cbn. unfold setf, wake_with. destruct (Z.eqb_spec u t) as [->|N]; [intros [X|X]; discriminate|].
      intros X. apply (l_wait0 u g cur). destruct (at_ s u); cbn in X; tauto || (destruct X; discriminate).
  - (* LoadSeq *)
    clear V2' MV. destruct Pt as (R & -> & L). cbn zeta in H.
    assert (WT : waits s t) by (unfold waits; rewrite P; exact Logic.I).
    assert (FACTS : arrived s < c * G -> (ticket s t / c) mod G = ticket s t / c /\ 0 <= seq s <= 2 ^ 31 /\
       0 <= ticket s t / c < 2 ^ 31 /\ seq s <= arrived s / c /\ arrived s / c - 1 <= ticket s t / c <= arrived s / c).
    { intros B. pose proof (e_seq s (J (Z.lt_le_incl _ _ B))) as Q. pose proof (l_gen s (VL B) t WT).
      assert (2 <= c). { unfold last in L. destruct (Z.eq_dec c 1) as [->|]; [|lia]. rewrite Z.mod_1_r in L. lia. }
      pose proof (G_le ltac:(lia)). assert (arrived s / c < G) by (apply Z.div_lt_upper_bound; lia).
      pose proof (gen_le _ _ R). repeat split; try lia. apply (gen_small (arrived s)); [lia|exact R]. }
    destruct ((0 <? u32 (seq s - (ticket s t / c) mod G)) && (u32 (seq s - (ticket s t / c) mod G) <? 2 ^ 31)) eqn:D;
      unfold go in H; injection H as <-; cbn [arrived]; intros B; destruct (FACTS B) as (F0 & F1 & F2 & F3 & F4);
      rewrite F0 in D; specialize (VL B); apply live_move; auto; try (intros; rewrite P; discriminate);
      try (rewrite P; discriminate); try discriminate; try exact Logic.I.
    + intros _. apply u32_diff in D; lia.
    + intros (g & cur & X); discriminate.
    + intros g cur [X|X]; discriminate.
    + intros (g & cur & X); discriminate.
    + intros g cur [X|X]; [|discriminate]. injection X as <- <-. apply u32_diff2 in D; lia.
  - (* WaitSeq *)
    clear V2' MV. assert (WT : waits s t) by (unfold waits; rewrite P; exact Logic.I).
    destruct (Z.eqb_spec (seq s) cur) as [E|E]; unfold go in H; injection H as <-; cbn [arrived]; intros B;
      specialize (VL B); pose proof (l_wait s VL t g cur (or_introl P)) as LW;
      apply live_move; auto; try (intros; rewrite P; discriminate);
      try (rewrite P; discriminate); try discriminate.
    + intros _. destruct (l_seq s VL) as [X|X]; [right; left; exact X|left].
      destruct Pt as (R & _ & _). pose proof (gen_le _ _ R). lia.
    + intros g0 cur0 [X|X]; [discriminate|]. injection X as <- <-. exact LW.
    + intros (g0 & cur0 & X); discriminate.
    + intros g0 cur0 [X|X]; discriminate.
  - (* SleepSeq *)
    clear V2' MV. assert (WT : waits s t) by (unfold waits; rewrite P; exact Logic.I).
    unfold go in H; injection H as <-; cbn [arrived]; intros B; specialize (VL B);
      apply live_move; auto; try (intros; rewrite P; discriminate);
      try (rewrite P; discriminate); try discriminate.
    + intros (g0 & cur0 & X); discriminate.
    + intros g0 cur0 [X|X]; discriminate.
  - (* Leave *)
    destruct (inside s =? 1); [|unfold return_ in H]; injection H as <-; cbn [arrived]; intros B; apply MV;
      [exact B|intros; discriminate|discriminate|exact Logic.I|unfold waits; rewrite P; tauto|
       exact B|intros; discriminate|discriminate|exact Logic.I|unfold waits; rewrite P; tauto].
  - (* WakeInside *)
    unfold return_ in H; injection H as <-; cbn [arrived]; intros B. clear V2' MV.
    pose proof (live_wake_inside s (inside s) (destroyed s) (log s) (VL B)) as L1.
    apply (live_move _ t Ready (inside s) (destroyed s) ((ticket s t, r) :: log s) L1); cbn [at_]; unfold wake_with;
      rewrite ?P; cbn; try discriminate; try tauto.
    + unfold waits; cbn. unfold wake_with. rewrite P. cbn. tauto.
    + intros (g0 & cur0 & X); discriminate.
    + intros g0 cur0 [X|X]; discriminate.
  - destruct (inside s =? 0); [|unfold go in H]; injection H as <-; cbn [arrived]; intros B; apply MV;
      [exact B|intros; discriminate|discriminate|exact Logic.I|unfold waits; rewrite P; tauto|
       exact B|intros; discriminate|discriminate|exact Logic.I|unfold waits; rewrite P; tauto].
  - destruct (inside s =? e); unfold go in H; injection H as <-; cbn [arrived]; intros B; apply MV;
      [exact B|intros; discriminate|discriminate|exact Logic.I|unfold waits; rewrite P; tauto|
       exact B|intros; discriminate|discriminate|exact Logic.I|unfold waits; rewrite P; tauto].
Qed.

Lemma init_inv3 : inv3 init.
Proof.
  constructor; [exact init_inv2|discriminate|]. intros _. constructor; cbn [seq arrived at_ log init In].
  - exists []. rewrite Z.mod_0_l by lia. split; [constructor|split; [reflexivity|contradiction]].
  - intros t [].
  - intros t [g X]; discriminate.
  - right. rewrite Z.div_0_l; lia.
  - intros t (g & cur & X); discriminate.
  - intros t g cur [X|X]; discriminate.
Qed.

Lemma run_inv3 : forall s, reachable_by users c s -> inv3 s.
Proof.
  intros s (sched & R). refine (run_inv _ _ _ _ _ _ _ _ init_inv3 R).
  intros t a s0 s1 V H. unfold guarded in H. destruct (users_rule users s0 t a) eqn:RU; [|discriminate].
  refine (step_inv3 t a s0 s1 V _ H). intros ->. unfold users_rule in RU.
  apply andb_true_iff in RU as [_ RU]. apply existsb_exists in RU as (x & X & Y). apply Z.eqb_eq in Y. congruence.
Qed.

(** a waiting thread that does not sleep and whose release has been stored leaves by itself *)
Lemma leave_alone : forall s t, inv3 s -> arrived s < c * G -> waits s t -> ~ sleeps s t ->
  (forall u, ~ storing s u) -> complete c s (generation c (ticket s t)) ->
  exists n s', run (step c) (repeat (t, Run) n) s = Some s' /\ returning s' t 0.
Proof.
  intros s t V B W NS NST K. destruct V as [[I J] VU VL]. specialize (VL B). specialize (J (Z.lt_le_incl _ _ B)).
  assert (SQ : seq s = arrived s / c) by (destruct (l_seq s VL) as [(u & X)|X]; [elim (NST u X)|exact X]).
  destruct (wait_gen s t I W) as [R L].
  unfold complete, generation in K. pose proof (l_gen s VL t W) as LG. pose proof (gen_le _ _ R) as GL.
  assert (LT : ticket s t / c + 1 <= arrived s / c) by (apply Z.div_le_lower_bound; lia).
  assert (D : (0 <? u32 (seq s - ticket s t / c)) && (u32 (seq s - ticket s t / c) <? 2 ^ 31) = true).
  { rewrite SQ. replace (arrived s / c - ticket s t / c) with 1 by lia. reflexivity. }
  pose proof (i_pc s I t) as Pt. unfold waits in W. unfold sleeps in NS.
  assert (GS := gen_small _ _ (Z.lt_le_incl _ _ B) R).
  destruct (at_ s t) as [| |old|g| |g|g cur|g cur|r|r| | |e|e] eqn:P; try contradiction; cbn [pinv] in Pt.
  - destruct Pt as (_ & -> & _). rewrite GS in *.
    exists 1%nat. eexists. split.
    + cbn [repeat run]. unfold step at 1. rewrite P. cbn zeta. rewrite D. reflexivity.
    + left. cbn. apply setf_same.
  - pose proof (l_wait s VL t g cur (or_introl P)) as LW. destruct Pt as (_ & -> & _). rewrite GS in *.
    exists 2%nat. eexists. split.
    + cbn [repeat run]. unfold step at 1. rewrite P. destruct (Z.eqb_spec (seq s) cur) as [E|E]; [lia|].
      unfold go at 1. unfold step at 1. cbn [at_]. rewrite setf_same. cbn [seq]. cbn zeta. rewrite D. reflexivity.
    + left. cbn. apply setf_same.
  - elim NS. eauto.
Qed.

Lemma wakes : forall s u, at_ s u = WakeSeq -> exists s', step c u Run s = Some s' /\
  returning s' u PTHREAD_BARRIER_SERIAL_THREAD /\ arrived s' = arrived s /\ ticket s' = ticket s /\
  (forall t, waits s t -> waits s' t) /\ (forall t, ~ sleeps s' t) /\ (forall t, storing s' t -> storing s t).
Proof.
  intros s u P. eexists. unfold step. rewrite P. split; [reflexivity|].
  split; [left; cbn; apply setf_same|]. split; [reflexivity|]. split; [reflexivity|]. split; [|split].
  - intros t. unfold waits; cbn. unfold setf, wake_with. destruct (Z.eqb_spec t u) as [->|N]; [rewrite P; tauto|].
    destruct (at_ s t); cbn; tauto.
  - intros t (g & cur & X). cbn in X. unfold setf, wake_with in X. destruct (Z.eqb_spec t u); [discriminate|].
    destruct (at_ s t); discriminate.
  - intros t [g X]. exists g. cbn in X. unfold setf, wake_with in X. destruct (Z.eqb_spec t u); [discriminate|].
    destruct (at_ s t); cbn in X; congruence.
Qed.

Lemma can_leave : forall s t, inv3 s -> arrived s < c * G -> waits s t ->
  complete c s (generation c (ticket s t)) ->
  exists sched s', run (step c) sched s = Some s' /\ Forall (fun e => snd e = Run) sched /\ returning s' t 0.
Proof.
  assert (REP : forall (t : Z) n, Forall (fun e => snd e = Run) (repeat (t, Run) n)).
  { intros t. induction n; cbn; constructor; auto. }
  (* once nobody stores *)
  assert (CASE1 : forall s t, inv3 s -> arrived s < c * G -> waits s t ->
    complete c s (generation c (ticket s t)) -> (forall u, ~ storing s u) ->
    exists sched s', run (step c) sched s = Some s' /\ Forall (fun e => snd e = Run) sched /\ returning s' t 0).
  { intros s t V B W K NST.
    assert (SD : sleeps s t \/ ~ sleeps s t).
    { unfold sleeps. destruct (at_ s t); try (right; intros (g' & cur' & X); discriminate). left; eauto. }
    destruct SD as [SD|SD].
    - pose proof (v_live s V B) as L. destruct (l_sleep s L t SD) as [X|[(u & X)|(u & X)]].
      + exfalso. unfold complete, generation in K. rewrite X in K.
        pose proof (Z.mod_pos_bound (arrived s) c ltac:(lia)). pose proof (Z.div_mod (arrived s) c ltac:(lia)). nia.
      + elim (NST u X).
      + destruct (wakes s u X) as (s1 & S1 & _ & A1 & T1 & W1 & N1 & ST1).
        assert (V1 : inv3 s1) by (apply (step_inv3 u Run s s1 V); [discriminate|exact S1]).
        destruct (leave_alone s1 t V1) as (n & s2 & R2 & L2); auto.
        * rewrite A1; exact B.
        * intros v Hv. exact (NST v (ST1 v Hv)).
        * unfold complete in *. rewrite A1, T1. exact K.
        * exists ((u, Run) :: repeat (t, Run) n), s2. split; [cbn [run]; rewrite S1; exact R2|].
          split; [constructor; auto|exact L2].
    - destruct (leave_alone s t V) as (n & s2 & R2 & L2); auto.
      exists (repeat (t, Run) n), s2. auto. }
  intros s t V B W K. pose proof (v_live s V B) as L.
  assert (SD : (exists u, storing s u) \/ (forall u, ~ storing s u)).
  { destruct (l_seq s L) as [X|X]; [left; exact X|]. right. intros u Hu. destruct (l_store s L u Hu). lia. }
  destruct SD as [(u & Hu)|SD]; [|exact (CASE1 s t V B W K SD)].
  destruct Hu as [g P].
  assert (S1 : exists s1, step c u Run s = Some s1 /\ arrived s1 = arrived s /\ ticket s1 = ticket s /\
    at_ s1 = setf (at_ s) u WakeSeq).
  { eexists. unfold step. rewrite P. split; [reflexivity|]. cbn. auto. }
  destruct S1 as (s1 & S1 & A1 & T1 & P1).
  assert (V1 : inv3 s1) by (apply (step_inv3 u Run s s1 V); [discriminate|exact S1]).
  assert (N : t <> u) by (intros ->; unfold waits in W; rewrite P in W; exact W).
  destruct (CASE1 s1 t V1) as (sched & s2 & R2 & F2 & L2).
  - rewrite A1; exact B.
  - unfold waits in *. rewrite P1, setf_other by exact N. exact W.
  - unfold complete in *. rewrite A1, T1. exact K.
  - intros v [h Hv]. rewrite P1 in Hv. unfold setf in Hv. destruct (Z.eqb_spec v u) as [->|Nv]; [discriminate|].
    apply Nv. apply (one_store s v u (proj1 (v_2 s V)) L); [exists h; exact Hv|exists g; exact P].
  - exists ((u, Run) :: sched), s2. split; [cbn [run]; rewrite S1; exact R2|]. split; [constructor; auto|exact L2].
Qed.
End Users.

Lemma run_inv2 : forall s, reachable c s -> inv2 s.
Proof.
  intros s (sched & R). refine (run_inv _ _ _ _ _ _ _ _ init_inv2 R).
  intros t a s0 s1 V H. unfold guarded in H. destruct (client_rule s0 t a); [|discriminate].
  exact (step_inv2 t a s0 s1 V H).
Qed.
End Count.

(** ** Threads inside, and pthread_barrier_destroy *)
Record inv4 (s : state) : Prop := {
  d_in : exists L, NoDup L /\ (forall t, In t L <-> accesses s t) /\ inside s = Z.of_nat (length L);
  d_valid : forall t, accesses s t -> valid_tid t = true;
  d_destroyed : destroyed s = true -> forall t, ~ accesses s t;
  d_nz : forall t e, at_ s t = DestroyWait e \/ at_ s t = DestroySleep e -> e <> 0;
  d_sleep : forall t, destroy_sleeps s t -> inside s <> 0 \/ exists u r, at_ s u = WakeInside r }.

Definition acc (p : pc) : bool :=
  match p with
  | EnterLoad | Loop _ | StoreSeq _ | WakeSeq | LoadSeq _ | WaitSeq _ _ | SleepSeq _ _ | Leave _ | Undefined => true
  | _ => false
  end.

Lemma acc_spec : forall s t, accesses s t <-> acc (at_ s t) = true.
Proof. intros s t. unfold accesses, acc. destruct (at_ s t); intuition discriminate. Qed.

(** steps that leave [inside] alone *)
Lemma inv4_keep : forall s f w q a k l, inv4 s ->
  (forall u, acc (f u) = acc (at_ s u)) ->
  (forall u e, f u = DestroyWait e \/ f u = DestroySleep e -> e <> 0) ->
  (forall u e, f u = DestroySleep e -> inside s <> 0 \/ exists v r, f v = WakeInside r) ->
  inv4 {| waiting := w; seq := q; inside := inside s; at_ := f; arrived := a; ticket := k; log := l;
          destroyed := destroyed s |}.
Proof.
  intros s f w q a k l V A N S. set (s1 := {| waiting := w |}).
  assert (AC : forall u, accesses s1 u <-> accesses s u).
  { intros u. rewrite !acc_spec. cbn. rewrite A. tauto. }
  destruct V. constructor; cbn.
  - destruct d_in0 as (L & X & Y & Z0). exists L. repeat split; auto; intros H; [apply AC, Y|apply Y, AC]; exact H.
  - intros t H. apply d_valid0, AC, H.
  - intros D t H. apply (d_destroyed0 D t), AC, H.
  - exact N.
  - intros t [e H]. exact (S t e H).
Qed.

Lemma set_acc : forall s t p, acc p = acc (at_ s t) -> forall u, acc (setf (at_ s) t p u) = acc (at_ s u).
Proof. intros s t p H u. unfold setf. destruct (Z.eqb_spec u t) as [->|N]; auto. Qed.

(** [t] moves between program points that are not of pthread_barrier_destroy *)
Lemma inv4_set : forall s t p w q a k l, inv4 s -> acc p = acc (at_ s t) ->
  (forall r, at_ s t <> WakeInside r) ->
  match p with DestroyWait e => e <> 0 | DestroySleep e => e <> 0 /\ inside s <> 0 | _ => True end ->
  inv4 {| waiting := w; seq := q; inside := inside s; at_ := setf (at_ s) t p; arrived := a; ticket := k; log := l;
          destroyed := destroyed s |}.
Proof.
  intros s t p w q a k l V A NW Q. apply inv4_keep; [exact V|exact (set_acc s t p A)| |].
  - intros u e. unfold setf. destruct (Z.eqb_spec u t) as [->|N]; [|apply (d_nz s V)].
    intros [-> | ->]; tauto.
  - intros u e. unfold setf at 1. destruct (Z.eqb_spec u t) as [->|N].
    + intros ->. left; tauto.
    + intros X. destruct (d_sleep s V u) as [Y|(v & r & Y)]; [exists e; exact X|left; exact Y|right].
      exists v, r. rewrite setf_other; [exact Y|]. intros ->. elim (NW r Y).
Qed.

Lemma valid_length : forall L, NoDup L -> (forall t, In t L -> valid_tid t = true) -> Z.of_nat (length L) < 2 ^ 30.
Proof.
  intros L N V.
  assert (I : incl L (map Z.of_nat (List.seq 1 (Z.to_nat ownerMask)))).
  { intros t H. apply V in H. apply valid_range in H. apply in_map_iff. exists (Z.to_nat t).
    split; [apply Z2Nat.id; lia|]. apply in_seq. unfold ownerMask. lia. }
  pose proof (NoDup_incl_length N I) as Le. rewrite map_length, seq_length in Le. unfold ownerMask in Le. lia.
Qed.

Lemma step_inv4 : forall c t a s s', inv4 s -> guarded client_rule (step c) t a s = Some s' -> inv4 s'.
Proof.
  intros c t a s s' V GU. unfold guarded in GU. destruct (client_rule s t a) eqn:RU; [|discriminate].
  rename GU into H. unfold client_rule in RU. apply andb_true_iff in RU as [VT RU].
  assert (SAME : forall p w q k l ar, acc p = acc (at_ s t) -> (forall r, at_ s t <> WakeInside r) ->
     match p with DestroyWait e => e <> 0 | DestroySleep e => e <> 0 /\ inside s <> 0 | _ => True end ->
     inv4 {| waiting := w; seq := q; inside := inside s; at_ := setf (at_ s) t p; arrived := ar; ticket := k; log := l;
          destroyed := destroyed s |}) by (intros; apply inv4_set; auto).
  assert (LEN : 0 <= inside s < 2 ^ 30).
  { destruct (d_in s V) as (L & X & Y & Z0). rewrite Z0. split; [lia|]. apply valid_length; [exact X|].
    intros u Hu. apply (d_valid s V), Y, Hu. }
  unfold step in H.
  destruct (at_ s t) as [| |old|g| |g|g cur|g cur|r|r| | |e|e] eqn:P; destruct a; try discriminate;
    try (unfold go in H; injection H as <-; apply SAME; [reflexivity|intros; discriminate|exact Logic.I]).
  - (* entering *)
    injection H as <-. unfold u32. rewrite Z.mod_small by lia.
    assert (AC : forall u, accesses {| waiting := waiting s; seq := seq s; inside := inside s + 1;
        at_ := setf (at_ s) t EnterLoad; arrived := arrived s; ticket := ticket s; log := log s;
        destroyed := destroyed s |} u <-> u = t \/ accesses s u).
    { intros u. rewrite !acc_spec. cbn. unfold setf. destruct (Z.eqb_spec u t) as [->|N]; cbn; intuition. }
    destruct V. constructor.
    + destruct d_in0 as (L & X & Y & Z0). exists (t :: L). split; [|split].
      * constructor; [|exact X]. intros Q. apply Y in Q. unfold accesses in Q. rewrite P in Q. exact Q.
      * intros u. rewrite AC. cbn. rewrite Y. intuition.
      * cbn [inside length]. lia.
    + intros u Q. apply AC in Q as [->|Q]; auto.
    + cbn. intros D. rewrite D in RU. discriminate.
    + cbn. intros u e. unfold setf. destruct (Z.eqb_spec u t) as [->|N]; [intros [Q|Q]; discriminate|]. apply d_nz0.
    + intros u Q. left. cbn. lia.
  - (* Loop *)
    unfold turn in H. cbn zeta in H.
    repeat match type of H with (if ?b then _ else _) = _ => destruct b end;
      unfold go, arrive in H; injection H as <-; apply SAME; try reflexivity; try (intros; discriminate); exact Logic.I.
  - unfold turn in H. cbn zeta in H.
    repeat match type of H with (if ?b then _ else _) = _ => destruct b end;
      unfold go, arrive in H; injection H as <-; apply SAME; try reflexivity; try (intros; discriminate); exact Logic.I.
  - (* WakeSeq *)
    injection H as <-. apply inv4_keep; [exact V| | |].
    + intros u. unfold setf, wake_with. destruct (Z.eqb_spec u t) as [->|N]; [rewrite P; reflexivity|].
      destruct (at_ s u); reflexivity.
    + intros u e. unfold setf, wake_with. destruct (Z.eqb_spec u t) as [->|N]; [intros [Q|Q]; discriminate|].
      intros Q. apply (d_nz s V u e). destruct (at_ s u); cbn in Q; tauto || (destruct Q; discriminate).
    + intros u e. unfold setf at 1. unfold wake_with. destruct (Z.eqb_spec u t) as [->|N]; [discriminate|].
      intros Q. destruct (d_sleep s V u) as [Y|(v & r & Y)].
      * exists e. destruct (at_ s u); cbn in Q; congruence.
      * left; exact Y.
      * right. exists v, r. unfold setf. destruct (Z.eqb_spec v t) as [->|N2]; [congruence|]. rewrite Y. reflexivity.
  - destruct ((0 <? u32 (seq s - g)) && (u32 (seq s - g) <? 2 ^ 31)); unfold go in H; injection H as <-;
      apply SAME; try reflexivity; try (intros; discriminate); exact Logic.I.
  - destruct (seq s =? cur); unfold go in H; injection H as <-;
      apply SAME; try reflexivity; try (intros; discriminate); exact Logic.I.
  - (* Leave *)
    assert (AT : accesses s t) by (unfold accesses; rewrite P; exact Logic.I).
    assert (ND : destroyed s = false).
    { destruct (destroyed s) eqn:D; [|reflexivity]. elim (d_destroyed s V D t AT). }
    destruct (d_in s V) as (L & X & Y & Z0).
    assert (IN : In t L) by (apply Y; exact AT).
    assert (P1 : 1 <= inside s) by (rewrite Z0; destruct L; [contradiction|cbn [length]; lia]).
    assert (U1 : u32 (inside s - 1) = inside s - 1) by (unfold u32; apply Z.mod_small; lia).
    assert (MAIN : forall p w q ar k l, (p = Ready \/ p = WakeInside r) -> (inside s = 1 -> p = WakeInside r) ->
      inv4 {| waiting := w; seq := q; inside := inside s - 1; at_ := setf (at_ s) t p; arrived := ar; ticket := k; log := l;
          destroyed := destroyed s |}).
    { intros p w q ar k l Hp Hi. set (s1 := {| waiting := w |}).
      assert (AC : forall u, accesses s1 u <-> u <> t /\ accesses s u).
      { intros u. rewrite !acc_spec. cbn. unfold setf. destruct (Z.eqb_spec u t) as [->|N]; [|tauto].
        destruct Hp; subst p; cbn; intuition; discriminate. }
      constructor.
      - exists (remove Z.eq_dec t L). split; [|split].
        + clear - X. induction L as [|x L IH]; cbn; [constructor|]. inversion X; subst.
          destruct (Z.eq_dec t x); [auto|]. constructor; auto. intros Q. apply in_remove in Q. tauto.
        + intros u. rewrite AC, <- Y. split; [intros Q; apply in_remove in Q; tauto|intros [Q1 Q2]; apply in_in_remove; assumption].
        + unfold s1. cbn [inside]. rewrite Z0. clear - X IN. induction L as [|x L IH]; [contradiction|]. inversion X; subst.
          cbn [remove]. destruct (Z.eq_dec t x) as [->|N].
          * rewrite notin_remove by assumption. cbn [length]. lia.
          * cbn [length]. destruct IN as [Q|Q]; [congruence|]. specialize (IH H2 Q). lia.
      - intros u Q. apply (d_valid s V). apply AC in Q. tauto.
      - cbn. rewrite ND. discriminate.
      - cbn. intros u e. unfold setf. destruct (Z.eqb_spec u t) as [->|N]; [|apply (d_nz s V)].
        destruct Hp; subst p; intros [Q|Q]; discriminate.
      - intros u [e Q]. cbn in *. destruct (Z.eq_dec (inside s) 1) as [E|E].
        + right. exists t, r. rewrite setf_same. auto.
        + left. lia. }
    destruct (Z.eqb_spec (inside s) 1) as [E|E]; [|unfold return_ in H]; injection H as <-; rewrite U1;
      apply MAIN; auto; intros; congruence.
  - (* WakeInside *)
    unfold return_ in H. injection H as <-. apply inv4_keep; [exact V| | |].
    + intros u. unfold setf, wake_with. destruct (Z.eqb_spec u t) as [->|N]; [rewrite P; reflexivity|].
      destruct (at_ s u); reflexivity.
    + intros u e. unfold setf, wake_with. destruct (Z.eqb_spec u t) as [->|N]; [intros [Q|Q]; discriminate|].
      intros Q. apply (d_nz s V u e). destruct (at_ s u); cbn in Q; tauto || (destruct Q; discriminate).
    + intros u e. unfold setf at 1. unfold wake_with. destruct (Z.eqb_spec u t) as [->|N]; [discriminate|].
      destruct (at_ s u); discriminate.
  - (* DestroyLoad *)
    destruct (Z.eqb_spec (inside s) 0) as [E|E].
    + injection H as <-. pose proof (SAME Ready (waiting s) (seq s) (ticket s) (log s) (arrived s) eq_refl
        ltac:(intros; discriminate) Logic.I) as Q. destruct Q as [q1 q2 q3 q4 q5]. constructor; try assumption.
      intros _ u Hu. destruct q1 as (L & X & Y & Z0). cbn in Z0. apply Y in Hu.
      destruct L; [contradiction|]. cbn [length] in Z0. lia.
    + unfold go in H. injection H as <-. apply SAME; [reflexivity|intros; discriminate|exact E].
  - pose proof (d_nz s V t e (or_introl P)) as NZ.
    destruct (Z.eqb_spec (inside s) e) as [E|E]; unfold go in H; injection H as <-;
      apply SAME; try reflexivity; try (intros; discriminate); try exact Logic.I. split; lia.
Qed.

Lemma run_inv4 : forall c s, reachable c s -> inv4 s.
Proof.
  intros c s (sched & R). refine (run_inv _ _ _ _ (step_inv4 c) _ _ _ _ R).
  constructor; cbn.
  - exists []. split; [constructor|]. split; [intros; cbn; tauto|reflexivity].
  - intros t [].
  - discriminate.
  - intros t e [X|X]; discriminate.
  - intros t [e X]; discriminate.
Qed.

(** ** Threads that take no step stay where they are *)
Lemma step_other_ready : forall c t a s s' u, step c t a s = Some s' -> u <> t -> at_ s u = Ready -> at_ s' u = Ready.
Proof.
  intros c t a s s' u H N R. unfold step in H.
  destruct (at_ s t) as [| |old|g| |g|g cur|g cur|r|r| | |e|e] eqn:P; destruct a; try discriminate;
    try unfold turn in H; cbn zeta in H;
    repeat match type of H with (if ?b then _ else _) = _ => destruct b end;
    unfold go, arrive, return_ in H; injection H as <-; cbn [at_]; rewrite setf_other by exact N;
    unfold wake_with; rewrite R; reflexivity.
Qed.

Lemma run_other_ready : forall ok c u sched s s', run (guarded ok (step c)) sched s = Some s' ->
  ~ In u (map fst sched) -> at_ s u = Ready -> at_ s' u = Ready.
Proof.
  intros ok c u. induction sched as [|[t a] rest IH]; intros s s' H N R; cbn [run] in H.
  - injection H as <-; exact R.
  - unfold guarded in H at 1. destruct (ok s t a); [|discriminate].
    destruct (step c t a s) as [s1|] eqn:E; [|discriminate]. cbn in N.
    apply (IH s1 s' H); [tauto|]. apply (step_other_ready c t a s s1 u E); [intros ->; tauto|exact R].
Qed.
