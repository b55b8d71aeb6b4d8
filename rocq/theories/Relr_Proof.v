(** Proofs about relative relocation. *)
From Verif Require Import Base Deps_Model Deps_Spec Deps_Proof Relr_Model Relr_Spec.
Open Scope Z_scope.

Lemma land1 e : Z.land e 1 = if Z.even e then 0 else 1.
Proof. change 1 with (Z.ones 1) at 1. rewrite Z.land_ones by lia. rewrite Zmod_even. reflexivity. Qed.
Lemma shifted_nil m b : shifted m m [] b.
Proof. intros a. split; [intros []|reflexivity]. Qed.
Lemma shifted_app m1 m2 m3 l1 l2 b : shifted m1 m2 l1 b -> shifted m2 m3 l2 b -> (forall a, In a l1 -> ~ In a l2) -> shifted m1 m3 (l1 ++ l2) b.
Proof.
  intros S1 S2 D a. rewrite in_app_iff. destruct (S1 a) as [A1 B1]. destruct (S2 a) as [A2 B2]. split.
  - intros [H|H].
    + destruct (A1 H) as (v & E & F). exists v. split; [exact E|]. rewrite B2 by (apply D, H). exact F.
    + destruct (A2 H) as (v & E & F). exists v. split; [|exact F]. rewrite <- B1; [exact E|]. intros X. apply (D a X H).
  - intros H. rewrite B2, B1 by tauto. reflexivity.
Qed.
Lemma add_to_ok m a b : m a <> None -> exists m', add_to m a b = Ok m' /\ shifted m m' [a] b.
Proof.
  intros H. unfold add_to. destruct (m a) as [v|] eqn:E; [|congruence]. eexists. split; [reflexivity|]. intros x. cbn [In]. split.
  - intros [<-|[]]. exists v. rewrite Z.eqb_refl. auto.
  - intros N. destruct (Z.eqb_spec x a) as [->|]; [tauto|reflexivity].
Qed.
Lemma shifted_mapped m m' l b a : shifted m m' l b -> m a <> None -> m' a <> None.
Proof. intros S H. destruct (S a) as [A B]. destruct (in_dec Z.eq_dec a l) as [I|I]; [destruct (A I) as (v & _ & ->); discriminate|rewrite B by exact I; exact H]. Qed.

Lemma w64_add a b k : w64 a = w64 b -> w64 (a + k) = w64 (b + k).
Proof. unfold w64. intros H. rewrite <- Z.add_mod_idemp_l, H, Z.add_mod_idemp_l by lia. reflexivity. Qed.
Lemma w64_w64 a : w64 (w64 a) = w64 a.
Proof. apply Z.mod_mod. lia. Qed.
(** the bits of a bitmap from [i] on *)
Definition bits (addr : Z) (e : Z) (i n : nat) : list Z :=
  map (fun k => addr + 8 * Z.of_nat k) (filter (fun k => Z.testbit e (Z.of_nat k + 1)) (seq i n)).
Lemma bits_cons addr e i n : bits addr e i (S n) = (if Z.testbit e (Z.of_nat i + 1) then [addr + 8 * Z.of_nat i] else []) ++ bits addr e (S i) n.
Proof. unfold bits. cbn [seq filter]. destruct (Z.testbit e (Z.of_nat i + 1)); reflexivity. Qed.
Lemma bits_zero addr e i n : (forall k, Z.of_nat i + 1 <= k -> Z.testbit e k = false) -> bits addr e i n = [].
Proof.
  revert i. induction n as [|n IH]; intros i H; [reflexivity|]. rewrite bits_cons, H by lia. cbn [app]. apply IH. intros k K. apply H. lia.
Qed.
Lemma bits_in addr e i n a : In a (bits addr e i n) -> exists k, (i <= k < i + n)%nat /\ a = addr + 8 * Z.of_nat k.
Proof. intros H. apply in_map_iff in H as (k & <- & K). apply filter_In in K as [K _]. apply in_seq in K. eauto. Qed.
Lemma bitmap_ok b A addr e : w64 A = w64 addr -> 0 <= e < 2 ^ 64 -> forall n i m fuel, (i + n = 63)%nat -> (n < fuel)%nat ->
  Forall (fun a => 0 < a < 2 ^ 64 /\ m a <> None) (bits addr e i n) ->
  exists m', bitmap fuel m A b (Z.of_nat i) (Z.shiftr e (Z.of_nat i + 1)) = Ok m' /\ shifted m m' (bits addr e i n) b.
Proof.
  intros W E. induction n as [|n IH]; intros i m fuel N F P; (destruct fuel as [|fuel]; [lia|]); cbn [bitmap].
  - assert (Z0 : Z.shiftr e (Z.of_nat i + 1) = 0).
    { rewrite Z.shiftr_div_pow2 by lia. apply Z.div_small. replace (Z.of_nat i + 1) with 64 by lia. exact E. }
    rewrite Z0. cbn [Z.eqb]. exists m. split; [reflexivity|]. apply shifted_nil.
  - destruct (Z.eqb_spec (Z.shiftr e (Z.of_nat i + 1)) 0) as [Z0|NZ].
    + exists m. split; [reflexivity|]. rewrite bits_zero; [apply shifted_nil|]. intros k K.
      replace k with (k - (Z.of_nat i + 1) + (Z.of_nat i + 1)) by lia. rewrite <- Z.shiftr_spec by lia. rewrite Z0. apply Z.testbit_0_l.
    + rewrite bits_cons in P |- *. rewrite Z.shiftr_shiftr by lia. replace (Z.of_nat i + 1 + 1) with (Z.of_nat (S i) + 1) by lia. replace (Z.of_nat i + 1) with (Z.of_nat (S i)) by lia.
      replace (Z.of_nat i + 1) with (Z.of_nat (S i)) in P by lia.
      assert (BT : negb (Z.land (Z.shiftr e (Z.of_nat (S i))) 1 =? 0) = Z.testbit e (Z.of_nat (S i))).
      { rewrite land1, <- Z.negb_odd, <- Z.bit0_odd, Z.shiftr_spec, Z.add_0_l by lia. destruct (Z.testbit e (Z.of_nat (S i))); reflexivity. }
      rewrite BT. destruct (Z.testbit e (Z.of_nat (S i))) eqn:T; cbn [app] in *.
      * pose proof (Forall_inv P) as [A1 A2]. pose proof (Forall_inv_tail P) as PT. cbn beta in A1, A2.
        replace (w64 (A + 8 * Z.of_nat i)) with (addr + 8 * Z.of_nat i).
        2:{ rewrite (w64_add A addr) by exact W. unfold w64. rewrite Z.mod_small by lia. reflexivity. }
        destruct (add_to_ok m _ b A2) as (m1 & E1 & S1). rewrite E1. cbn [bind].
        destruct (IH (S i) m1 fuel) as (m2 & E2 & S2); [lia|lia| |].
        { eapply Forall_impl; [|exact PT]. intros a [X Y]. split; [exact X|]. eapply shifted_mapped; eassumption. }
        exists m2. split; [exact E2|]. apply (shifted_app m m1 m2 [addr + 8 * Z.of_nat i]); [exact S1|exact S2|].
        intros a [<-|[]] H. apply bits_in in H as (k & K & X). lia.
      * cbn [bind]. apply IH; [lia|lia|exact PT || exact P].
Qed.
Lemma relr_ok b : forall entries m next, Forall (fun e => 0 <= e < 2 ^ 64) entries ->
  NoDup (map (fun t => b + t) (named entries next)) -> Forall (fun a => 0 < a < 2 ^ 64 /\ m a <> None) (map (fun t => b + t) (named entries next)) ->
  exists m', relr entries m (w64 (b + next)) b = Ok m' /\ shifted m m' (map (fun t => b + t) (named entries next)) b.
Proof.
  induction entries as [|e es IH]; intros m next E N P; cbn [relr named].
  - exists m. split; [reflexivity|]. apply shifted_nil.
  - cbn [named] in N, P. rewrite land1. pose proof (Forall_inv E) as Ee. pose proof (Forall_inv_tail E) as Es. cbn beta in Ee. destruct (Z.even e); cbn [Z.eqb].
    + cbn [map] in *. pose proof (Forall_inv P) as [A1 A2]. pose proof (Forall_inv_tail P) as PT. cbn beta in A1, A2.
      replace (w64 (b + e)) with (b + e) by (unfold w64; rewrite Z.mod_small by lia; reflexivity).
      destruct (Z.eqb_spec (b + e) 0); [lia|]. destruct (add_to_ok m _ b A2) as (m1 & E1 & S1). rewrite E1. cbn [bind].
      inversion N as [|? ? N1 N2]; subst. replace (b + e + 8) with (b + (e + 8)) by lia.
      destruct (IH m1 (e + 8) Es N2) as (m2 & E2 & S2).
      { eapply Forall_impl; [|exact PT]. intros a [X Y]. split; [exact X|]. eapply shifted_mapped; eassumption. }
      exists m2. split; [exact E2|]. apply (shifted_app m m1 m2 [b + e]); [exact S1|exact S2|]. intros a [<-|[]]. exact N1.
    + rewrite map_app in N, P. apply Forall_app in P as [P1 P2].
      assert (NB : forall a, In a (map (fun t => b + t) (map (fun i => next + 8 * Z.of_nat i) (filter (fun i => Z.testbit e (Z.of_nat i + 1)) (seq 0 63)))) ->
                   ~ In a (map (fun t => b + t) (named es (next + 8 * 63)))).
      { intros a A B. clear - N A B. revert N A. generalize (map (fun t => b + t) (map (fun i => next + 8 * Z.of_nat i) (filter (fun i => Z.testbit e (Z.of_nat i + 1)) (seq 0 63)))).
        induction l as [|x l IH]; intros N A; [destruct A|]. cbn [app] in N. inversion N as [|? ? N1 N2]; subst. destruct A as [->|A]; [|apply IH; assumption].
        apply N1, in_app_iff. right. exact B. }
      assert (BE : map (fun t => b + t) (map (fun i => next + 8 * Z.of_nat i) (filter (fun i => Z.testbit e (Z.of_nat i + 1)) (seq 0 63))) = bits (b + next) e 0 63).
      { unfold bits. rewrite map_map. apply map_ext. intros. lia. }
      rewrite map_app. rewrite BE in *.
      assert (N2 : NoDup (map (fun t => b + t) (named es (next + 8 * 63)))).
      { clear - N. induction (bits (b + next) e 0 63) as [|x l IH]; [exact N|]. apply IH. inversion N; assumption. }
      destruct (bitmap_ok b (w64 (b + next)) (b + next) e (w64_w64 _) Ee 63 0 m 64) as (m1 & E1 & S1); [lia|lia|exact P1|].
      cbn [Z.of_nat Z.add] in E1. rewrite E1. cbn [bind].
      replace (w64 (w64 (b + next) + 8 * 63)) with (w64 (b + (next + 8 * 63))).
      2:{ rewrite (w64_add (w64 (b + next)) (b + next)) by apply w64_w64. f_equal. lia. }
      destruct (IH m1 (next + 8 * 63) Es N2) as (m2 & E2 & S2).
      { eapply Forall_impl; [|exact P2]. intros a [X Y]. split; [exact X|]. eapply shifted_mapped; eassumption. }
      exists m2. split; [exact E2|]. eapply shifted_app; eassumption.
Qed.
Lemma relr_obj m o : wf_obj m o -> exists m', relr (table o) m 0 (base o) = Ok m' /\ shifted m m' (words o) (base o).
Proof.
  intros (E & H & N & P). unfold words in *. destruct (table o) as [|e es] eqn:T.
  - cbn [relr named map]. exists m. split; [reflexivity|apply shifted_nil].
  - destruct (relr_ok (base o) (e :: es) m 0 E N P) as (m' & E' & S). exists m'. split; [|exact S].
    rewrite <- E'. cbn [relr]. rewrite land1, H. reflexivity.
Qed.

(** an object's words after it was relocated [k] times *)
Definition others_apart (objs : Z -> obj) (all : list Z) : Prop :=
  forall x y a, In x all -> In y all -> x <> y -> In a (words (objs x)) -> ~ In a (words (objs y)).
Section Link.
Variable deps : Z -> list Z.
Variable objs : Z -> obj.
Variable all : list Z.
Variable m0 : wmem.
Hypothesis closed : forall x, In x all -> incl (deps x) all.
Hypothesis wf : forall x, In x all -> dynamic (objs x) = true -> wf_obj m0 (objs x).
Hypothesis apart : others_apart objs all.

(** the objects of [done] are relocated once, nothing else has changed *)
Definition relocated (done : Z -> Prop) (m : wmem) : Prop :=
  (forall x a, In x all -> done x -> dynamic (objs x) = true -> In a (words (objs x)) -> exists v, m0 a = Some v /\ m a = Some ((v + base (objs x)) mod 2 ^ 64)) /\
  (forall a, (forall x, In x all -> done x -> dynamic (objs x) = true -> ~ In a (words (objs x))) -> m a = m0 a).
Lemma relocated_mapped done m a : relocated done m -> (forall x, done x \/ ~ done x) -> m0 a <> None -> m a <> None.
Proof.
  intros [R1 R2] DE H.
  destruct (in_dec Z.eq_dec a (flat_map (fun x => if dynamic (objs x) then words (objs x) else []) all)) as [I|I].
  - apply in_flat_map in I as (x & X & I). destruct (dynamic (objs x)) eqn:D; [|destruct I]. destruct (DE x) as [Y|Y].
    + destruct (R1 x a X Y D I) as (v & _ & ->). discriminate.
    + rewrite R2; [exact H|]. intros y Y1 Y2 Y3 Y4. destruct (Z.eq_dec y x) as [->|NE]; [contradiction|]. exact (apart y x a Y1 X NE Y4 I).
  - rewrite R2; [exact H|]. intros x X _ D W. apply I, in_flat_map. exists x. rewrite D. auto.
Qed.
Lemma wf_later done m x : relocated done m -> (forall y, done y \/ ~ done y) -> In x all -> dynamic (objs x) = true -> wf_obj m (objs x).
Proof.
  intros R DE X D. destruct (wf x X D) as (A & B & C & E). do 3 (split; [assumption|]). eapply Forall_impl; [|exact E].
  intros a [P Q]. split; [exact P|]. eapply relocated_mapped; eassumption.
Qed.
Lemma relocate_one done m m' x : relocated done m -> ~ done x -> In x all -> dynamic (objs x) = true -> shifted m m' (words (objs x)) (base (objs x)) ->
  relocated (fun y => y = x \/ done y) m'.
Proof.
  intros [R1 R2] ND X D S. split.
  - intros y a Y [->|DY] DD W.
    + destruct (S a) as [S1 _]. destruct (S1 W) as (v & E & F). exists v. split; [|exact F]. rewrite <- E. symmetry. apply R2.
      intros z Z1 Z2 Z3 Z4. apply (apart z x a Z1 X); [intros ->; contradiction|exact Z4|exact W].
    + destruct (R1 y a Y DY DD W) as (v & E & F). exists v. split; [exact E|]. rewrite <- F. apply S. apply (apart y x a Y X); [intros ->; contradiction|exact W].
  - intros a H. destruct (S a) as [_ S2]. rewrite S2 by (apply H; auto). apply R2. intros y Y1 Y2. apply H; auto.
Qed.
Lemma relocated_ext d1 d2 m : (forall x, In x all -> dynamic (objs x) = true -> (d1 x <-> d2 x)) -> relocated d1 m -> relocated d2 m.
Proof.
  intros E [R1 R2]. split.
  - intros x a X DX D. apply R1; [exact X|apply E; assumption|exact D].
  - intros a H. apply R2. intros x X DX D. apply H; [exact X|apply E; assumption|exact D].
Qed.
Lemma relocate_ok r : forall l s done, NoDup l -> incl l all -> (forall y, done y \/ ~ done y) -> relocated done (memory s) ->
  (forall x, In x l -> exists t, rts s x = Some t /\ (t < r -> done x) /\ (r <= t -> ~ done x /\ was_linked s x = false)) ->
  exists s', relocate objs r l s = Ok s' /\ rts s' = rts s /\ was_linked s' = was_linked s /\ counter s' = counter s /\ relocated (fun x => In x l \/ done x) (memory s').
Proof.
  induction l as [|o l IH]; intros s done N I DE R H; cbn [relocate].
  - exists s. do 4 (split; [reflexivity|]). eapply relocated_ext; [|exact R]. intros x _ _. cbn [In]. tauto.
  - inversion N as [|? ? N1 N2]; subst. destruct (H o (or_introl eq_refl)) as (t & T & T1 & T2). rewrite T.
    assert (IL : incl l all) by (intros x X; apply I; right; exact X).
    destruct (Z.ltb_spec t r) as [L|L]; [|destruct (dynamic (objs o)) eqn:D; cbn [negb]].
    + destruct (IH s done N2 IL DE R) as (s' & E & A1 & A2 & A3 & A4); [intros x X; apply H; right; exact X|].
      exists s'. do 4 (split; [assumption|]). eapply relocated_ext; [|exact A4]. intros x _ _. cbn [In]. split; [tauto|]. intros [[<-|X]|X]; auto.
    + destruct (T2 L) as [ND WL]. rewrite WL. destruct (relr_obj (memory s) (objs o)) as (m1 & E1 & S1).
      { eapply wf_later; eauto. apply I. left. reflexivity. }
      rewrite E1. cbn [bind].
      destruct (IH {| memory := m1; was_linked := was_linked s; rts := rts s; counter := counter s |} (fun y => y = o \/ done y) N2 IL) as (s' & E & A1 & A2 & A3 & A4).
      { intros y. destruct (Z.eq_dec y o); [auto|]. destruct (DE y); [auto|]. right. intros [X|X]; contradiction. }
      { cbn [memory]. apply (relocate_one done (memory s)); auto. apply I. left. reflexivity. }
      { cbn [rts was_linked]. intros x X. destruct (H x (or_intror X)) as (t' & B1 & B2 & B3). exists t'. split; [exact B1|]. split; [auto|].
        intros B4. destruct (B3 B4) as [B5 B6]. split; [|exact B6]. intros [->|B7]; contradiction. }
      exists s'. do 4 (split; [assumption|]). eapply relocated_ext; [|exact A4]. intros x _ _. cbn [In]. intuition.
    + destruct (IH s done N2 IL DE R) as (s' & E & A1 & A2 & A3 & A4); [intros x X; apply H; right; exact X|].
      exists s'. do 4 (split; [assumption|]). eapply relocated_ext; [|exact A4]. intros x _ DX. cbn [In]. split; [tauto|]. intros [[<-|X]|X]; auto. congruence.
Qed.

Lemma reach_all x y : reach deps x y -> In x all -> In y all.
Proof. apply (closed_reach deps (fun z => In z all)). intros a d A D. apply (closed a A), D. Qed.
(** between loads: the loaded objects are linked and relocated *)
Definition settled (s : lstate) : Prop :=
  (forall x, was_linked s x = true <-> rts s x <> None) /\ (forall x t, rts s x = Some t -> t < counter s) /\ relocated (fun x => rts s x <> None) (memory s).
Lemma load_ok fuel root s : In root all -> (S (S (length all)) <= fuel)%nat -> ~ needs deps root root -> settled s ->
  exists s', load fuel deps objs root s = Ok s' /\ settled s' /\ (forall x, rts s' x <> None <-> reach deps root x \/ rts s x <> None).
Proof.
  intros I F NC (L & T & R). unfold load. assert (W : within deps root all) by (intros x X; exact (reach_all _ _ X I)).
  rewrite (bfs_spec deps root all fuel W F). cbn [bind]. set (bfs := levels (S (length all)) deps [] [root]).
  assert (BM : forall x, In x bfs <-> reach deps root x) by (intros x; apply bfs_members, W).
  assert (ND : NoDup bfs) by (apply bfs_nodup, NC).
  match goal with |- context [relocate objs (counter s) bfs ?st] => destruct (relocate_ok (counter s) bfs st (fun x => rts s x <> None)) as (s1 & E & A1 & A2 & A3 & A4) end.
  - exact ND.
  - intros x X. apply BM in X. exact (reach_all _ _ X I).
  - intros y. destruct (rts s y); [left; discriminate|right; congruence].
  - exact R.
  - intros x X. cbn [rts was_linked]. destruct (rts s x) as [t|] eqn:RX.
    + exists t. split; [reflexivity|]. split; [discriminate|]. intros G. apply T in RX. lia.
    + exists (counter s). rewrite (proj2 (mem_b_In x bfs) X). split; [reflexivity|]. split; [lia|]. intros _. split; [congruence|].
      destruct (was_linked s x) eqn:WX; [|reflexivity]. apply L in WX. congruence.
  - rewrite E. cbn [bind]. cbn [memory rts was_linked counter] in *. eexists. split; [reflexivity|].
    assert (RT : forall x, rts s1 x <> None <-> reach deps root x \/ rts s x <> None).
    { intros x. rewrite A1. destruct (rts s x) as [t|] eqn:RX; [split; [right; discriminate|discriminate]|].
      destruct (mem_b x bfs) eqn:MX; [apply mem_b_In, BM in MX; split; [auto|discriminate]|]. split; [congruence|]. intros [X|X]; [|congruence].
      apply BM, mem_b_In in X. congruence. }
    split; [|exact RT]. split; [|split].
    + cbn [was_linked rts]. intros x. rewrite RT, A2, <- L, <- BM, <- mem_b_In. destruct (mem_b x bfs), (was_linked s x); intuition congruence.
    + cbn [rts counter]. intros x t X. rewrite A1 in X. rewrite A3. destruct (rts s x) as [t'|] eqn:RX; [injection X as <-; apply T in RX; lia|].
      destruct (mem_b x bfs); [injection X as <-; lia|discriminate].
    + cbn [rts memory]. eapply relocated_ext; [|exact A4]. intros x _ _. cbn beta. rewrite RT, BM. reflexivity.
Qed.
Lemma loads_ok fuel : forall roots s, incl roots all -> (S (S (length all)) <= fuel)%nat -> (forall r, In r roots -> ~ needs deps r r) -> settled s ->
  exists s', loads fuel deps objs roots s = Ok s' /\ settled s' /\ (forall x, rts s' x <> None <-> (exists r, In r roots /\ reach deps r x) \/ rts s x <> None).
Proof.
  induction roots as [|r roots IH]; intros s I F NC S; cbn [loads].
  - exists s. split; [reflexivity|]. split; [exact S|]. intros x. split; [auto|]. intros [(r & [] & _)|H]; exact H.
  - destruct (load_ok fuel r s) as (s1 & E1 & S1 & R1); [apply I; left; reflexivity|exact F|apply NC; left; reflexivity|exact S|].
    rewrite E1. cbn [bind]. destruct (IH s1) as (s2 & E2 & S2 & R2); [intros x X; apply I; right; exact X|exact F|intros x X; apply NC; right; exact X|exact S1|].
    exists s2. split; [exact E2|]. split; [exact S2|]. intros x. rewrite R2, R1. split.
    + intros [(q & Q & X)|[X|X]]; [left; exists q; split; [right; exact Q|exact X]|left; exists r; split; [left; reflexivity|exact X]|auto].
    + intros [(q & [<-|Q] & X)|X]; [auto|left; eauto|auto].
Qed.
Lemma start_settled : settled (start m0).
Proof.
  split; [|split].
  - intros x. cbn. split; [discriminate|congruence].
  - intros x t. cbn. discriminate.
  - split; [intros x a _ H; cbn in H; congruence|]. intros a _. reflexivity.
Qed.
End Link.
