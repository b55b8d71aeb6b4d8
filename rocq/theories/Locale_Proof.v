From Verif Require Import Base Locale_Model Locale_Spec.
Open Scope Z_scope.

Lemma same_spec a b : reflect (a = b) (same a b).
Proof. unfold same. destruct (list_eq_dec Z.eq_dec a b); now constructor. Qed.
Lemma same_refl a : same a a = true.
Proof. destruct (same_spec a a); congruence. Qed.

Lemma cut_app stop a b : (forall c, In c a -> stop c = false) -> cut stop (a ++ b) = (a ++ fst (cut stop b), snd (cut stop b)).
Proof.
  induction a as [|x a IH]; intros H; cbn [app cut]; [apply surjective_pairing|].
  rewrite (H x) by (left; reflexivity). rewrite IH by (intros; apply H; right; assumption). reflexivity.
Qed.
Lemma cut_all stop a : (forall c, In c a -> stop c = false) -> cut stop a = (a, []).
Proof. intros H. rewrite <- (app_nil_r a) at 1. rewrite cut_app by assumption. cbn. now rewrite app_nil_r. Qed.
Lemma cut_at stop a x r : (forall c, In c a -> stop c = false) -> stop x = true -> cut stop (a ++ x :: r) = (a, x :: r).
Proof. intros H X. rewrite cut_app by assumption. cbn [cut]. rewrite X. cbn. now rewrite app_nil_r. Qed.
Lemma cut_spec stop : forall l a b, cut stop l = (a, b) -> l = a ++ b /\ (forall c, In c a -> stop c = false) /\ (b = [] \/ exists c r, b = c :: r /\ stop c = true).
Proof.
  induction l as [|x l IH]; intros a b H; cbn in H.
  - injection H as <- <-. repeat split; auto. intros c [].
  - destruct (stop x) eqn:X.
    + injection H as <- <-. repeat split; [intros c []|]. right. now exists x, l.
    + destruct (cut stop l) as [a' b']. injection H as <- <-. destruct (IH a' b' eq_refl) as (-> & H1 & H2).
      repeat split; auto. intros c [<-|C]; auto.
Qed.

Lemma nonempty_some x : x <> [] -> nonempty x = Some x.
Proof. now destruct x. Qed.

Lemma parse_spelled lang t c m : proper_name lang t c m -> parse (spelled lang t c m) = (lang, t, c, m).
Proof.
  intros (L & T & C & M). unfold parse, spelled.
  set (s1 := fun c0 => (c0 =? 95) || (c0 =? 46) || (c0 =? 64)).
  set (s2 := fun c0 => (c0 =? 46) || (c0 =? 64)).
  set (s3 := fun c0 => c0 =? 64).
  assert (L1 : forall x, In x lang -> s1 x = false).
  { intros x X. specialize (L x X). unfold s1. destruct (Z.eqb_spec x 95), (Z.eqb_spec x 46), (Z.eqb_spec x 64); cbn; auto; exfalso; apply L; cbn; auto. }
  assert (K : forall r, match r with [] => True | x :: _ => s1 x = true end -> cut s1 (lang ++ r) = (lang, r)).
  { intros [|x r] X; [rewrite app_nil_r; now apply cut_all|now apply cut_at]. }
  rewrite K by (destruct t, c, m; cbn; auto). clear K.
  assert (KC : forall c0, is_part [64] (Some c0) -> forall x, In x c0 -> s3 x = false).
  { intros c0 [_ H] x X. specialize (H x X). unfold s3. destruct (Z.eqb_spec x 64); auto. exfalso; apply H; cbn; auto. }
  assert (CM : forall r2, r2 = match c with Some x => x | None => [] end ++ part 64 m -> c <> None ->
     (let '(cs, r3) := cut s3 r2 in match r3 with [] => (lang, t, nonempty cs, None) | _ :: r4 => (lang, t, nonempty cs, nonempty r4) end) = (lang, t, c, m)).
  { intros r2 -> Cn. destruct c as [c|]; [|congruence]. destruct m as [m|]; cbn [part].
    - rewrite cut_at by (auto; apply KC; assumption). destruct C as [C1 _]. destruct M as [M1 _]. now rewrite !nonempty_some.
    - rewrite app_nil_r, cut_all by (apply KC; assumption). destruct C as [C1 _]. now rewrite !nonempty_some. }
  destruct t as [t|].
  - cbn [part app]. cbn [Z.eqb Pos.eqb].
    assert (T1 : forall x, In x t -> s2 x = false).
    { destruct T as [_ T]. intros x X. specialize (T x X). unfold s2. destruct (Z.eqb_spec x 46), (Z.eqb_spec x 64); cbn; auto; exfalso; apply T; cbn; auto. }
    destruct T as [Tn _]. destruct c as [c|]; cbn [part app].
    + rewrite cut_at by auto. rewrite (nonempty_some t Tn). cbn [Z.eqb Pos.eqb]. now apply CM.
    + destruct m as [m|]; cbn [part].
      * rewrite cut_at by auto. rewrite (nonempty_some t Tn). cbn [Z.eqb Pos.eqb]. destruct M as [M _]. now rewrite nonempty_some.
      * rewrite app_nil_r, cut_all by auto. now rewrite nonempty_some.
  - cbn [part app]. destruct c as [c|]; cbn [part app].
    + cbn [Z.eqb Pos.eqb]. now apply CM.
    + destruct m as [m|]; cbn [part]; auto. cbn [Z.eqb Pos.eqb]. destruct M as [M _]. now rewrite nonempty_some.
Qed.

Lemma nonempty_part without x : (forall c, In c x -> ~ In c without) -> is_part without (nonempty x).
Proof. destruct x as [|y x]; cbn; auto. intros H. split; [discriminate|]. intros c Hc. apply H. exact Hc. Qed.

Lemma parse_proper n : forall lang t c m, parse n = (lang, t, c, m) -> proper_name lang t c m.
Proof.
  intros lang t c m. unfold parse.
  destruct (cut _ n) as [l r] eqn:E1. apply cut_spec in E1. destruct E1 as (_ & L & _).
  assert (L' : forall x, In x l -> ~ In x [95; 46; 64]).
  { intros x X. specialize (L x X). cbn. intuition subst; discriminate. }
  destruct r as [|s r1]; [intros H; injection H as <- <- <- <-; repeat split; auto|].
  destruct (s =? 95).
  - destruct (cut (fun c0 => (c0 =? 46) || (c0 =? 64)) r1) as [t0 r2] eqn:E2. apply cut_spec in E2. destruct E2 as (_ & T & _).
    assert (T' : is_part [46; 64] (nonempty t0)).
    { apply nonempty_part. intros x X. specialize (T x X). cbn. intuition subst; discriminate. }
    destruct r2 as [|s2 r2]; [intros H; injection H as <- <- <- <-; repeat split; auto|].
    destruct (s2 =? 46).
    + destruct (cut (fun c0 => c0 =? 64) r2) as [c0 r3] eqn:E3. apply cut_spec in E3. destruct E3 as (_ & C & _).
      assert (C' : is_part [64] (nonempty c0)). { apply nonempty_part. intros x X. specialize (C x X). cbn. intuition subst; discriminate. }
      destruct r3 as [|s3 r3]; intros H; injection H as <- <- <- <-; (split; [|split; [|split]]); auto; [exact I|].
      apply nonempty_part. intros ? _ [].
    + intros H; injection H as <- <- <- <-; (split; [|split; [|split]]); auto; [exact I|]. apply nonempty_part. intros ? _ [].
  - destruct (s =? 46).
    + destruct (cut (fun c0 => c0 =? 64) r1) as [c0 r3] eqn:E3. apply cut_spec in E3. destruct E3 as (_ & C & _).
      assert (C' : is_part [64] (nonempty c0)). { apply nonempty_part. intros x X. specialize (C x X). cbn. intuition subst; discriminate. }
      destruct r3 as [|s3 r3]; intros H; injection H as <- <- <- <-; (split; [|split; [|split]]); auto; try exact I.
      apply nonempty_part. intros ? _ [].
    + intros H; injection H as <- <- <- <-; (split; [|split; [|split]]); auto; try exact I. apply nonempty_part. intros ? _ [].
Qed.

Lemma normalize_normal c : normalize c = normal c.
Proof.
  unfold normalize, normal. f_equal. induction c as [|x c IH]; cbn [keep filter]; auto.
  change (letter x) with (isalpha x). change (digit x) with (isdigit x).
  destruct (isalpha x) eqn:A; cbn [orb map]; [rewrite IH; reflexivity|]. destruct (isdigit x) eqn:D; cbn [map]; rewrite ?IH; auto.
  f_equal. unfold lower. unfold isalpha, isupper in A. destruct ((65 <=? x) && (x <=? 90)); cbn in A; [discriminate|reflexivity].
Qed.

Lemma build_variants lang t c m : build (lang, t, c, m) = variants lang t c m.
Proof.
  unfold build, variants.
  destruct c as [c|].
  - rewrite normalize_normal. unfold codesets. unfold same.
    destruct (list_eq_dec Z.eq_dec c (normal c)) as [E|E]; destruct (list_eq_dec Z.eq_dec (normal c) []) as [E2|E2].
    all: (rewrite ?E2; destruct t, m; cbn [with_without flat_map map app spelled part]; unfold spelled; cbn [part app]; rewrite ?app_nil_r; try reflexivity).
    all: destruct (normal c) as [|y nc] eqn:E3; [congruence|]; cbn [flat_map map app]; rewrite ?app_nil_r; reflexivity.
  - unfold codesets. destruct t, m; cbn [with_without flat_map map app spelled part]; unfold spelled; cbn [part app]; rewrite ?app_nil_r; reflexivity.
Qed.

Lemma codesets_hd c : is_part [64] c -> exists r, codesets c = c :: r.
Proof.
  destruct c as [c|]; cbn [codesets]; [|now exists []]. intros [N _].
  destruct (list_eq_dec Z.eq_dec c (normal c)) as [E|E]; [|eexists; reflexivity].
  destruct (list_eq_dec Z.eq_dec (normal c) []) as [E2|E2]; [congruence|]. rewrite <- E. eexists. reflexivity.
Qed.
Lemma with_hd o : exists r, with_without o = o :: r.
Proof. destruct o; eexists; reflexivity. Qed.
Lemma variants_hd lang t c m : is_part [64] c -> exists r, variants lang t c m = spelled lang t c m :: r.
Proof.
  intros C. unfold variants. destruct (with_hd t) as (rt & ->), (with_hd m) as (rm & ->), (codesets_hd c C) as (rc & ->).
  cbn. eexists. reflexivity.
Qed.

Lemma with_in o x : In x (with_without o) -> x = o \/ x = None.
Proof. destruct o; cbn; intuition. Qed.
Lemma codesets_in o x : In x (codesets o) -> x = o \/ x = None \/ exists c, o = Some c /\ x = Some (normal c) /\ normal c <> [].
Proof.
  destruct o as [c|]; cbn [codesets]; [|cbn; intuition].
  destruct (list_eq_dec Z.eq_dec c (normal c)) as [E|E]; destruct (list_eq_dec Z.eq_dec (normal c) []) as [E2|E2]; cbn [app In]; intuition eauto 7.
Qed.

Lemma lower_alnum x : letter x || digit x = true -> letter (lower x) || digit (lower x) = true.
Proof. unfold letter, digit, lower. destruct ((65 <=? x) && (x <=? 90)) eqn:E; cbn; lia. Qed.
Lemma normal_chars c x : In x (normal c) -> letter x || digit x = true.
Proof.
  unfold normal. rewrite in_app_iff, in_map_iff. intros [H|(y & <- & H)].
  - destruct (forallb digit c); [|destruct H]. cbn in H. intuition subst; reflexivity.
  - apply filter_In in H. now apply lower_alnum.
Qed.
Lemma normal_part c : normal c <> [] -> is_part [64] (Some (normal c)).
Proof. intros H. split; auto. intros x X. apply normal_chars in X. cbn. intros [<-|[]]. discriminate. Qed.

Lemma in_variants lang t c m e : In e (variants lang t c m) <-> exists t' m' c', In t' (with_without t) /\ In m' (with_without m) /\ In c' (codesets c) /\ e = spelled lang t' c' m'.
Proof.
  unfold variants. rewrite in_flat_map. split.
  - intros (t' & T & H). apply in_flat_map in H. destruct H as (m' & M & H). apply in_map_iff in H. destruct H as (c' & <- & C). now exists t', m', c'.
  - intros (t' & m' & c' & T & M & C & ->). exists t'. split; auto. apply in_flat_map. exists m'. split; auto. apply in_map_iff. now exists c'.
Qed.

Lemma sub_proper lang t c m t' c' m' : proper_name lang t c m -> In t' (with_without t) -> In m' (with_without m) -> In c' (codesets c) -> proper_name lang t' c' m'.
Proof.
  intros (L & T & C & M) T' M' C'. apply with_in in T', M'. apply codesets_in in C'.
  split; [|split; [|split]]; auto.
  - destruct T' as [->| ->]; auto. exact I.
  - destruct C' as [->|[->|(x & -> & -> & N)]]; auto; [exact I|]. now apply normal_part.
  - destruct M' as [->| ->]; auto. exact I.
Qed.

Lemma with_incl o o' : In o' (with_without o) -> incl (with_without o') (with_without o).
Proof. intros H. apply with_in in H. destruct H as [->| ->]; [apply incl_refl|]. intros x [<-|[]]. destruct o; cbn; auto. Qed.
Lemma codesets_incl o o' : (forall c, o = Some c -> normal (normal c) = normal c) -> In o' (codesets o) -> incl (codesets o') (codesets o).
Proof.
  intros S0 H. pose proof (codesets_in _ _ H) as [->|[->|(c & -> & -> & N)]].
  - apply incl_refl.
  - intros x [<-|[]]. destruct o as [c|]; cbn [codesets]; [|left; reflexivity]. rewrite !in_app_iff. right; right; left; reflexivity.
  - intros x X. apply codesets_in in X. destruct X as [->|[->|(d & E & -> & _)]]; auto.
    + cbn [codesets]. rewrite !in_app_iff. right; right; left; reflexivity.
    + injection E as <-. now rewrite (S0 c eq_refl).
Qed.

Lemma first_some_spec {A B} (f : A -> option B) l b : first_some f l = Some b <-> first_of f l b.
Proof.
  split.
  - induction l as [|a l IH]; cbn; [discriminate|]. destruct (f a) as [b'|] eqn:E.
    + intros H. injection H as ->. exists [], a, l. repeat split; auto. intros x [].
    + intros H. destruct (IH H) as (l1 & a' & l2 & -> & F & N). exists (a :: l1), a', l2. repeat split; auto. intros x [<-|X]; auto.
  - intros (l1 & a & l2 & -> & F & N). induction l1 as [|x l1 IH]; cbn; [now rewrite F|].
    rewrite N by (left; reflexivity). apply IH. intros y Y. apply N. now right.
Qed.
Lemma first_some_none {A B} (f : A -> option B) l : first_some f l = None <-> forall x, In x l -> f x = None.
Proof.
  induction l as [|a l IH]; cbn; [split; [intros _ x []|auto]|]. split.
  - destruct (f a) eqn:E; [discriminate|]. intros H x [<-|X]; auto. now apply IH.
  - intros H. rewrite (H a) by auto. apply IH. auto.
Qed.

Lemma is_c_spec n : is_c n = true <-> n = name_C \/ n = name_POSIX.
Proof. unfold is_c. rewrite orb_true_iff. destruct (same_spec n name_C), (same_spec n name_POSIX); intuition discriminate. Qed.

Lemma in_part x sep o : In x (part sep o) -> x = sep \/ exists y, o = Some y /\ In x y.
Proof. destruct o as [y|]; cbn; [|intros []]. intros [<-|H]; eauto. Qed.

Lemma parse_join n lang t c m : parse n = (lang, t, c, m) -> forall x y, (lang = x \/ t = Some x \/ c = Some x \/ m = Some x) -> In y x -> In y n.
Proof.
  unfold parse. destruct (cut _ n) as [l r] eqn:E1. apply cut_spec in E1. destruct E1 as (-> & _ & _).
  assert (NE : forall z x, nonempty z = Some x -> z = x) by (intros [|? ?] ? H; cbn in H; congruence).
  intros H x y HX HY. apply in_app_iff.
  destruct r as [|s r1].
  { injection H as <- <- <- <-. destruct HX as [->|[HX|[HX|HX]]]; auto; discriminate. }
  destruct (s =? 95).
  - destruct (cut _ r1) as [t0 r2] eqn:E2. apply cut_spec in E2. destruct E2 as (-> & _ & _).
    destruct r2 as [|s2 r2].
    { injection H as <- <- <- <-. destruct HX as [->|[HX|[HX|HX]]]; auto; try discriminate. apply NE in HX. subst. right; right. rewrite app_nil_r. auto. }
    destruct (s2 =? 46).
    + destruct (cut _ r2) as [c0 r3] eqn:E3. apply cut_spec in E3. destruct E3 as (-> & _ & _).
      destruct r3 as [|s3 r3]; injection H as <- <- <- <-; destruct HX as [->|[HX|[HX|HX]]]; auto; try discriminate; apply NE in HX; subst; right; right; apply in_app_iff; auto; right; right; apply in_app_iff; cbn; auto.
    + injection H as <- <- <- <-; destruct HX as [->|[HX|[HX|HX]]]; auto; try discriminate; apply NE in HX; subst; right; right; apply in_app_iff; cbn; auto.
  - destruct (s =? 46).
    + destruct (cut _ r1) as [c0 r3] eqn:E3. apply cut_spec in E3. destruct E3 as (-> & _ & _).
      destruct r3 as [|s3 r3]; injection H as <- <- <- <-; destruct HX as [->|[HX|[HX|HX]]]; auto; try discriminate; apply NE in HX; subst; right; right; apply in_app_iff; cbn; auto.
    + injection H as <- <- <- <-; destruct HX as [->|[HX|[HX|HX]]]; auto; try discriminate; apply NE in HX; subst; right; right; auto.
Qed.

Lemma parse_codeset n lang t c m : parse n = (lang, t, Some c, m) -> exists before rest, codeset_in n before c rest.
Proof.
  unfold parse. destruct (cut _ n) as [l r] eqn:E1. apply cut_spec in E1. destruct E1 as (-> & L & _).
  assert (NE : forall z x, nonempty z = Some x -> z = x) by (intros [|? ?] ? H; cbn in H; congruence).
  assert (L46 : ~ In 46 l) by (intros X; specialize (L _ X); discriminate).
  assert (L64 : ~ In 64 l) by (intros X; specialize (L _ X); discriminate).
  destruct r as [|s r1]; [discriminate|].
  destruct (Z.eqb_spec s 95) as [->|].
  - destruct (cut _ r1) as [t0 r2] eqn:E2. apply cut_spec in E2. destruct E2 as (-> & T & _).
    assert (T46 : ~ In 46 t0) by (intros X; specialize (T _ X); discriminate).
    assert (T64 : ~ In 64 t0) by (intros X; specialize (T _ X); discriminate).
    destruct r2 as [|s2 r2]; [discriminate|].
    destruct (Z.eqb_spec s2 46) as [->|]; [|discriminate].
    destruct (cut _ r2) as [c0 r3] eqn:E3. apply cut_spec in E3. destruct E3 as (-> & C & R).
    assert (C64 : ~ In 64 c0) by (intros X; specialize (C _ X); discriminate).
    intros H. exists (l ++ 95 :: t0), r3.
    assert (c0 = c) as <- by (destruct r3; injection H as _ _ H; auto).
    split; [rewrite <- app_assoc; reflexivity|]. split; [|split; [|split]]; auto.
    + rewrite in_app_iff. cbn. intros [?|[?|?]]; auto; discriminate.
    + rewrite in_app_iff. cbn. intros [?|[?|?]]; auto; discriminate.
    + destruct R as [->|(x & q & -> & X)]; auto. apply Z.eqb_eq in X. subst x. right. now exists q.
  - destruct (Z.eqb_spec s 46) as [->|]; [|discriminate].
    destruct (cut _ r1) as [c0 r3] eqn:E3. apply cut_spec in E3. destruct E3 as (-> & C & R).
    assert (C64 : ~ In 64 c0) by (intros X; specialize (C _ X); discriminate).
    intros H. exists l, r3.
    assert (c0 = c) as <- by (destruct r3; injection H as _ H; auto).
    split; [reflexivity|]. split; [|split; [|split]]; auto.
    destruct R as [->|(x & q & -> & X)]; auto. apply Z.eqb_eq in X. subst x. right. now exists q.
Qed.

Lemma codeset_unique n a c r a' c' r' : codeset_in n a c r -> codeset_in n a' c' r' -> c = c'.
Proof.
  intros (E & A1 & A2 & C & R) (E' & A1' & A2' & C' & R').
  assert (X : forall a x, ~ In 46 a -> ~ In 64 a -> cut (fun y => (y =? 46) || (y =? 64)) (a ++ [46] ++ x) = (a, 46 :: x)).
  { intros b x B1 B2. apply cut_at; auto. intros y Y. destruct (Z.eqb_spec y 46); [congruence|]. destruct (Z.eqb_spec y 64); [congruence|]. reflexivity. }
  pose proof (X a (c ++ r) A1 A2) as H. pose proof (X a' (c' ++ r') A1' A2') as H'. rewrite <- E in H. rewrite <- E', H in H'.
  injection H' as _ H'.
  assert (Y : forall c r, ~ In 64 c -> (r = [] \/ exists q, r = 64 :: q) -> cut (fun y => y =? 64) (c ++ r) = (c, r)).
  { intros b q B [->|(z & ->)].
    - rewrite app_nil_r. apply cut_all. intros y Hy. destruct (Z.eqb_spec y 64); [congruence|reflexivity].
    - apply cut_at; auto. intros y Hy. destruct (Z.eqb_spec y 64); [congruence|reflexivity]. }
  pose proof (Y c r C R) as H1. rewrite H', (Y c' r' C' R') in H1. congruence.
Qed.

Lemma spelled_chars x lang t c m : In x (spelled lang t c m) -> In x [95; 46; 64] \/ exists y, In x y /\ (lang = y \/ t = Some y \/ c = Some y \/ m = Some y).
Proof.
  unfold spelled. rewrite !in_app_iff. intros [H|[H|[H|H]]].
  - right. exists lang. auto.
  - apply in_part in H. destruct H as [->|(y & -> & H)]; [left; cbn; auto|right; exists y; auto].
  - apply in_part in H. destruct H as [->|(y & -> & H)]; [left; cbn; auto|right; exists y; auto].
  - apply in_part in H. destruct H as [->|(y & -> & H)]; [left; cbn; auto|right; exists y; auto].
Qed.

Lemma candidate_plain n e : plain n -> In e (candidates n) -> e <> [] -> plain e /\ (exists r, candidates e = e :: r) /\ incl (candidates e) (candidates n).
Proof.
  intros (N & S59 & ST) I E0. unfold candidates in *.
  destruct (parse n) as [[[lang t] c] m] eqn:P. pose proof (parse_proper _ _ _ _ _ P) as PP.
  assert (SC : forall c0, c = Some c0 -> normal (normal c0) = normal c0).
  { intros c0 ->. destruct (parse_codeset _ _ _ _ _ P) as (b & r & C). eapply ST, C. }
  rewrite build_variants in *. apply in_variants in I. destruct I as (t' & m' & c' & T & M & C & ->).
  pose proof (sub_proper _ _ _ _ _ _ _ PP T M C) as PE. rewrite (parse_spelled _ _ _ _ PE), build_variants.
  split; [split; [|split]|split].
  - exact E0.
  - intros X. apply spelled_chars in X. destruct X as [X|(y & X & Y)]; [cbn in X; intuition discriminate|].
    assert (Q : forall z, (lang = z \/ t = Some z \/ c = Some z \/ m = Some z) -> ~ In 59 z) by (intros z Z1 Z2; apply S59; eapply parse_join; eauto).
    destruct Y as [Y|[Y|[Y|Y]]]; subst.
    + apply (Q y); auto.
    + apply with_in in T. destruct T as [T|T]; [|discriminate]. apply (Q y); auto.
    + apply codesets_in in C. destruct C as [C|[C|(c0 & _ & C & _)]]; [apply (Q y); auto|discriminate|]. injection C as ->. apply normal_chars in X. discriminate.
    + apply with_in in M. destruct M as [M|M]; [|discriminate]. apply (Q y); auto.
  - intros b c0 r H. destruct c' as [c1|].
    + assert (H' : codeset_in (spelled lang t' (Some c1) m') (lang ++ part 95 t') c1 (part 64 m')).
      { destruct PE as (L & T' & C' & M'). split; [unfold spelled; cbn [part app]; rewrite <- app_assoc; reflexivity|].
        assert (G : forall z, z = 46 \/ z = 64 -> ~ In z (lang ++ part 95 t')).
        { intros z Z0. rewrite in_app_iff. intros [X|X]; [apply (L z X); cbn; intuition|].
          apply in_part in X. destruct X as [->|(y & -> & X)]; [intuition discriminate|]. destruct T' as [_ T']. apply (T' z X). cbn. intuition. }
        split; [apply G; auto|]. split; [apply G; auto|]. split; [destruct C' as [_ C']; intros X; apply (C' _ X); cbn; auto|].
        destruct m' as [m1|]; [right; exists m1; reflexivity|left; reflexivity]. }
      rewrite (codeset_unique _ _ _ _ _ _ _ H H'). apply codesets_in in C. destruct C as [<-|[C|(c2 & C2 & C & _)]]; [apply SC; reflexivity|discriminate|].
      injection C as ->. rewrite (SC c2 C2), (SC c2 C2). reflexivity.
    + exfalso. destruct H as (E & B1 & B2 & _).
      assert (X : In 46 (spelled lang t' None m')) by (rewrite E; rewrite !in_app_iff; right; left; cbn; auto).
      unfold spelled in *. cbn [part app] in *.
      destruct PE as (L & T' & _ & M').
      destruct m' as [m1|].
      * cbn [part] in E.
        assert (NO : forall z, In z (lang ++ part 95 t') -> (z =? 46) || (z =? 64) = false).
        { intros z. rewrite in_app_iff. intros [Y|Y].
          - specialize (L z Y). cbn in L. lia.
          - apply in_part in Y. destruct Y as [->|(y & -> & Y)]; auto. destruct T' as [_ T']. specialize (T' z Y). cbn in T'. lia. }
        assert (CE : cut (fun y => (y =? 46) || (y =? 64)) ((lang ++ part 95 t') ++ 64 :: m1) = (lang ++ part 95 t', 64 :: m1)) by (apply cut_at; auto).
        rewrite <- app_assoc, E in CE.
        assert (CE' : cut (fun y => (y =? 46) || (y =? 64)) (b ++ 46 :: c0 ++ r) = (b, 46 :: c0 ++ r)).
        { apply cut_at; auto. intros z Hz. destruct (Z.eqb_spec z 46); [congruence|]. destruct (Z.eqb_spec z 64); [congruence|]. reflexivity. }
        cbn [app] in CE. rewrite CE' in CE. discriminate.
      * rewrite !in_app_iff in X. destruct X as [X|[X|[]]]; [apply (L _ X); cbn; auto|].
        apply in_part in X. destruct X as [X|(y & -> & X)]; [discriminate|]. destruct T' as [_ T']. apply (T' _ X). cbn. auto.
  - apply variants_hd. apply PE.
  - intros x X. apply in_variants in X. destruct X as (t2 & m2 & c2 & T2 & M2 & C2 & ->). apply in_variants. exists t2, m2, c2.
    repeat split; auto; [eapply with_incl; eauto|eapply with_incl; eauto|eapply codesets_incl; eauto].
Qed.

Section P.
  Variable cdata : Z -> Z.
  Variable archive : option (list Z -> option (Z -> option Z)).
  Variable paths : list (list Z).
  Variable file : list Z -> Z -> option Z.
  Local Notation find := (find_category archive paths file).
  Local Notation stands := (stands_for cdata archive paths file).
  Local Notation saneP := (sane archive file).

  Lemma find_again n c v : plain n -> saneP -> category c -> is_c n = false -> find c n = Some v -> plain (fst v) /\ is_c (fst v) = false /\ find c (fst v) = Some v.
  Proof.
    intros PL (SA & SD) CC NC F. pose proof F as F0. unfold find_category in F.
    destruct (from_archive archive c n) as [w|] eqn:A.
    - injection F as ->.
      assert (fst v = n) as ->; [|auto].
      unfold from_archive in A. destruct archive as [a|]; [|discriminate]. destruct (first_some a (candidates n)) as [rec|]; [|discriminate]. destruct (rec c); [|discriminate]. injection A as <-. reflexivity.
    - unfold from_file in F. apply first_some_spec in F. destruct F as (l1 & lp & l2 & EP & F & NF).
      pose proof F as F1. apply first_some_spec in F. destruct F as (k1 & e & k2 & EC & F & _).
      destruct (file (path lp e c) c) as [d|] eqn:FE; [|discriminate]. injection F as <-. cbn [fst].
      assert (I : In e (candidates n)) by (rewrite EC; apply in_or_app; right; left; reflexivity).
      assert (E0 : e <> []) by (intros ->; rewrite SD in FE; auto; discriminate).
      destruct (candidate_plain n e PL I E0) as (PE & (r & HD) & INC).
      split; auto. split.
      { destruct (is_c e) eqn:X; auto. apply is_c_spec in X. rewrite SD in FE; auto; discriminate. }
      assert (from_archive archive c e = None) as A'.
      { unfold from_archive in *. destruct archive as [a|]; auto. destruct (first_some a (candidates n)) as [rec|] eqn:FA.
        - exfalso. apply first_some_spec in FA. destruct FA as (? & e1 & ? & _ & FA & _). destruct (rec c) eqn:RC; [discriminate|]. exact (SA a e1 rec c eq_refl FA CC RC).
        - rewrite (proj2 (first_some_none a (candidates e))); auto. intros x X. eapply first_some_none in FA; eauto. }
      unfold find_category. rewrite A'. unfold from_file. apply first_some_spec. exists l1, lp, l2. split; auto. split.
      + rewrite HD. cbn [first_some]. now rewrite FE.
      + intros x X. specialize (NF x X). apply first_some_none. intros y Y. eapply first_some_none in NF; [exact NF|]. auto.
  Qed.

  Lemma plain_C : plain name_C.
  Proof.
    split; [discriminate|]. split; [cbn; intuition discriminate|]. intros b c r (E & _). exfalso.
    assert (X : In 46 name_C) by (rewrite E, !in_app_iff; cbn; auto). cbn in X. intuition discriminate.
  Qed.

  Lemma stands_again n c v : plain n -> saneP -> category c -> stands c n = Some v -> plain (fst v) /\ stands c (fst v) = Some v.
  Proof.
    intros PL SA CC H. unfold stands_for in *. destruct (is_c n) eqn:E.
    - injection H as <-. cbn. split; [exact plain_C|reflexivity].
    - destruct (find_again n c v PL SA CC E H) as (A & B & C). now rewrite B.
  Qed.

  Definition settled (l : locale) : Prop := forall c, category c -> plain (fst (cat l c)) /\ stands c (fst (cat l c)) = Some (cat l c).
  Definition named (l : locale) : Prop := all_name l = all_name (update_name l).

  Lemma apply_stands c n l : apply_category cdata archive paths file c n l = match stands c n with Some v => Some (set_cat l c v) | None => None end.
  Proof. unfold apply_category, stands_for. destruct (is_c n); reflexivity. Qed.

  Lemma set_settled l c n v : saneP -> plain n -> settled l -> stands c n = Some v -> settled (set_cat l c v).
  Proof.
    intros SA PL S0 H x X. unfold set_cat; cbn. destruct (Z.eqb_spec x c) as [->|]; [|apply S0; auto]. eapply stands_again; eauto.
  Qed.
  Lemma update_settled l : settled l -> settled (update_name l).
  Proof. intros S0 x X. apply (S0 x X). Qed.
  Lemma update_named l : named (update_name l).
  Proof. reflexivity. Qed.

  (** the loop of loadLocale *)
  Lemma load_cats_ok value v : forall cs l, (forall c, In c cs -> value c = Val (v c)) ->
    exists ok l', load_cats cdata archive paths file cs value l = Ok (ok, l') /\ all_name l' = all_name l /\
      (ok = true <-> forall c, In c cs -> stands c (v c) <> None) /\
      (ok = true -> forall c, In c cs -> stands c (v c) = Some (cat l' c)) /\
      (forall c, ~ In c cs -> cat l' c = cat l c) /\
      (forall c, In c cs -> cat l' c = cat l c \/ stands c (v c) = Some (cat l' c)) /\
      (match cs with c :: _ => stands c (v c) = None -> l' = l | [] => True end) /\
      (saneP -> (forall c, In c cs -> plain (v c)) -> settled l -> settled l').
  Proof.
    induction cs as [|c cs IH]; intros l H.
    - exists true, l. cbn. split; [reflexivity|]. split; [reflexivity|]. split; [split; [intros _ ? []|auto]|]. split; [intros _ ? []|]. split; [auto|]. split; [intros ? []|]. split; auto.
    - cbn [load_cats]. rewrite (H c) by (left; reflexivity). rewrite apply_stands. destruct (stands c (v c)) as [w|] eqn:E.
      + destruct (IH (set_cat l c w)) as (ok & l' & L & AN & OK1 & OK2 & OUT & INN & _ & SE); [intros; apply H; right; assumption|].
        exists ok, l'. split; [exact L|]. split; [exact AN|].
        assert (CC : stands c (v c) = Some (cat l' c)).
        { destruct (in_dec Z.eq_dec c cs) as [I|I].
          - destruct (INN c I) as [X|X]; auto. rewrite X. cbn. now rewrite Z.eqb_refl.
          - rewrite (OUT c I). cbn. now rewrite Z.eqb_refl. }
        split; [|split; [|split; [|split; [|split]]]].
        * rewrite OK1. split; [intros X d [<-|D]; [congruence|auto]|intros X d D; apply X; now right].
        * intros T d [<-|D]; auto.
        * intros d D. rewrite OUT by (intros X; apply D; now right). cbn. destruct (Z.eqb_spec d c) as [->|]; auto. exfalso; apply D; now left.
        * intros d [<-|D]; auto. destruct (INN d D) as [X|X]; auto. cbn in X. destruct (Z.eqb_spec d c) as [->|]; auto.
        * intros X; congruence.
        * intros SA PL S0. apply SE; auto; [intros; apply PL; now right|]. eapply set_settled; eauto. apply PL; now left.
      + exists false, l. split; [reflexivity|]. split; [reflexivity|].
        split; [split; [discriminate|intros X; exfalso; apply (X c); [now left|exact E]]|]. split; [discriminate|]. split; [auto|]. split; [auto|]. split; auto.
  Qed.

  Lemma c_settled : saneP -> settled (c_locale cdata).
  Proof. intros SA c C. cbn. split; [exact plain_C|reflexivity]. Qed.
  Lemma c_named : named (c_locale cdata).
  Proof. reflexivity. Qed.

  Lemma no_eq c : forall x, In x (lc c) -> (x =? 61) = false.
  Proof.
    intros x. unfold lc. destruct (nth_in_or_default (Z.to_nat c) lc_names []) as [H| ->]; [|intros []].
    revert H. generalize (nth (Z.to_nat c) lc_names []). intros l H X.
    assert (A : forallb (fun l => forallb (fun x => negb (x =? 61)) l) lc_names = true) by reflexivity.
    rewrite forallb_forall in A. specialize (A l H). rewrite forallb_forall in A. specialize (A x X). now destruct (x =? 61).
  Qed.

  Lemma parse_compose f : forall cs, cs <> [] -> (forall c, In c cs -> f c <> [] /\ ~ In 59 (f c)) ->
    parse_composite cs (compose cs f) = Some (map (fun c => (c, Val (f c))) cs).
  Proof.
    induction cs as [|c cs IH]; intros N H; [congruence|].
    destruct (H c) as [F1 F2]; [now left|].
    assert (F3 : forall x, In x (f c) -> (x =? 59) = false) by (intros x X; destruct (Z.eqb_spec x 59); [congruence|reflexivity]).
    destruct cs as [|c' cs].
    - cbn [parse_composite compose map]. rewrite cut_at by (try apply no_eq; reflexivity). rewrite same_refl. cbn [negb]. rewrite cut_all by auto. destruct (f c) eqn:E; [congruence|reflexivity].
    - change (compose (c :: c' :: cs) f) with (lc c ++ 61 :: f c ++ 59 :: compose (c' :: cs) f). remember (c' :: cs) as ds.
      cbn [parse_composite map]. rewrite cut_at by (try apply no_eq; reflexivity). rewrite same_refl. cbn [negb]. rewrite cut_at by auto.
      rewrite IH; [|subst; discriminate|intros; apply H; now right]. destruct (f c) eqn:E; [congruence|]. reflexivity.
  Qed.
  Lemma lookup_map f : forall cs c, In c cs -> lookup c (map (fun c => (c, Val (f c))) cs) = Val (f c).
  Proof. induction cs as [|d cs IH]; intros c []; cbn; [subst; now rewrite Z.eqb_refl|]. destruct (Z.eqb_spec d c) as [->|]; auto. Qed.

  Lemma compose_composite f : compose all_cats f = composite f.
  Proof. unfold composite, piece, all_cats. cbn [compose tl flat_map]. rewrite <- ?app_assoc. cbn [app]. rewrite ?app_nil_r. rewrite <- ?app_assoc. reflexivity. Qed.

  Lemma parse_plain n : ~ In 59 n -> parse_composite all_cats n = None.
  Proof.
    intros H. unfold all_cats. cbn [parse_composite]. destruct (cut (fun x => x =? 61) n) as [a b] eqn:E. apply cut_spec in E. destruct E as (-> & _ & _).
    destruct (negb (same a (lc 0))); auto. destruct b as [|x b]; auto.
    rewrite cut_all; [destruct b; reflexivity|]. intros y Y. destruct (Z.eqb_spec y 59) as [->|]; auto. exfalso. apply H. rewrite in_app_iff. right. now right.
  Qed.

  Lemma is_c_composite f : is_c (composite f) = false.
  Proof. reflexivity. Qed.

  Lemma spells_plain n v : spells n v -> forall c, category c -> plain (v c).
  Proof. intros [[P V]|[_ P]] c C; [rewrite V; exact P|auto]. Qed.

  Lemma testbits mask : mask = LC_ALL_MASK -> filter (Z.testbit mask) all_cats = all_cats.
  Proof. intros ->. reflexivity. Qed.

  Lemma spells_value n v : spells n v -> forall c, category c -> (match parse_composite all_cats n with Some p => lookup c p | None => Val n end) = Val (v c).
  Proof.
    intros [[P V]|[-> P]] c C.
    - rewrite parse_plain by apply P. now rewrite V.
    - rewrite <- compose_composite, parse_compose; [|discriminate|].
      + apply (lookup_map v all_cats c C).
      + intros d D. specialize (P d D). split; apply P.
  Qed.

  Lemma load_all n v g : spells n v ->
    exists e l, load_locale cdata archive paths file LC_ALL_MASK n (Some g) = Ok (e, l) /\
      (e = 0 <-> forall c, category c -> stands c (v c) <> None) /\
      (e = 0 -> named l /\ forall c, category c -> stands c (v c) = Some (cat l c)) /\
      (e <> 0 -> all_name l = all_name g /\ forall c, category c -> cat l c = cat g c \/ stands c (v c) = Some (cat l c)) /\
      (stands LC_CTYPE (v LC_CTYPE) = None -> l = g) /\
      (saneP -> settled g -> settled l).
  Proof.
    intros SP. unfold load_locale. replace (negb (Z.land LC_ALL_MASK LC_ALL_MASK =? LC_ALL_MASK)) with false by reflexivity.
    rewrite Z.eqb_refl, andb_true_r. destruct (is_c n) eqn:E.
    - assert (V : forall c, v c = n).
      { destruct SP as [[_ V]|[-> _]]; auto. rewrite is_c_composite in E. discriminate. }
      assert (ST : forall c, stands c (v c) = Some (name_C, cdata c)) by (intros c; rewrite V; unfold stands_for; now rewrite E).
      exists 0, (c_locale cdata). split; [reflexivity|]. split; [|split; [|split; [|split]]].
      + split; auto. intros _ c _. rewrite ST. discriminate.
      + intros _. split; [exact c_named|]. intros c _. apply ST.
      + congruence.
      + rewrite ST. discriminate.
      + intros SA _. now apply c_settled.
    - cbv zeta. rewrite testbits by reflexivity.
      destruct (load_cats_ok (fun c => match parse_composite all_cats n with Some p => lookup c p | None => Val n end) v all_cats g) as (ok & l & -> & AN & OK1 & OK2 & OUT & INN & HD & SE).
      { intros c C. now apply spells_value. }
      cbn [bind]. destruct ok.
      + exists 0, (update_name l). split; [reflexivity|]. split; [|split; [|split; [|split]]].
        * split; [intros _; now apply OK1|auto].
        * intros _. split; [reflexivity|]. intros c C. apply (OK2 eq_refl c C).
        * congruence.
        * intros X. exfalso. destruct OK1 as [OK1 _]. apply (OK1 eq_refl LC_CTYPE); auto. now left.
        * intros SA S0. apply update_settled, SE; auto. intros c C. eapply spells_plain; eauto.
      + exists ENOENT, l. split; [reflexivity|]. split; [|split; [|split; [|split]]].
        * split; [discriminate|]. intros X. apply OK1 in X. discriminate.
        * discriminate.
        * intros _. split; auto.
        * exact HD.
        * intros SA S0. apply SE; auto. intros c C. eapply spells_plain; eauto.
  Qed.

  Lemma env_var getenv v : env getenv v = var getenv v.
  Proof. reflexivity. Qed.

  Lemma apply_env_ok getenv : forall cs done l, NoDup cs ->
    exists ok done' l', apply_env cdata archive paths file getenv cs done l = (ok, done', l') /\
      (ok = true -> (forall c, In c done' <-> In c done \/ In c cs /\ var getenv (lc c) <> None) /\
         (forall c n, In c cs -> var getenv (lc c) = Some n -> stands c n = Some (cat l' c)) /\
         (forall c, ~ (In c cs /\ var getenv (lc c) <> None) -> cat l' c = cat l c)) /\
      (saneP -> acceptable_env getenv -> settled l -> settled l').
  Proof.
    induction cs as [|c cs IH]; intros done l ND.
    - exists true, done, l. split; [reflexivity|]. split; auto. intros _. split; [intros c; cbn; tauto|]. split; [intros c n []|auto].
    - inversion ND as [|? ? NI ND']; subst. cbn [apply_env]. rewrite env_var. destruct (var getenv (lc c)) as [n|] eqn:E.
      + rewrite apply_stands. destruct (stands c n) as [w|] eqn:ST.
        * destruct (IH (c :: done) (set_cat l c w) ND') as (ok & done' & l' & -> & H & SE). exists ok, done', l'. split; [reflexivity|]. split.
          -- intros OK. destruct (H OK) as (H1 & H2 & H3). split; [|split].
             ++ intros d. rewrite H1. cbn [In]. destruct (Z.eq_dec c d) as [<-|ND0]; [|tauto]. rewrite E. split; [intros _; right; split; [now left|discriminate]|tauto].
             ++ intros d m [<-|D] V; [|now apply H2]. rewrite E in V. injection V as <-. rewrite ST. rewrite H3 by tauto. cbn. now rewrite Z.eqb_refl.
             ++ intros d D. rewrite H3 by (cbn in D; tauto). cbn. destruct (Z.eqb_spec d c) as [->|]; auto. exfalso. apply D. split; [now left|congruence].
          -- intros SA AE S0. apply SE; auto. eapply set_settled; eauto. unfold var in E. destruct (getenv (lc c)) as [[|x r]|] eqn:G; try discriminate. injection E as <-. destruct (AE _ _ G); [discriminate|assumption].
        * exists false, done, l. split; [reflexivity|]. split; [discriminate|auto].
      + destruct (IH done l ND') as (ok & done' & l' & -> & H & SE). exists ok, done', l'. split; [reflexivity|]. split; [|exact SE].
        intros OK. destruct (H OK) as (H1 & H2 & H3). split; [|split].
        * intros d. rewrite H1. cbn [In]. destruct (Z.eq_dec c d) as [<-|ND0]; [|tauto]. rewrite E. tauto.
        * intros d m [<-|D] V; [congruence|now apply H2].
        * intros d D. apply H3. cbn in D. tauto.
  Qed.

  Lemma apply_lang_ok n : forall cs done l,
    exists ok l', apply_lang cdata archive paths file cs done n l = (ok, l') /\
      (ok = true -> (forall c, In c cs -> ~ In c done -> stands c n = Some (cat l' c)) /\
         (forall c, In c done \/ ~ In c cs -> cat l' c = cat l c)) /\
      (saneP -> plain n -> settled l -> settled l').
  Proof.
    induction cs as [|c cs IH]; intros done l.
    - exists true, l. split; [reflexivity|]. split; auto. intros _. split; [intros c []|auto].
    - cbn [apply_lang]. destruct (existsb (Z.eqb c) done) eqn:E.
      + assert (D : In c done) by (apply existsb_exists in E; destruct E as (x & X & Y); apply Z.eqb_eq in Y; now subst).
        destruct (IH done l) as (ok & l' & -> & H & SE). exists ok, l'. split; [reflexivity|]. split; auto.
        intros OK. destruct (H OK) as (H1 & H2). split; [intros d [<-|Hd] N; [tauto|auto]|]. intros d [?|Hd]; auto. apply H2. right. intros X; apply Hd; now right.
      + assert (D : ~ In c done).
        { intros D. assert (X : existsb (Z.eqb c) done = true) by (apply existsb_exists; exists c; split; auto; apply Z.eqb_refl). congruence. }
        rewrite apply_stands. destruct (stands c n) as [w|] eqn:ST.
        * destruct (IH done (set_cat l c w)) as (ok & l' & -> & H & SE). exists ok, l'. split; [reflexivity|]. split.
          -- intros OK. destruct (H OK) as (H1 & H2). split.
             ++ intros d [<-|Hd] N; [|auto]. destruct (in_dec Z.eq_dec c cs) as [I|I]; [now apply H1|]. rewrite H2 by auto. cbn. now rewrite Z.eqb_refl.
             ++ intros d Hd. rewrite H2 by (cbn in Hd; tauto). cbn. destruct (Z.eqb_spec d c) as [->|]; auto. exfalso. cbn in Hd. tauto.
          -- intros SA PL S0. apply SE; auto. eapply set_settled; eauto.
        * exists false, l. split; [reflexivity|]. split; [discriminate|auto].
  Qed.

  Local Notation setl := (setlocale cdata archive paths file).

  Lemma env_plain getenv v n : acceptable_env getenv -> var getenv v = Some n -> plain n.
  Proof. intros AE V. unfold var in V. destruct (getenv v) as [[|x r]|] eqn:G; try discriminate. injection V as <-. destruct (AE _ _ G); [discriminate|assumption]. Qed.

  Lemma all_cats_nodup : NoDup all_cats.
  Proof. unfold all_cats. repeat constructor; cbn; intuition discriminate. Qed.

  Lemma setlocale_keeps getenv g c name r g' : saneP -> acceptable c name -> acceptable_env getenv -> settled g ->
    setl getenv g c name = Ok (r, g') -> settled g' /\ (r <> None -> named g \/ name <> None -> named g').
  Proof.
    intros SA AC AE S0 H. unfold setlocale in H.
    assert (FI : forall l, (n <- category_name l c ;; Ok (Some n, l)) = Ok (r, g') -> l = g').
    { intros l X. destruct (category_name l c); cbn in X; congruence. }
    assert (LO : forall n v, spells n v -> ('(e, l) <- load_locale cdata archive paths file LC_ALL_MASK n (Some g) ;;
        if e =? 0 then n <- category_name (update_name l) c ;; Ok (Some n, update_name l) else Ok (None, l)) = Ok (r, g') -> settled g' /\ (r <> None -> named g \/ name <> None -> named g')).
    { intros n v SP X. destruct (load_all n v g SP) as (e & l & E & _ & H0 & H1 & _ & SE). rewrite E in X. cbn [bind] in X. destruct (e =? 0).
      - apply FI in X. subst g'. split; [apply update_settled, SE; auto|]. intros _ _. apply update_named.
      - injection X as <- <-. split; [apply SE; auto|]. congruence. }
    destruct name as [[|x n]|].
    - assert (EB : (let '(ok, done, l) := apply_env cdata archive paths file getenv all_cats [] g in
              if negb ok then Ok (None, l)
              else let '(ok, l) := apply_lang cdata archive paths file all_cats done (match env getenv name_LANG with Some n => n | None => name_C end) l in
                   if negb ok then Ok (None, l) else n <- category_name (update_name l) c ;; Ok (Some n, update_name l)) = Ok (r, g') -> settled g' /\ (r <> None -> named g \/ Some (@nil Z) <> None -> named g')).
      { destruct (apply_env_ok getenv all_cats [] g all_cats_nodup) as (ok & done & l & -> & _ & SE).
        destruct ok; cbn [negb].
        - destruct (apply_lang_ok (match env getenv name_LANG with Some n => n | None => name_C end) all_cats done l) as (ok & l' & -> & _ & SE').
          assert (settled l').
          { apply SE'; auto. rewrite env_var. destruct (var getenv name_LANG) eqn:V; [eapply env_plain; eauto|exact plain_C]. }
          destruct ok; cbn [negb].
          + intros X. apply FI in X. subst g'. split; [now apply update_settled|]. intros _ _. apply update_named.
          + intros X. injection X as <- <-. split; auto. congruence.
        - intros X. injection X as <- <-. split; auto. congruence. }
      rewrite env_var in H. destruct (var getenv (lc LC_ALL)) as [n|] eqn:V; auto. destruct (c =? LC_ALL); auto.
      apply (LO n (fun _ => n)); auto. left. split; auto. eapply env_plain; eauto.
    - destruct AC as [AC|AC]; [discriminate|]. destruct (Z.eqb_spec c LC_ALL) as [->|NA].
      + destruct AC as [P|(_ & f & E & P)]; [apply (LO (x :: n) (fun _ => x :: n)); [left; auto|exact H]|].
        apply (LO (x :: n) f); [right; split; [exact E|exact P]|exact H].
      + destruct (negb ((0 <=? c) && (c <=? 12))) eqn:B; [discriminate|]. rewrite apply_stands in H. destruct (stands c (x :: n)) as [w|] eqn:ST.
        * apply FI in H. subst g'. split; [|intros _ _; apply update_named]. apply update_settled.
          destruct AC as [P|(X & _)]; [eapply set_settled; eauto|congruence].
        * injection H as <- <-. split; auto. congruence.
    - apply FI in H. subst g'. split; auto. intros _ [?|?]; [assumption|congruence].
  Qed.

  Lemma reached_settled : saneP -> forall ok g, reached cdata archive paths file ok g -> settled g /\ (ok = true -> named g).
  Proof.
    intros SA ok g R. induction R as [|ok g c name getenv r g' R [IH1 IH2] AC AE H].
    - split; [now apply c_settled|intros _; apply c_named].
    - destruct (setlocale_keeps getenv g c name r g' SA AC AE IH1 H) as [A B]. split; auto.
      intros E. apply andb_true_iff in E. destruct E as [-> E]. apply B; [destruct r; discriminate|]. left. auto.
  Qed.

  Lemma update_name_ext l l' : (forall c, category c -> fst (cat l c) = fst (cat l' c)) -> all_name (update_name l) = all_name (update_name l').
  Proof.
    intros H. unfold update_name. cbn [all_name].
    assert (forallb (fun c => same (fst (cat l LC_CTYPE)) (fst (cat l c))) all_cats = forallb (fun c => same (fst (cat l' LC_CTYPE)) (fst (cat l' c))) all_cats) as ->.
    { unfold all_cats. cbn [forallb]. rewrite !H by (unfold category, all_cats; cbn; tauto). reflexivity. }
    rewrite (H LC_CTYPE) by (left; reflexivity). destruct (forallb _ all_cats); auto.
    unfold all_cats. cbn [compose]. rewrite !H by (unfold category, all_cats; cbn; tauto). reflexivity.
  Qed.

  Lemma name_spells l : settled l -> named l -> exists v, spells (all_name l) v /\ forall c, category c -> v c = fst (cat l c).
  Proof.
    intros S0 N. rewrite N. unfold update_name. cbn [all_name].
    destruct (forallb (fun c => same (fst (cat l LC_CTYPE)) (fst (cat l c))) all_cats) eqn:E.
    - exists (fun _ => fst (cat l LC_CTYPE)). split.
      + left. split; auto. apply S0. now left.
      + intros c C. rewrite forallb_forall in E. specialize (E c C). now destruct (same_spec (fst (cat l LC_CTYPE)) (fst (cat l c))).
    - exists (fun c => fst (cat l c)). split; auto. right. split; [apply compose_composite|]. intros c C. now apply S0.
  Qed.

  Lemma spells_nonempty n v : spells n v -> n <> [].
  Proof. intros [[(N & _) _]|[-> _]]; auto. discriminate. Qed.

  Lemma setlocale_all getenv g n : n <> [] -> setl getenv g LC_ALL (Some n) =
    ('(e, l) <- load_locale cdata archive paths file LC_ALL_MASK n (Some g) ;;
     if e =? 0 then Ok (Some (all_name (update_name l)), update_name l) else Ok (None, l)).
  Proof. intros N. destruct n as [|x n]; [congruence|]. reflexivity. Qed.

  Lemma restore_ok g' : saneP -> settled g' -> named g' -> forall getenv g2, exists g3,
    setl getenv g2 LC_ALL (Some (all_name g')) = Ok (Some (all_name g'), g3) /\ forall c, category c -> cat g3 c = cat g' c.
  Proof.
    intros SA S0 N getenv g2. destruct (name_spells g' S0 N) as (v & SP & V).
    rewrite setlocale_all by (eapply spells_nonempty; eauto).
    destruct (load_all (all_name g') v g2 SP) as (e & l & E & OK & L & _). rewrite E. cbn [bind].
    assert (e = 0) as ->.
    { apply OK. intros c C. rewrite V by auto. destruct (S0 c C) as [_ ->]. discriminate. }
    destruct (L eq_refl) as [NL ST]. cbn [Z.eqb].
    assert (CE : forall c, category c -> cat l c = cat g' c).
    { intros c C. specialize (ST c C). rewrite V in ST by auto. destruct (S0 c C) as [_ X]. rewrite X in ST. injection ST as ST. now symmetry. }
    exists (update_name l). split; [|exact CE]. f_equal. f_equal. f_equal. rewrite N. apply update_name_ext. intros c C. now rewrite CE.
  Qed.

  Lemma cat_range c : category c -> (c =? LC_ALL) = false /\ (0 <=? c) && (c <=? 12) = true.
  Proof. unfold category, all_cats. cbn. intuition (subst; reflexivity). Qed.

  Lemma setlocale_name getenv g c name N g' : setl getenv g c name = Ok (Some N, g') -> category_name g' c = Ok N.
  Proof.
    unfold setlocale. intros H.
    assert (FI : forall l, (n <- category_name l c ;; Ok (Some n, l)) = Ok (Some N, g') -> category_name g' c = Ok N).
    { intros l X. destruct (category_name l c) eqn:E; cbn in X; try discriminate. injection X as <- <-. exact E. }
    assert (LO : forall n, ('(e, l) <- load_locale cdata archive paths file LC_ALL_MASK n (Some g) ;;
        if e =? 0 then n <- category_name (update_name l) c ;; Ok (Some n, update_name l) else Ok (None, l)) = Ok (Some N, g') -> category_name g' c = Ok N).
    { intros n X. destruct (load_locale _ _ _ _ _ n _) as [[e l]| | |]; cbn [bind] in X; try discriminate. destruct (e =? 0); [eauto|discriminate]. }
    destruct name as [[|x n]|].
    - assert (EB : (let '(ok, done, l) := apply_env cdata archive paths file getenv all_cats [] g in
              if negb ok then Ok (None, l)
              else let '(ok, l) := apply_lang cdata archive paths file all_cats done (match env getenv name_LANG with Some n => n | None => name_C end) l in
                   if negb ok then Ok (None, l) else n <- category_name (update_name l) c ;; Ok (Some n, update_name l)) = Ok (Some N, g') -> category_name g' c = Ok N).
      { destruct (apply_env _ _ _ _ _ _ _ _) as [[[] done] l]; cbn [negb]; [|discriminate]. destruct (apply_lang _ _ _ _ _ _ _ _) as [[] l']; cbn [negb]; [eauto|discriminate]. }
      destruct (env getenv (lc LC_ALL)); auto. destruct (c =? LC_ALL); auto. eauto.
    - destruct (c =? LC_ALL); [eauto|]. destruct (negb _); [discriminate|]. destruct (apply_category _ _ _ _ _ _ _); [eauto|discriminate].
    - eauto.
  Qed.

  Lemma setlocale_one getenv g c n : category c -> n <> [] -> setl getenv g c (Some n) =
    match stands c n with Some v => Ok (Some (fst v), update_name (set_cat g c v)) | None => Ok (None, g) end.
  Proof.
    intros C N. destruct (cat_range c C) as [R1 R2]. unfold setlocale. destruct n as [|x n]; [congruence|]. rewrite R1, R2. cbn [negb].
    rewrite apply_stands. destruct (stands c (x :: n)); auto. unfold category_name. rewrite R1, R2. cbn. now rewrite Z.eqb_refl.
  Qed.

  Lemma env_all getenv g N g' : setl getenv g LC_ALL (Some []) = Ok (Some N, g') -> (forall n, var getenv (lc LC_ALL) = Some n -> plain n) ->
    forall c, category c -> stands c (wanted getenv c) = Some (cat g' c).
  Proof.
    intros H PL c C. unfold setlocale in H. rewrite env_var in H. unfold wanted. destruct (var getenv (lc LC_ALL)) as [n|] eqn:V.
    - rewrite Z.eqb_refl in H. destruct (load_all n (fun _ => n) g) as (e & l & E & _ & L & _); [left; auto|]. rewrite E in H. cbn [bind] in H.
      destruct (Z.eqb_spec e 0) as [->|]; [|discriminate]. cbn in H. injection H as _ <-. cbn. now apply L.
    - destruct (apply_env_ok getenv all_cats [] g all_cats_nodup) as (ok & done & l & E1 & H1 & _). rewrite E1 in H. destruct ok; cbn [negb] in H; [|discriminate].
      destruct (apply_lang_ok (match env getenv name_LANG with Some n => n | None => name_C end) all_cats done l) as (ok & l' & E2 & H2 & _). rewrite E2 in H. destruct ok; cbn [negb] in H; [|discriminate].
      cbn in H. injection H as _ <-. cbn [cat update_name]. destruct (H1 eq_refl) as (D & A1 & A2). destruct (H2 eq_refl) as (B1 & B2).
      destruct (var getenv (lc c)) as [n|] eqn:VC.
      + rewrite B2; [now apply A1|]. left. apply D. right. split; auto. congruence.
      + specialize (B1 c C). rewrite env_var in B1. destruct (var getenv name_LANG); apply B1; rewrite D; cbn; intuition congruence.
  Qed.

  Lemma newlocale_ok mask n v base : Z.land mask LC_ALL_MASK = mask -> spells n v ->
    let old := match base with Some b => b | None => c_locale cdata end in
    exists e l, newlocale cdata archive paths file mask n base = Ok (e, l) /\
      (e = 0 <-> forall c, category c -> Z.testbit mask c = true -> stands c (v c) <> None) /\ (e <> 0 -> e = ENOENT) /\
      (e = 0 -> named l /\ forall c, category c -> if Z.testbit mask c then stands c (v c) = Some (cat l c) else cat l c = cat old c).
  Proof.
    intros M SP old. unfold newlocale, load_locale. fold old. replace (Z.land mask LC_ALL_MASK =? mask) with true by (rewrite M; symmetry; apply Z.eqb_refl). cbn [negb].
    destruct (is_c n && (mask =? LC_ALL_MASK)) eqn:E.
    - apply andb_true_iff in E. destruct E as [E1 E2]. apply Z.eqb_eq in E2.
      assert (V : forall c, v c = n) by (destruct SP as [[_ V]|[-> _]]; auto; rewrite is_c_composite in E1; discriminate).
      assert (ST : forall c, stands c (v c) = Some (name_C, cdata c)) by (intros c; rewrite V; unfold stands_for; now rewrite E1).
      exists 0, (c_locale cdata). split; [reflexivity|]. split; [split; auto; intros _ c _ _; rewrite ST; discriminate|]. split; [congruence|]. intros _. split; [exact c_named|].
      intros c C. subst mask. assert (Z.testbit LC_ALL_MASK c = true) as ->; [|apply ST]. pose proof (testbits LC_ALL_MASK eq_refl) as T. unfold category in C. rewrite <- T in C. apply filter_In in C. apply C.
    - cbv zeta. set (cs := filter (Z.testbit mask) all_cats).
      assert (IN : forall c, In c cs <-> category c /\ Z.testbit mask c = true) by (intros c; apply filter_In).
      destruct (load_cats_ok (fun c => match parse_composite all_cats n with Some p => lookup c p | None => Val n end) v cs old) as (ok & l & -> & AN & OK1 & OK2 & OUT & INN & HD & SE).
      { intros c C. apply IN in C. now apply spells_value. }
      cbn [bind]. destruct ok.
      + exists 0, (update_name l). split; [reflexivity|]. split; [split; auto; intros _ c C B; apply OK1; auto; now apply IN|]. split; [congruence|]. intros _. split; [reflexivity|].
        intros c C. cbn [cat update_name]. destruct (Z.testbit mask c) eqn:B; [apply OK2; auto; now apply IN|]. apply OUT. rewrite IN. intuition congruence.
      + exists ENOENT, l. split; [reflexivity|]. split; [split; [discriminate|]|split; [reflexivity|discriminate]].
        intros X. assert (false = true); [|discriminate]. apply OK1. intros c C. apply IN in C. apply X; apply C.
  Qed.
End P.
