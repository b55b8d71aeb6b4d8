From Verif Require Import Base Mode_Model Mode_Spec.
Open Scope Z_scope.

Definition mem (x : Z) (s : list Z) : bool := existsb (fun c => c =? x) s.
Lemma mem_in x s : mem x s = true <-> In x s.
Proof. unfold mem. rewrite existsb_exists. split; [intros (y & H & E); apply Z.eqb_eq in E; now subst|intros H; exists x; split; auto; apply Z.eqb_refl]. Qed.
Lemma has_ok x s rest : ~ In 0 s -> x <> 0 -> has x (s ++ 0 :: rest) = Ok (mem x s).
Proof.
  intros N X. induction s as [|c s IH].
  - cbn [app has]. destruct (Z.eqb_spec 0 x); [lia|reflexivity].
  - unfold mem. cbn [app has existsb]. fold (mem x s). destruct (Z.eqb_spec c x); auto. destruct (Z.eqb_spec c 0) as [->|]; [destruct N; now left|]. apply IH. intros H. apply N. now right.
Qed.
Lemma more_ok s rest : ~ In 0 s -> forall f, exists f', more (s ++ 0 :: rest) f = Ok f' /\ forall b, 0 <= b ->
  Z.testbit f' b = Z.testbit f b || (mem 101 s && (b =? 19)) || (mem 120 s && (b =? 7)).
Proof.
  assert (E : forall b, 0 <= b -> Z.testbit O_CLOEXEC b = (b =? 19)) by (intros b B; change O_CLOEXEC with (2 ^ 19); rewrite Z.pow2_bits_eqb, Z.eqb_sym by lia; reflexivity).
  assert (X : forall b, 0 <= b -> Z.testbit O_EXCL b = (b =? 7)) by (intros b B; change O_EXCL with (2 ^ 7); rewrite Z.pow2_bits_eqb, Z.eqb_sym by lia; reflexivity).
  induction s as [|c s IH]; intros N f.
  - exists f. split; [reflexivity|]. intros b B. cbn. now rewrite !orb_false_r.
  - assert (N' : ~ In 0 s) by (intros H; apply N; now right). cbn [app more]. destruct (Z.eqb_spec c 0) as [->|N0]; [destruct N; now left|]. unfold mem. cbn [existsb]. fold (mem 101 s). fold (mem 120 s).
    destruct (Z.eqb_spec c 43) as [->|]; [destruct (IH N' f) as (f' & F & H); exists f'; split; auto|].
    destruct (Z.eqb_spec c 98) as [->|]; [destruct (IH N' f) as (f' & F & H); exists f'; split; auto|].
    destruct (Z.eqb_spec c 101) as [->|].
    { destruct (IH N' (Z.lor f O_CLOEXEC)) as (f' & F & H). exists f'. split; auto. intros b B. rewrite H, Z.lor_spec, E by auto. cbn [Z.eqb Pos.eqb orb]. destruct (Z.testbit f b), (b =? 19), (b =? 7), (mem 101 s), (mem 120 s); reflexivity. }
    destruct (Z.eqb_spec c 120) as [->|].
    { destruct (IH N' (Z.lor f O_EXCL)) as (f' & F & H). exists f'. split; auto. intros b B. rewrite H, Z.lor_spec, X by auto. cbn [Z.eqb Pos.eqb orb]. destruct (Z.testbit f b), (b =? 19), (b =? 7), (mem 101 s), (mem 120 s); reflexivity. }
    destruct (IH N' f) as (f' & F & H). exists f'. split; auto.
Qed.
Lemma first_ok c pl b : 0 <= b -> Z.testbit (first_flags c pl) b =
  ((b =? 0) && negb pl && ((c =? 119) || (c =? 97))) || ((b =? 1) && pl && ((c =? 114) || (c =? 119) || (c =? 97))) || ((b =? 6) && ((c =? 119) || (c =? 97))) || ((b =? 9) && (c =? 119)) || ((b =? 10) && (c =? 97)).
Proof.
  intros B.
  assert (P : forall k, 0 <= k -> Z.testbit (2 ^ k) b = (b =? k)) by (intros k K; rewrite Z.pow2_bits_eqb, Z.eqb_sym by lia; reflexivity).
  unfold first_flags. change O_RDWR with (2 ^ 1). change O_RDONLY with 0. change O_WRONLY with (2 ^ 0). change O_CREAT with (2 ^ 6). change O_TRUNC with (2 ^ 9). change O_APPEND with (2 ^ 10).
  destruct (Z.eqb_spec c 114) as [->|N1]; [destruct pl|destruct (Z.eqb_spec c 119) as [->|N2]; [destruct pl|destruct (Z.eqb_spec c 97) as [->|N3]; [destruct pl|]]];
    rewrite ?Z.lor_spec, ?P, ?Z.bits_0 by lia; repeat match goal with |- context [?x =? ?y] => lazymatch x with b => fail | _ => first [change (x =? y) with true | change (x =? y) with false] end end; destruct (b =? 0), (b =? 1), (b =? 6), (b =? 9), (b =? 10); try destruct pl; reflexivity.
Qed.
Lemma parse_ok c s rest : mode_string c s -> exists f, parse ((c :: s) ++ 0 :: rest) = Ok f /\ forall b, 0 <= b -> (Z.testbit f b = true <-> wanted c s b).
Proof.
  intros [C A]. assert (N : ~ In 0 s) by (intros H; apply A in H; lia). assert (N' : ~ In 0 (c :: s)) by (unfold r, w, a in C; cbn; intuition lia).
  unfold parse. rewrite has_ok by (auto; lia). cbn [bind app]. destruct (more_ok s rest N (first_flags c (mem 43 (c :: s)))) as (f & -> & H). exists f. split; [reflexivity|]. intros b B. rewrite H, first_ok by auto.
  assert (M : mem 43 (c :: s) = mem 43 s) by (unfold mem; cbn [existsb]; destruct (Z.eqb_spec c 43); [unfold r, w, a in C; lia|reflexivity]). rewrite M. unfold wanted. rewrite <- !mem_in. unfold r, w, a in *.
  destruct (mem 43 s), (mem 101 s), (mem 120 s); destruct C as [->|[->| ->]]; repeat match goal with |- context [?x =? ?y] => lazymatch x with b => fail | _ => first [change (x =? y) with true | change (x =? y) with false] end end; cbn [negb andb orb]; rewrite ?andb_true_r, ?andb_false_r, ?orb_false_r, ?orb_true_iff, ?Z.eqb_eq; clear; intuition (try lia; try congruence).
Qed.
Lemma parse_other c s rest : c <> r -> c <> w -> c <> a -> c <> 0 -> ~ In 0 s -> exists f, parse ((c :: s) ++ 0 :: rest) = Ok f /\ Z.land f 3 = 0 /\ Z.testbit f 6 = false.
Proof.
  intros N1 N2 N3 N0 N. assert (N' : ~ In 0 (c :: s)) by (cbn; intuition). unfold parse. rewrite has_ok by (auto; lia). cbn [bind app].
  destruct (more_ok s rest N (first_flags c (mem 43 (c :: s)))) as (f & -> & H). exists f. split; [reflexivity|]. unfold first_flags in H. unfold r, w, a in *.
  destruct (Z.eqb_spec c 114); [lia|]. destruct (Z.eqb_spec c 119); [lia|]. destruct (Z.eqb_spec c 97); [lia|]. split; [|rewrite H by lia; cbn; now rewrite !andb_false_r].
  apply Z.bits_inj'. intros b B. rewrite Z.land_spec, Z.bits_0, H, Z.bits_0 by auto. destruct (Z.ltb_spec b 2).
  - assert (b =? 19 = false) as -> by lia. assert (b =? 7 = false) as -> by lia. now rewrite !andb_false_r.
  - change 3 with (Z.ones 2). rewrite Z.ones_spec_high by lia. apply andb_false_r.
Qed.
Lemma land_pow2 x k : 0 <= k -> (Z.land x (2 ^ k) =? 0) = negb (Z.testbit x k).
Proof.
  intros K. destruct (Z.eqb_spec (Z.land x (2 ^ k)) 0) as [E|E].
  - apply (f_equal (fun v => Z.testbit v k)) in E. rewrite Z.land_spec, Z.pow2_bits_true, Z.bits_0, andb_true_r in E by auto. now rewrite E.
  - destruct (Z.testbit x k) eqn:T; auto. destruct E. apply Z.bits_inj'. intros b B. rewrite Z.land_spec, Z.bits_0, Z.pow2_bits_eqb by auto. destruct (Z.eqb_spec k b) as [->|]; [now rewrite T|apply andb_false_r].
Qed.
Lemma keep x k j : 0 <= j -> 0 <= k -> j <> k -> Z.testbit (Z.land x (Z.lnot (2 ^ k))) j = Z.testbit x j.
Proof. intros J K N. rewrite Z.land_spec, Z.lnot_spec, Z.pow2_bits_eqb by auto. destruct (Z.eqb_spec k j); [lia|]. apply andb_true_r. Qed.
Lemma fdopen_ok getfl setfl setfd c s rest : mode_string c s -> exists err calls_a calls_e, fdopen getfl setfl setfd ((c :: s) ++ 0 :: rest) = Ok (err, calls_a ++ calls_e) /\
  (c <> a -> calls_a = []) /\
  (c = a -> getfl < 0 -> err = Some 22 /\ calls_a = [GetFl]) /\
  (c = a -> 0 <= getfl -> Z.testbit getfl 10 = true -> calls_a = [GetFl]) /\
  (c = a -> 0 <= getfl -> Z.testbit getfl 10 = false -> calls_a = [GetFl; SetFl (getfl + 1024)] /\ (setfl (getfl + 1024) = false -> err = Some 22)) /\
  (~ In 101 s -> calls_e = []) /\
  (In 101 s -> err = None -> calls_e = [SetCloexec]) /\
  (In 101 s -> setfd = false -> err = Some 22) /\
  (err = None <-> (c = a -> 0 <= getfl /\ (Z.testbit getfl 10 = false -> setfl (getfl + 1024) = true)) /\ (In 101 s -> setfd = true)).
Proof.
  intros M. destruct (parse_ok c s rest M) as (f & E & H). unfold fdopen. rewrite E. cbn [bind]. change O_TRUNC with (2 ^ 9). change O_APPEND with (2 ^ 10). change O_CLOEXEC with (2 ^ 19).
  rewrite !land_pow2, !keep by lia. assert (A : Z.testbit f 10 = true <-> c = a) by (rewrite H by lia; unfold wanted; intuition lia). assert (X : Z.testbit f 19 = true <-> In 101 s) by (rewrite H by lia; unfold wanted; intuition lia).
  assert (AD : Z.testbit getfl 10 = false -> Z.lor getfl (2 ^ 10) = getfl + 1024).
  { intros T. assert (L : Z.land getfl (2 ^ 10) = 0) by (apply Z.eqb_eq; rewrite land_pow2, T by lia; reflexivity). rewrite <- Z.lxor_lor by auto. rewrite <- Z.add_nocarry_lxor by auto. reflexivity. }
  clear H E. destruct (Z.testbit f 10).
  - assert (CA : c = a) by (apply A; auto). cbn [negb]. destruct (Z.ltb_spec getfl 0) as [G|G].
    + exists (Some EINVAL), [GetFl], []. split; [reflexivity|]. unfold EINVAL. repeat split; intros; try congruence; try lia. all: try (destruct H as [H1 _]; specialize (H1 CA); lia).
    + rewrite negb_involutive. destruct (Z.testbit getfl 10) eqn:T.
      * destruct (Z.testbit f 19).
        -- assert (CX : In 101 s) by (apply X; auto). cbn [negb]. destruct setfd.
           ++ exists None, [GetFl], [SetCloexec]. split; [reflexivity|]. repeat split; intros; try congruence; try lia; tauto.
           ++ exists (Some EINVAL), [GetFl], [SetCloexec]. split; [reflexivity|]. unfold EINVAL. repeat split; intros; try congruence; try lia; try tauto. all: try (destruct H as [_ H]; specialize (H CX); discriminate).
        -- assert (CX : ~ In 101 s) by (rewrite <- X; discriminate). cbn [negb]. exists None, [GetFl], []. split; [reflexivity|]. repeat split; intros; try congruence; try lia; tauto.
      * rewrite AD in * by auto. destruct (setfl (getfl + 1024)) eqn:SF.
        -- destruct (Z.testbit f 19).
           ++ assert (CX : In 101 s) by (apply X; auto). cbn [negb]. destruct setfd.
              ** exists None, [GetFl; SetFl (getfl + 1024)], [SetCloexec]. split; [reflexivity|]. repeat split; intros; try congruence; try lia; tauto.
              ** exists (Some EINVAL), [GetFl; SetFl (getfl + 1024)], [SetCloexec]. split; [reflexivity|]. unfold EINVAL. repeat split; intros; try congruence; try lia; try tauto. all: try (destruct H as [_ H]; specialize (H CX); discriminate).
           ++ assert (CX : ~ In 101 s) by (rewrite <- X; discriminate). cbn [negb]. exists None, [GetFl; SetFl (getfl + 1024)], []. split; [reflexivity|]. repeat split; intros; try congruence; try lia; tauto.
        -- exists (Some EINVAL), [GetFl; SetFl (getfl + 1024)], []. split; [reflexivity|]. unfold EINVAL. repeat split; intros; try congruence; try lia. all: try (destruct H as [H1 _]; destruct (H1 CA) as [_ H2]; specialize (H2 eq_refl); congruence).
  - assert (CA : c <> a) by (rewrite <- A; discriminate). cbn [negb]. destruct (Z.testbit f 19).
    + assert (CX : In 101 s) by (apply X; auto). cbn [negb]. destruct setfd.
      * exists None, [], [SetCloexec]. split; [reflexivity|]. repeat split; intros; try congruence; try lia; tauto.
      * exists (Some EINVAL), [], [SetCloexec]. split; [reflexivity|]. unfold EINVAL. repeat split; intros; try congruence; try lia; try tauto. all: try (destruct H as [_ H]; specialize (H CX); discriminate).
    + assert (CX : ~ In 101 s) by (rewrite <- X; discriminate). cbn [negb]. exists None, [], []. split; [reflexivity|]. repeat split; intros; try congruence; try lia; tauto.
Qed.
