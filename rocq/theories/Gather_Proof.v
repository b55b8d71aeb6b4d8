From Verif Require Import Base Gather_Model Gather_Spec.
Open Scope Z_scope.

Lemma sum_nonneg v : Forall sized v -> 0 <= sum v.
Proof. induction 1 as [|x v S _ IH]; cbn [sum fold_right]; [lia|]. fold (sum v). unfold sized in S. lia. Qed.
Lemma total_ok v : Forall sized v -> forall b, 0 <= b <= SSIZE_MAX -> total v b = if b + sum v <=? SSIZE_MAX then Some (b + sum v) else None.
Proof.
  induction 1 as [|x v S F IH]; intros b B; cbn [total sum fold_right]; try fold (sum v).
  - rewrite Z.add_0_r. now rewrite (proj2 (Z.leb_le _ _)) by lia.
  - pose proof (sum_nonneg v F) as P. unfold sized in S. unfold SSIZE_MAX in *. rewrite (Z.mod_small (_ - b)) by lia. destruct (Z.ltb_spec (9223372036854775807 - b) (iov_len x)).
    + destruct (Z.leb_spec (b + (iov_len x + sum v)) 9223372036854775807); [lia|reflexivity].
    + rewrite Z.mod_small by lia. rewrite IH by lia. rewrite Z.add_assoc. reflexivity.
Qed.

Lemma empty_pieces v : Forall readable v -> sum v = 0 -> concat (map bytes_of v) = [].
Proof.
  induction 1 as [|x v R F IH]; cbn [sum fold_right map concat]; try fold (sum v); [reflexivity|]. intros E. assert (0 <= sum v). { clear -F. induction F as [|y v R F IH]; cbn [sum fold_right]; try fold (sum v); [lia|]. unfold readable in R. lia. }
  unfold readable in R. rewrite IH by lia. unfold bytes_of. replace (iov_len x) with 0 by lia. reflexivity.
Qed.
Lemma gather_ok v : Forall readable v -> forall old rest, Z.of_nat (length rest) = sum v ->
  gather v (Z.of_nat (length old)) (sum v) (old ++ rest) = Ok (old ++ concat (map bytes_of v)).
Proof.
  induction 1 as [|x v R F IH]; intros old rest L.
  - cbn [sum fold_right] in L. destruct rest; [reflexivity|cbn [length] in L; lia].
  - assert (P : 0 <= sum v). { clear -F. induction F as [|y v R F IH]; cbn [sum fold_right]; try fold (sum v); [lia|]. unfold readable in R. lia. }
    cbn [sum fold_right] in L |- *. fold (sum v) in L |- *. cbn [gather]. cbv zeta. unfold readable in R. rewrite Z.min_l by lia. unfold memcpy.
    destruct (Z.ltb_spec (Z.of_nat (length (iov_base x))) (iov_len x)); [lia|]. rewrite app_length.
    destruct (Z.ltb_spec (Z.of_nat (length old + length rest)) (Z.of_nat (length old) + iov_len x)); [lia|]. cbn [orb bind].
    rewrite Nat2Z.id. rewrite firstn_app, Nat.sub_diag, firstn_all, firstn_O, app_nil_r. rewrite Z2Nat.inj_add, Nat2Z.id by lia.
    rewrite skipn_app. rewrite skipn_all2 by lia. replace (length old + Z.to_nat (iov_len x) - length old)%nat with (Z.to_nat (iov_len x)) by lia. cbn [app].
    fold (bytes_of x). cbn [map concat]. replace (iov_len x + sum v - iov_len x) with (sum v) by lia.
    assert (LB : length (bytes_of x) = Z.to_nat (iov_len x)) by (unfold bytes_of; rewrite firstn_length; lia).
    destruct (Z.eqb_spec (sum v) 0) as [E|E].
    + rewrite (empty_pieces v F E), app_nil_r. rewrite skipn_all2 by lia. now rewrite app_nil_r.
    + specialize (IH (old ++ bytes_of x) (skipn (Z.to_nat (iov_len x)) rest)). rewrite app_length, LB in IH.
      replace (Z.of_nat (length old + Z.to_nat (iov_len x))) with (Z.of_nat (length old) + iov_len x) in IH by lia. rewrite <- !app_assoc in IH. apply IH. rewrite skipn_length. lia.
Qed.

Lemma writev_ok iovs : iovs <> [] -> Forall readable iovs -> sum iovs <= SSIZE_MAX -> writev iovs (Z.of_nat (length iovs)) = Ok (inr (concat (map bytes_of iovs))).
Proof.
  intros N R B. assert (S : Forall sized iovs /\ 0 <= sum iovs).
  { clear N. revert B. induction R as [|x v X R IH]; cbn [sum fold_right]; try fold (sum v); [split; [constructor|lia]|]. unfold readable in X. unfold SSIZE_MAX in *. intros B.
    destruct IH as [I P]; [lia|]. split; [constructor; [unfold sized; lia|exact I]|lia]. }
  destruct S as [S P]. unfold writev. destruct (Z.eqb_spec (Z.of_nat (length iovs)) 0) as [E|E]; [destruct iovs; [congruence|cbn [length] in E; lia]|].
  rewrite Z.ltb_irrefl, Nat2Z.id, firstn_all. rewrite total_ok by (assumption || (unfold SSIZE_MAX; lia)). cbn [Z.add]. rewrite (proj2 (Z.leb_le _ _) B).
  assert (G := gather_ok iovs R [] (repeat 0 (Z.to_nat (sum iovs)))). cbn [length Z.of_nat app] in G. rewrite G; [reflexivity|]. rewrite repeat_length. lia.
Qed.
Lemma toolong_ok iovs : iovs <> [] -> Forall sized iovs -> SSIZE_MAX < sum iovs -> writev iovs (Z.of_nat (length iovs)) = Ok (inl EINVAL).
Proof.
  intros N S B. unfold writev. destruct (Z.eqb_spec (Z.of_nat (length iovs)) 0) as [E|E]; [destruct iovs; [congruence|cbn [length] in E; lia]|].
  rewrite Z.ltb_irrefl, Nat2Z.id, firstn_all. rewrite total_ok by (assumption || (unfold SSIZE_MAX; lia)). cbn [Z.add]. destruct (Z.leb_spec (sum iovs) SSIZE_MAX); [lia|reflexivity].
Qed.
Lemma negative_ok iovs c : c < 0 -> writev iovs c = Ok (inr []).
Proof.
  intros C. unfold writev. destruct (Z.eqb_spec c 0); [lia|]. destruct (Z.ltb_spec (Z.of_nat (length iovs)) c); [lia|]. replace (Z.to_nat c) with O by lia. reflexivity.
Qed.

(** swab *)
Definition swapped (m : mem) (src dest i : Z) : mem := fun a => if (dest <=? a) && (a <? dest + i) then m (src + partner (a - dest)) else m a.
Lemma load_ext m m' p : m p = m' p -> load m p = load m' p.
Proof. unfold load. now intros ->. Qed.

Lemma loop_ok src dest n m : (forall j, 0 <= j < in_pairs n -> m (src + j) <> None) -> (forall j, 0 <= j < in_pairs n -> m (dest + j) <> None) ->
  (src + in_pairs n <= dest \/ dest + in_pairs n <= src) -> 
  forall f i m1, Z.even i = true -> 0 <= i -> (i <= in_pairs n) -> (Z.to_nat (n - i) < f)%nat -> (forall a, m1 a = swapped m src dest i a) ->
  exists m', swab_loop f m1 src dest n i = Ok m' /\ forall a, m' a = swapped m src dest (in_pairs n) a.
Proof.
  intros S D Dis. induction f as [|f IH]; intros i m1 E I0 I1 Fu M; [lia|]. cbn [swab_loop].
  assert (IP : in_pairs n = if 0 <? n then 2 * (n / 2) else 0) by reflexivity.
  apply Z.even_spec in E. destruct E as [h Eh]. assert (Q : 0 <= n -> n - 1 <= 2 * (n / 2) <= n) by (intros; pose proof (Z.div_mod n 2); pose proof (Z.mod_pos_bound n 2); lia).
  destruct (Z.ltb_spec i n); cbn [andb]; [destruct (Z.ltb_spec 1 (n - i)); cbn [andb]|].
  - rewrite (proj2 (Z.ltb_lt 0 n)) in IP by lia.
    assert (B : i + 2 <= in_pairs n) by lia.
    assert (OutS : forall j, i <= j < in_pairs n -> m1 (src + j) = m (src + j)).
    { intros j J. rewrite M. unfold swapped. destruct (Z.leb_spec dest (src + j)), (Z.ltb_spec (src + j) (dest + i)); cbn [andb]; try reflexivity. lia. }
    assert (OutD : forall j, i <= j < in_pairs n -> m1 (dest + j) = m (dest + j)).
    { intros j J. rewrite M. unfold swapped. destruct (Z.ltb_spec (dest + j) (dest + i)); [lia|]. now rewrite andb_false_r. }
    unfold load at 1. rewrite OutS by lia. destruct (m (src + (i + 1))) as [x|] eqn:X; [|exfalso; apply (S (i + 1)); [lia|exact X]]. cbn [bind].
    unfold store at 1. rewrite OutD by lia. destruct (m (dest + i)) as [d|] eqn:Y; [|exfalso; apply (D i); [lia|exact Y]]. cbn [bind].
    unfold load. unfold upd at 1. destruct (Z.eqb_spec (src + i) (dest + i)); [lia|]. rewrite OutS by lia.
    destruct (m (src + i)) as [y|] eqn:W; [|exfalso; apply (S i); [lia|exact W]]. cbn [bind].
    unfold store. unfold upd at 1. destruct (Z.eqb_spec (dest + (i + 1)) (dest + i)); [lia|]. rewrite OutD by lia.
    destruct (m (dest + (i + 1))) as [d'|] eqn:V; [|exfalso; apply (D (i + 1)); [lia|exact V]]. cbn [bind].
    apply IH; [apply Z.even_spec; exists (h + 1); lia|lia|lia|lia|].
    intros a. unfold upd. destruct (Z.eqb_spec a (dest + (i + 1))) as [A|A].
    { unfold swapped. destruct (Z.leb_spec dest a); [|lia]. destruct (Z.ltb_spec a (dest + (i + 2))); [|lia]. cbn [andb]. unfold partner. replace (a - dest) with (i + 1) by lia.
      assert (O : Z.even (i + 1) = false). { rewrite <- Z.negb_odd. apply negb_false_iff. apply Z.odd_spec. exists h. lia. } rewrite O. replace (i + 1 - 1) with i by lia. now symmetry. }
    destruct (Z.eqb_spec a (dest + i)) as [A'|A'].
    { unfold swapped. destruct (Z.leb_spec dest a); [|lia]. destruct (Z.ltb_spec a (dest + (i + 2))); [|lia]. cbn [andb]. unfold partner. replace (a - dest) with i by lia.
      assert (O : Z.even i = true) by (apply Z.even_spec; exists h; lia). rewrite O. now symmetry. }
    rewrite M. unfold swapped. destruct (Z.leb_spec dest a); cbn [andb]; [|reflexivity]. destruct (Z.ltb_spec a (dest + i)), (Z.ltb_spec a (dest + (i + 2))); try reflexivity; lia.
  - exists m1. split; [reflexivity|]. intros a. rewrite M. destruct (Z.ltb_spec 0 n); [|replace (in_pairs n) with i by lia; reflexivity].
    replace (in_pairs n) with i; [reflexivity|]. lia.
  - exists m1. split; [reflexivity|]. intros a. rewrite M. destruct (Z.ltb_spec 0 n); [|replace (in_pairs n) with i by lia; reflexivity].
    replace (in_pairs n) with i; [reflexivity|]. lia.
Qed.
Lemma swab_ok m src dest n : (forall j, 0 <= j < in_pairs n -> m (src + j) <> None) -> (forall j, 0 <= j < in_pairs n -> m (dest + j) <> None) ->
  (src + in_pairs n <= dest \/ dest + in_pairs n <= src) -> exists m', swab m src dest n = Ok m' /\
  (forall j, 0 <= j < in_pairs n -> m' (dest + j) = m (src + partner j)) /\ (forall a, ~ dest <= a < dest + in_pairs n -> m' a = m a).
Proof.
  intros S D Dis. destruct (loop_ok src dest n m S D Dis (Datatypes.S (Z.to_nat n)) 0 m) as [m' [E H]]; [reflexivity|lia| |lia| |].
  - unfold in_pairs. destruct (Z.ltb_spec 0 n); [|lia]. pose proof (Z.div_pos n 2). lia.
  - intros a. unfold swapped. destruct (Z.leb_spec dest a), (Z.ltb_spec a (dest + 0)); cbn [andb]; try reflexivity. lia.
  - exists m'. split; [exact E|]. split.
    + intros j J. rewrite H. unfold swapped. destruct (Z.leb_spec dest (dest + j)); [|lia]. destruct (Z.ltb_spec (dest + j) (dest + in_pairs n)); [|lia]. cbn [andb]. now replace (dest + j - dest) with j by lia.
    + intros a A. rewrite H. unfold swapped. destruct (Z.leb_spec dest a), (Z.ltb_spec a (dest + in_pairs n)); cbn [andb]; try reflexivity. lia.
Qed.
