From Verif Require Import Base Temp_Model Temp_Spec.
Open Scope Z_scope.

Lemma cstr_stop s r : ~ In 0 s -> cstr (s ++ 0 :: r) = s.
Proof. induction s as [|c s IH]; intros N; cbn; auto. destruct (Z.eqb_spec c 0) as [->|]; [destruct N; now left|]. rewrite IH; auto. intros H. apply N. now right. Qed.
Lemma get_at a c r : get (a ++ c :: r) (Z.of_nat (length a)) = Ok c.
Proof. unfold get. destruct (Z.ltb_spec (Z.of_nat (length a)) 0); [lia|]. rewrite Nat2Z.id, nth_error_app2 by lia. now rewrite Nat.sub_diag. Qed.
Lemma put_at a x y b : length x = length y -> put (a ++ x ++ b) (Z.of_nat (length a)) y = Ok (a ++ y ++ b).
Proof.
  intros L. unfold put. destruct (Z.leb_spec 0 (Z.of_nat (length a))); [|lia]. rewrite !app_length. destruct (Z.leb_spec (Z.of_nat (length a) + Z.of_nat (length y)) (Z.of_nat (length a + (length x + length b)))); [|lia]. cbn [andb].
  rewrite Nat2Z.id. f_equal. f_equal; [|f_equal].
  - rewrite firstn_app, Nat.sub_diag, firstn_all. cbn. apply app_nil_r.
  - rewrite app_assoc, skipn_app, app_length, <- L. rewrite skipn_all2 by (rewrite app_length; lia). rewrite Nat.sub_diag. reflexivity.
Qed.
Lemma digits_number i : 0 <= i < 1000000 -> number (digits i) i.
Proof.
  intros I. split; [reflexivity|]. split.
  - unfold digits. intros c H. apply in_map_iff in H. destruct H as (p & <- & _). pose proof (Z.mod_pos_bound (i / p) 10 ltac:(lia)). lia.
  - unfold digits. cbn [map fold_left].
    assert (S1 : forall x, 0 <= x -> x = 10 * (x / 10) + x mod 10) by (intros; apply Z.div_mod; lia).
    assert (D : forall x p, 0 < p -> x / (10 * p) = x / p / 10) by (intros; rewrite Z.mul_comm, Z.div_div by lia; f_equal; ring).
    pose proof (S1 (i / 1) ltac:(rewrite Z.div_1_r; lia)) as E0. pose proof (S1 (i / 10) ltac:(apply Z.div_pos; lia)) as E1. pose proof (S1 (i / 100) ltac:(apply Z.div_pos; lia)) as E2. pose proof (S1 (i / 1000) ltac:(apply Z.div_pos; lia)) as E3.
    pose proof (S1 (i / 10000) ltac:(apply Z.div_pos; lia)) as E4. rewrite Z.div_1_r in *.
    rewrite <- (D i 10) in E1 by lia. rewrite <- (D i 100) in E2 by lia. rewrite <- (D i 1000) in E3 by lia. rewrite <- (D i 10000) in E4 by lia. change (10 * 10) with 100 in *. change (10 * 100) with 1000 in *. change (10 * 1000) with 10000 in *. change (10 * 10000) with 100000 in *.
    assert (E5 : i / 100000 mod 10 = i / 100000) by (apply Z.mod_small; split; [apply Z.div_pos; lia|apply Z.div_lt_upper_bound; lia]). rewrite E5.
    set (a := i / 10) in *. set (b := i / 100) in *. set (c := i / 1000) in *. set (d := i / 10000) in *. set (e := i / 100000) in *. lia.
Qed.
Lemma digits_length i : length (digits i) = 6%nat. Proof. reflexivity. Qed.
Lemma digits_nz i : 0 <= i < 1000000 -> ~ In 0 (digits i).
Proof. intros I H. destruct (digits_number i I) as (_ & D & _). specialize (D 0 H). lia. Qed.

(** the loop *)
Section A.
  Variables (sys : Z -> list Z -> Z * Z) (mk : list Z -> call) (write : list Z -> Z -> res (list Z)) (pre suf rest : list Z).
  Hypothesis NP : ~ In 0 pre.
  Hypothesis NS : ~ In 0 suf.
  Definition buf (x : list Z) : list Z := pre ++ x ++ suf ++ 0 :: rest.
  Hypothesis WR : forall x i, length x = 6%nat -> write (buf x) i = Ok (buf (digits i)).

  Lemma buf_cstr x : ~ In 0 x -> cstr (buf x) = pre ++ x ++ suf.
  Proof. intros N. unfold buf. rewrite !app_assoc. apply cstr_stop. rewrite !in_app_iff. tauto. Qed.

  Lemma attempts_ok : forall k i x, 0 <= i -> i + Z.of_nat k <= 999999 -> length x = 6%nat -> ~ In 0 x ->
    exists e fd x' paths, attempts sys mk write k i (buf x) = Ok (e, fd, buf x', map mk paths) /\ length x' = 6%nat /\ ~ In 0 x' /\
      ((exists j before d, i <= j < i + Z.of_nat k /\ tried pre suf i j before /\ all_exist sys i before /\ number d j /\ x' = d /\ paths = before ++ [pre ++ d ++ suf] /\
          e = fst (sys j (pre ++ d ++ suf)) /\ e <> 17 /\ (e = 0 -> fd = snd (sys j (pre ++ d ++ suf)))) \/
       (e = 17 /\ tried pre suf i (i + Z.of_nat k) paths /\ all_exist sys i paths)).
  Proof.
    induction k as [|k IH]; intros i x I B L NX.
    - exists EEXIST, 0, x, []. split; [reflexivity|]. split; auto. split; auto. right. split; auto. rewrite Nat2Z.inj_0, Z.add_0_r. split; [constructor|exact Logic.I].
    - cbn [attempts]. rewrite WR by auto. cbn [bind]. assert (R : 0 <= i < 1000000) by lia. rewrite buf_cstr by (now apply digits_nz).
      assert (NB : number (digits i) i) by now apply digits_number. assert (ND : ~ In 0 (digits i)) by now apply digits_nz.
      destruct (sys i (pre ++ digits i ++ suf)) as [e fd] eqn:SY.
      assert (STOP : e <> 17 -> forall f', (e = 0 -> f' = fd) -> exists j before d, i <= j < i + Z.of_nat (S k) /\ tried pre suf i j before /\ all_exist sys i before /\ number d j /\ digits i = d /\ [pre ++ digits i ++ suf] = before ++ [pre ++ d ++ suf] /\
          e = fst (sys j (pre ++ d ++ suf)) /\ e <> 17 /\ (e = 0 -> f' = snd (sys j (pre ++ d ++ suf)))).
      { intros N f' F. exists i, [], (digits i). split; [lia|]. split; [constructor|]. split; [exact Logic.I|]. split; auto. split; auto. split; auto. rewrite SY. cbn. auto. }
      destruct (Z.eqb_spec e 0) as [->|N0].
      + exists 0, fd, (digits i), [pre ++ digits i ++ suf]. split; [reflexivity|]. split; [reflexivity|]. split; auto. left. apply STOP; auto. lia.
      + destruct (Z.eqb_spec e EEXIST) as [->|N17]; cbn [negb].
        * destruct (IH (i + 1) (digits i)) as (e' & fd' & x' & paths & -> & L' & NZ & C); [lia|lia|reflexivity|auto|]. cbn [bind]. exists e', fd', x', ((pre ++ digits i ++ suf) :: paths). split; [reflexivity|]. split; auto. split; auto.
          assert (X : fst (sys i (pre ++ digits i ++ suf)) = 17) by now rewrite SY. replace (i + 1 + Z.of_nat k) with (i + Z.of_nat (S k)) in C by lia.
          destruct C as [(j & before & d & J & T & AE & ND' & -> & -> & REST)|(-> & T & AE)].
          -- left. exists j, ((pre ++ digits i ++ suf) :: before), d. split; [lia|]. split; [constructor; auto; lia|]. split; [cbn; auto|]. split; auto. 
          -- right. split; auto. split; [constructor; auto; lia|cbn; auto].
        * exists e, 0, (digits i), [pre ++ digits i ++ suf]. split; [reflexivity|]. split; [reflexivity|]. split; auto. left. apply STOP; auto. congruence.
  Qed.
End A.

Lemma outcome_of sys mk write pre suf rest : ~ In 0 pre -> ~ In 0 suf ->
  (forall x i, length x = 6%nat -> write (buf pre suf rest x) i = Ok (buf pre suf rest (digits i))) ->
  exists e fd t' paths, attempts sys mk write (Z.to_nat limit) 0 (buf pre suf rest six_x) = Ok (e, fd, t' ++ 0 :: rest, map mk paths) /\ outcome sys pre suf e fd t' paths.
Proof.
  intros NP NS WR. destruct (attempts_ok sys mk write pre suf rest NP NS WR (Z.to_nat limit) 0 six_x) as (e & fd & x' & paths & E & L & NZ & C); [lia|unfold limit; lia|reflexivity|cbn; intuition discriminate|].
  exists e, fd, (pre ++ x' ++ suf), paths. split; [rewrite E; unfold buf; now rewrite <- !app_assoc|].
  rewrite Z2Nat.id in C by (unfold limit; lia). change (0 + limit) with 999999 in C. destruct C as [(j & before & d & J & T & AE & ND & -> & -> & REST)|(-> & T & AE)].
  - left. exists j, before, d. split; [lia|]. split; [exact T|]. split; [exact AE|]. split; [exact ND|]. split; [reflexivity|]. split; [reflexivity|]. exact REST.
  - right. split; [reflexivity|]. split; [exact T|exact AE].
Qed.

Lemma all_x_ok : forall k m a, (forall j, (j < k)%nat -> get m (a + Z.of_nat j) = Ok 88) -> all_x k m a = Ok true.
Proof.
  induction k as [|k IH]; intros m a H; auto. cbn [all_x]. pose proof (H O ltac:(lia)) as H0. rewrite Z.add_0_r in H0. rewrite H0. cbn [bind]. rewrite Z.eqb_refl. apply IH. intros j J. replace (a + 1 + Z.of_nat j) with (a + Z.of_nat (S j)) by lia. apply H. lia.
Qed.
Lemma all_x_here pre r : all_x 6 (pre ++ six_x ++ r) (Z.of_nat (length pre)) = Ok true.
Proof.
  apply all_x_ok. intros j J. replace (Z.of_nat (length pre) + Z.of_nat j) with (Z.of_nat (length (pre ++ firstn j six_x))) by (rewrite app_length, firstn_length_le by (cbn; lia); lia).
  replace (pre ++ six_x ++ r) with ((pre ++ firstn j six_x) ++ skipn j six_x ++ r) by (rewrite <- !app_assoc; f_equal; rewrite !app_assoc, firstn_skipn; reflexivity).
  do 6 (destruct j as [|j]; [cbn [skipn app six_x]; apply get_at|]). lia.
Qed.
(** the check only looks at the string and its end *)
Lemma get_string t rest k : 0 <= k <= Z.of_nat (length t) -> exists c, get (t ++ 0 :: rest) k = Ok c /\ (k = Z.of_nat (length t) -> c = 0) /\ (k < Z.of_nat (length t) -> nth_error t (Z.to_nat k) = Some c).
Proof.
  intros K. unfold get. destruct (Z.ltb_spec k 0); [lia|]. destruct (Z.eq_dec k (Z.of_nat (length t))) as [->|N].
  - rewrite Nat2Z.id, nth_error_app2, Nat.sub_diag by lia. exists 0. cbn. repeat split; auto. lia.
  - rewrite nth_error_app1 by lia. destruct (nth_error t (Z.to_nat k)) as [c|] eqn:E; [|apply nth_error_None in E; lia]. exists c. repeat split; auto. lia.
Qed.
Lemma all_x_string t rest : forall k a, 0 <= a <= Z.of_nat (length t) -> exists b, all_x k (t ++ 0 :: rest) a = Ok b /\
  (b = true -> a + Z.of_nat k <= Z.of_nat (length t) /\ forall j, (j < k)%nat -> nth_error t (Z.to_nat a + j) = Some 88).
Proof.
  induction k as [|k IH]; intros a A.
  - exists true. split; auto. intros _. split; [lia|]. intros; lia.
  - cbn [all_x]. destruct (get_string t rest a A) as (c & -> & C0 & C1). cbn [bind]. destruct (Z.eqb_spec c 88) as [->|].
    + destruct (Z.eq_dec a (Z.of_nat (length t))) as [E|N]; [specialize (C0 E); discriminate|]. destruct (IH (a + 1)) as (b & -> & H); [lia|]. exists b. split; auto. intros B. destruct (H B) as [H1 H2]. split; [lia|].
      intros [|j] J; [rewrite Nat.add_0_r; apply C1; lia|]. replace (Z.to_nat a + S j)%nat with (Z.to_nat (a + 1) + j)%nat by lia. apply H2. lia.
    + exists false. split; auto. discriminate.
Qed.
Lemma skip_skip {A} : forall a b (t : list A), skipn b (skipn a t) = skipn (a + b) t.
Proof. induction a as [|a IH]; intros b t; auto. destruct t; cbn; [now destruct b|apply IH]. Qed.
Lemma six_here t a : (a + 6 <= length t)%nat -> (forall j, (j < 6)%nat -> nth_error t (a + j) = Some 88) -> t = firstn a t ++ six_x ++ skipn (a + 6) t.
Proof.
  intros L H. rewrite <- (firstn_skipn a t) at 1. f_equal. assert (X : forall j, (j < 6)%nat -> nth_error (skipn a t) j = Some 88).
  { intros j J. rewrite <- (H j J). rewrite <- (firstn_skipn a t) at 2. rewrite nth_error_app2 by (rewrite firstn_length_le by lia; lia). f_equal. rewrite firstn_length_le by lia. lia. }
  replace (skipn (a + 6) t) with (skipn 6 (skipn a t)) by (rewrite skip_skip; f_equal; lia).
  destruct (skipn a t) as [|c0 [|c1 [|c2 [|c3 [|c4 [|c5 r]]]]]]; try (specialize (X 5%nat ltac:(lia)); discriminate X).
  pose proof (X 0%nat ltac:(lia)) as X0. pose proof (X 1%nat ltac:(lia)) as X1. pose proof (X 2%nat ltac:(lia)) as X2. pose proof (X 3%nat ltac:(lia)) as X3. pose proof (X 4%nat ltac:(lia)) as X4. pose proof (X 5%nat ltac:(lia)) as X5. cbn in X0, X1, X2, X3, X4, X5.
  injection X0 as ->. injection X1 as ->. injection X2 as ->. injection X3 as ->. injection X4 as ->. injection X5 as ->. reflexivity.
Qed.
Lemma strlen_string t rest : ~ In 0 t -> strlen (t ++ 0 :: rest) = Z.of_nat (length t).
Proof. intros N. unfold strlen. now rewrite cstr_stop. Qed.

Lemma mkostemps_good sys pre suf rest flags : ~ In 0 pre -> ~ In 0 suf -> Z.of_nat (length (pre ++ six_x ++ suf)) < 2147483648 ->
  exists e fd t' paths, mkostemps sys ((pre ++ six_x ++ suf) ++ 0 :: rest) (Z.of_nat (length suf)) flags = Ok (e, fd, t' ++ 0 :: rest, map (fun p => Open p (open_flags flags) mode_file) paths) /\ outcome sys pre suf e fd t' paths.
Proof.
  intros NP NS SZ. assert (NT : ~ In 0 (pre ++ six_x ++ suf)) by (rewrite !in_app_iff; cbn; intuition discriminate).
  unfold mkostemps. rewrite strlen_string by auto. rewrite !app_length in *. change (length six_x) with 6%nat in *. rewrite (Z.mod_small (Z.of_nat (length suf))) by (unfold W64; lia). rewrite Z.mod_small by (unfold W64; lia).
  destruct (Z.ltb_spec (Z.of_nat (length pre + (6 + length suf))) (6 + Z.of_nat (length suf))); [lia|]. destruct (Z.ltb_spec 2147483647 (6 + Z.of_nat (length suf))); [lia|].
  replace (Z.of_nat (length pre + (6 + length suf)) - (6 + Z.of_nat (length suf))) with (Z.of_nat (length pre)) by lia. replace (Z.of_nat (length pre + (6 + length suf)) - Z.of_nat (length suf)) with (Z.of_nat (length pre + 6)) by lia.
  rewrite <- !app_assoc. rewrite all_x_here. cbn [bind negb].
  apply (outcome_of sys (fun p => Open p (open_flags flags) mode_file) _ pre suf rest NP NS).
  intros x i LX. unfold buf. destruct (suf ++ 0 :: rest) as [|c r] eqn:SR; [destruct suf; discriminate|].
  assert (G : forall y, length y = 6%nat -> Z.of_nat (length pre + 6) = Z.of_nat (length (pre ++ y))) by (intros y Y; rewrite app_length, Y; reflexivity).
  rewrite (G x) at 1 by auto. rewrite app_assoc at 1. rewrite get_at. cbn [bind].
  replace (pre ++ x ++ c :: r) with (pre ++ (x ++ [c]) ++ r) by (now rewrite <- app_assoc). rewrite put_at by (rewrite !app_length, LX, digits_length; reflexivity). cbn [bind].
  rewrite (G (digits i)) by reflexivity. replace (pre ++ (digits i ++ [0]) ++ r) with ((pre ++ digits i) ++ [0] ++ r) by (now rewrite <- !app_assoc). rewrite put_at by reflexivity. now rewrite <- app_assoc.
Qed.
Lemma mkostemps_bad sys t rest sfx flags : ~ In 0 t -> Z.of_nat (length t) < 2147483648 -> -2147483648 <= sfx < 2147483648 ->
  ~ (exists pre suf, template t pre suf /\ Z.of_nat (length suf) = sfx) ->
  mkostemps sys (t ++ 0 :: rest) sfx flags = Ok (EINVAL, 0, t ++ 0 :: rest, []).
Proof.
  intros NT SZ SF NO. unfold mkostemps. rewrite strlen_string by auto.
  assert (M : (6 + sfx mod W64) mod W64 = if (0 <=? sfx) then 6 + sfx else if -6 <=? sfx then 6 + sfx else 6 + sfx + W64).
  { destruct (Z.leb_spec 0 sfx); [rewrite (Z.mod_small sfx) by (unfold W64; lia); apply Z.mod_small; unfold W64; lia|]. rewrite Z.add_mod_idemp_r by (unfold W64; lia).
    destruct (Z.leb_spec (-6) sfx); [apply Z.mod_small; unfold W64; lia|]. replace (6 + sfx) with (6 + sfx + W64 + (-1) * W64) by ring. rewrite Z.mod_add by (unfold W64; lia). rewrite Z.mod_small by (unfold W64; lia). ring. }
  rewrite M. destruct (Z.ltb_spec (Z.of_nat (length t)) (if 0 <=? sfx then 6 + sfx else if -6 <=? sfx then 6 + sfx else 6 + sfx + W64)) as [|GE]; auto.
  assert (R : 0 <= 6 + sfx <= Z.of_nat (length t)). { destruct (Z.leb_spec 0 sfx); [lia|]. destruct (Z.leb_spec (-6) sfx); [lia|]. unfold W64 in GE. lia. }
  destruct (Z.ltb_spec 2147483647 (6 + sfx)); [lia|]. destruct (all_x_string t rest 6 (Z.of_nat (length t) - (6 + sfx))) as (b & -> & HX); [lia|]. cbn [bind]. destruct b; auto. exfalso. destruct (HX eq_refl) as [H1 H2].
  apply NO. exists (firstn (Z.to_nat (Z.of_nat (length t) - (6 + sfx))) t), (skipn (Z.to_nat (Z.of_nat (length t) - (6 + sfx)) + 6) t). split; [apply six_here; auto; lia|]. rewrite skipn_length. lia.
Qed.
Lemma mkdtemp_good sys pre rest : ~ In 0 pre ->
  exists e fd t' paths, mkdtemp sys ((pre ++ six_x) ++ 0 :: rest) = Ok (e, fd, t' ++ 0 :: rest, map (fun p => Mkdir p mode_dir) paths) /\ outcome sys pre [] e fd t' paths.
Proof.
  intros NP. unfold mkdtemp. rewrite strlen_string by (rewrite in_app_iff; cbn; intuition discriminate). rewrite app_length. change (length six_x) with 6%nat.
  destruct (Z.ltb_spec (Z.of_nat (length pre + 6)) 6); [lia|]. replace (Z.of_nat (length pre + 6) - 6) with (Z.of_nat (length pre)) by lia. rewrite <- app_assoc. rewrite all_x_here. cbn [bind negb].
  apply (outcome_of sys (fun p => Mkdir p mode_dir) _ pre [] rest NP (fun H => H)). intros x i LX. unfold buf. cbn [app].
  replace (pre ++ x ++ 0 :: rest) with (pre ++ (x ++ [0]) ++ rest) by (now rewrite <- app_assoc). rewrite put_at by (rewrite !app_length, LX, digits_length; reflexivity). now rewrite <- app_assoc.
Qed.
Lemma mkdtemp_bad sys t rest : ~ In 0 t -> 6 <= Z.of_nat (length t) -> ~ (exists pre, template t pre []) -> mkdtemp sys (t ++ 0 :: rest) = Ok (EINVAL, 0, t ++ 0 :: rest, []).
Proof.
  intros NT L NO. unfold mkdtemp. rewrite strlen_string by auto. destruct (Z.ltb_spec (Z.of_nat (length t)) 6); [lia|]. destruct (all_x_string t rest 6 (Z.of_nat (length t) - 6)) as (b & -> & H1); [lia|]. cbn [bind]. destruct b; auto. exfalso. destruct (H1 eq_refl) as [_ H2].
  apply NO. exists (firstn (Z.to_nat (Z.of_nat (length t) - 6)) t). unfold template. pose proof (six_here t (Z.to_nat (Z.of_nat (length t) - 6)) ltac:(lia) H2) as E. rewrite skipn_all2 in E by lia. exact E.
Qed.
Lemma flags_ok flags : Z.land (open_flags flags) 3 = 2 /\ Z.testbit (open_flags flags) 6 = true /\ Z.testbit (open_flags flags) 7 = true /\
  forall b, 2 <= b -> b <> 6 -> b <> 7 -> Z.testbit (open_flags flags) b = Z.testbit flags b.
Proof.
  assert (G : forall b, 0 <= b -> Z.testbit (open_flags flags) b = (Z.testbit 194 b || (Z.testbit flags b && negb (Z.testbit 1 b)))).
  { intros b B. unfold open_flags. rewrite Z.lor_spec, Z.land_spec, Z.lnot_spec by auto. reflexivity. }
  split; [|split; [|split]].
  - apply Z.bits_inj'. intros b B. rewrite Z.land_spec, G by auto. destruct (Z.eq_dec b 0) as [->|N0]; [now destruct (Z.testbit flags 0)|]. destruct (Z.eq_dec b 1) as [->|N1]; [reflexivity|].
    change 3 with (Z.ones 2). rewrite (Z.ones_spec_high 2 b) by lia. rewrite andb_false_r. symmetry. apply Z.bits_above_log2; [lia|]. change (Z.log2 2) with 1. lia.
  - rewrite G by lia. reflexivity.
  - rewrite G by lia. reflexivity.
  - intros b B N6 N7. rewrite G by lia. assert (Z.testbit 194 b = false) as ->.
    { destruct (Z.ltb_spec b 8); [|apply Z.bits_above_log2; [lia|]; change (Z.log2 194) with 7; lia]. assert (X : b = 2 \/ b = 3 \/ b = 4 \/ b = 5) by lia. destruct X as [->|[->|[->| ->]]]; reflexivity. }
    assert (Z.testbit 1 b = false) as -> by (apply Z.bits_above_log2; [lia|]; change (Z.log2 1) with 0; lia). cbn. apply andb_true_r.
Qed.
Definition tmp_pre : list Z := [47; 116; 109; 112; 47; 116; 109; 112; 102; 105; 108; 101; 95].
Lemma outcome_nz sys pre suf e fd t' paths : ~ In 0 pre -> ~ In 0 suf -> outcome sys pre suf e fd t' paths -> e = 0 -> ~ In 0 t'.
Proof.
  intros NP NS O ->. destruct O as [(k & before & d & _ & _ & _ & (_ & D & _) & -> & _)|(X & _)]; [|discriminate]. rewrite !in_app_iff. intros [H|[H|H]]; auto. specialize (D 0 H). lia.
Qed.
Lemma tmpfile_ok sys unlink : exists r err calls e fd t' paths, tmpfile sys unlink = Ok (r, err, calls) /\ outcome sys tmp_pre [] e fd t' paths /\
  (e <> 0 -> r = None /\ err = 0 /\ calls = map (fun p => Open p (open_flags 0) mode_file) paths) /\
  (e = 0 -> unlink t' = 0 -> r = Some fd /\ calls = map (fun p => Open p (open_flags 0) mode_file) paths ++ [Unlink t']) /\
  (e = 0 -> unlink t' <> 0 -> r = None /\ err = unlink t' /\ calls = map (fun p => Open p (open_flags 0) mode_file) paths ++ [Unlink t'; Close fd]).
Proof.
  assert (NP : ~ In 0 tmp_pre) by (cbn; intuition discriminate).
  destruct (mkostemps_good sys tmp_pre [] [] 0 NP (fun H => H)) as (e & fd & t' & paths & E & O); [cbn; lia|]. unfold tmpfile. change (Z.of_nat (length (@nil Z))) with 0 in E. change ((tmp_pre ++ six_x ++ []) ++ [0]) with tmpfile_template in E. rewrite E. cbn [bind].
  destruct (Z.eqb_spec e 0) as [E0|N]; cbn [negb].
  - rewrite cstr_stop by (exact (outcome_nz sys tmp_pre [] e fd t' paths NP (fun H => H) O E0)). destruct (Z.eqb_spec (unlink t') 0) as [U|U].
    + do 3 eexists. exists e, fd, t', paths. split; [reflexivity|]. split; [exact O|]. split; [intros; lia|]. split; [auto|intros; lia].
    + do 3 eexists. exists e, fd, t', paths. split; [reflexivity|]. split; [exact O|]. split; [intros; lia|]. split; [intros; lia|auto].
  - do 3 eexists. exists e, fd, t', paths. split; [reflexivity|]. split; [exact O|]. split; [auto|]. split; intros; lia.
Qed.
Lemma tried_now pre suf i k l : i < k -> tried pre suf i k l -> exists d l', l = (pre ++ d ++ suf) :: l' /\ number d i.
Proof. intros L T. inversion T; subst; [lia|]. eauto. Qed.
Lemma outcome_const sys pre suf e fd t' paths r : outcome sys pre suf e fd t' paths -> (forall i p, sys i p = r) -> fst r <> 17 -> e = fst r /\ (e = 0 -> fd = snd r).
Proof.
  intros [(k & before & d & K & T & AE & N & E & P & -> & NE & F)|(-> & T & AE)] A N17.
  - rewrite A in *. auto.
  - exfalso. destruct (tried_now pre suf 0 999999 paths ltac:(lia) T) as (d & l' & -> & _). cbn in AE. rewrite A in AE. tauto.
Qed.
