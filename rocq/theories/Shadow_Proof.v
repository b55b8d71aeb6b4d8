(** Proofs about the shadow password file. *)
From Verif Require Import Base Mem_Model Hosts_Model Hosts_Spec Hosts_Proof Inet_Model Users_Model Users_Proof Shadow_Model Shadow_Spec.
Open Scope Z_scope.

(** ** Numbers *)
Definition digit (c : Z) : Prop := is_digit c = true.
Definition val (x : Z) (t : list Z) : Z := fold_left (fun a c => 10 * a + (c - 48)) t x.
Lemma digit_range c : digit c <-> 48 <= c <= 57. Proof. unfold digit, is_digit. rewrite andb_true_iff, !Z.leb_le. reflexivity. Qed.
Lemma decimal_val t v : decimal t v <-> t <> [] /\ Forall digit t /\ v = val 0 t.
Proof.
  split.
  - induction 1 as [d D|l v d H IH D].
    + split; [discriminate|]. split; [constructor; [apply digit_range; lia|constructor]|]. unfold val. cbn [fold_left]. lia.
    + destruct IH as (N & F & V). split; [destruct l; discriminate|]. split; [apply Forall_app; split; [exact F|constructor; [apply digit_range; lia|constructor]]|].
      unfold val. rewrite fold_left_app. cbn [fold_left]. fold (val 0 l). lia.
  - intros (N & F & ->). induction t as [|c l IH] using rev_ind; [congruence|]. apply Forall_app in F. destruct F as [F1 F2]. inversion F2; subst.
    apply digit_range in H1. unfold val. rewrite fold_left_app. cbn [fold_left]. fold (val 0 l). destruct l as [|a l].
    + unfold val. cbn [fold_left app]. replace (10 * 0 + (c - 48)) with (c - 48) by lia. replace c with (48 + (c - 48)) at 1 by lia. apply d_one. lia.
    + replace c with (48 + (c - 48)) at 1 by lia. apply d_more; [apply IH; [discriminate|exact F1]|lia].
Qed.
Lemma val_mono : forall t x, Forall digit t -> 0 <= x -> x <= val x t.
Proof.
  induction t as [|c r IH]; intros x F X; [cbn; lia|]. inversion F; subst. apply digit_range in H1. cbn [val fold_left]. fold (val (10 * x + (c - 48)) r).
  specialize (IH (10 * x + (c - 48)) H2). lia.
Qed.
Lemma digits_app : forall t x r, Forall digit t -> is_digit (rd r) = false -> 0 <= x <= LONG_MAX ->
  digits_from x (t ++ r) = if val x t <=? LONG_MAX then Ok (val x t, r) else UB.
Proof.
  induction t as [|c t IH]; intros x r F N X.
  - cbn [app val fold_left]. destruct (Z.leb_spec x LONG_MAX); [|lia]. destruct r as [|c r]; cbn [digits_from rd] in *; [reflexivity|]. rewrite N. reflexivity.
  - inversion F; subst. cbn [app digits_from]. rewrite H1. pose proof H1 as D. apply digit_range in D. cbn [val fold_left]. fold (val (10 * x + (c - 48)) t).
    destruct (Z.leb_spec (10 * x + (c - 48)) LONG_MAX).
    + apply IH; auto. lia.
    + pose proof (val_mono t (10 * x + (c - 48)) H2 ltac:(lia)). destruct (Z.leb_spec (val (10 * x + (c - 48)) t) LONG_MAX); [lia|reflexivity].
Qed.
Lemma digits_split : forall s, exists t r, s = t ++ r /\ Forall digit t /\ is_digit (rd r) = false.
Proof.
  induction s as [|c s (t & r & -> & F & N)].
  - exists [], []. repeat split; auto.
  - destruct (is_digit c) eqn:D.
    + exists (c :: t), r. repeat split; auto.
    + exists [], (c :: t ++ r). repeat split; auto.
Qed.
Definition stop (r : list Z) : Prop := rd r = 58 \/ rd r = 10 \/ rd r = 0.
Lemma stop_digit r : stop r -> is_digit (rd r) = false.
Proof. intros [H|[H|H]]; rewrite H; reflexivity. Qed.
Lemma xatol_fwd t v r : number_text t v -> stop r -> xatol (t ++ r) = Ok (v, r).
Proof.
  intros [[-> ->]|[D V]] S1; unfold xatol.
  - cbn [app]. replace ((rd r =? 58) || (rd r =? 10) || (rd r =? 0)) with true; [reflexivity|]. destruct S1 as [H|[H|H]]; rewrite H; reflexivity.
  - apply decimal_val in D. destruct D as (N & F & ->).
    replace ((rd (t ++ r) =? 58) || (rd (t ++ r) =? 10) || (rd (t ++ r) =? 0)) with false.
    2: { destruct t as [|c t]; [congruence|]. inversion F; subst. apply digit_range in H1. cbn [app rd]. symmetry. rewrite !orb_false_iff, !Z.eqb_neq. lia. }
    rewrite digits_app; auto using stop_digit; [|unfold LONG_MAX; lia]. destruct (Z.leb_spec (val 0 t) LONG_MAX); [reflexivity|unfold LONG_MAX in *; lia].
Qed.
Lemma xatol_bwd s v r : xatol s = Ok (v, r) -> stop r -> exists t, s = t ++ r /\ number_text t v.
Proof.
  unfold xatol. intros H S1. destruct ((rd s =? 58) || (rd s =? 10) || (rd s =? 0)) eqn:E.
  - inversion H; subst. exists []. split; [reflexivity|left; auto].
  - destruct (digits_split s) as (t & r' & -> & F & N). rewrite digits_app in H; auto; [|unfold LONG_MAX; lia].
    destruct (Z.leb_spec (val 0 t) LONG_MAX); [|discriminate]. inversion H; subst. exists t. split; [reflexivity|]. right.
    destruct t as [|c t].
    + cbn [app] in E. apply orb_false_iff in E. destruct E as [E E3]. apply orb_false_iff in E. destruct E as [E1 E2]. destruct S1 as [S1|[S1|S1]]; rewrite S1 in *; discriminate.
    + split; [|unfold LONG_MAX in *; lia]. apply decimal_val. repeat split; auto. discriminate.
Qed.
Lemma xatol_ok s : (exists v r, xatol s = Ok (v, r) /\ exists t, s = t ++ r) \/ (exists t v r, s = t ++ r /\ decimal t v /\ 2 ^ 63 <= v).
Proof.
  unfold xatol. destruct ((rd s =? 58) || (rd s =? 10) || (rd s =? 0)).
  - left. exists (-1), s. split; [reflexivity|]. exists []. reflexivity.
  - destruct (digits_split s) as (t & r & -> & F & N). rewrite digits_app; auto; [|unfold LONG_MAX; lia]. destruct (Z.leb_spec (val 0 t) LONG_MAX).
    + left. exists (val 0 t), r. split; [reflexivity|]. exists t. reflexivity.
    + right. exists t, (val 0 t), r. split; [reflexivity|]. split; [|unfold LONG_MAX in *; lia]. apply decimal_val. repeat split; auto. intros ->. cbn in H. unfold LONG_MAX in H. lia.
Qed.
Lemma moderate_app a b : moderate (a ++ b) -> moderate b.
Proof. intros M x t v y -> D. apply (M (a ++ x) t v y); [rewrite <- app_assoc; reflexivity|exact D]. Qed.
Lemma moderate_left a b : moderate (a ++ b) -> moderate a.
Proof. intros M x t v y -> D. apply (M x t v (y ++ b)); [rewrite <- !app_assoc; reflexivity|exact D]. Qed.

Lemma cut_some : forall d s a b, cut d s = Some (a, b) <-> s = a ++ [d] ++ b /\ ~ In d a.
Proof.
  intro d. induction s as [|c r IH]; intros a b; cbn [cut].
  - split; [discriminate|]. intros [H _]. destruct a; discriminate.
  - destruct (Z.eqb_spec c d) as [->|N].
    + split.
      * intro H. inversion H; subst. split; [reflexivity|auto].
      * intros [H NI]. destruct a as [|x a]; cbn in H; inversion H; subst; [reflexivity|]. elim NI. left. reflexivity.
    + destruct (cut d r) as [[a' b']|] eqn:E.
      * split.
        -- intro H. inversion H; subst. destruct (proj1 (IH a' b) eq_refl) as [-> NI]. split; [reflexivity|]. intros [C|C]; [congruence|auto].
        -- intros [H NI]. destruct a as [|x a]; cbn in H; inversion H; subst; [congruence|].
           assert (Q : Some (a', b') = Some (a, b)) by (apply IH; split; [reflexivity|]; intro C; apply NI; right; exact C). inversion Q; subst. reflexivity.
      * split; [discriminate|]. intros [H NI]. destruct a as [|x a]; cbn in H; inversion H; subst; [congruence|].
        assert (Q : None = Some (a, b)) by (apply IH; split; [reflexivity|]; intro C; apply NI; right; exact C). discriminate.
Qed.

(** ** The parser *)
Lemma num_fwd t v r k : number_text t v -> num_field (t ++ [58] ++ r) k = k v r.
Proof. intro N. unfold num_field. rewrite (xatol_fwd t v ([58] ++ r) N); [|left; reflexivity]. reflexivity. Qed.
Lemma num_bwd s k e : num_field s k = Ok (Some e) -> exists t v r, s = t ++ [58] ++ r /\ number_text t v /\ k v r = Ok (Some e).
Proof.
  unfold num_field. destruct (xatol s) as [[v r]| | |] eqn:X; cbn [bind]; try discriminate. destruct (Z.eqb_spec (rd r) 58) as [E|E]; [|discriminate].
  intro H. destruct (xatol_bwd s v r X) as (t & -> & N); [left; exact E|]. destruct r as [|c r]; cbn in E; [discriminate|]. subst c. cbn [step bind] in H.
  exists t, v, r. repeat split; auto.
Qed.
Lemma num_ok s k : moderate s -> (forall v r, moderate r -> exists x, k v r = Ok x) -> exists x, num_field s k = Ok x.
Proof.
  intros M K. unfold num_field. destruct (xatol_ok s) as [(v & r & -> & t & ->)|(t & v & r & -> & D & V)].
  - cbn [bind]. destruct (Z.eqb_spec (rd r) 58) as [E|E]; [|eauto]. destruct r as [|c r]; cbn in E; [discriminate|]. cbn [step bind]. apply K.
    apply moderate_app in M. exact (moderate_app [c] r M).
  - specialize (M [] t v r eq_refl D). lia.
Qed.

Lemma parse_fwd l e : shadow_line l e -> parsespent l = Ok (Some e).
Proof.
  intros (a & b & c & d & f & g & h & tail & N1 & N2 & A & B & C & D & F & G & (v & H & V) & T & ->). unfold parsespent.
  rewrite (proj2 (cut_some 58 _ (sp_namp e) _) (conj eq_refl N1)). rewrite (proj2 (cut_some 58 _ (sp_pwdp e) _) (conj eq_refl N2)).
  rewrite (num_fwd a _ _ _ A), (num_fwd b _ _ _ B), (num_fwd c _ _ _ C), (num_fwd d _ _ _ D), (num_fwd f _ _ _ F), (num_fwd g _ _ _ G).
  assert (ST : stop tail) by (destruct T as [->|[r ->]]; [right; right|right; left]; reflexivity).
  rewrite (xatol_fwd h v tail H ST). cbn [bind]. replace ((rd tail =? 10) || (rd tail =? 0)) with true by (destruct T as [->|[r ->]]; reflexivity).
  rewrite <- V. destruct e; reflexivity.
Qed.
Lemma parse_bwd l e : is_text l -> parsespent l = Ok (Some e) -> shadow_line l e.
Proof.
  intro TX. unfold parsespent. destruct (cut 58 l) as [[name s]|] eqn:C1; [|discriminate]. apply cut_some in C1. destruct C1 as [-> N1].
  destruct (cut 58 s) as [[pwd s2]|] eqn:C2; [|discriminate]. apply cut_some in C2. destruct C2 as [-> N2]. intro H.
  apply num_bwd in H. destruct H as (a & va & ra & -> & A & H). apply num_bwd in H. destruct H as (b & vb & rb & -> & B & H).
  apply num_bwd in H. destruct H as (c & vc & rc & -> & C & H). apply num_bwd in H. destruct H as (d & vd & rdd & -> & D & H).
  apply num_bwd in H. destruct H as (f & vf & rf & -> & F & H). apply num_bwd in H. destruct H as (g & vg & rg & -> & G & H).
  destruct (xatol rg) as [[v r]| | |] eqn:X; cbn [bind] in H; try discriminate. destruct ((rd r =? 10) || (rd r =? 0)) eqn:E; [|discriminate].
  apply orb_true_iff in E. rewrite !Z.eqb_eq in E.
  destruct (xatol_bwd rg v r X) as (h & -> & N); [destruct E; [right; left|right; right]; assumption|].
  inversion H; subst e. exists a, b, c, d, f, g, h, r. cbn [sp_namp sp_pwdp sp_lstchg sp_min sp_max sp_warn sp_inact sp_expire sp_flag].
  repeat (split; [assumption|]). split; [exists v; auto|]. split; [|reflexivity].
  destruct r as [|x r]; [left; reflexivity|]. right. cbn [rd] in E. destruct E as [->|E]; [exists r; reflexivity|].
  assert (0 < x < 256); [|lia]. apply TX. rewrite !in_app_iff. cbn [In]. tauto.
Qed.
Lemma parse_ok l : moderate l -> exists x, parsespent l = Ok x.
Proof.
  intro M. unfold parsespent. destruct (cut 58 l) as [[name s]|] eqn:C1; [|eauto]. apply cut_some in C1. destruct C1 as [-> _].
  destruct (cut 58 s) as [[pwd s2]|] eqn:C2; [|eauto]. apply cut_some in C2. destruct C2 as [-> _].
  do 2 apply moderate_app in M. do 2 apply moderate_app in M.
  do 6 (apply num_ok; [assumption|]; clear; intros ? ? ?).
  destruct (xatol_ok r) as [(v' & r' & -> & _)|(t & v' & r' & -> & D & V)].
  - cbn [bind]. destruct ((rd r' =? 10) || (rd r' =? 0)); eauto.
  - match goal with H : moderate _ |- _ => specialize (H [] t v' r' eq_refl D) end. lia.
Qed.

(** ** Printing *)
Lemma print_long_text v : long_field v -> number_text (print_long v) v.
Proof.
  unfold long_field, print_long. intro V. destruct (Z.eqb_spec v (-1)); [left; auto|]. destruct (Z.ltb_spec v 0); [lia|]. right. split; [|lia].
  unfold num. apply number_decimal; [|lia]. change (Z.of_nat 64) with 64. lia.
Qed.
Lemma print_flag_text v : 0 <= v < 2 ^ 32 - 1 \/ v = 2 ^ 64 - 1 -> exists w, number_text (print_flag v) w /\ v = w mod 2 ^ 64.
Proof.
  intros [V| ->].
  - exists v. split; [|symmetry; apply Z.mod_small; lia]. unfold print_flag, as_int. rewrite (Z.mod_small v) by lia. cbv zeta.
    destruct (Z.leb_spec (2 ^ 31) v).
    + destruct (Z.eqb_spec (v - 2 ^ 32) (-1)); [lia|]. right. replace ((v - 2 ^ 32) mod 2 ^ 32) with v.
      2: { rewrite <- (Z.mod_small v (2 ^ 32)) at 1 by lia. symmetry. replace (v - 2 ^ 32) with (v + (-1) * 2 ^ 32) by lia. apply Z.mod_add. lia. }
      split; [|lia]. unfold num. apply number_decimal; [|lia]. change (Z.of_nat 64) with 64. lia.
    + destruct (Z.eqb_spec v (-1)); [lia|]. right. rewrite Z.mod_small by lia. split; [|lia]. unfold num. apply number_decimal; [|lia]. change (Z.of_nat 64) with 64. lia.
  - exists (-1). split; [|reflexivity]. left. split; reflexivity.
Qed.
Lemma put_line e : printable e -> shadow_line (putspent e) e.
Proof.
  intros ((N1 & _) & (N2 & _) & A & B & C & D & F & G & H). exists (print_long (sp_lstchg e)), (print_long (sp_min e)), (print_long (sp_max e)), (print_long (sp_warn e)),
    (print_long (sp_inact e)), (print_long (sp_expire e)), (print_flag (sp_flag e)), [10].
  repeat (split; [solve [auto using print_long_text]|]). split.
  - destruct (print_flag_text _ H) as (w & W1 & W2). exists w. auto.
  - split; [right; exists []; reflexivity|]. unfold putspent. reflexivity.
Qed.
Lemma text_nl t v : number_text t v -> ~ In 10 t.
Proof.
  intros [[-> _]|[D _]]; [auto|]. apply decimal_val in D. destruct D as (_ & F & _). intro I. rewrite Forall_forall in F. specialize (F _ I). apply digit_range in F. lia.
Qed.
Lemma put_shape e : printable e -> exists t, putspent e = t ++ [10] /\ ~ In 10 t.
Proof.
  intros P. pose proof P as ((_ & N1) & (_ & N2) & A & B & C & D & F & G & H).
  destruct (print_flag_text _ H) as (w & W1 & W2).
  exists (sp_namp e ++ 58 :: sp_pwdp e ++ 58 :: print_long (sp_lstchg e) ++ 58 :: print_long (sp_min e) ++ 58 :: print_long (sp_max e) ++ 58 :: print_long (sp_warn e) ++
    58 :: print_long (sp_inact e) ++ 58 :: print_long (sp_expire e) ++ 58 :: print_flag (sp_flag e)). split.
  - unfold putspent. rewrite <- ?app_assoc. cbn [app]. repeat (rewrite <- ?app_assoc; cbn [app]; f_equal).
  - apply print_long_text, text_nl in A. apply print_long_text, text_nl in B. apply print_long_text, text_nl in C. apply print_long_text, text_nl in D.
    apply print_long_text, text_nl in F. apply print_long_text, text_nl in G. apply text_nl in W1.
    repeat (rewrite in_app_iff; cbn [In]). intuition discriminate.
Qed.

(** ** Lines *)
Lemma fgets_long : forall t k f, ~ In 10 t -> (k <= length t)%nat -> fgets k (t ++ f) = (firstn k t, skipn k t ++ f).
Proof.
  induction t as [|c t IH]; intros k f N K.
  - cbn in K. replace k with O by lia. destruct f; reflexivity.
  - destruct k as [|k]; [destruct f; reflexivity|]. cbn [app fgets firstn skipn]. destruct (Z.eqb_spec c 10) as [->|E]; [elim N; left; reflexivity|].
    rewrite IH; [reflexivity| |cbn in K; lia]. intro I. apply N. right. exact I.
Qed.
Lemma fgets_last t k : ~ In 10 t -> (length t <= k)%nat -> fgets k t = (t, []).
Proof.
  revert k. induction t as [|c t IH]; intros k N K; [destruct k; reflexivity|]. destruct k as [|k]; [cbn in K; lia|]. cbn [fgets].
  destruct (Z.eqb_spec c 10) as [->|E]; [elim N; left; reflexivity|]. rewrite IH; [reflexivity| |cbn in K; lia]. intro I. apply N. right. exact I.
Qed.
Lemma last_in : forall (t : list Z) d, t <> [] -> In (last t d) t.
Proof. induction t as [|c t IH]; intros d N; [congruence|]. destruct t as [|x t]; [left; reflexivity|]. right. apply (IH d). discriminate. Qed.
Lemma not_whole t : ~ In 10 t -> t <> [] -> (last t 0 =? 10) = false.
Proof. intros N E. apply Z.eqb_neq. intro C. apply N. rewrite <- C. apply last_in. exact E. Qed.
Lemma begins_dec name l : begins name l <-> (prefix name l = true /\ after (length name) l = 58).
Proof.
  revert l. induction name as [|a name IH]; intro l.
  - cbn [prefix length]. unfold after. cbn [skipn]. split.
    + intros (r & ->). auto.
    + intros [_ H]. destruct l as [|c l]; [discriminate|]. subst c. exists l. reflexivity.
  - destruct l as [|b l]; cbn [prefix length].
    + split; [intros (r & H); discriminate|intros [H _]; discriminate].
    + unfold after. cbn [skipn]. fold (after (length name) l). rewrite andb_true_iff, Z.eqb_eq. split.
      * intros (r & H). cbn in H. inversion H; subst. destruct (proj1 (IH (name ++ 58 :: r))) as [P Q]; [exists r; reflexivity|]. auto.
      * intros [[-> P] Q]. destruct (proj2 (IH l) (conj P Q)) as (r & ->). exists r. reflexivity.
Qed.
Lemma begins_first name l k : (length name < k)%nat -> begins name (firstn k l) <-> begins name l.
Proof.
  intro K. split.
  - intros (r & H). exists (r ++ skipn k l). rewrite <- (firstn_skipn k l) at 1. rewrite H, <- !app_assoc. reflexivity.
  - intros (r & ->). exists (firstn (k - S (length name)) r). rewrite app_assoc, firstn_app. rewrite firstn_all2; rewrite ?app_length; cbn [length]; [|lia].
    rewrite <- app_assoc. do 3 f_equal. lia.
Qed.
Lemma skip_test name l : begins name l -> negb (prefix name l) || negb (after (length name) l =? 58) = false.
Proof. intro B. apply begins_dec in B. destruct B as [-> ->]. reflexivity. Qed.
Lemma skip_test_no name l : ~ begins name l -> negb (prefix name l) || negb (after (length name) l =? 58) = true.
Proof.
  intro B. destruct (prefix name l) eqn:P; [|reflexivity]. destruct (Z.eqb_spec (after (length name) l) 58) as [Q|Q]; [|reflexivity]. elim B. apply begins_dec. auto.
Qed.

Section Search.
Variables (name : list Z) (size : nat).
Hypothesis SIZE : (length name + 100 <= size)%nat.

Lemma skip_line (Q : res (Z * option spwd) -> Prop) f : (forall n, (length f < n)%nat -> Q (search n name size false f)) ->
  forall m t, (length t <= m)%nat -> ~ In 10 t -> forall n, (length (t ++ 10%Z :: f) < n)%nat -> Q (search n name size true (t ++ 10 :: f)).
Proof.
  intros H. induction m as [|m IH]; intros t M N n L.
  - destruct t; [|cbn in M; lia]. destruct n as [|n]; [lia|]. cbn [app search]. destruct (size - 1)%nat eqn:E; [lia|]. cbn [fgets Z.eqb Pos.eqb]. cbn [orb last negb Z.eqb Pos.eqb]. apply H. cbn in L. lia.
  - destruct n as [|n]; [lia|]. cbn [search]. rewrite app_length in L. cbn [length] in L. destruct (Nat.lt_ge_cases (length t) (size - 1)) as [K|K].
    + change (t ++ 10 :: f) with (t ++ [10] ++ f). rewrite fgets_ok by auto. cbv zeta. cbn [orb]. destruct (t ++ [10]) eqn:E; [destruct t; discriminate|]. rewrite <- E.
      rewrite last_last. cbn [Z.eqb Pos.eqb negb]. apply H. lia.
    + rewrite fgets_long by auto. cbv zeta. cbn [orb].
      assert (NE : firstn (size - 1) t <> []) by (intro C; apply (f_equal (@length Z)) in C; rewrite firstn_length in C; cbn in C; lia).
      rewrite not_whole; [|intro I; apply N; rewrite <- (firstn_skipn (size - 1) t); apply in_or_app; auto|exact NE].
      destruct (firstn (size - 1) t); [congruence|]. cbn [negb]. apply IH.
      * rewrite skipn_length. lia.
      * intro I. apply N. rewrite <- (firstn_skipn (size - 1) t). apply in_or_app. auto.
      * rewrite app_length, skipn_length. cbn [length]. lia.
Qed.
Lemma skip_last : forall m t, (length t <= m)%nat -> ~ In 10 t -> forall n, (length t < n)%nat -> search n name size true t = Ok (0, None).
Proof.
  induction m as [|m IH]; intros t M N n L.
  - destruct t; [|cbn in M; lia]. destruct n as [|n]; [lia|]. cbn [search]. destruct (size - 1)%nat; reflexivity.
  - destruct n as [|n]; [lia|]. cbn [search]. destruct t as [|c t]; [destruct (size - 1)%nat; reflexivity|]. set (tt := c :: t) in *.
    destruct (Nat.le_gt_cases (length tt) (size - 1)) as [K|K].
    + rewrite fgets_last by auto. unfold tt at 1. rewrite not_whole by (auto; discriminate). cbn [orb negb]. apply IH; [cbn; lia|auto|cbn; unfold tt in L; cbn in L; lia].
    + rewrite <- (app_nil_r tt) at 1. rewrite fgets_long by (auto; lia). rewrite app_nil_r. cbv zeta. cbn [orb].
      assert (NE : firstn (size - 1) tt <> []) by (intro C; apply (f_equal (@length Z)) in C; rewrite firstn_length in C; cbn in C; lia).
      rewrite not_whole; [|intro I; apply N; rewrite <- (firstn_skipn (size - 1) tt); apply in_or_app; auto|exact NE].
      destruct (firstn (size - 1) tt); [congruence|]. cbn [negb]. apply IH.
      * rewrite skipn_length. lia.
      * intro I. apply N. rewrite <- (firstn_skipn (size - 1) tt). apply in_or_app. auto.
      * rewrite skipn_length. lia.
Qed.

Lemma search_ok : forall ls f, lines ls f -> is_text f -> moderate f -> forall n, (length f < n)%nat ->
  exists r, search n name size false f = Ok r /\ answer name size ls r.
Proof.
  induction 1 as [|t N NE|t ls f N LS IH]; intros TX MO n L.
  - destruct n as [|n]; [lia|]. cbn [search]. exists (0, None). split; [destruct (size - 1)%nat; reflexivity|constructor].
  - destruct n as [|n]; [lia|]. cbn [search].
    assert (FG : exists b f', fgets (size - 1) t = (b, f') /\ b = firstn (size - 1) t /\ f' = skipn (size - 1) t).
    { destruct (Nat.le_gt_cases (length t) (size - 1)) as [K|K].
      - rewrite fgets_last by auto. exists t, []. repeat split; [symmetry; apply firstn_all2; lia|symmetry; apply skipn_all2; lia].
      - pose proof (fgets_long t (size - 1) [] N ltac:(lia)) as FL. rewrite !app_nil_r in FL. rewrite FL. eauto. }
    destruct FG as (b & f' & -> & Hb & Hf).
    assert (NB : ~ In 10 b) by (subst b; intro I; apply N; rewrite <- (firstn_skipn (size - 1) t); apply in_or_app; auto).
    assert (BE : b <> []) by (subst b; destruct t; [congruence|]; destruct (size - 1)%nat eqn:E; [lia|discriminate]).
    rewrite not_whole by auto. destruct b as [|b0 b]; [congruence|]. rewrite Hb. clear b0 b Hb NB BE. cbn [orb negb].
    destruct (prefix name (firstn (size - 1) t)) eqn:P; [destruct (Z.eqb_spec (after (length name) (firstn (size - 1) t)) 58) as [Q|Q]|]; cbn [negb orb].
    + assert (B : begins name t) by (apply (begins_first name t (size - 1)); [lia|]; apply begins_dec; auto).
      exists (ERANGE, None). split; [reflexivity|]. apply a_range; auto.
    + exists (0, None). split.
      * apply (skip_last (length f')); [lia| |rewrite Hf, skipn_length; destruct t; [congruence|]; cbn [length] in *; lia].
        rewrite Hf. intro I. apply N. rewrite <- (firstn_skipn (size - 1) t). apply in_or_app; auto.
      * apply a_other; [|constructor]. intro B. apply (begins_first name t (size - 1)) in B; [|lia]. apply begins_dec in B. destruct B; congruence.
    + exists (0, None). split.
      * apply (skip_last (length f')); [lia| |rewrite Hf, skipn_length; destruct t; [congruence|]; cbn [length] in *; lia].
        rewrite Hf. intro I. apply N. rewrite <- (firstn_skipn (size - 1) t). apply in_or_app; auto.
      * apply a_other; [|constructor]. intro B. apply (begins_first name t (size - 1)) in B; [|lia]. apply begins_dec in B. destruct B; congruence.
  - assert (TF : is_text f) by (intros c I; apply TX; rewrite !in_app_iff; auto).
    assert (MF : moderate f) by (apply (moderate_app (t ++ [10])); rewrite <- app_assoc; exact MO).
    assert (ML : moderate (t ++ [10])) by (apply (moderate_left _ f); rewrite <- app_assoc; exact MO).
    assert (TL : is_text (t ++ [10])) by (intros c I; apply TX; rewrite app_assoc; apply in_or_app; auto).
    specialize (IH TF MF). destruct n as [|n]; [lia|]. rewrite !app_length in L. cbn [length] in L. cbn [search].
    destruct (Nat.lt_ge_cases (length t) (size - 1)) as [K|K].
    + rewrite fgets_ok by auto. cbv zeta. destruct (t ++ [10]) as [|b0 b] eqn:E; [destruct t; discriminate|]. rewrite <- E in *. rewrite last_last. cbn [Z.eqb Pos.eqb negb orb].
      assert (LEN : (length (t ++ [10%Z]) < size)%nat) by (rewrite app_length; cbn [length]; lia).
      destruct (prefix name (t ++ [10])) eqn:P; [destruct (Z.eqb_spec (after (length name) (t ++ [10])) 58) as [Q|Q]|]; cbn [negb orb].
      * assert (B : begins name (t ++ [10])) by (apply begins_dec; auto).
        destruct (parse_ok _ ML) as [[e|] PE]; rewrite PE; cbn [bind].
        -- exists (0, Some e). split; [reflexivity|]. apply a_found; auto. apply parse_bwd; auto.
        -- destruct (IH n ltac:(lia)) as (r & R1 & R2). exists r. split; [exact R1|]. apply a_bad; auto. intros e SE. apply parse_fwd in SE. congruence.
      * destruct (IH n ltac:(lia)) as (r & R1 & R2). exists r. split; [exact R1|]. apply a_other; auto. intro B. apply begins_dec in B. destruct B; congruence.
      * destruct (IH n ltac:(lia)) as (r & R1 & R2). exists r. split; [exact R1|]. apply a_other; auto. intro B. apply begins_dec in B. destruct B; congruence.
    + rewrite fgets_long by auto. cbv zeta.
      assert (FE : firstn (size - 1) t = firstn (size - 1) (t ++ [10])) by (rewrite firstn_app; replace (size - 1 - length t)%nat with O by lia; cbn [firstn]; rewrite app_nil_r; reflexivity).
      assert (NE : firstn (size - 1) t <> []) by (intro C; apply (f_equal (@length Z)) in C; rewrite firstn_length in C; cbn in C; lia).
      rewrite not_whole; [|intro I; apply N; rewrite <- (firstn_skipn (size - 1) t); apply in_or_app; auto|exact NE].
      destruct (firstn (size - 1) t) as [|b0 b] eqn:E; [congruence|]. rewrite FE. cbn [orb negb].
      assert (SK : ~ begins name (t ++ [10]) -> exists r, search n name size true (skipn (size - 1) t ++ 10 :: f) = Ok r /\ answer name size ((t ++ [10]) :: ls) r).
      { intro NB. apply (skip_line (fun x => exists r, x = Ok r /\ answer name size ((t ++ [10]) :: ls) r) f) with (m := length t).
        - intros k KL. destruct (IH k KL) as (r & R1 & R2). exists r. split; [exact R1|]. apply a_other; auto.
        - rewrite skipn_length. lia.
        - intro I. apply N. rewrite <- (firstn_skipn (size - 1) t). apply in_or_app; auto.
        - rewrite app_length, skipn_length. cbn [length]. lia. }
      destruct (prefix name (firstn (size - 1) (t ++ [10]))) eqn:P; [destruct (Z.eqb_spec (after (length name) (firstn (size - 1) (t ++ [10]))) 58) as [Q|Q]|]; cbn [negb orb].
      * exists (ERANGE, None). split; [reflexivity|]. apply a_range; [apply (begins_first name _ (size - 1)); [lia|]; apply begins_dec; auto|]. left. rewrite app_length. cbn [length]. lia.
      * apply SK. intro B. apply (begins_first name _ (size - 1)) in B; [|lia]. apply begins_dec in B. destruct B; congruence.
      * apply SK. intro B. apply (begins_first name _ (size - 1)) in B; [|lia]. apply begins_dec in B. destruct B; congruence.
Qed.
End Search.
