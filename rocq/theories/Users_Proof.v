From Verif Require Import Base Mem_Model Mem_Proof Hosts_Model Inet_Model Hosts_Spec Hosts_Proof Users_Model Users_Spec.
Open Scope Z_scope.

Lemma cut_app d a b : ~ In d a -> cut d (a ++ d :: b) = Some (a, b).
Proof.
  induction a as [|c a IH]; intros N; [cbn; rewrite Z.eqb_refl; reflexivity|]. cbn [app cut]. destruct (Z.eqb_spec c d) as [E|E]; [exfalso; apply N; left; exact E|].
  rewrite IH by (intros I; apply N; right; exact I). reflexivity.
Qed.
Lemma cut_none d a : ~ In d a -> cut d a = None.
Proof.
  induction a as [|c a IH]; intros N; [reflexivity|]. cbn [cut]. destruct (Z.eqb_spec c d) as [E|E]; [exfalso; apply N; left; exact E|].
  rewrite IH by (intros I; apply N; right; exact I). reflexivity.
Qed.
Lemma cut_some a b : forall t, cut 58 t = Some (a, b) -> t = a ++ 58 :: b /\ colons t = S (colons b).
Proof.
  revert a b. intros a b t. revert a b. induction t as [|c t IH]; intros a b H; [discriminate|]. cbn [cut] in H. destruct (Z.eqb_spec c 58) as [E|E].
  - injection H as <- <-. subst. split; [reflexivity|]. unfold colons. cbn. reflexivity.
  - destruct (cut 58 t) as [[x y]|] eqn:K; [|discriminate]. injection H as <- <-. destruct (IH _ _ eq_refl) as [-> C]. split; [reflexivity|]. unfold colons in *. cbn [app count_occ]. destruct (Z.eq_dec c 58); [contradiction|]. exact C.
Qed.
Lemma cut_count t : cut 58 t = None <-> colons t = 0%nat.
Proof.
  induction t as [|c t IH]; [split; reflexivity|]. unfold colons in *. cbn [cut count_occ]. destruct (Z.eqb_spec c 58) as [E|E], (Z.eq_dec c 58) as [E'|E']; try contradiction.
  - split; discriminate. - destruct (cut 58 t) as [[x y]|]; split; intros H; try discriminate; try (apply IH in H; discriminate). + apply IH. reflexivity. + reflexivity.
Qed.
Lemma segments_count n : forall t l r, segments n t = (l, r) -> colons t = (length l + colons r)%nat /\ (length l <= n)%nat /\ ((length l < n)%nat -> colons r = 0%nat).
Proof.
  induction n as [|n IH]; intros t l r H; cbn [segments] in H.
  - injection H as <- <-. cbn. split; [reflexivity|]. split; lia.
  - destruct (cut 58 t) as [[a b]|] eqn:K.
    + destruct (segments n b) as [l' r'] eqn:E. injection H as <- <-. apply cut_some in K as [_ K]. destruct (IH _ _ _ E) as (A & B & C). cbn. split; [lia|]. split; [lia|]. intros. apply C. lia.
    + injection H as <- <-. apply cut_count in K. cbn. split; [reflexivity|]. split; [lia|]. intros _. exact K.
Qed.
Lemma chop_nl t : chop (t ++ [10]) = t.
Proof. induction t as [|c t IH]; [reflexivity|]. cbn [app chop]. rewrite IH. destruct (t ++ [10]) eqn:E; [destruct t; discriminate|reflexivity]. Qed.
Lemma chop_id t : ~ In 10 t -> chop t = t.
Proof.
  induction t as [|c t IH]; intros N; [reflexivity|]. cbn [chop]. destruct t as [|c' t]; [destruct (Z.eqb_spec c 10) as [E|E]; [exfalso; apply N; left; exact E|reflexivity]|].
  rewrite IH; [reflexivity|]. intros I. apply N. right. exact I.
Qed.
Lemma field_58 s : field s -> ~ In 58 s. Proof. intros F I. destruct (F _ I). lia. Qed.
Lemma field_10 s : field s -> ~ In 10 s. Proof. intros F I. destruct (F _ I). lia. Qed.
Lemma decimal_field l v : decimal l v -> field l.
Proof.
  induction 1 as [d D|l v d _ IH D]; intros c I.
  - destruct I as [<-|[]]. lia. - apply in_app_or in I as [I|[<-|[]]]; [apply IH; exact I|lia].
Qed.
Lemma decimal_ne l v : decimal l v -> l <> []. Proof. destruct 1; [discriminate|]. destruct l; discriminate. Qed.
Lemma number_decimal fuel : forall n, 0 <= n < 2 ^ Z.of_nat fuel -> (1 <= fuel)%nat -> decimal (number fuel 10 n) n.
Proof.
  induction fuel as [|f IH]; intros n N F; [lia|]. cbn [number]. destruct (Z.ltb_spec n 10) as [L|L].
  - unfold digit_char. destruct (Z.ltb_spec n 10); [|lia]. apply d_one. lia.
  - rewrite Nat2Z.inj_succ, Z.pow_succ_r in N by lia. destruct f as [|f]; [cbn in N; lia|].
    pose proof (Z.mod_pos_bound n 10 ltac:(lia)). pose proof (Z.div_mod n 10 ltac:(lia)) as DM. unfold digit_char. destruct (Z.ltb_spec (n mod 10) 10); [|lia].
    rewrite DM at 3. apply d_more; [|lia]. apply IH; [|lia]. split; [apply Z.div_pos; lia|]. apply Z.div_lt_upper_bound; lia.
Qed.

(** lines *)
Lemma field_nl l : field l -> ~ In 10 l. Proof. exact (field_10 l). Qed.
Lemma nl_app a b : ~ In 10 a -> ~ In 10 b -> ~ In 10 (a ++ b).
Proof. intros A B I. apply in_app_or in I as [I|I]; auto. Qed.
Lemma nl_colon : ~ In 10 [58]. Proof. intros [E|[]]. discriminate. Qed.
Lemma nl_comma : ~ In 10 [44]. Proof. intros [E|[]]. discriminate. Qed.
Lemma user_nl u l : user_line u l -> exists t, l = t ++ [10] /\ ~ In 10 t.
Proof.
  intros (du & dg & D1 & D2 & _ & _ & F1 & F2 & F3 & F4 & F5 & ->). exists (u_name u ++ [58] ++ u_pass u ++ [58] ++ du ++ [58] ++ dg ++ [58] ++ u_full u ++ [58] ++ u_dir u ++ [58] ++ u_shell u). rewrite <- !app_assoc. split; [reflexivity|].
  apply decimal_field in D1, D2. repeat apply nl_app; try apply nl_colon; apply field_10; assumption.
Qed.
Lemma joined_nl l ms : joined l ms -> (forall s, In s l -> ~ In 10 s) -> ~ In 10 ms.
Proof.
  induction 1 as [|s|s r t _ _ IH]; intros H; [intros []|apply H; left; reflexivity|]. apply nl_app; [apply H; left; reflexivity|]. apply nl_app; [apply nl_comma|]. apply IH. intros x I. apply H. right. exact I.
Qed.
Lemma group_nl g l : group_line g l -> exists t, l = t ++ [10] /\ ~ In 10 t.
Proof.
  intros (dg & ms & D & _ & F1 & F2 & FM & J & ->). exists (g_name g ++ [58] ++ g_pass g ++ [58] ++ dg ++ [58] ++ ms). rewrite <- !app_assoc. split; [reflexivity|]. apply decimal_field in D.
  repeat apply nl_app; try apply nl_colon; try (apply field_10; assumption). apply (joined_nl _ _ J). intros s I. apply field_10. apply FM. exact I.
Qed.
Lemma fgets_line l f : (exists t, l = t ++ [10] /\ ~ In 10 t) -> (length l <= 511)%nat -> fgets 511 (l ++ f) = (l, f) /\ l <> [].
Proof.
  intros (t & -> & N) L. rewrite <- app_assoc. rewrite app_length in L. cbn in L. split; [apply fgets_ok; [exact N|lia]|destruct t; discriminate].
Qed.

Definition to_pw (u : user) : passwd := {| pw_name := u_name u; pw_passwd := u_pass u; pw_uid := u_uid u; pw_gid := u_gid u; pw_gecos := u_full u; pw_dir := u_dir u; pw_shell := u_shell u |}.
Definition to_gr (g : grp) : group := {| gr_name := g_name g; gr_passwd := g_pass g; gr_gid := g_gid g; gr_mem := g_members g |}.

Section Number.
Variable to_number : list Z -> option Z.
Hypothesis NUM : reads_numbers to_number.

Lemma segments_step n a t : ~ In 58 a -> segments (S n) (a ++ 58 :: t) = let '(l, r) := segments n t in (a :: l, r).
Proof. intros N. cbn [segments]. rewrite cut_app by exact N. reflexivity. Qed.
Lemma extract_user u l : user_line u l -> extract_pw to_number l = Some (to_pw u).
Proof.
  intros (du & dg & D1 & D2 & U1 & U2 & F1 & F2 & F3 & F4 & F5 & ->). pose proof (decimal_field _ _ D1) as G1. pose proof (decimal_field _ _ D2) as G2. unfold extract_pw. cbn [app].
  rewrite 6 segments_step by (apply field_58; assumption).
  assert (N : ~ In 58 (u_shell u ++ [10])) by (intros I; apply in_app_or in I as [I|[E|[]]]; [apply (field_58 _ F5 I)|discriminate]).
  cbn [segments]. rewrite cut_none by exact N. rewrite cut_none by exact N. cbn [app]. rewrite (NUM _ _ D1 U1), (NUM _ _ D2 U2), chop_nl. reflexivity.
Qed.
Lemma extract_other l : other_line 6 7 l -> extract_pw to_number l = None.
Proof.
  intros [_ C]. unfold extract_pw. destruct (segments 7 l) as [s r] eqn:E. destruct (segments_count _ _ _ _ E) as (A & B & D). destruct (cut 58 r) as [[x y]|] eqn:K; [reflexivity|]. apply cut_count in K.
  destruct s as [|s1 [|s2 [|s3 [|s4 [|s5 [|s6 s]]]]]]; try reflexivity. cbn in A, B. lia.
Qed.
Lemma find_pw_ok P us f : user_file us f -> forall n, (length f < n)%nat -> find_pw to_number n P f = Ok (find P (map to_pw us)).
Proof.
  induction 1 as [|u l us f L LEN _ IH|l us f O LEN _ IH]; intros n N; (destruct n as [|n]; [lia|]).
  - reflexivity.
  - destruct (fgets_line l f (user_nl _ _ L) LEN) as [F NE]. cbn [find_pw]. rewrite F. destruct l as [|c l]; [contradiction|]. rewrite (extract_user _ _ L). cbn [map find]. destruct (P (to_pw u)); [reflexivity|]. apply IH. cbn in N. rewrite app_length in N. lia.
  - destruct O as [NL C]. destruct (fgets_line l f NL LEN) as [F NE]. cbn [find_pw]. rewrite F. destruct l as [|c l]; [contradiction|]. rewrite (extract_other (c :: l)) by (split; assumption). apply IH. cbn in N. rewrite app_length in N. lia.
Qed.

(** groups *)
Lemma pieces_step d a : forall acc t, ~ In d a -> pieces d acc (a ++ d :: t) = (acc ++ a) :: pieces d [] t.
Proof.
  induction a as [|c a IH]; intros acc t N; [cbn; rewrite Z.eqb_refl, app_nil_r; reflexivity|]. cbn [app pieces]. destruct (Z.eqb_spec c d) as [E|E]; [exfalso; apply N; left; exact E|].
  rewrite IH by (intros I; apply N; right; exact I). rewrite <- app_assoc. reflexivity.
Qed.
Lemma pieces_last d a : forall acc, ~ In d a -> pieces d acc a = match acc ++ a with [] => [] | t => [chop t] end.
Proof.
  induction a as [|c a IH]; intros acc N; [rewrite app_nil_r; destruct acc; reflexivity|]. cbn [pieces]. destruct (Z.eqb_spec c d) as [E|E]; [exfalso; apply N; left; exact E|].
  rewrite IH by (intros I; apply N; right; exact I). rewrite <- app_assoc. reflexivity.
Qed.
Lemma pieces_length t : forall acc, (colons t <= length (pieces 58 acc t) <= S (colons t))%nat /\ (t <> [] -> last t 0 <> 58 -> length (pieces 58 acc t) = S (colons t)).
Proof.
  induction t as [|c t IH]; intros acc; [split; [cbn; destruct acc; cbn; lia|contradiction]|]. unfold colons in *. cbn [pieces count_occ]. destruct (Z.eqb_spec c 58) as [E|E], (Z.eq_dec c 58) as [E'|E']; try contradiction.
  - cbn [length]. destruct (IH []) as [A B]. split; [lia|]. intros _ L. destruct t as [|c' t]; [cbn in L; contradiction|]. rewrite B; [reflexivity|discriminate|exact L].
  - destruct (IH (acc ++ [c])) as [A B]. split; [lia|]. intros _ L. destruct t as [|c' t]; [cbn; destruct acc; reflexivity|]. apply B; [discriminate|exact L].
Qed.
Lemma pieces_joined l ms : joined l ms -> (forall s, In s l -> field s /\ s <> [] /\ ~ In 44 s) -> pieces 44 [] ms = l.
Proof.
  induction 1 as [|s|s r t _ _ IH]; intros H; [reflexivity| |].
  - destruct (H s (or_introl eq_refl)) as (F & NE & NC). rewrite pieces_last by exact NC. cbn [app]. destruct s as [|c s]; [contradiction|]. rewrite chop_id by (apply field_10; exact F). reflexivity.
  - destruct (H s (or_introl eq_refl)) as (F & NE & NC). cbn [app]. rewrite pieces_step by exact NC. cbn [app]. rewrite IH; [reflexivity|]. intros x I. apply H. right. exact I.
Qed.
Lemma joined_58 l ms : joined l ms -> (forall s, In s l -> field s) -> ~ In 58 ms.
Proof.
  induction 1 as [|s|s r t _ _ IH]; intros H I; [exact I|apply (field_58 s); [apply H; left; reflexivity|exact I]|]. apply in_app_or in I as [I|I]; [apply (field_58 s); [apply H; left; reflexivity|exact I]|].
  cbn in I. destruct I as [E|I]; [discriminate|]. revert I. apply IH. intros x I. apply H. right. exact I.
Qed.
Lemma extract_group g l : group_line g l -> extract_gr to_number l = Ok (Some (to_gr g)).
Proof.
  intros (dg & ms & D & U & F1 & F2 & FM & J & ->). unfold extract_gr, walk_segments. cbn [bind app]. rewrite 3 pieces_step by (apply field_58; try assumption; apply (decimal_field _ _ D)). cbn [app].
  assert (N : ~ In 58 (ms ++ [10])) by (intros I; apply in_app_or in I as [I|[E|[]]]; [apply (joined_58 _ _ J (fun s I => proj1 (FM s I)) I)|discriminate]).
  replace (pieces 58 [] (ms ++ [10])) with [ms] by (rewrite pieces_last by exact N; cbn [app]; destruct ms as [|c ms']; [reflexivity|]; cbn [app]; change (c :: ms' ++ [10]) with ((c :: ms') ++ [10]); rewrite chop_nl; reflexivity). cbn [length Nat.ltb Nat.leb].
  rewrite (NUM _ _ D U). cbn [bind]. rewrite (pieces_joined _ _ J FM). reflexivity.
Qed.
Lemma extract_group_other l : (colons l < 2)%nat -> extract_gr to_number l = Ok None.
Proof.
  intros C. unfold extract_gr, walk_segments. cbn [bind]. destruct (pieces_length l []) as [A _]. destruct (Nat.ltb_spec 4 (length (pieces 58 [] l))); [lia|].
  destruct (pieces 58 [] l) as [|a [|b [|c r]]]; try reflexivity. cbn in A. lia.
Qed.
Lemma walk_ok P gs f : group_file gs f -> forall n, (length f < n)%nat -> walk_gr to_number n P f = Ok (find P (map to_gr gs)).
Proof.
  induction 1 as [|g l gs f L LEN _ IH|l gs f NL C LEN _ IH]; intros n N; (destruct n as [|n]; [lia|]).
  - reflexivity.
  - destruct (fgets_line l f (group_nl _ _ L) LEN) as [F NE]. cbn [walk_gr]. rewrite F. destruct l as [|c l]; [contradiction|]. rewrite (extract_group _ _ L). cbn [bind map find]. destruct (P (to_gr g)); [reflexivity|]. apply IH. cbn in N. rewrite app_length in N. lia.
  - destruct (fgets_line l f NL LEN) as [F NE]. cbn [walk_gr]. rewrite F. destruct l as [|c l]; [contradiction|]. rewrite (extract_group_other (c :: l)) by exact C. cbn [bind]. apply IH. cbn in N. rewrite app_length in N. lia.
Qed.
Definition lists (user : list Z) (g : grp) : bool := existsb (same user) (g_members g).
Lemma collect_ok user limit gs f : group_file gs f -> forall n count out, (length f < n)%nat -> 0 <= count -> length out = Z.to_nat (Z.min count limit) ->
  collect to_number n user limit count out f =
  Ok (count + Z.of_nat (length (filter (lists user) gs)), out ++ firstn (Z.to_nat (limit - count)) (map g_gid (filter (lists user) gs))).
Proof.
  induction 1 as [|g l gs f L LEN _ IH|l gs f NL C LEN _ IH]; intros n count out N C0 LO; (destruct n as [|n]; [lia|]).
  - cbn [collect fgets filter map length]. rewrite firstn_nil, app_nil_r, Z.add_0_r. reflexivity.
  - destruct (fgets_line l f (group_nl _ _ L) LEN) as [F NE]. cbn [collect]. rewrite F. destruct l as [|c l]; [contradiction|]. rewrite (extract_group _ _ L). cbn [bind]. rewrite app_length in N. cbn [length] in N.
    change (existsb (same user) (gr_mem (to_gr g))) with (lists user g). cbn [filter]. destruct (lists user g).
    + cbn [to_gr gr_gid map length]. destruct (Z.leb_spec (count + 1) limit).
      * rewrite IH; [|lia|lia|rewrite app_length; cbn; lia]. f_equal. f_equal; [lia|]. rewrite <- app_assoc. f_equal. replace (Z.to_nat (limit - count)) with (S (Z.to_nat (limit - (count + 1)))) by lia. reflexivity.
      * rewrite IH; [|lia|lia|lia]. f_equal. f_equal; [lia|]. replace (Z.to_nat (limit - count)) with 0%nat by lia. replace (Z.to_nat (limit - (count + 1))) with 0%nat by lia. reflexivity.
    + apply IH; [lia|exact C0|exact LO].
  - destruct (fgets_line l f NL LEN) as [F NE]. cbn [collect]. rewrite F. destruct l as [|c l]; [contradiction|]. rewrite (extract_group_other (c :: l)) by exact C. cbn [bind]. rewrite app_length in N. cbn [length] in N. apply IH; [lia|exact C0|exact LO].
Qed.
End Number.

(** memory *)
Lemma put_ok l : forall m p, mapped m p (length l) -> exists m', put m p l = Ok m' /\ bytes_at m' p l /\ same_outside m m' p (length l) /\ (forall a, m a <> None -> m' a <> None).
Proof.
  induction l as [|c l IH]; intros m p MP.
  - exists m. split; [reflexivity|]. split; [intros i I; cbn in I; lia|]. split; [intros a _; reflexivity|auto].
  - cbn [put]. unfold store. destruct (m p) as [v|] eqn:E; [|exfalso; apply (MP 0%nat); [cbn; lia|rewrite Z.add_0_r; exact E]]. cbn [bind].
    destruct (IH (upd m p c) (p + 1)) as (m' & PU & B & S' & K).
    { intros i I. unfold upd. destruct (Z.eqb_spec (p + 1 + Z.of_nat i) p); [lia|]. replace (p + 1 + Z.of_nat i) with (p + Z.of_nat (S i)) by lia. apply MP. cbn. lia. }
    exists m'. split; [exact PU|]. split; [|split].
    + intros i I. destruct i as [|i].
      * rewrite Z.add_0_r, S' by lia. unfold upd. rewrite Z.eqb_refl. reflexivity.
      * replace (p + Z.of_nat (S i)) with (p + 1 + Z.of_nat i) by lia. cbn [nth_error]. apply B. cbn in I. lia.
    + intros a A. cbn [length] in A. rewrite S' by lia. unfold upd. destruct (Z.eqb_spec a p); [lia|reflexivity].
    + intros a A. apply K. unfold upd. destruct (Z.eqb_spec a p); [discriminate|exact A].
Qed.
Lemma bytes_keep m m' p l : bytes_at m p l -> (forall a, p <= a < p + Z.of_nat (length l) -> m' a = m a) -> bytes_at m' p l.
Proof. intros B E i I. rewrite E by lia. apply B. exact I. Qed.
Lemma le_nth w : forall v i, (i < w)%nat -> nth_error (le_bytes w v) i = Some (v / 2 ^ (8 * Z.of_nat i) mod 256).
Proof.
  induction w as [|w IH]; intros v i I; [lia|]. destruct i as [|i]; [cbn [le_bytes nth_error Z.of_nat Z.mul Z.pow]; rewrite Z.div_1_r; reflexivity|]. cbn [le_bytes nth_error]. rewrite IH by lia. f_equal. f_equal.
  rewrite Nat2Z.inj_succ. replace (8 * Z.succ (Z.of_nat i)) with (8 + 8 * Z.of_nat i) by lia. rewrite Z.pow_add_r by lia. change (2 ^ 8) with 256. rewrite Z.div_div; [reflexivity|lia|apply Z.pow_pos_nonneg; lia].
Qed.
Lemma ptr_bytes m a p : bytes_at m a (le_bytes 8 p) -> ptr_at m a p.
Proof.
  intros B i I. specialize (B (Z.to_nat i)). rewrite le_bytes_length, le_nth in B by lia. rewrite Z2Nat.id in B by lia. apply B. lia.
Qed.

Definition bytes (s : list Z) : Prop := Forall (fun c => 0 < c < 256) s.
Lemma field_bytes s : field s -> bytes s. Proof. intros F. apply Forall_forall. intros c I. destruct (F c I). lia. Qed.
Definition pw_size (e : passwd) : Z := size_of (pw_name e) + size_of (pw_dir e) + size_of (pw_shell e) + size_of (pw_passwd e).
Lemma size_len s : Z.of_nat (length (s ++ [0])) = size_of s. Proof. rewrite app_length. unfold size_of. cbn. lia. Qed.
Lemma pw_copy_ok m buf size e : bytes (pw_name e) -> bytes (pw_dir e) -> bytes (pw_shell e) -> bytes (pw_passwd e) -> pw_size e <= size -> mapped m buf (Z.to_nat size) ->
  exists m' pd ps pp, pw_copy m buf size e = Ok (Some (m', (buf, pd, ps, pp))) /\ str_at m' buf (pw_name e) /\ str_at m' pd (pw_dir e) /\ str_at m' ps (pw_shell e) /\ str_at m' pp (pw_passwd e) /\
    same_outside m m' buf (Z.to_nat size) /\ buf <= pd /\ pd + size_of (pw_dir e) <= buf + size /\ buf <= ps /\ ps + size_of (pw_shell e) <= buf + size /\ buf <= pp /\ pp + size_of (pw_passwd e) <= buf + size.
Proof.
  intros B1 B2 B3 B4 SZ MP. unfold pw_size in SZ. unfold pw_copy.
  destruct (Z.ltb_spec size (Z.of_nat (length (pw_name e)) + Z.of_nat (length (pw_dir e)) + Z.of_nat (length (pw_shell e)) + Z.of_nat (length (pw_passwd e)) + 4)) as [L|L]; [unfold size_of in SZ; lia|]. clear L.
  pose proof (size_len (pw_name e)) as L1. pose proof (size_len (pw_dir e)) as L2. pose proof (size_len (pw_shell e)) as L3. pose proof (size_len (pw_passwd e)) as L4.
  assert (MM : forall q n, buf <= q -> q + Z.of_nat n <= buf + size -> mapped m q n). { intros q n Q1 Q2 i I. replace (q + Z.of_nat i) with (buf + Z.of_nat (Z.to_nat (q + Z.of_nat i - buf))) by lia. apply MP. lia. }
  destruct (put_ok (pw_name e ++ [0]) m buf) as (m1 & -> & P1 & S1 & K1); [apply MM; lia|]. cbn [bind].
  destruct (put_ok (pw_dir e ++ [0]) m1 (buf + size_of (pw_name e))) as (m2 & -> & P2 & S2 & K2); [intros i I; apply K1; apply (MM (buf + size_of (pw_name e)) (length (pw_dir e ++ [0]))); lia|]. cbn [bind].
  destruct (put_ok (pw_shell e ++ [0]) m2 (buf + size_of (pw_name e) + size_of (pw_dir e))) as (m3 & -> & P3 & S3 & K3); [intros i I; apply K2, K1; apply (MM (buf + size_of (pw_name e) + size_of (pw_dir e)) (length (pw_shell e ++ [0]))); lia|]. cbn [bind].
  destruct (put_ok (pw_passwd e ++ [0]) m3 (buf + size_of (pw_name e) + size_of (pw_dir e) + size_of (pw_shell e))) as (m4 & -> & P4 & S4 & K4); [intros i I; apply K3, K2, K1; apply (MM (buf + size_of (pw_name e) + size_of (pw_dir e) + size_of (pw_shell e)) (length (pw_passwd e ++ [0]))); lia|]. cbn [bind].
  destruct (Z.leb_spec (buf + size_of (pw_name e) + size_of (pw_dir e) + size_of (pw_shell e) + size_of (pw_passwd e) - 1) (buf + size)) as [_|X]; [|lia].
  assert (0 < size_of (pw_name e) /\ 0 < size_of (pw_dir e) /\ 0 < size_of (pw_shell e) /\ 0 < size_of (pw_passwd e)) as (Z1 & Z2 & Z3 & Z4) by (unfold size_of; lia).
  eexists _, _, _, _. split; [reflexivity|].
  split; [split; [|exact B1]; apply (bytes_keep m1); [exact P1|]; intros a A; rewrite S4, S3, S2 by lia; reflexivity|].
  split; [split; [|exact B2]; apply (bytes_keep m2); [exact P2|]; intros a A; rewrite S4, S3 by lia; reflexivity|].
  split; [split; [|exact B3]; apply (bytes_keep m3); [exact P3|]; intros a A; rewrite S4 by lia; reflexivity|].
  split; [split; [exact P4|exact B4]|].
  split; [intros a A; rewrite S4, S3, S2, S1 by lia; reflexivity|]. lia.
Qed.
Lemma pw_copy_small m buf size e : size < pw_size e -> pw_copy m buf size e = Ok None.
Proof. intros L. unfold pw_size, size_of in L. unfold pw_copy. destruct (Z.ltb_spec size (Z.of_nat (length (pw_name e)) + Z.of_nat (length (pw_dir e)) + Z.of_nat (length (pw_shell e)) + Z.of_nat (length (pw_passwd e)) + 4)); [reflexivity|lia]. Qed.

Fixpoint strings_size (l : list (list Z)) : Z := match l with [] => 0 | s :: r => size_of s + strings_size r end.
Lemma members_sum l : members_size l = strings_size l + 8 * Z.of_nat (length l).
Proof. induction l as [|s r IH]; [reflexivity|]. cbn [members_size strings_size length]. rewrite IH. lia. Qed.
Lemma strings_pos l : 0 <= strings_size l. Proof. induction l as [|s r IH]; cbn [strings_size]; [lia|]. unfold size_of. lia. Qed.
Lemma put_members_ok l : forall m a sd lo hi, a mod 8 = 0 -> Forall bytes l -> lo <= a -> a + 8 * Z.of_nat (length l) + 8 <= sd -> sd + strings_size l <= hi -> (forall x, lo <= x < hi -> m x <> None) ->
  exists m', put_members m a sd l = Ok (m', a + 8 * Z.of_nat (length l), sd + strings_size l) /\
    (forall x, ~ (a <= x < a + 8 * Z.of_nat (length l)) -> ~ (sd <= x < sd + strings_size l) -> m' x = m x) /\ (forall x, m x <> None -> m' x <> None) /\
    forall mf, (forall x, a <= x < a + 8 * Z.of_nat (length l) \/ sd <= x < sd + strings_size l -> mf x = m' x) -> ptr_at mf (a + 8 * Z.of_nat (length l)) 0 -> strings_at mf lo hi a l.
Proof.
  induction l as [|s r IH]; intros m a sd lo hi AL B A1 A2 A3 MP.
  - exists m. cbn [put_members length strings_size Z.of_nat]. rewrite Z.mul_0_r, !Z.add_0_r. split; [reflexivity|]. split; [auto|]. split; [auto|]. intros mf _ P. cbn in A2, A3. apply sa_end; [lia|lia|exact P].
  - inversion B as [|? ? Bs Br]; subst. pose proof (strings_pos r) as SP. pose proof (size_len s) as LS. assert (0 < size_of s) as Zs by (unfold size_of; lia).
    cbn [put_members length strings_size] in *. rewrite Nat2Z.inj_succ in *. destruct (Z.eqb_spec (a mod 8) 0) as [_|X]; [|contradiction].
    destruct (put_ok (le_bytes 8 sd) m a) as (m1 & -> & P1 & S1 & K1); [intros i I; rewrite le_bytes_length in I; apply MP; lia|]. rewrite le_bytes_length in S1. cbn [bind].
    destruct (put_ok (s ++ [0]) m1 sd) as (m2 & -> & P2 & S2 & K2); [intros i I; apply K1, MP; lia|]. cbn [bind].
    destruct (IH m2 (a + 8) (sd + size_of s) lo hi) as (m3 & E & O3 & K3 & F3); [rewrite <- Z.add_mod_idemp_r by lia; rewrite Z.mod_same, Z.add_0_r by lia; exact AL|exact Br|lia|lia|lia|intros x X; apply K2, K1, MP; exact X|].
    exists m3. rewrite E. split; [f_equal; f_equal; [f_equal; lia|lia]|]. split; [intros x X1 X2; rewrite O3, S2, S1 by lia; reflexivity|]. split; [auto|].
    intros mf FX PT. apply (sa_cons _ _ _ _ sd); [lia|lia| |lia|unfold size_of in *; lia| |].
    + apply ptr_bytes. apply (bytes_keep m1); [exact P1|]. rewrite le_bytes_length. intros x X. rewrite FX, O3, S2 by lia. reflexivity.
    + split; [|exact Bs]. apply (bytes_keep m2); [exact P2|]. intros x X. rewrite FX, O3 by lia. reflexivity.
    + apply F3; [intros x X; apply FX; lia|]. replace (a + 8 + 8 * Z.of_nat (length r)) with (a + 8 * Z.succ (Z.of_nat (length r))) by lia. exact PT.
Qed.
Definition gr_size (g : group) : Z := members_size (gr_mem g) + 8 + size_of (gr_name g).
Lemma gr_copy_ok m buf size g : buf mod 8 = 0 -> bytes (gr_name g) -> bytes (gr_passwd g) -> Forall bytes (gr_mem g) -> gr_size g + size_of (gr_passwd g) <= size -> mapped m buf (Z.to_nat size) ->
  exists m' pn pp, gr_copy m buf size g = Ok (Some (m', (buf, pn, pp))) /\ str_at m' pn (gr_name g) /\ str_at m' pp (gr_passwd g) /\ strings_at m' buf (buf + size) buf (gr_mem g) /\
    same_outside m m' buf (Z.to_nat size) /\ buf <= pn /\ pn + size_of (gr_name g) <= buf + size /\ buf <= pp /\ pp + size_of (gr_passwd g) <= buf + size.
Proof.
  intros AL B1 B2 B3 SZ MP. unfold gr_size in SZ. pose proof (members_sum (gr_mem g)) as MS. pose proof (strings_pos (gr_mem g)) as SP. pose proof (size_len (gr_name g)) as L1. pose proof (size_len (gr_passwd g)) as L2.
  assert (0 < size_of (gr_name g) /\ 0 < size_of (gr_passwd g)) as (Z1 & Z2) by (unfold size_of; lia).
  unfold gr_copy. rewrite AL. change ((0 + 7) / 8 * 8) with 0. destruct (Z.ltb_spec size 0) as [X|_]; [lia|]. rewrite Z.add_0_r, Z.sub_0_r. destruct (Z.ltb_spec size (members_size (gr_mem g) + size_of (gr_name g) + 8)) as [X|_]; [lia|].
  assert (MM : forall x, buf <= x < buf + size -> m x <> None). { intros x X. replace x with (buf + Z.of_nat (Z.to_nat (x - buf))) by lia. apply MP. lia. }
  remember (Z.of_nat (length (gr_mem g))) as k eqn:K. remember (buf + (k + 1) * 8) as sd eqn:SD. remember (strings_size (gr_mem g)) as ss eqn:SS.
  destruct (put_members_ok (gr_mem g) m buf sd buf (buf + size)) as (m1 & -> & O1 & K1 & F1); [exact AL|exact B3|lia|lia|lia|exact MM|]. rewrite <- K, <- SS in *. cbn [bind].
  replace ((buf + 8 * k) mod 8) with 0 by (rewrite <- Z.add_mod_idemp_r by lia; rewrite (Z.mul_comm 8 k), Z.mod_mul, Z.add_0_r by lia; symmetry; exact AL). cbn [Z.eqb].
  destruct (put_ok (le_bytes 8 0) m1 (buf + 8 * k)) as (m2 & -> & P2 & S2 & K2); [intros i I; rewrite le_bytes_length in I; apply K1, MM; lia|]. rewrite le_bytes_length in S2. cbn [bind].
  destruct (put_ok (gr_name g ++ [0]) m2 (sd + ss)) as (m3 & -> & P3 & S3 & K3); [intros i I; apply K2, K1, MM; lia|]. cbn [bind].
  destruct (put_ok (gr_passwd g ++ [0]) m3 (sd + ss + size_of (gr_name g))) as (m4 & -> & P4 & S4 & K4); [intros i I; apply K3, K2, K1, MM; lia|]. cbn [bind].
  destruct (Z.leb_spec (sd + ss + size_of (gr_name g) + size_of (gr_passwd g)) (buf + size)) as [_|X]; [|lia].
  eexists _, _, _. split; [reflexivity|].
  split; [split; [|exact B1]; apply (bytes_keep m3); [exact P3|]; intros a A; rewrite S4 by lia; reflexivity|].
  split; [split; [exact P4|exact B2]|].
  split; [apply F1; [intros x X; rewrite S4, S3, S2 by lia; reflexivity|]; apply ptr_bytes; apply (bytes_keep m2); [exact P2|]; rewrite le_bytes_length; intros x X; rewrite S4, S3 by lia; reflexivity|].
  split; [intros a A; rewrite S4, S3, S2, O1 by lia; reflexivity|]. lia.
Qed.
Lemma gr_copy_small m buf size g : buf mod 8 = 0 -> size < gr_size g -> gr_copy m buf size g = Ok None.
Proof.
  intros AL L. unfold gr_size in L. unfold gr_copy. rewrite AL. change ((0 + 7) / 8 * 8) with 0. destruct (Z.ltb_spec size 0); [reflexivity|]. rewrite Z.sub_0_r. destruct (Z.ltb_spec size (members_size (gr_mem g) + size_of (gr_name g) + 8)); [reflexivity|lia].
Qed.
Lemma gr_copy_misaligned m buf size g : buf mod 8 <> 0 -> gr_size g + 8 <= size -> gr_copy m buf size g = UB.
Proof.
  intros AL L. unfold gr_size in L. unfold gr_copy. pose proof (Z.mod_pos_bound buf 8 ltac:(lia)) as MB. assert (D : (buf mod 8 + 7) / 8 = 1) by (symmetry; apply Z.div_unique with (buf mod 8 - 1); lia). rewrite D. change (1 * 8) with 8.
  pose proof (members_sum (gr_mem g)) as MS. pose proof (strings_pos (gr_mem g)) as SP. assert (0 < size_of (gr_name g)) by (unfold size_of; lia).
  destruct (Z.ltb_spec size 8) as [X|_]; [lia|]. destruct (Z.ltb_spec (size - 8) (members_size (gr_mem g) + size_of (gr_name g) + 8)) as [X|_]; [lia|].
  assert (A8 : (buf + 8) mod 8 <> 0) by (rewrite <- Z.add_mod_idemp_r by lia; rewrite Z.mod_same, Z.add_0_r by lia; exact AL).
  destruct (gr_mem g) as [|s r]; cbn [put_members bind]; (destruct (Z.eqb_spec ((buf + 8) mod 8) 0); [contradiction|reflexivity]).
Qed.
Lemma bind_bad {A B} (r : res A) (k : A -> res B) P : (forall a, r = Ok a -> P (k a)) -> P UB -> P Abort -> P Fuel -> P (bind r k).
Proof. destruct r; cbn; auto. Qed.
Lemma put_members_pos l : forall m a sd m' a' sd', put_members m a sd l = Ok (m', a', sd') -> sd' = sd + strings_size l.
Proof.
  induction l as [|s r IH]; intros m a sd m' a' sd' H; cbn [put_members strings_size] in *; [injection H as <- <- <-; lia|].
  destruct (a mod 8 =? 0); [|discriminate]. destruct (put m a (le_bytes 8 sd)); try discriminate. cbn [bind] in H. destruct (put a0 sd (s ++ [0])); try discriminate. cbn [bind] in H. apply IH in H. lia.
Qed.
Lemma gr_copy_over m buf size g : buf mod 8 = 0 -> gr_size g <= size < gr_size g + size_of (gr_passwd g) -> forall r, gr_copy m buf size g <> Ok r.
Proof.
  intros AL L r. unfold gr_size in L. unfold gr_copy. rewrite AL. change ((0 + 7) / 8 * 8) with 0. pose proof (members_sum (gr_mem g)) as MS. pose proof (strings_pos (gr_mem g)) as SP. assert (0 < size_of (gr_name g)) by (unfold size_of; lia).
  destruct (Z.ltb_spec size 0) as [X|_]; [lia|]. rewrite Z.add_0_r, Z.sub_0_r. destruct (Z.ltb_spec size (members_size (gr_mem g) + size_of (gr_name g) + 8)) as [X|_]; [lia|].
  destruct (put_members m buf (buf + (Z.of_nat (length (gr_mem g)) + 1) * 8) (gr_mem g)) as [[[m1 a] sd]| | |] eqn:E; try discriminate. cbn [bind]. apply put_members_pos in E. destruct (a mod 8 =? 0); [|discriminate].
  destruct (put m1 a (le_bytes 8 0)) as [m2| | |]; try discriminate. cbn [bind]. destruct (put m2 sd (gr_name g ++ [0])) as [m3| | |]; try discriminate. cbn [bind]. destruct (put m3 (sd + size_of (gr_name g)) (gr_passwd g ++ [0])) as [m4| | |]; try discriminate. cbn [bind].
  destruct (Z.leb_spec (sd + size_of (gr_name g) + size_of (gr_passwd g)) (buf + size)); [lia|discriminate].
Qed.

(** writing *)
Lemma bad_false s : field s -> bad_field s = false.
Proof. intros F. unfold bad_field. destruct (existsb _ s) eqn:E; [|reflexivity]. apply existsb_exists in E as (c & I & H). destruct (F c I) as (_ & A & B). lia. Qed.
Lemma bad_true s : bad_field s = true <-> In 10 s \/ In 58 s.
Proof.
  unfold bad_field. rewrite existsb_exists. split.
  - intros (c & I & H). destruct (Z.eqb_spec c 10) as [->|]; [left; exact I|]. right. replace 58 with c by lia. exact I.
  - intros [I|I]; eexists; (split; [exact I|reflexivity]).
Qed.
Lemma print_joined l : joined l (print_members true l).
Proof.
  induction l as [|s r IH]; [constructor|]. cbn [print_members app]. destruct r as [|s' r]; [cbn [print_members]; rewrite app_nil_r; constructor|]. cbn [print_members] in *. apply (j_more s (s' :: r)); [discriminate|]. exact IH.
Qed.

Lemma find_first {A B} (f : A -> B) (p : B -> bool) (P : A -> Prop) l : (forall x, p (f x) = true <-> P x) -> exists r, first P l r /\ find p (map f l) = option_map f r.
Proof.
  intros R. induction l as [|x l (r & F & E)]; [exists None; split; [constructor|reflexivity]|]. cbn [map find]. destruct (p (f x)) eqn:K.
  - exists (Some x). split; [constructor; apply R; exact K|reflexivity].
  - exists r. split; [apply f_later; [intros H; apply R in H; congruence|exact F]|exact E].
Qed.
Lemma first_unique {A} (P : A -> Prop) l r : first P l r -> forall r', first P l r' -> r = r'.
Proof. induction 1; intros r' H'; inversion H'; subst; try reflexivity; try contradiction. auto. Qed.
Lemma find_is {A B} (f : A -> B) (p : B -> bool) (P : A -> Prop) l r : (forall x, p (f x) = true <-> P x) -> first P l r -> find p (map f l) = option_map f r.
Proof. intros R F. destruct (find_first f p P l R) as (r' & F' & ->). rewrite (first_unique _ _ _ F _ F'). reflexivity. Qed.
Lemma same_iff a b : same a b = true <-> a = b.
Proof. unfold same. destruct (list_eq_dec Z.eq_dec a b); split; intros H; try discriminate; try contradiction; auto. Qed.
Lemma lists_iff u g : lists u g = true <-> In u (g_members g).
Proof.
  unfold lists. rewrite existsb_exists. split; [intros (x & I & E); apply same_iff in E; subst; exact I|intros I; exists u; split; [exact I|apply same_iff; reflexivity]].
Qed.
Lemma user_field u l : user_line u l -> field (u_name u) /\ field (u_pass u) /\ field (u_dir u) /\ field (u_shell u).
Proof. intros (? & ? & _ & _ & _ & _ & F1 & F2 & _ & F4 & F5 & _). auto. Qed.
Lemma file_users us f : user_file us f -> Forall (fun u => exists l, user_line u l) us.
Proof. induction 1; [constructor|constructor; [eexists; eassumption|assumption]|assumption]. Qed.
Lemma file_groups gs f : group_file gs f -> Forall (fun g => exists l, group_line g l) gs.
Proof. induction 1; [constructor|constructor; [eexists; eassumption|assumption]|assumption]. Qed.
Lemma first_in {A} (P : A -> Prop) l x : first P l (Some x) -> In x l /\ P x.
Proof. intros H. remember (Some x) as r eqn:R. induction H; [discriminate|injection R as ->; split; [left; reflexivity|assumption]|]. destruct IHfirst as [I Q]; [exact R|]. split; [right; exact I|exact Q]. Qed.
Lemma extract_abort to_number l : (exists t, l = t ++ [10]) -> (3 < colons l)%nat -> extract_gr to_number l = Abort.
Proof.
  intros (t & ->) C. unfold extract_gr, walk_segments. cbn [bind]. destruct (pieces_length (t ++ [10]) []) as [_ B]. rewrite B; [|destruct t; discriminate|rewrite last_last; discriminate]. destruct (Nat.ltb_spec 4 (S (colons (t ++ [10])))); [reflexivity|lia].
Qed.
Lemma extract_no_members to_number name pass gid v : reads_numbers to_number -> ~ In 58 name -> ~ In 58 pass -> decimal gid v -> v < 2 ^ 31 ->
  extract_gr to_number (name ++ [58] ++ pass ++ [58] ++ gid ++ [10]) = UB /\ extract_gr to_number (name ++ [58] ++ pass ++ [58] ++ gid ++ [58]) = UB.
Proof.
  intros NUM N1 N2 D U. pose proof (decimal_field _ _ D) as G. unfold extract_gr, walk_segments. cbn [bind app]. split.
  - rewrite 2 pieces_step by assumption. rewrite pieces_last by (intros I; apply in_app_or in I as [I|[E|[]]]; [apply (field_58 _ G I)|discriminate]). cbn [app].
    replace (match gid ++ [10] with [] => [] | t => [chop t] end) with [gid]; [cbn [length Nat.ltb Nat.leb]; rewrite (NUM _ _ D U); reflexivity|].
    destruct gid as [|c gid]; [reflexivity|]. cbn [app]. change (c :: gid ++ [10]) with ((c :: gid) ++ [10]). rewrite chop_nl. reflexivity.
  - rewrite 3 pieces_step by (try assumption; apply field_58; exact G). cbn [app pieces length Nat.ltb Nat.leb]. rewrite (NUM _ _ D U). reflexivity.
Qed.
