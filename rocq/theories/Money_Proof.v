From Verif Require Import Base Money_Model Money_Spec.
Open Scope Z_scope.

Lemma append_not_ub m out s : 0 <= m -> append m out s = Ok None \/ append m out s = Ok (Some (out ++ s)) /\ Z.of_nat (length (out ++ s)) + 1 < m.
Proof.
  intros M. unfold append. rewrite app_length. destruct (Z.leb_spec m (Z.of_nat (length out) + Z.of_nat (length s) + 1)); auto.
  destruct (Z.ltb_spec m (Z.of_nat (length out) + Z.of_nat (length s))); [lia|]. right. split; auto. lia.
Qed.
Lemma append_fits m out s : Z.of_nat (length (out ++ s)) + 1 < m -> append m out s = Ok (Some (out ++ s)).
Proof.
  intros M. unfold append. rewrite app_length in M. destruct (Z.leb_spec m (Z.of_nat (length out) + Z.of_nat (length s) + 1)); [lia|].
  destruct (Z.ltb_spec m (Z.of_nat (length out) + Z.of_nat (length s))); [lia|]. reflexivity.
Qed.
Lemma append_none m out s : append m out s = Ok None -> m <= Z.of_nat (length (out ++ s)) + 1.
Proof. unfold append. rewrite app_length. destruct (Z.leb_spec m (Z.of_nat (length out) + Z.of_nat (length s) + 1)); [intros; lia|]. destruct (Z.ltb_spec m (Z.of_nat (length out) + Z.of_nat (length s))); discriminate. Qed.
Lemma run_safe m : 0 <= m -> forall l out, exists x, run m out l = Ok x /\ match x with None => True | Some out' => (length out <= length out')%nat end.
Proof.
  intros M. induction l as [|[c s] l IH]; intros out; [exists (Some out); split; auto|]. cbn [run]. destruct (append_not_ub m out s M) as [->|[-> _]]; cbn [bind].
  - destruct c; [exists None; auto|]. apply IH.
  - destruct (IH (out ++ s)) as (x & -> & X). exists x. split; auto. destruct x; auto. rewrite app_length in X. lia.
Qed.
Definition ok_pieces (l : list (bool * list Z)) : Prop := forall c s, In (c, s) l -> c = true \/ (length s <= 1)%nat.
Lemma run_good m : 0 <= m -> forall l out out', ok_pieces l -> run m out l = Ok (Some out') -> Z.of_nat (length out') + 2 < m -> out' = out ++ concat (map snd l).
Proof.
  intros M. induction l as [|[c s] l IH]; intros out out' OK R F; cbn [run] in R.
  - injection R as <-. cbn. now rewrite app_nil_r.
  - assert (OK' : ok_pieces l) by (intros a b H; apply OK; now right). destruct (append_not_ub m out s M) as [E|[E _]]; rewrite E in R; cbn [bind] in R.
    + destruct c; [discriminate|]. exfalso. apply append_none in E. rewrite app_length in E. destruct (OK false s ltac:(now left)) as [X|X]; [discriminate|]. destruct (run_safe m M l out) as (x & R' & L). rewrite R in R'. injection R' as <-. lia.
    + apply IH in R; auto. rewrite R. cbn. now rewrite app_assoc.
Qed.
Lemma run_all m : forall l out, Z.of_nat (length (out ++ concat (map snd l))) + 1 < m -> run m out l = Ok (Some (out ++ concat (map snd l))).
Proof.
  induction l as [|[c s] l IH]; intros out F; cbn [run map snd concat] in *; [now rewrite app_nil_r|]. rewrite app_assoc in *. rewrite append_fits by (rewrite app_length in F; lia). cbn [bind]. now apply IH.
Qed.

Lemma fill_ok k c : ok_pieces (fill k c).
Proof. intros a b H. apply repeat_spec in H. injection H as -> _. auto. Qed.
Lemma app_ok a b : ok_pieces a -> ok_pieces b -> ok_pieces (a ++ b).
Proof. intros A B c s H. apply in_app_iff in H. destruct H; auto. Qed.
Lemma nil_ok : ok_pieces []. Proof. intros c s []. Qed.
Lemma one_ok s : ok_pieces [(true, s)]. Proof. intros c t [H|[]]. injection H as <- _. auto. Qed.
Lemma sgn_ok l o n m neg : ok_pieces (sign_pieces l o n m neg).
Proof. unfold sign_pieces. destruct (negb (negative n) && match m with force_positive => true | _ => false end); [apply one_ok|]. destruct (negb (negative n) && some (lprec o)); [apply one_ok|]. destruct (negative n); [apply one_ok|apply nil_ok]. Qed.
Lemma conv_ok l o n : single n -> ok_pieces (conv l o n).
Proof.
  intros S1. assert (SG : ok_pieces (sgn l o n)) by apply sgn_ok.
  assert (T : ok_pieces (map (fun s => (false, s)) (text n (precision l o) (group o)))). { intros c s H. apply in_map_iff in H. destruct H as (x & E & H). injection E as <- <-. right. eapply S1; eauto. }
  assert (CU : ok_pieces (cur l o n)). { unfold cur. repeat apply app_ok; try apply one_ok; match goal with |- ok_pieces (if ?b then _ else _) => destruct b end; auto using nil_ok. }
  assert (BE : ok_pieces (before l o n)). { unfold before. repeat match goal with |- ok_pieces (if ?b then _ else _) => destruct b end; auto using nil_ok, one_ok. }
  assert (AF : ok_pieces (after l o n)). { unfold after. repeat match goal with |- ok_pieces (if ?b then _ else _) => destruct b end; auto using nil_ok, one_ok. }
  unfold conv, body. repeat apply app_ok; auto using fill_ok; match goal with |- ok_pieces (if ?b then _ else _) => destruct b end; auto using nil_ok, fill_ok, app_ok.
Qed.

Lemma need_ok f : need f = Abort \/ need f = Ok f /\ f <> [].
Proof. destruct f; cbn; auto. right. split; [auto|discriminate]. Qed.
Definition fine {A} (r : res A) : Prop := match r with UB => False | Fuel => False | _ => True end.
Lemma flags_fine b : forall k f o, (length f <= k)%nat -> fine (flags b f o) /\ forall o' f', flags b f o = Ok (Some (o', f')) -> (length f' <= length f)%nat.
Proof.
  induction k as [|k IH]; intros f o L.
  - destruct f; cbn in L; [|lia]. cbn. split; auto. intros o' f' H. injection H as _ <-. auto.
  - assert (STEP : forall r o1, (length r <= k)%nat -> fine (r' <- need r ;; flags b r o1) /\ forall o' f', (r' <- need r ;; flags b r o1) = Ok (Some (o', f')) -> (length f' <= length r)%nat).
    { intros r o1 LR. destruct (need_ok r) as [->|[-> _]]; cbn [bind]; [split; [exact I|discriminate]|]. now apply IH. }
    assert (STOP : fine (Ok (Some (o, f))) /\ forall o' f', Ok (Some (o, f)) = Ok (Some (o', f')) -> (length f' <= length f)%nat).
    { split; [exact I|]. intros o' f' H. injection H as _ <-. auto. }
    destruct f as [|c r]; [exact STOP|]. cbn [length] in *.
    assert (C : c = 45 \/ c = 43 \/ c = 40 \/ c = 94 \/ c = 33 \/ c = 61 \/ flags b (c :: r) o = Ok (Some (o, c :: r))).
    { destruct (Z.eq_dec c 45); [auto|]. destruct (Z.eq_dec c 43); [auto|]. destruct (Z.eq_dec c 40); [auto|]. destruct (Z.eq_dec c 94); [auto|]. destruct (Z.eq_dec c 33); [tauto|]. destruct (Z.eq_dec c 61); [tauto|].
      do 6 right. destruct c as [|p|p]; try reflexivity. do 7 (destruct p as [p|p|]; try reflexivity; try congruence). }
    destruct C as [->|[->|[->|[->|[->|[->| ->]]]]]]; [| | | | | |exact STOP]; cbn [flags].
    + destruct (STEP r (op (group o) (suppress o) (width o) (lprec o) (rprec o) (padding o) true (mode o) (intf o)) ltac:(lia)) as [A B]. split; auto. intros o' f' H. apply B in H. lia.
    + destruct b; [split; [exact I|discriminate]|]. destruct (STEP r (op (group o) (suppress o) (width o) (lprec o) (rprec o) (padding o) (left o) force_positive (intf o)) ltac:(lia)) as [A B]. split; auto. intros o' f' H. apply B in H. lia.
    + destruct (STEP r (op (group o) (suppress o) (width o) (lprec o) (rprec o) (padding o) (left o) parentheses (intf o)) ltac:(lia)) as [A B]. split; auto. intros o' f' H. apply B in H. lia.
    + destruct (STEP r (op false (suppress o) (width o) (lprec o) (rprec o) (padding o) (left o) (mode o) (intf o)) ltac:(lia)) as [A B]. split; auto. intros o' f' H. apply B in H. lia.
    + destruct (STEP r (op (group o) true (width o) (lprec o) (rprec o) (padding o) (left o) (mode o) (intf o)) ltac:(lia)) as [A B]. split; auto. intros o' f' H. apply B in H. lia.
    + destruct r as [|d r]; [split; [exact I|discriminate]|]. cbn [length] in *. destruct (STEP r (op (group o) (suppress o) (width o) (lprec o) (rprec o) d (left o) (mode o) (intf o)) ltac:(lia)) as [A B]. split; auto. intros o' f' H. apply B in H. lia.
Qed.
Lemma number_fine : forall f w, fine (number f w) /\ forall v f', number f w = Ok (v, f') -> (length f' <= length f)%nat.
Proof.
  induction f as [|c r IH]; intros w; cbn [number].
  - split; [exact I|]. intros v f' H. injection H as _ <-. auto.
  - destruct (digit c).
    + destruct (need_ok r) as [->|[-> _]]; cbn [bind]; [split; [exact I|discriminate]|]. destruct (IH ((w * 10 + (c - 48)) mod 18446744073709551616)) as [A B]. split; auto. intros v f' H. apply B in H. cbn [length]. lia.
    + split; [exact I|]. intros v f' H. injection H as _ <-. auto.
Qed.
Lemma tl_len {A} (f : list A) : (length (tl f) <= length f)%nat.
Proof. destruct f; cbn; lia. Qed.
Lemma opt_number_fine x f : let r := (if hd0 f =? x then r <- need (tl f) ;; '(p, f3) <- number r 0 ;; Ok (Some p, f3) else Ok (None, f)) in
  fine r /\ forall v f', r = Ok (v, f') -> (length f' <= length f)%nat.
Proof.
  cbn zeta. destruct (hd0 f =? x).
  - destruct (need_ok (tl f)) as [->|[-> _]]; cbn [bind]; [split; [exact I|discriminate]|]. destruct (number_fine (tl f) 0) as [A B]. destruct (number (tl f) 0) as [[p f3]| | |]; try contradiction; cbn [bind]; [|split; [exact I|discriminate]].
    split; [exact I|]. intros v f' H. injection H as _ <-. specialize (B p f3 eq_refl). pose proof (tl_len f). lia.
  - split; [exact I|]. intros v f' H. injection H as _ <-. auto.
Qed.
Lemma parse_fine l f : fine (parse l f) /\ forall o f', parse l f = Ok (Some (o, f')) -> (length f' <= length f)%nat.
Proof.
  unfold parse. destruct (flags_fine (match strip (pos_sign l), strip (neg_sign l) with [], [] => true | _, _ => false end) (length f) f opts0 ltac:(lia)) as [A B].
  destruct (flags _ f opts0) as [[[o f1]|]| | |]; try contradiction; cbn [bind]; [|split; [exact I|discriminate]|split; [exact I|discriminate]]. specialize (B o f1 eq_refl).
  assert (W : exists r, (if digit (hd0 f1) then '(w, f2) <- number f1 0 ;; Ok (Some w, f2) else Ok (None, f1)) = r /\ fine r /\ forall v f', r = Ok (v, f') -> (length f' <= length f1)%nat).
  { eexists. split; [reflexivity|]. destruct (digit (hd0 f1)).
    - destruct (number_fine f1 0) as [A1 B1]. destruct (number f1 0) as [[p f3]| | |]; try contradiction; cbn [bind]; [|split; [exact I|discriminate]]. split; [exact I|]. intros v f' H. injection H as _ <-. now apply (B1 p).
    - split; [exact I|]. intros v f' H. injection H as _ <-. auto. }
  destruct W as (r & -> & FW & LW). destruct r as [[w f2]| | |]; try contradiction; cbn [bind]; [|split; [exact I|discriminate]]. specialize (LW w f2 eq_refl).
  destruct (opt_number_fine 35 f2) as [FP LP]. cbn zeta in FP, LP. destruct (if hd0 f2 =? 35 then _ else _) as [[p f3]| | |]; try contradiction; cbn [bind]; [|split; [exact I|discriminate]]. specialize (LP p f3 eq_refl).
  destruct (opt_number_fine 46 f3) as [FQ LQ]. cbn zeta in FQ, LQ. destruct (if hd0 f3 =? 46 then _ else _) as [[q f4]| | |]; try contradiction; cbn [bind]; [|split; [exact I|discriminate]]. specialize (LQ q f4 eq_refl).
  pose proof (tl_len f4). destruct (hd0 f4 =? 105); [|destruct (hd0 f4 =? 110)]; (split; [exact I|]); intros o' f' H'; try discriminate; injection H' as _ <-; lia.
Qed.
Lemma plain_len f : hd0 f <> 37 -> f <> [] -> (length (snd (plain f)) < length f)%nat.
Proof.
  assert (G : forall f, (length (snd (plain f)) <= length f)%nat). { clear. induction f as [|c r IH]; cbn [plain]; auto. destruct (c =? 37); auto. destruct (plain r). cbn in *. lia. }
  destruct f as [|c r]; [congruence|]. cbn [hd0 plain]. intros N _. destruct (Z.eqb_spec c 37); [congruence|]. specialize (G r). destruct (plain r). cbn in *. lia.
Qed.
Lemma plain_len' c r : c <> 37 -> (length (snd (plain (c :: r))) <= length r)%nat.
Proof. intros N. pose proof (plain_len (c :: r) N ltac:(discriminate)). cbn [length] in *. lia. Qed.

Lemma loop_safe l m : 0 <= m -> forall k f args out, (length f < k)%nat -> fine (format_loop k l m f args out) /\ forall out', format_loop k l m f args out = Ok (inr out') -> (length out <= length out')%nat.
Proof.
  intros M. induction k as [|k IH]; intros f args out L; [lia|]. cbn [format_loop]. destruct f as [|c r]; [split; [exact I|intros out' H; injection H as <-; auto]|]. cbn [length] in L.
  assert (AP : forall s f' args', (length f' < k)%nat -> fine (o <- append m out s ;; match o with None => Ok (inl E2BIG) | Some out' => format_loop k l m f' args' out' end) /\
    forall out', (o <- append m out s ;; match o with None => Ok (inl E2BIG) | Some out' => format_loop k l m f' args' out' end) = Ok (inr out') -> (length out <= length out')%nat).
  { intros s f' args' L'. destruct (append_not_ub m out s M) as [->|[-> _]]; cbn [bind]; [split; [exact I|discriminate]|]. destruct (IH f' args' (out ++ s) L') as [A B]. split; auto. intros out' H. apply B in H. rewrite app_length in H. lia. }
  destruct (Z.eqb_spec c 37) as [->|N]; cbn [negb].
  - destruct (hd0 r =? 37); [apply AP; pose proof (tl_len r); lia|]. destruct (parse_fine l r) as [A B]. destruct (parse l r) as [[[o f']|]| | |]; try contradiction; cbn [bind]; [|split; [exact I|discriminate]|split; [exact I|discriminate]]. specialize (B o f' eq_refl).
    destruct (run_safe m M (conv l o (args 0%nat)) out) as (x & -> & X). cbn [bind]. destruct x as [out1|]; [|split; [exact I|discriminate]]. destruct (IH f' (fun i => args (S i)) out1 ltac:(lia)) as [A1 B1]. split; auto. intros out' H. apply B1 in H. lia.
  - pose proof (plain_len' c r N) as PL. destruct (plain (c :: r)) as [a b]. cbn [snd] in PL. apply AP. lia.
Qed.
Lemma loop_size l m1 m2 : 0 <= m1 -> m1 <= m2 -> forall k f args out out1, (length f < k)%nat -> (forall i, single (args i)) ->
  format_loop k l m1 f args out = Ok (inr out1) -> Z.of_nat (length out1) + 2 < m1 -> format_loop k l m2 f args out = Ok (inr out1).
Proof.
  intros M LE. induction k as [|k IH]; intros f args out out1 L SI H F; [lia|]. cbn [format_loop] in *. destruct f as [|c r]; [exact H|]. cbn [length] in L.
  assert (AP : forall s f' args', (length f' < k)%nat -> (forall i, single (args' i)) -> (o <- append m1 out s ;; match o with None => Ok (inl E2BIG) | Some out' => format_loop k l m1 f' args' out' end) = Ok (inr out1) ->
    (o <- append m2 out s ;; match o with None => Ok (inl E2BIG) | Some out' => format_loop k l m2 f' args' out' end) = Ok (inr out1)).
  { intros s f' args' L' SI' H'. destruct (append_not_ub m1 out s M) as [E|[E FI]]; rewrite E in H'; cbn [bind] in H'; [discriminate|]. rewrite append_fits by lia. cbn [bind]. now apply IH. }
  destruct (Z.eqb_spec c 37) as [->|N]; cbn [negb] in *.
  - destruct (hd0 r =? 37); [apply AP; auto; pose proof (tl_len r); lia|]. destruct (parse_fine l r) as [_ B]. destruct (parse l r) as [[[o f']|]| | |]; cbn [bind] in *; auto. specialize (B o f' eq_refl).
    destruct (run_safe m1 M (conv l o (args 0%nat)) out) as (x & R & X). rewrite R in H. cbn [bind] in H. destruct x as [out2|]; [|discriminate].
    destruct (loop_safe l m1 M k f' (fun i => args (S i)) out2 ltac:(lia)) as [_ G]. specialize (G out1 H). apply run_good in R; auto using conv_ok; [|lia]. rewrite run_all by (rewrite <- R; lia). cbn [bind]. rewrite <- R. apply IH; auto. lia.
  - pose proof (plain_len' c r N) as PL. destruct (plain (c :: r)) as [a b]. cbn [snd] in PL. apply AP; auto. lia.
Qed.

(** lengths *)
Definition total (l : list (bool * list Z)) : Z := Z.of_nat (length (concat (map snd l))).
Lemma total_app a b : total (a ++ b) = total a + total b.
Proof. unfold total. rewrite map_app, concat_app, app_length. lia. Qed.
Lemma total_fill k c : total (fill k c) = Z.max 0 k.
Proof. unfold fill. replace (Z.max 0 k) with (Z.of_nat (Z.to_nat k)) by lia. generalize (Z.to_nat k) as j. induction j as [|j IH]; [reflexivity|]. cbn [repeat]. change ((true, [c]) :: repeat (true, [c]) j) with ([(true, [c])] ++ repeat (true, [c]) j). rewrite total_app, IH. change (total [(true, [c])]) with 1. lia. Qed.
Lemma total_nil : total [] = 0. Proof. reflexivity. Qed.
Lemma total_one b s : total [(b, s)] = Z.of_nat (length s). Proof. unfold total. cbn. rewrite app_nil_r. reflexivity. Qed.
Lemma total_text l : total (map (fun s => (false, s)) l) = Z.of_nat (length (concat l)).
Proof. unfold total. rewrite map_map. now rewrite map_id. Qed.
Lemma cstr_id s : ~ In 0 s -> cstr s = s.
Proof. induction s as [|c s IH]; intros N; cbn; auto. destruct (Z.eqb_spec c 0) as [->|]; [destruct N; now left|]. rewrite IH; auto. intros H. apply N. now right. Qed.
Lemma strip_stored v s : stored v s -> strip v = s /\ cstr (strip v) = s.
Proof.
  intros [N [[-> ->]|[-> NE]]]; [split; reflexivity|]. assert (E : strip (s ++ [0]) = s). { unfold strip. rewrite app_length. cbn [length]. destruct (Z.ltb_spec 1 (Z.of_nat (length s + 1))) as [_|L]; [apply removelast_last|]. destruct s; [congruence|cbn in L; lia]. }
  rewrite E. split; auto. now apply cstr_id.
Qed.
Lemma ndigits_ok : forall f x k, 1 <= k <= Z.of_nat f -> (x = 0 /\ k = 1) \/ 10 ^ (k - 1) <= x < 10 ^ k -> ndigits f x = k.
Proof.
  induction f as [|f IH]; intros x k K H; [lia|]. cbn [ndigits]. destruct H as [[-> ->]|H]; [reflexivity|]. destruct (Z.eq_dec k 1) as [->|N].
  - change (10 ^ (1 - 1)) with 1 in H. change (10 ^ 1) with 10 in H. rewrite Z.div_small by lia. reflexivity.
  - assert (P : 10 ^ (k - 1) = 10 * 10 ^ (k - 2)) by (rewrite <- Z.pow_succ_r by lia; f_equal; lia). assert (P2 : 10 ^ k = 10 * 10 ^ (k - 1)) by (rewrite <- Z.pow_succ_r by lia; f_equal; lia). assert (0 < 10 ^ (k - 2)) by (apply Z.pow_pos_nonneg; lia).
    assert (D : 10 ^ (k - 2) <= x / 10 < 10 ^ (k - 1)) by (split; [apply Z.div_le_lower_bound; lia|apply Z.div_lt_upper_bound; lia]). destruct (Z.eqb_spec (x / 10) 0); [lia|]. rewrite (IH (x / 10) (k - 1)); [lia|lia|]. right. replace (k - 1 - 1) with (k - 2) by lia. exact D.
Qed.
Lemma text_length_ok x k : 0 <= x < 4294967296 -> decimal_digits x k -> text_length x = k.
Proof.
  intros X D. unfold text_length. rewrite Z.mod_small by auto. destruct D as [[-> ->]|[K D]]; [reflexivity|]. apply ndigits_ok; [|auto]. split; [lia|]. destruct (Z.le_gt_cases k 10); [lia|]. exfalso.
  assert (10 ^ 10 <= 10 ^ (k - 1)) by (apply Z.pow_le_mono_r; lia). change (10 ^ 10) with 10000000000 in *. lia.
Qed.

Section W.
  Variables (l : locale) (o : opts) (n : num).
  Hypothesis R : regular l o.
  Let y := layout_of l o.
  Lemma y_eq : (if intf o then ilp l else lp l) = y. Proof. reflexivity. Qed.
  Lemma posn_small : sign_posn y mod 256 = sign_posn y.
  Proof. destruct R as (_ & P & _). rewrite y_eq in P. apply Z.mod_small. lia. Qed.
  Lemma signs_eq : signs l o = (mode o, match mode o with force_positive => if sign_posn y =? 0 then 1 else sign_posn y | _ => sign_posn y end, strip (neg_sign l)).
  Proof.
    unfold signs. fold y. rewrite posn_small. destruct R as (_ & P & _). rewrite y_eq in P. assert (sign_posn y =? 127 = false) as -> by lia. assert (sign_posn y =? 255 = false) as -> by lia. rewrite !orb_false_r. cbn [orb]. destruct (mode o); reflexivity.
  Qed.
  Lemma shown_or : (negb (suppress o) && (0 <? Z.of_nat (length (currency_of l o)))) = negb (suppress o) /\
    (suppress o = false -> Z.of_nat (length (symbol l o)) = (if intf o then 3 else if 0 <? Z.of_nat (length (currency_of l o)) then Z.of_nat (length (currency_of l o)) else 0)).
  Proof.
    destruct R as (_ & _ & _ & _ & C). unfold currency_of, symbol. destruct (suppress o); [split; [reflexivity|discriminate]|]. unfold currency_of. destruct (intf o).
    - destruct C as (s & ST & L4). apply strip_stored in ST. destruct ST as [-> _]. rewrite L4. split; [reflexivity|]. intros _. rewrite firstn_length_le by lia. reflexivity.
    - destruct C as (s & ST & NE). apply strip_stored in ST. destruct ST as [E1 E2]. rewrite E2, E1. assert (0 < Z.of_nat (length s)) by (destruct s; [congruence|cbn; lia]). destruct (Z.ltb_spec 0 (Z.of_nat (length s))); [|lia]. split; [reflexivity|]. auto.
  Qed.
  Lemma sgn_total : in_parentheses (fst (fst (signs l o))) (snd (fst (signs l o))) = false ->
    total (sgn l o n) = sign_length l o n (fst (fst (signs l o))) (snd (fst (signs l o))) (snd (signs l o)).
  Proof.
    destruct R as (_ & _ & (ng & NG) & PS & _). apply strip_stored in NG. destruct NG as [N1 N2].
    intros P. unfold sgn, sign_length, sign_pieces. rewrite P. rewrite signs_eq in *. cbn [fst snd] in *. rewrite N1 in N2. rewrite N1.
    destruct (negative n) eqn:NN; cbn [negb andb].
    - rewrite total_one, N2. reflexivity.
    - destruct (mode o) eqn:MO; try (destruct (some (lprec o)); [now rewrite total_one|reflexivity]). destruct (PS eq_refl) as (ps & ST). apply strip_stored in ST. destruct ST as [S1 S2]. rewrite total_one, S2, S1. reflexivity.
  Qed.
  Lemma body_total k : 0 <= integral n < 4294967296 -> decimal_digits (integral n) k -> 0 <= precision l o ->
    (forall p, lprec o = Some p -> 0 <= extra n 0 <= extra n p) ->
    Z.of_nat (length (concat (text n (precision l o) (group o)))) = k + (if group o then extra n 0 else 0) + (if 0 <? precision l o then precision l o + Z.of_nat (length (strip (dec l))) else 0) ->
    total (body l o n) = currency_length l o + num_len l o n + lfill o n.
  Proof.
    intros X D PR EX TX. pose proof (text_length_ok _ _ X D) as TL. destruct shown_or as [SH SY]. unfold body. rewrite SH. rewrite !total_app, total_text, TX, total_fill.
    assert (LF : 0 <= lfill o n). { unfold lfill, extra_grouping. destruct (lprec o) as [p|] eqn:LP; [|lia]. specialize (EX p eq_refl). destruct (Z.ltb_spec (text_length (integral n)) p); [|lia]. destruct (group o); lia. }
    rewrite Z.max_r by auto. unfold num_len, extra_grouping, fractional_length. rewrite TL.
    assert (SEP : sep_by_space (layout_of l o) mod 256 = sep_by_space (layout_of l o) /\ 0 <= sep_by_space (layout_of l o)). { destruct R as (S1 & _). rewrite y_eq in S1. split; [apply Z.mod_small; exact S1|]. unfold y in S1. lia. }
    destruct SEP as [SE1 SE2]. unfold currency_length. rewrite SE1.
    set (SL := sign_length l o n (fst (fst (signs l o))) (snd (fst (signs l o))) (snd (signs l o))).
    assert (MAIN : total (before l o n) + total (after l o n) + (if suppress o then 0 else total (cur l o n) - Z.of_nat (length (symbol l o))) = SL).
    { unfold before, after, cur. destruct (in_parentheses (fst (fst (signs l o))) (snd (fst (signs l o)))) eqn:PAR.
      - assert (Z3 : negb (match fst (fst (signs l o)) with parentheses => true | _ => false end) && (snd (fst (signs l o)) =? 3) = false) by (destruct (fst (fst (signs l o))); cbn in *; auto; try discriminate; lia).
        assert (Z4 : negb (match fst (fst (signs l o)) with parentheses => true | _ => false end) && (snd (fst (signs l o)) =? 4) = false) by (destruct (fst (fst (signs l o))); cbn in *; auto; try discriminate; lia).
        rewrite Z3, Z4. rewrite !total_app, total_one, !total_nil. unfold SL, sign_length. rewrite PAR. destruct (negative n); [|destruct (some (lprec o))]; rewrite ?total_one, ?total_nil; destruct (suppress o); cbn [length]; lia.
      - pose proof (sgn_total PAR) as SG. fold SL in SG. destruct R as (_ & P & _ & _ & C). rewrite y_eq in P, C. rewrite signs_eq in *. cbn [fst snd] in *.
        assert (NP : match mode o with parentheses => true | _ => false end = false) by (destruct (mode o); auto; discriminate). rewrite NP. cbn [negb andb]. rewrite !total_app, total_one.
        set (posn := match mode o with force_positive => if sign_posn y =? 0 then 1 else sign_posn y | _ => sign_posn y end) in *.
        assert (PO : 1 <= posn <= 4). { unfold posn. destruct (mode o); cbn in PAR; try discriminate; [lia|destruct (Z.eqb_spec (sign_posn y) 0); lia]. }
        assert (PS : suppress o = true -> posn <= 2). { intros SU. rewrite SU in C. unfold posn. destruct (mode o); auto. destruct (sign_posn y =? 0); lia. }
        assert (Q : posn = 1 \/ posn = 2 \/ posn = 3 \/ posn = 4) by lia. clear PO.
        destruct Q as [Q|[Q|[Q|Q]]]; rewrite Q in *; cbn [Z.eqb Pos.eqb]; rewrite SG, ?total_nil; destruct (suppress o); lia. }
    destruct (suppress o); cbn [negb andb] in *.
    - rewrite !total_nil. lia.
    - specialize (SY eq_refl). destruct (cs_precedes (layout_of l o) =? 1); cbn [negb]; rewrite !total_app, total_fill, total_nil, Z.max_r by auto; lia.
  Qed.
End W.
Lemma conv_width l o n w : body l (with_width o w) n = body l o n /\ currency_length l (with_width o w) = currency_length l o /\ num_len l (with_width o w) n = num_len l o n /\ lfill (with_width o w) n = lfill o n.
Proof. repeat split. Qed.
Lemma concat_fill k c : concat (map snd (fill k c)) = repeat c (Z.to_nat k).
Proof. unfold fill. induction (Z.to_nat k); cbn; congruence. Qed.
Lemma width_ok l o n w : regular l o -> 0 <= integral n < 4294967296 -> printed n (strip (dec l)) -> 0 <= precision l o ->
  (forall p, lprec o = Some p -> extra n 0 <= extra n p) -> 0 <= w ->
  let t := shown_as l (with_width o None) n in
  exists k, Z.of_nat k = Z.max 0 (w - Z.of_nat (length t)) /\ shown_as l (with_width o (Some w)) n = if left o then t ++ repeat 32 k else repeat (padding o) k ++ t.
Proof.
  intros R X (k & D & E0 & T) PR EX W t. assert (BT : total (body l o n) = currency_length l o + num_len l o n + lfill o n).
  { apply (body_total l o n R k X D PR); [intros p LP; specialize (EX p LP); lia|]. now apply T. }
  assert (TE : t = concat (map snd (body l o n))). { unfold t, shown_as, conv. cbn [left with_width width wfill some]. rewrite andb_false_r. cbn [fill Z.to_nat repeat app]. now rewrite app_nil_r. }
  unfold total in BT. rewrite <- TE in BT. exists (Z.to_nat (wfill l (with_width o (Some w)) n)). split.
  - unfold wfill. cbn [width with_width]. destruct (conv_width l o n (Some w)) as (_ & -> & -> & ->). rewrite <- BT. destruct (Z.ltb_spec (Z.of_nat (length t)) w); lia.
  - unfold shown_as, conv. cbn [left with_width width some padding]. rewrite andb_true_r. destruct (conv_width l o n (Some w)) as (-> & _). destruct (left o); rewrite !map_app, !concat_app, concat_fill, <- TE; cbn [map concat]; now rewrite ?app_nil_r.
Qed.

(** signs *)
Lemma in_text (c : bool) (s : list Z) : forall p : list (bool * list Z), In (c, s) p -> exists a b, concat (map snd p) = a ++ s ++ b.
Proof.
  induction p as [|[c' s'] p IH]; intros H; [destruct H|]. destruct H as [H|H].
  - injection H as -> ->. exists [], (concat (map snd p)). reflexivity.
  - destruct (IH H) as (a & b & E). exists (s' ++ a), b. cbn. rewrite E, <- app_assoc. reflexivity.
Qed.
Lemma body_in_conv l o n x : In x (body l o n) -> In x (conv l o n).
Proof. intros H. unfold conv. rewrite !in_app_iff. auto. Qed.
Lemma sign_in l o n s : regular l o -> negative n = true -> stored (neg_sign l) s -> mode o <> parentheses -> (sign_posn (if intf o then ilp l else lp l) <> 0 \/ mode o = force_positive) ->
  exists a b, shown_as l o n = a ++ s ++ b.
Proof.
  intros R NN ST MO PO. apply (in_text true). apply body_in_conv. pose proof (signs_eq l o R) as SE. destruct (strip_stored _ _ ST) as [S1 S2].
  assert (SG : sgn l o n = [(true, s)]). { unfold sgn, sign_pieces. rewrite NN, SE. cbn [negb andb snd]. now rewrite S2. }
  destruct (shown_or l o R) as [SH _]. destruct R as (_ & P & _ & _ & C). fold (layout_of l o) in *. unfold body, before, after, cur. rewrite SH, SG, SE. cbn [fst snd].
  set (posn := match mode o with force_positive => if sign_posn (layout_of l o) =? 0 then 1 else sign_posn (layout_of l o) | _ => sign_posn (layout_of l o) end) in *.
  assert (PAR : in_parentheses (mode o) posn = false) by (unfold posn; destruct (mode o); cbn; try congruence; destruct PO; [lia|discriminate]). rewrite PAR.
  assert (NP : match mode o with parentheses => true | _ => false end = false) by (destruct (mode o); auto; congruence). rewrite NP. cbn [negb andb].
  assert (Q : posn = 1 \/ posn = 2 \/ ((posn = 3 \/ posn = 4) /\ suppress o = false)).
  { assert (1 <= posn <= 4) by (unfold posn; destruct (mode o); try congruence; [destruct PO; [lia|discriminate]|destruct (Z.eqb_spec (sign_posn (layout_of l o)) 0); lia]).
    destruct (suppress o); [|lia]. assert (posn <= 2) by (unfold posn; destruct (mode o); auto; destruct (sign_posn (layout_of l o) =? 0); lia). lia. }
  destruct Q as [->|[->|[[-> | ->] SU]]]; try rewrite SU; change (1 =? 1) with true; change (2 =? 1) with false; change (2 =? 2) with true; change (3 =? 3) with true; change (4 =? 4) with true; cbn [negb andb]; rewrite ?in_app_iff; [now left; left| |destruct (cs_precedes (layout_of l o) =? 1)|destruct (cs_precedes (layout_of l o) =? 1)]; cbn [negb]; rewrite ?in_app_iff; cbn [In]; tauto.
Qed.
Lemma parentheses_in l o n : negative n = true -> mode o = parentheses -> exists a b c, shown_as l o n = a ++ [40] ++ b ++ [41] ++ c.
Proof.
  intros NN MO. assert (M : fst (fst (signs l o)) = parentheses) by (unfold signs; cbn [fst]; now rewrite MO).
  assert (B : before l o n = [(true, [40])]) by (unfold before; rewrite M, NN; reflexivity). assert (A : after l o n = [(true, [41])]) by (unfold after; rewrite M, NN; reflexivity).
  unfold shown_as, conv, body. rewrite A, B. rewrite !map_app, !concat_app. change (concat (map snd [(true, [40])])) with [40]. change (concat (map snd [(true, [41])])) with [41].
  match goal with |- context [?x ++ ([40] ++ ?y1 ++ ?y2 ++ ?y3 ++ ?y4 ++ [41]) ++ ?z] => exists x, (y1 ++ y2 ++ y3 ++ y4), z; generalize x y1 y2 y3 y4 z end. clear. intros. now rewrite <- !app_assoc.
Qed.
Lemma no_sign l o n : suppress o = true -> mode o = normal -> lprec o = None -> width o = None ->
  (let p := sign_posn (if intf o then ilp l else lp l) in p = 3 \/ p = 4) -> shown_as l o n = concat (text n (precision l o) (group o)).
Proof.
  intros SU MO LP WI P. cbn zeta in P. fold (layout_of l o) in P. unfold shown_as, conv, body, before, after, wfill, lfill, signs. rewrite SU, MO, LP, WI. cbn [some negb andb fst snd].
  assert (E : sign_posn (layout_of l o) mod 256 = sign_posn (layout_of l o)) by (apply Z.mod_small; lia). rewrite E. rewrite andb_false_r.
  destruct P as [-> | ->]; cbn; rewrite ?app_nil_r, map_map, map_id; reflexivity.
Qed.
Lemma plain_all f : ~ In 37 f -> plain f = (f, []).
Proof. induction f as [|c r IH]; intros N; [reflexivity|]. cbn [plain]. destruct (Z.eqb_spec c 37) as [->|]; [destruct N; now left|]. rewrite IH; auto. intros H. apply N. now right. Qed.
Lemma plain_format l m f args : ~ In 37 f -> 0 <= m -> strfmon l m f args = if Z.of_nat (length f) + 2 <? m then Ok (inr (Z.of_nat (length f), f ++ [0])) else Ok (inl 7).
Proof.
  intros N M. unfold strfmon. assert (FIN : forall t, (o <- append m t [0] ;; match o with None => Ok (inl E2BIG) | Some out' => Ok (inr (Z.of_nat (length out') - 1, out')) end) = if Z.of_nat (length t) + 2 <? m then Ok (inr (Z.of_nat (length t), t ++ [0])) else Ok (inl 7)).
  { intros t. unfold append. cbn [length]. destruct (Z.ltb_spec (Z.of_nat (length t) + 2) m).
    - destruct (Z.leb_spec m (Z.of_nat (length t) + Z.of_nat 1 + 1)); [lia|]. destruct (Z.ltb_spec m (Z.of_nat (length t) + Z.of_nat 1)); [lia|]. cbn [bind]. rewrite app_length. cbn [length]. do 3 f_equal. lia.
    - destruct (Z.leb_spec m (Z.of_nat (length t) + Z.of_nat 1 + 1)); [|lia]. reflexivity. }
  destruct f as [|c r]; [exact (FIN [])|]. assert (NC : c <> 37) by (intros ->; apply N; now left). cbn [format_loop length]. destruct (Z.eqb_spec c 37); [congruence|]. cbn [negb]. rewrite plain_all by auto.
  destruct (append_not_ub m [] (c :: r) M) as [E|[E F]]; rewrite E; cbn [bind].
  - apply append_none in E. cbn [app] in E. destruct (Z.ltb_spec (Z.of_nat (S (length r)) + 2) m); [cbn [length] in E; lia|reflexivity].
  - change ([] ++ c :: r) with (c :: r). destruct (length r) eqn:LR; cbn [format_loop bind]; rewrite <- LR; apply (FIN (c :: r)).
Qed.

(** a conversion with a width *)
Lemma flags_stop b c r o : c <> 45 -> c <> 43 -> c <> 40 -> c <> 94 -> c <> 33 -> c <> 61 -> flags b (c :: r) o = Ok (Some (o, c :: r)).
Proof. intros. destruct c as [|p|p]; try reflexivity. do 7 (destruct p as [p|p|]; try reflexivity; try congruence). Qed.
Lemma fold_ge : forall ds v, 0 <= v -> (forall d, In d ds -> 48 <= d <= 57) -> v <= fold_left (fun v c => 10 * v + (c - 48)) ds v.
Proof. induction ds as [|d ds IH]; intros v V D; cbn [fold_left]; [lia|]. pose proof (D d ltac:(now left)). specialize (IH (10 * v + (d - 48)) ltac:(lia) ltac:(intros; apply D; now right)). lia. Qed.
Lemma number_ok : forall ds v c rest, 0 <= v -> (forall d, In d ds -> 48 <= d <= 57) -> digit c = false -> fold_left (fun v c => 10 * v + (c - 48)) ds v < 18446744073709551616 ->
  number (ds ++ c :: rest) v = Ok (fold_left (fun v c => 10 * v + (c - 48)) ds v, c :: rest).
Proof.
  induction ds as [|d ds IH]; intros v c rest V D C F; cbn [app number fold_left] in *; [now rewrite C|]. pose proof (D d ltac:(now left)) as Hd. assert (digit d = true) as -> by (unfold digit; lia).
  assert (ND : need (ds ++ c :: rest) = Ok (ds ++ c :: rest)) by (destruct ds; reflexivity). rewrite ND. cbn [bind]. pose proof (fold_ge ds (10 * v + (d - 48)) ltac:(lia) ltac:(intros; apply D; now right)).
  rewrite Z.mod_small by lia. replace (v * 10 + (d - 48)) with (10 * v + (d - 48)) by ring. apply IH; auto; [lia|]. intros; apply D; now right.
Qed.
Lemma field_ok l m ds n : ds <> [] -> (forall d, In d ds -> 48 <= d <= 57) -> value ds < 18446744073709551616 ->
  let t := shown_as l (with_width opts0 (Some (value ds))) n in
  Z.of_nat (length t) + 3 <= m -> strfmon l m (37 :: ds ++ [110]) (fun _ => n) = Ok (inr (Z.of_nat (length t), t ++ [0])).
Proof.
  intros NE D V t M. destruct ds as [|d ds]; [congruence|]. pose proof (D d ltac:(now left)) as Hd. assert (P : parse l ((d :: ds) ++ [110]) = Ok (Some (with_width opts0 (Some (value (d :: ds))), []))).
  { unfold parse. cbn [app]. rewrite flags_stop by lia. cbn [bind hd0]. assert (digit d = true) as -> by (unfold digit; lia). change (d :: ds ++ [110]) with ((d :: ds) ++ [110]).
    rewrite number_ok by (auto; lia). reflexivity. }
  unfold strfmon. cbn [length format_loop]. change (negb (37 =? 37)) with false. cbn iota. assert (hd0 ((d :: ds) ++ [110]) =? 37 = false) as -> by (cbn [app hd0]; lia). rewrite P. cbn [bind].
  rewrite run_all by (cbn [app]; fold (shown_as l (with_width opts0 (Some (value (d :: ds)))) n); fold t; lia). cbn [bind app]. fold (shown_as l (with_width opts0 (Some (value (d :: ds)))) n). fold t.
  rewrite append_fits by (rewrite app_length; cbn [length]; lia). cbn [bind]. rewrite app_length. cbn [length]. do 3 f_equal. lia.
Qed.

Lemma plain_stop t r : ~ In 37 t -> (r = [] \/ hd0 r = 37) -> plain (t ++ r) = (t, r).
Proof.
  induction t as [|c t IH]; intros N R; cbn [app].
  - destruct r as [|c r]; [reflexivity|]. destruct R as [R|R]; [discriminate|]. cbn in R. subst c. reflexivity.
  - cbn [plain]. destruct (Z.eqb_spec c 37) as [->|]; [destruct N; now left|]. rewrite IH; auto. intros H. apply N. now right.
Qed.
Lemma field_parse l ds rest : (forall d, In d ds -> 48 <= d <= 57) -> value ds < 18446744073709551616 ->
  parse l (ds ++ 110 :: rest) = Ok (Some (with_width opts0 (match ds with [] => None | _ => Some (value ds) end), rest)) /\ hd0 (ds ++ 110 :: rest) <> 37.
Proof.
  intros D V. destruct ds as [|d ds].
  - unfold parse. cbn [app]. rewrite flags_stop by lia. split; [reflexivity|cbn; lia].
  - pose proof (D d ltac:(now left)) as Hd. split; [|cbn [app hd0]; lia]. unfold parse. cbn [app]. rewrite flags_stop by lia. cbn [bind hd0]. assert (digit d = true) as -> by (unfold digit; lia). change (d :: ds ++ 110 :: rest) with ((d :: ds) ++ 110 :: rest).
    rewrite number_ok by (auto; lia). reflexivity.
Qed.
Lemma sequence_loop l m : forall s k args out, (length (format_of s) < k)%nat -> proper s -> Z.of_nat (length (out ++ characters l s args)) + 1 < m ->
  format_loop k l m (format_of s) args out = Ok (inr (out ++ characters l s args)).
Proof.
  induction s as [|[t| |ds] s IH]; intros k args out L P F; (destruct k as [|k]; [lia|]); cbn [format_of characters] in *.
  - cbn [format_loop]. now rewrite app_nil_r.
  - destruct P as (NE & N37 & ADJ & P). destruct t as [|c t]; [congruence|]. assert (NC : c <> 37) by (intros ->; apply N37; now left). rewrite (app_assoc out) in F |- *. set (T := (out ++ c :: t) ++ characters l s args) in *. cbn [format_loop app]. destruct (Z.eqb_spec c 37); [congruence|]. cbn [negb]. change (c :: t ++ format_of s) with ((c :: t) ++ format_of s).
    rewrite plain_stop; [|auto|destruct s as [|[t'| |ds] s]; [now left|contradiction|now right|now right]]. rewrite append_fits by (unfold T in F; rewrite app_length in F; lia). cbn [bind]. apply IH; auto. rewrite app_length in L. cbn [length] in L. lia.
  - cbn [format_loop hd0 tl]. change (negb (37 =? 37)) with false. change (37 =? 37) with true. cbn iota. replace (out ++ 37 :: characters l s args) with ((out ++ [37]) ++ characters l s args) in * by (now rewrite <- app_assoc).
    rewrite append_fits by (rewrite app_length in F; lia). cbn [bind]. apply IH; auto. cbn [length] in L. lia.
  - destruct P as (D & V & P). destruct (field_parse l ds (format_of s) D V) as [E H]. cbn [format_loop]. change (negb (37 =? 37)) with false. cbn iota. destruct (Z.eqb_spec (hd0 (ds ++ 110 :: format_of s)) 37); [congruence|]. rewrite E. cbn [bind].
    rewrite app_assoc in F. unfold shown_as in *. rewrite run_all by (rewrite app_length in F; lia). cbn [bind]. rewrite app_assoc. apply IH; auto. cbn [length] in L. rewrite app_length in L. cbn [length] in L. lia.
Qed.
Lemma sequence_ok l m s args : proper s -> let t := characters l s args in Z.of_nat (length t) + 3 <= m -> strfmon l m (format_of s) args = Ok (inr (Z.of_nat (length t), t ++ [0])).
Proof.
  intros P t M. unfold strfmon. rewrite (sequence_loop l m s (S (length (format_of s))) args []) by (auto; cbn [app]; fold t; lia). cbn [bind app]. fold t.
  rewrite append_fits by (rewrite app_length; cbn [length]; lia). cbn [bind]. rewrite app_length. cbn [length]. do 3 f_equal. lia.
Qed.

Lemma concat_text (t : list (list Z)) : concat (map snd (map (fun s => (false, s)) t)) = concat t.
Proof. rewrite map_map, map_id. reflexivity. Qed.
Lemma left_ok l o n p k : negative n = true -> 0 <= integral n < 4294967296 -> decimal_digits (integral n) k ->
  exists a b, shown_as l (with_left o None) n = a ++ concat (text n (precision l o) (group o)) ++ b /\
    shown_as l (with_left o (Some p)) n = a ++ repeat (padding o) (Z.to_nat (if k <? p then p - k + (if group o then extra n p - extra n 0 else 0) else 0)) ++ concat (text n (precision l o) (group o)) ++ b.
Proof.
  intros NN X D. pose proof (text_length_ok _ _ X D) as TL.
  assert (B : forall q, before l (with_left o q) n = before l (with_left o None) n) by (intros q; unfold before, sgn, sign_pieces; rewrite NN; reflexivity).
  assert (C : forall q, cur l (with_left o q) n = cur l (with_left o None) n) by (intros q; unfold cur, sgn, sign_pieces; rewrite NN; reflexivity).
  assert (A : forall q, after l (with_left o q) n = after l (with_left o None) n) by (intros q; unfold after, sgn, sign_pieces; rewrite NN; reflexivity).
  assert (G : forall q, shown_as l (with_left o q) n = concat (map snd (body l (with_left o q) n))).
  { intros q. unfold shown_as, conv. change (some (width (with_left o q))) with false. rewrite andb_false_r. change (wfill l (with_left o q) n) with 0. cbn [fill Z.to_nat repeat app]. now rewrite app_nil_r. }
  rewrite !G. unfold body. rewrite (B (Some p)), (C (Some p)), (A (Some p)). rewrite !map_app, !concat_app, !concat_fill. change (lfill (with_left o None) n) with 0. cbn [Z.to_nat repeat app].
  assert (LF : lfill (with_left o (Some p)) n = if k <? p then p - k + (if group o then extra n p - extra n 0 else 0) else 0). { unfold lfill, extra_grouping. cbn [lprec with_left group]. rewrite TL. destruct (k <? p); auto. destruct (group o); reflexivity. }
  rewrite LF. rewrite !concat_text. change (precision l (with_left o (Some p))) with (precision l o). change (precision l (with_left o None)) with (precision l o). cbn [group padding with_left].
  match goal with |- exists a b, ?x1 ++ ?x2 ++ ?t ++ ?y1 ++ ?y2 = _ /\ _ => exists (x1 ++ x2), (y1 ++ y2) end. rewrite <- !app_assoc. split; reflexivity.
Qed.
