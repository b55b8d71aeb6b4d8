From Verif Require Import Base Archive_Model Archive_Spec.
From Coq Require Import Znumtheory.
Open Scope Z_scope.

Lemma rd32_in f o : 0 <= o -> o + 4 <= size f -> exists v, rd32 f o = Ok v.
Proof. intros A B. unfold rd32. apply Z.leb_le in A. apply Z.leb_le in B. rewrite A, B. eexists. reflexivity. Qed.
Lemma word_rd f o v : word_at f o v -> rd32 f o = Ok v.
Proof.
  intros (a & b0 & b1 & b2 & b3 & r & -> & L & ->). unfold rd32.
  assert (X : forall k, 0 <= k -> byte (a ++ [b0; b1; b2; b3] ++ r) (o + k) = nth (Z.to_nat k) ([b0; b1; b2; b3] ++ r) 0).
  { intros k K. unfold byte. rewrite app_nth2 by lia. f_equal. lia. }
  assert (size (a ++ [b0; b1; b2; b3] ++ r) = o + 4 + Z.of_nat (length r)) as SZ by (unfold size; rewrite !app_length; cbn; lia).
  rewrite SZ. replace (0 <=? o) with true by (symmetry; apply Z.leb_le; lia). replace (o + 4 <=? _) with true by (symmetry; apply Z.leb_le; lia). cbn [andb].
  pose proof (X 0 ltac:(lia)) as X0. rewrite Z.add_0_r in X0. rewrite X0, !X by lia. f_equal. cbn [Z.to_nat nth app]. change (Pos.to_nat 1) with 1%nat. change (Pos.to_nat 2) with 2%nat. change (Pos.to_nat 3) with 3%nat. cbn [nth app]. lia.
Qed.
Lemma word_inj f o v v' : word_at f o v -> word_at f o v' -> v = v'.
Proof. intros A B. apply word_rd in A. apply word_rd in B. congruence. Qed.

Lemma cstr_stop s r : ~ In 0 s -> cstr (s ++ 0 :: r) = s.
Proof.
  induction s as [|c s IH]; intros N; cbn; auto. destruct (Z.eqb_spec c 0) as [->|]; [destruct N; now left|]. rewrite IH; auto. intros H. apply N. now right.
Qed.
Lemma string_cstr f o s : string_at f o s -> cstr (skipn (Z.to_nat o) f) = s /\ o < size f.
Proof.
  intros (a & r & -> & <- & N). rewrite Nat2Z.id, skipn_app, skipn_all, Nat.sub_diag. cbn [skipn app]. split; [now apply cstr_stop|]. unfold size. rewrite !app_length. cbn. lia.
Qed.

Lemma rotate_spec h : 0 <= h < 2 ^ 32 -> rotate h = (h mod 2 ^ 23) * 2 ^ 9 + h / 2 ^ 23.
Proof.
  intros H. unfold rotate, W32. change (4294967296 - 1) with (Z.ones 32). rewrite Z.land_ones by lia. rewrite Z.shiftl_mul_pow2, Z.shiftr_div_pow2 by lia.
  replace (2 ^ 32) with (2 ^ 23 * 2 ^ 9) by reflexivity. rewrite Z.mul_mod_distr_r by lia. set (x := h mod 2 ^ 23).
  assert (Y : 0 <= h / 2 ^ 23 < 2 ^ 9). { split; [apply Z.div_pos; lia|]. apply Z.div_lt_upper_bound; lia. }
  set (y := h / 2 ^ 23) in *. assert (L : Z.land (x * 2 ^ 9) y = 0).
  { apply Z.bits_inj'. intros n Hn. rewrite Z.land_spec, Z.bits_0. destruct (Z.ltb_spec n 9).
    - rewrite Z.mul_pow2_bits_low by lia. reflexivity.
    - rewrite <- (Z.mod_small y (2 ^ 9)) by lia. rewrite Z.mod_pow2_bits_high by lia. apply andb_false_r. }
  rewrite Z.add_nocarry_lxor by exact L. symmetry. now apply Z.lxor_lor.
Qed.
Lemma hash_same s : name_hash s = hash s.
Proof.
  unfold name_hash, hash, size. assert (G : forall l h, 0 <= h < 2 ^ 32 -> hash_go l h = fold_left (fun h c => ((h mod 2 ^ 23) * 2 ^ 9 + h / 2 ^ 23 + c) mod 2 ^ 32) l h).
  { induction l as [|c l IH]; intros h H; cbn [hash_go fold_left]; auto. rewrite rotate_spec by auto. change W32 with (2 ^ 32). apply IH. apply Z.mod_pos_bound. lia. }
  rewrite G; [reflexivity|]. apply Z.mod_pos_bound. reflexivity.
Qed.
Lemma hash_range s : 0 <= hash s < 2 ^ 32.
Proof.
  unfold hash. assert (G : forall l h, 0 <= h < 2 ^ 32 -> 0 <= fold_left (fun h c => ((h mod 2 ^ 23) * 2 ^ 9 + h / 2 ^ 23 + c) mod 2 ^ 32) l h < 2 ^ 32).
  { induction l as [|c l IH]; intros h H; cbn [fold_left]; auto. apply IH. apply Z.mod_pos_bound. lia. }
  specialize (G s (Z.of_nat (length s) mod 2 ^ 32) ltac:(apply Z.mod_pos_bound; lia)). cbv zeta. set (x := fold_left _ _ _) in *. destruct (x =? 0); lia.
Qed.

(** the bounds of a lookup *)
Lemma probe_safe f tb n e h incr : record_size <= size f -> 0 <= tb -> tb + 12 * n <= size f -> 0 < incr < n -> forall fuel idx, 0 <= idx < n ->
  probe fuel f tb n e h idx incr <> UB /\ probe fuel f tb n e h idx incr <> Abort /\
  forall r, probe fuel f tb n e h idx incr = Ok (Some (Some r)) -> 0 <= size f - record_size < W64 -> r <= size f - record_size.
Proof.
  intros SZ T B I. induction fuel as [|k IH]; intros idx X; [repeat split; discriminate|]. cbn [probe].
  destruct (rd32_in f (tb + 12 * idx)) as [hv ->]; [lia|lia|]. destruct (rd32_in f (tb + 12 * idx + 4)) as [no ->]; [lia|lia|]. destruct (rd32_in f (tb + 12 * idx + 8)) as [lo ->]; [lia|lia|].
  cbn [bind]. destruct (no =? 0); [repeat split; discriminate|]. destruct (size f <=? no); [repeat split; discriminate|].
  destruct ((hv =? h) && _).
  - destruct (lo =? 0); [repeat split; discriminate|]. destruct (Z.ltb_spec ((size f - record_size) mod W64) lo) as [|LE]; [repeat split; discriminate|].
    split; [discriminate|]. split; [discriminate|]. intros r E M. injection E as <-. rewrite Z.mod_small in LE by exact M. exact LE.
  - apply IH. assert (W : 0 <= (idx + incr) mod W32 <= idx + incr) by (split; [apply Z.mod_pos_bound; reflexivity|apply Z.mod_le; [lia|reflexivity]]).
    destruct (Z.leb_spec n ((idx + incr) mod W32)); lia.
Qed.
Lemma rd32_range f o v : bytes f -> rd32 f o = Ok v -> 0 <= v < W32 /\ 0 <= o /\ o + 4 <= size f.
Proof.
  intros BY H. unfold rd32 in H. destruct ((0 <=? o) && (o + 4 <=? size f)) eqn:E; [|discriminate]. apply (f_equal (fun r => match r with Ok x => x | _ => 0 end)) in H. cbv beta iota in H. subst v. apply andb_prop in E. destruct E as [E1 E2]. apply Z.leb_le in E1. apply Z.leb_le in E2.
  assert (X : forall i, 0 <= byte f i < 256). { intros i. unfold byte. destruct (nth_in_or_default (Z.to_nat i) f 0) as [H|H]; [now apply BY|rewrite H; lia]. }
  pose proof (X o) as Q0. pose proof (X (o + 1)) as Q1. pose proof (X (o + 2)) as Q2. pose proof (X (o + 3)) as Q3.
  set (b0 := byte f o) in *. set (b1 := byte f (o + 1)) in *. set (b2 := byte f (o + 2)) in *. set (b3 := byte f (o + 3)) in *. clearbody b0 b1 b2 b3. split; [unfold W32; clear - Q0 Q1 Q2 Q3; lia|split; assumption].
Qed.
Lemma search_safe fuel f tb n : record_size <= size f < W64 -> 0 <= tb -> tb + 12 * n <= size f -> 2 < n -> forall l,
  search fuel f tb n l <> UB /\ search fuel f tb n l <> Abort /\ forall r, search fuel f tb n l = Ok (Some r) -> r <= size f - record_size.
Proof.
  intros SZ T B N. induction l as [|e l IH]; [repeat split; discriminate|]. cbn [search].
  assert (M : 0 <= name_hash e mod (n - 2) < n - 2) by (apply Z.mod_pos_bound; lia).
  assert (M2 : 0 <= name_hash e mod n < n) by (apply Z.mod_pos_bound; lia).
  destruct (probe_safe f tb n e (name_hash e) (1 + name_hash e mod (n - 2)) (proj1 SZ) T B ltac:(lia) fuel _ M2) as (P1 & P2 & P3).
  destruct (probe fuel f tb n e _ _ _) as [[o|]| | |]; cbn [bind]; try congruence; auto; try (repeat split; discriminate).
  split; [discriminate|]. split; [discriminate|]. intros r E. injection E as ->. apply P3; auto. unfold record_size, W64 in *. lia.
Qed.
Lemma find_safe fuel f names : bytes f -> record_size <= size f < W64 ->
  find_record fuel f names <> UB /\ find_record fuel f names <> Abort /\ forall r, find_record fuel f names = Ok (Some r) -> r <= size f - record_size.
Proof.
  intros BY SZ. unfold find_record. destruct (Z.ltb_spec (size f) header_size); [repeat split; discriminate|].
  unfold record_size, header_size in *. destruct (rd32_in f 8) as [tb T]; [lia|lia|]. destruct (rd32_in f 16) as [n N]; [lia|lia|]. rewrite T, N. cbn [bind].
  apply rd32_range in T; auto. destruct (Z.leb_spec n 2); [repeat split; discriminate|]. destruct (Z.ltb_spec (size f) tb); [repeat split; discriminate|]. destruct (Z.ltb_spec (size f - tb) (12 * n)); [repeat split; discriminate|].
  cbn [orb]. apply search_safe; auto; lia.
Qed.

(** the records found are not negative: their offsets are words *)
Lemma probe_nonneg f tb n e h incr : bytes f -> forall fuel idx r, probe fuel f tb n e h idx incr = Ok (Some (Some r)) -> 0 <= r.
Proof.
  intros BY. induction fuel as [|k IH]; intros idx r H; [discriminate|]. cbn [probe] in H.
  destruct (rd32 f (tb + 12 * idx)) as [hv| | |]; try discriminate. destruct (rd32 f (tb + 12 * idx + 4)) as [no| | |]; try discriminate. destruct (rd32 f (tb + 12 * idx + 8)) as [lo| | |] eqn:L; try discriminate.
  cbn [bind] in H. destruct (no =? 0); [discriminate|]. destruct (size f <=? no); [discriminate|]. destruct ((hv =? h) && _); [|eapply IH; eauto].
  destruct (lo =? 0); [discriminate|]. destruct (_ <? lo); [discriminate|]. injection H as <-. apply rd32_range in L; auto. lia.
Qed.
Lemma find_nonneg fuel f names r : bytes f -> find_record fuel f names = Ok (Some r) -> 0 <= r.
Proof.
  intros BY. unfold find_record. destruct (size f <? header_size); [discriminate|]. destruct (rd32 f 8) as [tb| | |]; try discriminate. destruct (rd32 f 16) as [n| | |]; try discriminate. cbn [bind].
  destruct (_ || _); [discriminate|]. induction names as [|e l IH]; [discriminate|]. cbn [search]. destruct (probe fuel f tb n e _ _ _) as [[[o|]|]| | |] eqn:P; cbn [bind]; try discriminate; auto.
  intros H. injection H as <-. eapply probe_nonneg; eauto.
Qed.
Lemma lookup_safe fuel f names c : bytes f -> record_size <= size f < W64 -> 0 <= c <= 12 ->
  lookup_category fuel f names c <> UB /\ lookup_category fuel f names c <> Abort.
Proof.
  intros BY SZ C. unfold lookup_category. destruct (find_safe fuel f names BY SZ) as (F1 & F2 & F3). destruct (find_record fuel f names) as [[r|]| | |] eqn:E; cbn [bind]; try congruence; try (split; discriminate).
  specialize (F3 r eq_refl). apply find_nonneg in E; auto. unfold category_bytes, record_size in *.
  destruct (rd32_in f (r + 4 + 8 * c)) as [off ->]; [lia|lia|]. destruct (rd32_in f (r + 4 + 8 * c + 4)) as [len ->]; [lia|lia|]. cbn [bind].
  destruct (_ || _); [split; discriminate|]. destruct (_ || _); split; discriminate.
Qed.

(** double hashing *)
Lemma tried_all n h q : prime n -> 2 < n -> 0 <= q < n -> exists k, 0 <= k < n /\ tried n h k = q.
Proof.
  intros P N Q. unfold tried. set (a := 1 + h mod (n - 2)).
  assert (A : 1 <= a < n) by (unfold a; pose proof (Z.mod_pos_bound h (n - 2) ltac:(lia)); lia).
  destruct (rel_prime_bezout a n (rel_prime_le_prime a n P A)) as [u v E].
  exists (((q - h) * u) mod n). split; [apply Z.mod_pos_bound; lia|].
  assert (n <> 0) as NZ by lia. rewrite Z.add_mod by exact NZ. rewrite Z.mul_mod_idemp_l by exact NZ. rewrite <- Z.add_mod by exact NZ.
  replace (h + (q - h) * u * a) with (h + (q - h) * (u * a)) by ring. replace (u * a) with (1 - v * n) by (rewrite <- E; ring). replace (h + (q - h) * (1 - v * n)) with (q + (- ((q - h) * v)) * n) by ring. rewrite Z.mod_add by lia. now apply Z.mod_small.
Qed.
Lemma tried_next n h k : 2 < n -> n < 2 ^ 31 -> 
  let i := (tried n h k + (1 + h mod (n - 2))) mod W32 in (if n <=? i then i - n else i) = tried n h (k + 1).
Proof.
  intros N M i. unfold tried in *. set (a := 1 + h mod (n - 2)) in *. assert (A : 1 <= a < n) by (unfold a; pose proof (Z.mod_pos_bound h (n - 2) ltac:(lia)); lia).
  pose proof (Z.mod_pos_bound (h + k * a) n ltac:(lia)) as R. unfold i. rewrite Z.mod_small by (unfold W32; lia).
  replace (h + (k + 1) * a) with (h + k * a + a) by ring. rewrite <- (Z.add_mod_idemp_l (h + k * a)) by lia. set (x := (h + k * a) mod n) in *.
  destruct (Z.leb_spec n (x + a)).
  - replace (x + a) with (x + a - n + 1 * n) at 2 by ring. rewrite Z.mod_add by lia. rewrite Z.mod_small; lia.
  - rewrite Z.mod_small; lia.
Qed.
Lemma tried_range n h k : 2 < n -> 0 <= tried n h k < n.
Proof. intros. apply Z.mod_pos_bound. lia. Qed.

Section Table.
  Variable f : list Z.
  Variable t : table.
  Variable tb : Z.
  Let n := Z.of_nat (length t).
  Hypothesis N : 2 < n < 2 ^ 31.
  Hypothesis F : size f < 2 ^ 32.
  Hypothesis ST : forall i, 0 <= i < n -> stored f (tb + 12 * i) (slot t i).

  Lemma probe_step k e i incr : 0 <= i < n -> probe (S k) f tb n e (hash e) i incr =
    match slot t i with
    | None => Ok None
    | Some (nm, r) => if list_eq_dec Z.eq_dec e nm then Ok (Some (Some r)) else
        let j := (i + incr) mod W32 in probe k f tb n e (hash e) (if n <=? j then j - n else j) incr
    end.
  Proof.
    intros I. specialize (ST i I). cbn [probe]. destruct (slot t i) as [[nm r]|]; cbn [stored] in ST.
    - destruct ST as (no & A & B & C & P & S0 & R). rewrite (word_rd _ _ _ A), (word_rd _ _ _ B), (word_rd _ _ _ C). cbn [bind].
      destruct (string_cstr _ _ _ S0) as [-> L]. destruct (Z.eqb_spec no 0); [lia|]. destruct (Z.leb_spec (size f) no); [lia|].
      destruct (list_eq_dec Z.eq_dec e nm) as [<-|NE].
      + rewrite Z.eqb_refl. cbn [andb]. destruct (Z.eqb_spec r 0); [lia|]. rewrite Z.mod_small by (unfold record_size, W64, size in *; lia). destruct (Z.ltb_spec (size f - record_size) r); [unfold record_size, size in *; lia|]. reflexivity.
      + rewrite andb_false_r. reflexivity.
    - destruct ST as (h & r & A & B & C). rewrite (word_rd _ _ _ A), (word_rd _ _ _ B), (word_rd _ _ _ C). reflexivity.
  Qed.

  Lemma probe_found e : well_built t -> forall d k, 0 <= k ->
    slot t (tried n (hash e) (k + Z.of_nat d)) = None ->
    (forall j, 0 <= j < k -> forall r, slot t (tried n (hash e) j) <> Some (e, r)) ->
    forall fuel, (d < fuel)%nat ->
    match probe fuel f tb n e (hash e) (tried n (hash e) k) (1 + hash e mod (n - 2)) with
    | Ok (Some (Some r)) => In (Some (e, r)) t
    | Ok None => forall r, ~ In (Some (e, r)) t
    | _ => False
    end.
  Proof.
    intros (P & _ & WB). induction d as [|d IH]; intros k K E NO fuel FU; (destruct fuel as [|fuel]; [lia|]); rewrite probe_step by (apply tried_range; lia).
    - rewrite Nat2Z.inj_0, Z.add_0_r in E. rewrite E. intros r IN. destruct (WB e r IN) as (k' & K' & S1 & S2). fold n in S1, S2.
      destruct (Z.lt_trichotomy k' k) as [L|[->|L]]; [exact (NO k' ltac:(lia) r S1)|congruence|exact (S2 k ltac:(lia) E)].
    - destruct (slot t (tried n (hash e) k)) as [[nm r]|] eqn:SL.
      + destruct (list_eq_dec Z.eq_dec e nm) as [<-|NE].
        * assert (R := tried_range n (hash e) k ltac:(lia)). unfold slot in SL. rewrite <- SL. apply nth_In. destruct R as [R1 R2]. apply (Z2Nat.inj_lt _ n R1 ltac:(lia)) in R2. unfold n in R2 at 2. rewrite Nat2Z.id in R2. exact R2.
        * cbv zeta. rewrite tried_next by lia. apply IH; [lia| | |lia].
          -- rewrite <- E. f_equal. f_equal. lia.
          -- intros j J r'. destruct (Z.eq_dec j k) as [->|]; [rewrite SL; congruence|apply NO; lia].
      + intros r IN. destruct (WB e r IN) as (k' & K' & S1 & S2). fold n in S1, S2.
        destruct (Z.lt_trichotomy k' k) as [L|[->|L]]; [exact (NO k' ltac:(lia) r S1)|congruence|exact (S2 k ltac:(lia) SL)].
  Qed.

  Lemma tried0 h : tried n h 0 = h mod n.
  Proof. unfold tried. now rewrite Z.mul_0_l, Z.add_0_r. Qed.

  Lemma search_found fuel : well_built t -> (length t <= fuel)%nat -> forall names, exists a, search fuel f tb n names = Ok a /\ answer t names a.
  Proof.
    intros WB FU. pose proof WB as (P & EM & _). fold n in P. apply In_nth with (d := None) in EM. destruct EM as (q & Q & EQ).
    induction names as [|e l IH]; [exists None; split; auto; intros e r []|]. cbn [search]. rewrite hash_same.
    destruct (tried_all n (hash e) (Z.of_nat q) P) as (k & K & TK); [lia|unfold n; lia|]. assert (KF : (Z.to_nat k < fuel)%nat) by (unfold n in K; lia).
    pose proof (probe_found e WB (Z.to_nat k) 0) as X. rewrite Z.add_0_l, Z2Nat.id, TK, tried0 in X by lia. unfold slot at 1 in X. rewrite Nat2Z.id in X.
    specialize (X ltac:(lia) EQ ltac:(intros; lia) fuel KF).
    destruct (probe fuel f tb n e _ _ _) as [[[r|]|]| | |]; cbn [bind]; try contradiction.
    - exists (Some r). split; auto. exists [], e, l. split; [reflexivity|]. split; [exact X|]. intros e' r' [].
    - destruct IH as (a & -> & A). exists a. split; auto. destruct a as [r|]; cbn in *.
      + destruct A as (l1 & e1 & l2 & -> & B & C). exists (e :: l1), e1, l2. split; auto. split; auto. intros e' r' [<-|H]; auto.
      + intros e' r [<-|H]; auto.
  Qed.

  Lemma probe_loops e : ~ In None t -> (forall r, ~ In (Some (e, r)) t) -> forall fuel k, probe fuel f tb n e (hash e) (tried n (hash e) k) (1 + hash e mod (n - 2)) = Fuel.
  Proof.
    intros FULL NE. induction fuel as [|fuel IH]; intros k; auto. rewrite probe_step by (apply tried_range; lia).
    pose proof (tried_range n (hash e) k ltac:(lia)) as R. assert (IN : In (slot t (tried n (hash e) k)) t) by (apply nth_In; destruct R as [R1 R2]; apply (Z2Nat.inj_lt _ n R1 ltac:(lia)) in R2; unfold n in R2 at 2; rewrite Nat2Z.id in R2; exact R2).
    destruct (slot t (tried n (hash e) k)) as [[nm r]|]; [|contradiction]. destruct (list_eq_dec Z.eq_dec e nm) as [<-|]; [destruct (NE r IN)|]. cbv zeta. rewrite tried_next by lia. apply IH.
  Qed.
End Table.

Lemma find_table f t fuel names : archive f t -> exists tb, find_record fuel f names = search fuel f tb (Z.of_nat (length t)) names /\
  2 < Z.of_nat (length t) < 2 ^ 31 /\ size f < 2 ^ 32 /\ forall i, 0 <= i < Z.of_nat (length t) -> stored f (tb + 12 * i) (slot t i).
Proof.
  intros (BY & SZ & tb & T & NN & TB & N2 & B & ST). exists tb. split; [|split; [|split; auto; unfold size; lia]].
  - unfold find_record, header_size, size. rewrite (word_rd _ _ _ T), (word_rd _ _ _ NN). cbn [bind].
    destruct (Z.ltb_spec (Z.of_nat (length f)) 56); [lia|]. destruct (Z.leb_spec (Z.of_nat (length t)) 2); [lia|]. destruct (Z.ltb_spec (Z.of_nat (length f)) tb); [lia|]. destruct (Z.ltb_spec (Z.of_nat (length f) - tb) (12 * Z.of_nat (length t))); [lia|]. reflexivity.
  - lia.
Qed.

(** items of a category *)
Lemma elements_ok c r n : bytes r -> elements c r = Ok (Some n) -> 0 <= n /\ 8 + 4 * n <= size r.
Proof.
  intros BY. unfold elements. destruct (size r <? 8); [discriminate|]. destruct (rd32 r 0) as [m| | |]; try discriminate. cbn [bind]. destruct (negb _); [discriminate|].
  destruct (rd32 r 4) as [k| | |] eqn:K; try discriminate. cbn [bind]. destruct (Z.ltb_spec (size r) (8 + 4 * k)); [discriminate|]. intros E. injection E as <-. apply rd32_range in K; auto. lia.
Qed.
Lemma item_ok r n i : bytes r -> size r < W32 -> 8 + 4 * n <= size r -> 0 <= i < n ->
  exists o e, rd32 r (8 + 4 * i) = Ok o /\ (i + 1 < n -> rd32 r (8 + 4 * (i + 1)) = Ok e) /\ (i + 1 = n -> e = size r) /\
    item r n i = Ok (if (o <=? e) && (e <=? size r) then Some (slice r o (e - o)) else None).
Proof.
  intros BY SZ N I. destruct (rd32_in r (8 + 4 * i)) as [o O1]; [lia|lia|]. pose proof (rd32_range _ _ _ BY O1) as (OR & _ & _).
  unfold item. destruct (Z.ltb_spec i n); [|lia]. cbn [negb]. destruct (Z.eqb_spec (i + 1) n) as [E|E].
  - exists o, (size r). rewrite O1. split; auto. split; [lia|]. split; auto. cbn [bind]. rewrite Z.leb_refl, andb_true_r.
    destruct (Z.ltb_spec (size r) o); destruct (Z.leb_spec o (size r)); try lia; auto. replace (o + (size r - o)) with (size r) by ring. rewrite Z.mod_small by (unfold size, W64, W32 in *; lia).
    rewrite Z.ltb_irrefl, Z.leb_refl. reflexivity.
  - destruct (rd32_in r (8 + 4 * (i + 1))) as [e E1]; [lia|lia|]. pose proof (rd32_range _ _ _ BY E1) as (ER & _ & _). exists o, e. rewrite O1, E1. split; auto. split; auto. split; [lia|]. cbn [bind].
    destruct (Z.leb_spec o e) as [LE|GT]; cbn [andb].
    + rewrite (Z.mod_small (e - o)) by lia. replace (o + (e - o)) with e by ring. rewrite Z.mod_small by (unfold W64, W32 in *; lia).
      destruct (Z.ltb_spec (size r) o); destruct (Z.ltb_spec (size r) e); destruct (Z.leb_spec e (size r)); try lia; auto.
    + destruct (Z.ltb_spec (size r) o); auto. assert ((e - o) mod W32 = e - o + W32) as ->. { replace (e - o) with (e - o + W32 + (-1) * W32) at 1 by ring. rewrite Z.mod_add by (unfold W32; lia). apply Z.mod_small. lia. } replace (o + (e - o + W32)) with (e + W32) by ring.
      rewrite Z.mod_small by (unfold W32, W64 in *; lia). destruct (Z.ltb_spec (size r) (e + W32)); [reflexivity|lia].
Qed.

Lemma split_at {A} (f : list A) k : (k <= length f)%nat -> f = firstn k f ++ skipn k f /\ length (firstn k f) = k.
Proof. intros K. split; [now rewrite firstn_skipn|]. now apply firstn_length_le. Qed.
Lemma word_intro f o v : rd32 f o = Ok v -> word_at f o v.
Proof.
  unfold rd32. destruct (Z.leb_spec 0 o) as [O1|]; [|discriminate]. destruct (Z.leb_spec (o + 4) (size f)) as [O2|]; [|discriminate]. cbn [andb]. intros H.
  apply (f_equal (fun r => match r with Ok x => x | _ => 0 end)) in H. cbv beta iota in H.
  destruct (split_at f (Z.to_nat o)) as [E L]; [unfold size in O2; lia|].
  assert (B : forall k, 0 <= k -> byte f (o + k) = nth (Z.to_nat k) (skipn (Z.to_nat o) f) 0).
  { intros k K. unfold byte. rewrite E at 1. rewrite app_nth2 by lia. f_equal. lia. }
  assert (SL : (4 <= length (skipn (Z.to_nat o) f))%nat) by (rewrite skipn_length; unfold size in O2; lia).
  pose proof (B 0 ltac:(lia)) as B0. rewrite Z.add_0_r in B0. pose proof (B 1 ltac:(lia)) as B1. pose proof (B 2 ltac:(lia)) as B2. pose proof (B 3 ltac:(lia)) as B3.
  destruct (skipn (Z.to_nat o) f) as [|b0 [|b1 [|b2 [|b3 r]]]]; try (cbn in SL; lia).
  exists (firstn (Z.to_nat o) f), b0, b1, b2, b3, r. split; [exact E|]. split; [lia|].
  rewrite <- H, B0, B1, B2, B3. change (Z.to_nat 0) with 0%nat. change (Z.to_nat 1) with 1%nat. change (Z.to_nat 2) with 2%nat. change (Z.to_nat 3) with 3%nat. cbn [nth]. lia.
Qed.
Lemma cstr_split l : exists r, l = cstr l ++ r /\ ~ In 0 (cstr l) /\ match r with [] => True | c :: _ => c = 0 end.
Proof.
  induction l as [|c l (r & E & N & R)]; [exists []; cbn; auto|]. cbn. destruct (Z.eqb_spec c 0) as [->|NE]; [eexists; cbn; split; [reflexivity|]; auto|].
  exists r. split; [cbn; now f_equal|]. split; auto. intros [H|H]; auto.
Qed.
Lemma string_intro f o s : 0 <= o -> cstr (skipn (Z.to_nat o) f) = s -> o + size s < size f -> string_at f o s.
Proof.
  intros O1 C L. destruct (cstr_split (skipn (Z.to_nat o) f)) as (r & E & N & R). rewrite C in *. unfold size in L. destruct (split_at f (Z.to_nat o)) as [E2 L2]; [lia|].
  destruct r as [|c r].
  - exfalso. apply (f_equal (@length Z)) in E. rewrite skipn_length, app_nil_r in E. lia.
  - subst c. exists (firstn (Z.to_nat o) f), r. split; [rewrite <- E; exact E2|]. split; auto. lia.
Qed.
Lemma slice_parts f o e : 0 <= o <= e -> e <= size f -> exists a b, f = a ++ slice f o (e - o) ++ b /\ size a = o /\ size (slice f o (e - o)) = e - o.
Proof.
  intros O1 E1. unfold slice, size in *. destruct (split_at f (Z.to_nat o)) as [A LA]; [lia|]. destruct (split_at (skipn (Z.to_nat o) f) (Z.to_nat (e - o))) as [B LB]; [rewrite skipn_length; lia|].
  exists (firstn (Z.to_nat o) f), (skipn (Z.to_nat (e - o)) (skipn (Z.to_nat o) f)). rewrite <- B. split; auto. lia.
Qed.
Lemma cstr_none s : ~ In 0 s -> cstr s = s.
Proof. intros N. destruct (cstr_split s) as (r & E & _ & R). destruct r as [|c r]; [now rewrite app_nil_r in E|]. subst c. exfalso. apply N. rewrite E. apply in_or_app. right. now left. Qed.
Lemma bytes_check f : forallb (fun b => (0 <=? b) && (b <? 256)) f = true -> bytes f.
Proof. intros H b B. rewrite forallb_forall in H. specialize (H b B). apply andb_prop in H. destruct H as [H1 H2]. apply Z.leb_le in H1. apply Z.ltb_lt in H2. lia. Qed.
