(** C79: case-insensitive and version comparison, and the remaining POSIX and GNU string functions *)
From Coq Require Import Lia.
From Verif Require Import Base Mem_Model Mem_Proof Str_Model Str_Spec Str_Proof StrSearch_Proof Strtol_Spec.
From Verif Require Import Ctype_Model Ctype_Spec Ctype_Proof Casestr_Model Casestr_Spec Casestr_Proof Vers_Proof.
Open Scope Z_scope.

(** strcasecmp orders any two strings as their lower-case versions, in the C locale *)
Theorem C79_strcasecmp : forall fuel m p q a b,
  str_at m p a -> str_at m q b -> (length a < fuel)%nat ->
  exists r, strcasecmp c_locale fuel m p q = Ok r /\ (r ?= 0) = lex_nocase a b.
Proof.
  intros. apply (strcasecmp_gen (fun _ => True)); auto using forall_true. apply c_lowers.
Qed.

(** strncasecmp compares at most n bytes of each and reads nothing after a terminator *)
Theorem C79_strncasecmp : forall m p q a b n,
  nstr_at m p n a -> nstr_at m q n b ->
  exists r, strncasecmp c_locale m p q n = Ok r /\ (r ?= 0) = lex_nocase a b.
Proof.
  intros. apply (strncasecmp_gen (fun _ => True)); auto using forall_true. apply c_lowers.
Qed.

(** In a UTF-8 locale this holds for ASCII text.  Missing: other text, see below. *)
Theorem C79_strncasecmp_utf8_partial : forall l m p q a b n,
  l_ascii l = false -> (forall c, 0 <= c < 128 -> towlower l c = Ok (lower_of c)) ->
  nstr_at m p n a -> nstr_at m q n b -> Forall (fun c => c < 128) a -> Forall (fun c => c < 128) b ->
  exists r, strncasecmp l m p q n = Ok r /\ (r ?= 0) = lex_nocase a b.
Proof.
  intros. apply (strncasecmp_gen (fun c => c < 128)); auto using utf8_lowers. lia.
Qed.

(** In every UTF-8 locale strncasecmp takes any two strings starting with non-ASCII characters for equal. *)
Theorem C79_strncasecmp_utf8_refuted : forall l m p q a b x y n,
  l_ascii l = false -> (0 < n)%nat -> p <> q ->
  nstr_at m p n a -> nstr_at m q n b ->
  nth 0 (a ++ [0]) 0 = x -> nth 0 (b ++ [0]) 0 = y -> 128 <= x -> 128 <= y ->
  strncasecmp l m p q n = Ok 0.
Proof.
  intros l m p q a b x y n L N Npq Ha Hb Ex Ey Hx Hy. unfold strncasecmp.
  rewrite (proj2 (Z.eqb_neq p q) Npq). destruct n as [|n]; [lia|]. cbn [Nat.eqb orb ncasecmp_loop].
  destruct a as [|x' a]; [cbn in Ex; lia|]. destruct b as [|y' b]; [cbn in Ey; lia|]. cbn in Ex, Ey. subst x' y'.
  destruct (nstr_load _ _ _ _ 0%nat Ha ltac:(cbn; lia)) as [-> Bx]. destruct (nstr_load _ _ _ _ 0%nat Hb ltac:(cbn; lia)) as [-> By].
  cbn [nth] in *. cbn [bind]. unfold tolower_l, schar. rewrite (proj2 (Z.ltb_ge x 128)), (proj2 (Z.ltb_ge y 128)) by lia.
  replace (x - 256) with (x + (-1) * 256) by lia. replace (y - 256) with (y + (-1) * 256) by lia.
  rewrite !Z.mod_add, !Z.mod_small by lia. rewrite L, !promote_utf8 by lia.
  rewrite (proj2 (Z.leb_gt x 127)), (proj2 (Z.leb_gt y 127)) by lia. reflexivity.
Qed.

(** strcasestr finds the leftmost occurrence up to case.  Missing: both strings empty. *)
Theorem C79_strcasestr_partial : forall fuel m p q s pat,
  str_at m p s -> str_at m q pat -> pat <> [] \/ s <> [] -> (length s < fuel)%nat -> (length pat < fuel)%nat ->
  exists r, strcasestr c_locale fuel m p q = Ok r /\ leftmost (map lower_of pat) (map lower_of s) p r.
Proof.
  intros. apply (strcasestr_gen (fun _ => True)); auto using forall_true. apply c_lowers.
Qed.

(** an empty pattern is not found in an empty string *)
Theorem C79_strcasestr_refuted : forall l fuel m p q,
  str_at m p [] -> str_at m q [] -> (0 < fuel)%nat ->
  exists r, strcasestr l fuel m p q = Ok r /\ ~ leftmost [] [] p r.
Proof.
  intros l fuel m p q Hs Hq Hf. exists None. split.
  - unfold strcasestr. rewrite (strlen_ok _ _ _ _ Hq) by (cbn; lia). cbn [bind]. destruct fuel; [lia|].
    cbn [casestr_loop]. apply str_nil in Hs. unfold load. now rewrite Hs.
  - intros C. apply (C 0%nat). now exists [], [].
Qed.

(** strverscmp returns the version order of its arguments *)
Theorem C79_strverscmp : forall fuel m p q a b,
  str_at m p a -> str_at m q b -> (length a < fuel)%nat ->
  exists r, strverscmp c_locale fuel m p q = Ok r /\ (r ?= 0) = vers a b.
Proof. intros. now apply strverscmp_ok. Qed.

(** which is a total order, so that sorting with it makes sense: *)
Theorem C79_version_order : forall a b c,
  Forall (fun c => 0 < c < 256) a -> Forall (fun c => 0 < c < 256) b -> Forall (fun c => 0 < c < 256) c ->
  (vers a b = Eq <-> a = b) /\ vers b a = CompOpp (vers a b) /\ (vers a b = Lt -> vers b c = Lt -> vers a c = Lt).
Proof.
  intros a b c Ha Hb Hc. unfold vers. split; [|split].
  - rewrite lex_eq. split; [apply version_inj; auto|congruence].
  - apply lex_antisym.
  - apply lex_trans.
Qed.

(** numbers compare by value: jan9 < jan10 *)
Theorem C79_version_numbers : forall fuel m p q text n1 n2 t1 t2,
  str_at m p (text ++ n1 ++ t1) -> str_at m q (text ++ n2 ++ t2) -> (length (text ++ n1 ++ t1) < fuel)%nat ->
  ends_text text -> plain_number n1 -> plain_number n2 -> n1 <> n2 -> starts_text t1 -> starts_text t2 ->
  exists r, strverscmp c_locale fuel m p q = Ok r /\ (r ?= 0) = (digits_value 10 n1 ?= digits_value 10 n2).
Proof.
  intros fuel m p q text n1 n2 t1 t2 Ha Hb Hf Ht H1 H2 N T1 T2.
  destruct (strverscmp_ok fuel m p q _ _ Ha Hb Hf) as [r [E C]]. exists r. split; auto.
  rewrite C. now apply vers_numbers.
Qed.

(** and without digits it is the order of strcmp *)
Theorem C79_version_text : forall a b,
  Forall (fun c => 0 < c < 256) a -> Forall (fun c => 0 < c < 256) b ->
  Forall (fun c => digit c = false) a -> Forall (fun c => digit c = false) b -> vers a b = lex a b.
Proof.
  intros a b Pa Pb Ha Hb. unfold vers. rewrite !version_nodigit by auto. apply lex_app0.
  - eapply Forall_impl; [|exact Pa]. cbv beta; intros; lia.
  - eapply Forall_impl; [|exact Pb]. cbv beta; intros; lia.
Qed.

(** memccpy copies up to and including the first c and returns the address after it in dest; without one it copies all *)
Theorem C79_memccpy : forall m dest src c l,
  bytes_at m src l -> mapped m dest (length l) -> disjoint dest (length l) src (length l) ->
  exists m' r, memccpy m dest src c (length l) = Ok (m', r) /\
    match r with
    | Some e => exists i, first_ix (eq (c mod 256)) l i /\ e = dest + Z.of_nat (S i) /\ written m m' dest (firstn (S i) l)
    | None => ~ In (c mod 256) l /\ written m m' dest l
    end.
Proof. intros. now apply memccpy_loop_ok. Qed.

(** strdup returns a new string with the same contents, or null and ENOMEM, whatever malloc does *)
Theorem C79_strdup : forall alloc fuel m p s,
  malloc_like alloc -> str_at m p s -> (length s < fuel)%nat ->
  (alloc (length s + 1)%nat m = None /\ strdup alloc fuel m p = Ok (m, None, true)) \/
  exists q m', strdup alloc fuel m p = Ok (m', Some q, false) /\ str_at m' q s /\ str_at m' p s /\
    same_outside m m' q (length s + 1) /\ (forall i, (i <= length s)%nat -> m (q + Z.of_nat i) = None).
Proof.
  intros alloc fuel m p s HA Hs Hf. unfold strdup. rewrite (strlen_ok _ _ _ _ Hs Hf). cbn [bind].
  destruct (alloc (length s + 1)%nat m) as [[q m1]|] eqn:E.
  - right. destruct Hs as [Hb Hn]. pose proof (proj1 (proj1 (bytes_at_app _ _ _ _) Hb)) as Hb'.
    destruct (dup_ok alloc m p s q m1 HA Hb' Hn E) as [m' [E' [S' [O' F']]]].
    exists q, m'. repeat split; auto; try apply S'.
    intros i Hi. rewrite <- (Hb i Hi). apply O'. intro C. rewrite app_length in Hi. cbn in Hi.
    pose proof (F' (Z.to_nat (p + Z.of_nat i - q)) ltac:(lia)) as F. rewrite Z2Nat.id in F by lia.
    replace (q + (p + Z.of_nat i - q)) with (p + Z.of_nat i) in F by lia. rewrite Hb in F by (rewrite app_length; cbn; lia).
    apply nth_error_None in F. rewrite app_length in F. cbn in F. lia.
  - left. split; auto. unfold dup_bytes. now rewrite E.
Qed.

(** strndup copies at most n bytes, always terminates the copy and does not look past n bytes of the source *)
Theorem C79_strndup : forall alloc m p s n,
  malloc_like alloc -> nstr_at m p n s ->
  (alloc (length s + 1)%nat m = None /\ strndup alloc m p n = Ok (m, None, true)) \/
  exists q m', strndup alloc m p n = Ok (m', Some q, false) /\ str_at m' q s /\ same_outside m m' q (length s + 1) /\
    (forall i, (i <= length s)%nat -> m (q + Z.of_nat i) = None).
Proof.
  intros alloc m p s n HA Hs. unfold strndup. rewrite (strnlen_ok _ _ _ _ Hs). cbn [bind].
  destruct (alloc (length s + 1)%nat m) as [[q m1]|] eqn:E.
  - right. destruct Hs as [Hn [Hb _]].
    destruct (dup_ok alloc m p s q m1 HA Hb Hn E) as [m' [E' [S' [O' F']]]]. exists q, m'. auto.
  - left. split; auto. unfold dup_bytes. now rewrite E.
Qed.

(** the GNU basename is the part after the last slash, a suffix of the argument *)
Theorem C79_basename : forall fuel m p s,
  str_at m p s -> (length s < fuel)%nat ->
  exists dir base, s = dir ++ base /\ gnu_basename fuel m p = Ok (p + Z.of_nat (length dir)) /\
    str_at m (p + Z.of_nat (length dir)) base /\ ~ In 47 base /\ (dir = [] \/ exists d, dir = d ++ [47]).
Proof.
  intros fuel m p s Hs Hf. unfold gnu_basename. destruct (strrchr_ok fuel m p s 47 Hs Hf) as [r [-> Hr]]. cbn [bind].
  change (47 mod 256) with 47 in Hr. destruct r as [q|].
  - destruct Hr as [i [-> [[c [Hc <-]] Hl]]].
    assert (Hi : (i < length s)%nat).
    { assert (L' : (i < length (s ++ [0%Z]))%nat) by (apply nth_error_Some; rewrite Hc; discriminate).
      rewrite app_length in L'. cbn in L'. destruct (Nat.eq_dec i (length s)) as [->|]; [|lia].
      rewrite nth_error_app2, Nat.sub_diag in Hc by lia. discriminate. }
    rewrite nth_error_app1 in Hc by lia.
    exists (firstn (S i) s), (skipn (S i) s). rewrite firstn_skipn. split; auto.
    assert (Lf : length (firstn (S i) s) = S i) by (rewrite firstn_length; lia). rewrite Lf.
    split; [f_equal; lia|]. split; [apply str_skipn; auto; lia|]. split.
    + intro I. apply In_nth_error in I as [k Hk].
      assert (Hk' : nth_error s (S i + k) = Some 47).
      { rewrite <- (firstn_skipn (S i) s). rewrite nth_error_app2 by lia. rewrite Lf. now replace (S i + k - S i)%nat with k by lia. }
      apply (Hl (S i + k)%nat 47); auto. lia.
      rewrite nth_error_app1; auto. apply nth_error_Some. congruence.
    + right. exists (firstn i s). apply nth_error_split in Hc as [l1 [l2 [-> <-]]].
      replace (S (length l1)) with (length l1 + 1)%nat by lia. rewrite firstn_app_2. rewrite firstn_app, firstn_all, Nat.sub_diag.
      cbn. now rewrite app_nil_r.
  - exists [], s. cbn [app length]. rewrite Z.add_0_r. repeat split; auto; try apply Hs.
    intro I. apply Hr, in_or_app. now left.
Qed.

(** ffs, ffsl, ffsll as implemented without compiler support: the position of the lowest bit set, 0 if there is none *)
Theorem C79_ffs : forall (w : nat) i,
  (0 < w)%nat -> - 2 ^ (Z.of_nat w - 1) <= i < 2 ^ (Z.of_nat w - 1) ->
  if i =? 0 then ffs_generic w i = 0 else lowest_bit w i (ffs_generic w i).
Proof.
  intros w i Hw Hi. unfold ffs_generic. pose proof (ffs_loop_ok w i 0 ltac:(lia)) as F. cbv zeta in F.
  change (2 ^ 0) with 1 in F. specialize (F (Z.mod_1_r i)). rewrite Z.add_0_l in F.
  destruct (Z.eqb_spec i 0) as [->|N].
  - destruct F as [[F _]|[_ [_ F]]]; auto. now rewrite Zmod_0_l in F.
  - destruct F as [[_ F]|F].
    + exfalso. assert (P : 2 ^ Z.of_nat w = 2 * 2 ^ (Z.of_nat w - 1)).
      { rewrite <- Z.pow_succ_r by lia. f_equal. lia. }
      assert (0 < 2 ^ (Z.of_nat w - 1)) by (apply Z.pow_pos_nonneg; lia).
      apply Z.mod_divide in F; [|lia]. destruct F as [k F]. rewrite P in F.
      set (h := 2 ^ (Z.of_nat w - 1)) in *. clearbody h. clear P.
      assert (k = 0 \/ 1 <= k \/ k <= -1) as [->|[K|K]] by lia; [lia|nia|nia].
    + unfold lowest_bit. rewrite Z.add_0_l in F. intuition lia.
Qed.

(** non-vacuity *)
Definition ex_mem : mem := munion (mem_of 100 [74; 97; 110; 57; 0]) (mem_of 200 [106; 65; 78; 49; 48; 0]).
Definition ex_utf8 : locale :=
  {| l_ascii := false; l_class := c_class; l_tolower := c_tolower; l_toupper := c_toupper; l_names := c_names;
     l_class_off := 72; l_map_off := 84; l_table := c_table |}.
Definition ex_block (n : nat) (m : mem) : mem :=
  fun a => if (1000 <=? a) && (a <? 1000 + Z.of_nat n) then Some 7 else m a.
Definition ex_alloc (n : nat) (m : mem) : option (Z * mem) :=
  if forallb (fun i => match m (1000 + Z.of_nat i) with None => true | Some _ => false end) (seq 0 n)
  then Some (1000, ex_block n m) else None.

Example C79_ex :
  strcasecmp c_locale 10 ex_mem 100 200 = Ok 1 /\ strncasecmp c_locale ex_mem 100 200 3 = Ok 0 /\
  strverscmp c_locale 10 ex_mem 100 200 = Ok (-32) /\
  strverscmp c_locale 10 ex_mem 103 203 = Ok (-1) /\
  strcasestr c_locale 10 ex_mem 200 101 = Ok None /\
  strcasestr c_locale 10 (munion (mem_of 100 [78; 49; 0]) (mem_of 200 [106; 65; 110; 49; 48; 0])) 200 100 = Ok (Some 202) /\
  strncasecmp ex_utf8 (munion (mem_of 1 [195; 164; 0]) (mem_of 9 [195; 182; 0])) 1 9 5 = Ok 0 /\
  (exists m', strdup ex_alloc 10 ex_mem 200 = Ok (m', Some 1000, false) /\ str_at m' 1000 [106; 65; 78; 49; 48]) /\
  ffs_generic 32 (-8) = 4.
Proof.
  repeat split; try (vm_compute; reflexivity).
  eexists. split; [vm_compute; reflexivity|]. split.
  - intros i Hi. do 6 (destruct i as [|i]; [reflexivity|]). cbn in Hi. lia.
  - repeat constructor; lia.
Qed.

Example C79_ex_alloc : malloc_like ex_alloc.
Proof.
  intros n m p m1. unfold ex_alloc.
  destruct (forallb _ (seq 0 n)) eqn:E; [|discriminate]. intros H. assert (Hp : p = 1000) by congruence. injection H as _ Hm. subst p m1.
  rewrite forallb_forall in E. split; [|split].
  - intros i Hi. unfold ex_block. destruct ((1000 <=? 1000 + Z.of_nat i) && (1000 + Z.of_nat i <? 1000 + Z.of_nat n)) eqn:B.
    + discriminate. + lia.
  - intros i Hi. specialize (E i). cbv beta in E. destruct (m (1000 + Z.of_nat i)); auto.
    assert (In i (seq 0 n)) by (apply in_seq; lia). specialize (E H). discriminate.
  - intros a Ha. unfold ex_block. destruct ((1000 <=? a) && (a <? 1000 + Z.of_nat n)) eqn:B; auto. lia.
Qed.

Example C79_ex_number : plain_number [57] /\ plain_number [49; 48] /\ ends_text [106; 97; 110] /\ starts_text [] /\
  vers [106; 97; 110; 57] [106; 97; 110; 49; 48] = Lt /\ vers [48; 48] [48] = Lt.
Proof.
  split; [split; [discriminate|split; [repeat constructor|discriminate]]|].
  split; [split; [discriminate|split; [repeat constructor|discriminate]]|].
  split; [right; exists [106; 97], 110; auto|]. split; [left; reflexivity|]. split; vm_compute; reflexivity.
Qed.

Print Assumptions C79_strcasecmp.
Print Assumptions C79_strncasecmp.
Print Assumptions C79_strncasecmp_utf8_partial.
Print Assumptions C79_strncasecmp_utf8_refuted.
Print Assumptions C79_strcasestr_partial.
Print Assumptions C79_strcasestr_refuted.
Print Assumptions C79_strverscmp.
Print Assumptions C79_version_order.
Print Assumptions C79_version_numbers.
Print Assumptions C79_version_text.
Print Assumptions C79_memccpy.
Print Assumptions C79_strdup.
Print Assumptions C79_strndup.
Print Assumptions C79_basename.
Print Assumptions C79_ffs.
