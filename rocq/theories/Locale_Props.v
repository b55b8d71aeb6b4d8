(** C101: locale names, setlocale and newlocale. *)
From Verif Require Import Base Locale_Model Locale_Spec Locale_Proof.
Open Scope Z_scope.

(** A name language[_territory][.codeset][@modifier] is looked for under all names that leave some of its parts out, the most specific one first. *)
Theorem C101_names : forall lang terr cs md, proper_name lang terr cs md ->
  candidates (spelled lang terr cs md) = variants lang terr cs md.
Proof. intros lang terr cs md P. unfold candidates. rewrite (parse_spelled _ _ _ _ P). apply build_variants. Qed.
Print Assumptions C101_names.

(** A category of a locale comes from the archive, under the first of these names that is there; if there is none, from the first directory with a
    file under one of these names, and then the name that was found is the locale's name.  Nothing is found only if there is nothing. *)
Theorem C101_lookup : forall archive paths file c n, sane archive file -> category c ->
  match find_category archive paths file c n with
  | Some (n', d) =>
      (n' = n /\ exists a rec, archive = Some a /\ first_of a (candidates n) rec /\ rec c = Some d) \/
      ((forall a e, archive = Some a -> In e (candidates n) -> a e = None) /\
       exists l1 lp l2 k1 k2, paths = l1 ++ lp :: l2 /\ candidates n = k1 ++ n' :: k2 /\ file (path lp n' c) c = Some d /\
         (forall e, In e k1 -> file (path lp e c) c = None) /\ (forall q e, In q l1 -> In e (candidates n) -> file (path q e c) c = None))
  | None => (forall a e, archive = Some a -> In e (candidates n) -> a e = None) /\ (forall lp e, In lp paths -> In e (candidates n) -> file (path lp e c) c = None)
  end.
Proof.
  intros archive paths file c n (SA & _) C.
  assert (G : forall lp e d, (match file (path lp e c) c with Some d => Some (e, d) | None => None end) = d -> d = None -> file (path lp e c) c = None) by (intros lp e d; destruct (file (path lp e c) c); congruence).
  assert (A : from_archive archive c n = None -> forall a e, archive = Some a -> In e (candidates n) -> a e = None).
  { unfold from_archive. intros H a e -> I. destruct (first_some a (candidates n)) as [rec|] eqn:F.
    - exfalso. apply first_some_spec in F. destruct F as (? & e1 & ? & _ & F & _). destruct (rec c) eqn:R; [discriminate|]. exact (SA a e1 rec c eq_refl F C R).
    - eapply first_some_none in F; eauto. }
  unfold find_category. destruct (from_archive archive c n) as [[n' d]|] eqn:FA.
  - left. unfold from_archive in FA. destruct archive as [a|]; [|discriminate]. destruct (first_some a (candidates n)) as [rec|] eqn:F; [|discriminate]. destruct (rec c) eqn:R; [|discriminate]. injection FA as <- <-.
    split; auto. exists a, rec. split; auto. split; auto. now apply first_some_spec.
  - specialize (A eq_refl). destruct (from_file paths file c n) as [[n' d]|] eqn:FF; unfold from_file in FF.
    + right. split; auto. apply first_some_spec in FF. destruct FF as (l1 & lp & l2 & EP & F & NF). apply first_some_spec in F. destruct F as (k1 & e & k2 & EC & F & NK).
      destruct (file (path lp e c) c) as [d'|] eqn:FE; [|discriminate]. injection F as <- <-. exists l1, lp, l2, k1, k2. split; auto. split; auto. split; auto. split.
      * intros x X. eapply G; [reflexivity|]. now apply NK.
      * intros q x Q X. eapply G; [reflexivity|]. specialize (NF q Q). cbv beta in NF. rewrite first_some_none in NF. now apply NF.
    + split; auto. intros lp e L X. rewrite first_some_none in FF. specialize (FF lp L). cbv beta in FF. rewrite first_some_none in FF. eapply G; [reflexivity|]. now apply FF.
Qed.
Print Assumptions C101_lookup.

(** The file of a category is DIR/NAME/LC_..., that of LC_MESSAGES is DIR/NAME/LC_MESSAGES/SYS_LC_MESSAGES. *)
Theorem C101_path : forall dir e c, category c ->
  path dir e c = dir ++ [47] ++ e ++ [47] ++ (if c =? 5 then lc 5 ++ [47] ++ [83; 89; 83; 95] ++ lc 5 else lc c).
Proof. intros dir e c C. unfold path, LC_MESSAGES. cbn [app]. destruct (c =? 5); reflexivity. Qed.
Print Assumptions C101_path.

(** What setlocale(LC_ALL, ...) returns restores all categories, names and data, whatever is done in between. *)
Theorem C101_restore : forall cdata archive paths file ok g getenv name N g', sane archive file ->
  reached cdata archive paths file ok g -> acceptable LC_ALL name -> acceptable_env getenv -> (name = None -> ok = true) ->
  setlocale cdata archive paths file getenv g LC_ALL name = Ok (Some N, g') ->
  forall getenv' g2, exists g3, setlocale cdata archive paths file getenv' g2 LC_ALL (Some N) = Ok (Some N, g3) /\ forall c, category c -> cat g3 c = cat g' c.
Proof.
  intros cdata archive paths file ok g getenv name N g' SA R AC AE NN H getenv' g2.
  destruct (reached_settled cdata archive paths file SA ok g R) as [S0 NM].
  destruct (setlocale_keeps cdata archive paths file getenv g LC_ALL name (Some N) g' SA AC AE S0 H) as [S1 NM1].
  pose proof (setlocale_name cdata archive paths file _ _ _ _ _ _ H) as E. cbn in E. injection E as <-.
  apply restore_ok; auto. apply NM1; [discriminate|]. destruct name; [right; discriminate|left; auto].
Qed.
Print Assumptions C101_restore.

(** What it returns for one category restores that category and leaves the others alone. *)
Theorem C101_restore_one : forall cdata archive paths file ok g getenv c name N g', sane archive file ->
  reached cdata archive paths file ok g -> category c -> acceptable c name -> acceptable_env getenv ->
  setlocale cdata archive paths file getenv g c name = Ok (Some N, g') ->
  forall getenv' g2, exists g3, setlocale cdata archive paths file getenv' g2 c (Some N) = Ok (Some N, g3) /\ cat g3 c = cat g' c /\
    forall k, k <> c -> cat g3 k = cat g2 k.
Proof.
  intros cdata archive paths file ok g getenv c name N g' SA R C AC AE H getenv' g2.
  destruct (reached_settled cdata archive paths file SA ok g R) as [S0 NM].
  destruct (setlocale_keeps cdata archive paths file getenv g c name (Some N) g' SA AC AE S0 H) as [S1 _].
  pose proof (setlocale_name cdata archive paths file _ _ _ _ _ _ H) as E. destruct (cat_range cdata c C) as [R1 R2]. unfold category_name in E. rewrite R1, R2 in E. injection E as <-.
  destruct (S1 c C) as [(NE & _) ST]. rewrite setlocale_one by auto. rewrite ST. eexists. split; [reflexivity|]. cbn. rewrite Z.eqb_refl. split; auto.
  intros k K. destruct (Z.eqb_spec k c); congruence.
Qed.
Print Assumptions C101_restore_one.

(** setlocale with a plain name sets one category or, with LC_ALL, all of them, and returns their name; null exactly if something is not found. *)
Theorem C101_sets : forall cdata archive paths file getenv g c n, plain n ->
  (category c -> match stands_for cdata archive paths file c n with
    | Some v => exists g', setlocale cdata archive paths file getenv g c (Some n) = Ok (Some (fst v), g') /\ cat g' c = v /\ forall k, k <> c -> cat g' k = cat g k
    | None => setlocale cdata archive paths file getenv g c (Some n) = Ok (None, g) end) /\
  (exists r g', setlocale cdata archive paths file getenv g LC_ALL (Some n) = Ok (r, g') /\
    (r = None <-> exists k, category k /\ stands_for cdata archive paths file k n = None) /\
    (r <> None -> forall k, category k -> stands_for cdata archive paths file k n = Some (cat g' k))).
Proof.
  intros cdata archive paths file getenv g c n P. pose proof P as (NE & _). split.
  - intros C. rewrite setlocale_one by auto. destruct (stands_for cdata archive paths file c n) as [v|]; auto.
    eexists. split; [reflexivity|]. cbn. rewrite Z.eqb_refl. split; auto. intros k K. destruct (Z.eqb_spec k c); congruence.
  - rewrite setlocale_all by auto. destruct (load_all cdata archive paths file n (fun _ => n) g) as (e & l & E & OK & L & _); [left; auto|]. rewrite E. cbn [bind].
    destruct (Z.eqb_spec e 0) as [->|NZ].
    + eexists _, _. split; [reflexivity|]. split; [|intros _; cbn; now apply L]. split; [discriminate|]. intros (k & K & X). destruct OK as [OK _]. destruct (OK eq_refl k K X).
    + eexists _, _. split; [reflexivity|]. split; [|congruence]. split; auto. intros _.
      assert (Q : forall l, (forall k, In k l -> category k) -> (exists k, category k /\ stands_for cdata archive paths file k n = None) \/ forall k, In k l -> stands_for cdata archive paths file k n <> None).
      { induction l0 as [|k r IH]; intros Hl; [right; intros k []|]. destruct (stands_for cdata archive paths file k n) eqn:X; [|left; exists k; split; auto; apply Hl; now left].
        destruct IH as [?|IH]; [intros; apply Hl; now right|now left|]. right. intros q [<-|Hq]; [congruence|auto]. }
      destruct (Q all_cats) as [?|Y]; auto. exfalso. apply NZ. now apply OK.
Qed.
Print Assumptions C101_sets.

(** With an empty string and LC_ALL, every category is what LC_ALL, or the variable of the category, or LANG ask for, or C. *)
Theorem C101_environment : forall cdata archive paths file getenv g N g', acceptable_env getenv ->
  setlocale cdata archive paths file getenv g LC_ALL (Some []) = Ok (Some N, g') ->
  forall c, category c -> stands_for cdata archive paths file c (wanted getenv c) = Some (cat g' c).
Proof. intros cdata archive paths file getenv g N g' AE H. apply (env_all cdata archive paths file getenv g N g' H). intros n V. eapply env_plain; eauto. Qed.
Print Assumptions C101_environment.

(** Where setlocale fails, the locale is unchanged: for one category, or if LC_ALL fails for its first category.  Missing: other failures with
    LC_ALL, and with the environment. *)
Theorem C101_failure_partial : forall cdata archive paths file getenv g c n g', plain n ->
  setlocale cdata archive paths file getenv g c (Some n) = Ok (None, g') ->
  category c \/ c = LC_ALL /\ stands_for cdata archive paths file LC_CTYPE n = None -> g' = g.
Proof.
  intros cdata archive paths file getenv g c n g' P H [C|[-> S0]]; pose proof P as (NE & _).
  - rewrite setlocale_one in H by auto. destruct (stands_for cdata archive paths file c n); congruence.
  - rewrite setlocale_all in H by auto. destruct (load_all cdata archive paths file n (fun _ => n) g) as (e & l & E & _ & _ & _ & L & _); [left; auto|]. rewrite E in H. cbn [bind] in H.
    rewrite (L S0) in *. destruct (e =? 0); congruence.
Qed.
Print Assumptions C101_failure_partial.

(** newlocale replaces the categories of the mask and keeps the others of the base, or those of C; it fails only if something is not found. *)
Theorem C101_newlocale : forall cdata archive paths file mask n v base, Z.land mask LC_ALL_MASK = mask -> spells n v ->
  exists e l, newlocale cdata archive paths file mask n base = Ok (e, l) /\
    (e = 0 <-> forall c, category c -> Z.testbit mask c = true -> stands_for cdata archive paths file c (v c) <> None) /\ (e <> 0 -> e = ENOENT) /\
    (e = 0 -> forall c, category c -> if Z.testbit mask c then stands_for cdata archive paths file c (v c) = Some (cat l c)
       else cat l c = match base with Some b => cat b c | None => (name_C, cdata c) end).
Proof.
  intros cdata archive paths file mask n v base M SP. destruct (newlocale_ok cdata archive paths file mask n v base M SP) as (e & l & E & OK & EN & L).
  exists e, l. split; auto. split; auto. split; auto. intros Z0 c C. destruct (L Z0) as [_ X]. specialize (X c C). destruct (Z.testbit mask c); auto. rewrite X. now destruct base.
Qed.
Print Assumptions C101_newlocale.
(** A mask with other bits is refused. *)
Theorem C101_mask : forall cdata archive paths file mask n b, Z.land mask LC_ALL_MASK <> mask ->
  newlocale cdata archive paths file mask n (Some b) = Ok (EINVAL, b).
Proof. intros cdata archive paths file mask n b M. unfold newlocale, load_locale. apply Z.eqb_neq in M. now rewrite M. Qed.
Print Assumptions C101_mask.

(** Refuted: a failed setlocale(LC_ALL, name) leaves the locale as it was.  A locale with some of its categories is half set; the name for LC_ALL is
    the old one.  newlocale modifies its base in the same way. *)
Theorem C101_failure_refuted : forall cdata archive paths file getenv g n v, plain n -> stands_for cdata archive paths file 0 n = Some v -> stands_for cdata archive paths file 1 n = None ->
  exists g', setlocale cdata archive paths file getenv g LC_ALL (Some n) = Ok (None, g') /\ cat g' 0 = v /\
    setlocale cdata archive paths file getenv g' LC_ALL None = Ok (Some (all_name g), g') /\
    newlocale cdata archive paths file LC_ALL_MASK n (Some g) = Ok (ENOENT, g').
Proof.
  intros cdata archive paths file getenv g n v P S0 S1. pose proof P as (NE & N59 & _). exists (set_cat g 0 v).
  assert (L : load_locale cdata archive paths file LC_ALL_MASK n (Some g) = Ok (ENOENT, set_cat g 0 v)).
  { unfold load_locale. replace (negb (Z.land LC_ALL_MASK LC_ALL_MASK =? LC_ALL_MASK)) with false by reflexivity.
    assert (is_c n = false) as ->. { destruct (is_c n) eqn:E; auto. unfold stands_for in S1. rewrite E in S1. discriminate. }
    cbn [andb]. cbv zeta. rewrite testbits by reflexivity. rewrite parse_plain by auto. unfold all_cats at 1. cbn [load_cats].
    rewrite !apply_stands, S0. rewrite apply_stands, S1. reflexivity. }
  rewrite setlocale_all by auto. unfold newlocale. rewrite L. cbn. repeat split.
Qed.
Print Assumptions C101_failure_refuted.

(** Refuted: setlocale(category, "") sets this category only, and LC_ALL comes first.  It sets every category, and LC_ALL is ignored. *)
Theorem C101_environment_refuted : forall cdata archive paths file getenv g c N g', category c ->
  setlocale cdata archive paths file getenv g c (Some []) = Ok (Some N, g') ->
  forall k, category k -> stands_for cdata archive paths file k (wanted (fun v => if list_eq_dec Z.eq_dec v (lc LC_ALL) then None else getenv v) k) = Some (cat g' k).
Proof.
  intros cdata archive paths file getenv g c N g' C H k K. destruct (cat_range cdata c C) as [R1 R2].
  set (ge := fun v => if list_eq_dec Z.eq_dec v (lc LC_ALL) then None else getenv v).
  assert (EQ : forall v, v <> lc LC_ALL -> var ge v = var getenv v) by (intros v V; unfold var, ge; destruct (list_eq_dec Z.eq_dec v (lc LC_ALL)); congruence).
  assert (N0 : var ge (lc LC_ALL) = None) by reflexivity.
  unfold setlocale in H. rewrite R1 in H.
  assert (H' : (let '(ok, done, l) := apply_env cdata archive paths file getenv all_cats [] g in
              if negb ok then Ok (None, l)
              else let '(ok, l) := apply_lang cdata archive paths file all_cats done (match env getenv name_LANG with Some n => n | None => name_C end) l in
                   if negb ok then Ok (None, l) else n <- category_name (update_name l) c ;; Ok (Some n, update_name l)) = Ok (Some N, g')) by (destruct (env getenv (lc LC_ALL)); exact H).
  clear H. destruct (apply_env_ok cdata archive paths file getenv all_cats [] g all_cats_nodup) as (ok & done & l & E1 & H1 & _). rewrite E1 in H'. destruct ok; cbn [negb] in H'; [|discriminate].
  destruct (apply_lang_ok cdata archive paths file (match env getenv name_LANG with Some n => n | None => name_C end) all_cats done l) as (ok & l' & E2 & H2 & _). rewrite E2 in H'. destruct ok; cbn [negb] in H'; [|discriminate].
  unfold category_name in H'. rewrite R1, R2 in H'. cbn in H'. injection H' as _ <-. cbn [cat update_name].
  destruct (H1 eq_refl) as (D & A1 & A2). destruct (H2 eq_refl) as (B1 & B2).
  unfold wanted. rewrite N0. assert (LK : lc k <> lc LC_ALL) by (unfold category, all_cats in K; cbn in K; intuition (subst; discriminate)).
  rewrite (EQ _ LK), (EQ name_LANG) by discriminate.
  destruct (var getenv (lc k)) as [n|] eqn:VC.
  - rewrite B2; [now apply A1|]. left. apply D. right. split; auto. congruence.
  - specialize (B1 k K). rewrite env_var in B1. destruct (var getenv name_LANG); apply B1; rewrite D; cbn; intuition congruence.
Qed.
Print Assumptions C101_environment_refuted.

(** Refuted: a composite name that ends after the name of its last category is read beyond its end; so it is with a category that does not exist. *)
Theorem C101_bounds_refuted : forall cdata archive paths file getenv g,
  setlocale cdata archive paths file getenv g LC_ALL (Some (composite (fun _ => name_C) ++ [])) <> UB /\
  setlocale cdata archive paths file getenv g LC_ALL (Some (firstn (length (composite (fun _ => name_C)) - 2) (composite (fun _ => name_C)))) = UB /\
  setlocale cdata archive paths file getenv g 13 None = UB.
Proof. intros. split; [|split]; [|vm_compute; reflexivity|reflexivity]. rewrite app_nil_r. vm_compute. discriminate. Qed.
Print Assumptions C101_bounds_refuted.

(** Refuted: 8859-1 and 88591 are the same codeset. *)
Theorem C101_codeset_refuted : normalize [56; 56; 53; 57; 49] = [105; 115; 111; 56; 56; 53; 57; 49] /\ normalize [56; 56; 53; 57; 45; 49] = [56; 56; 53; 57; 49].
Proof. now vm_compute. Qed.
Print Assumptions C101_codeset_refuted.

(** Non-vacuity: an archive with "de" and files for "fr_FR" in one directory, everything there; a name with all parts *)
Definition de : list Z := [100; 101].
Definition fr_FR : list Z := [102; 114; 95; 70; 82].
Definition fr_utf8 : list Z := fr_FR ++ [46; 85; 84; 70; 45; 56].
Definition arch : option (list Z -> option (Z -> option Z)) := Some (fun e => if list_eq_dec Z.eq_dec e de then Some (fun c => Some (100 + c)) else None).
Definition dirs : list (list Z) := [[47; 108]].
Definition files (p : list Z) (c : Z) : option Z := if list_eq_dec Z.eq_dec p (path [47; 108] fr_FR c) then Some (200 + c) else None.
Example C101_sane : sane arch files.
Proof.
  split.
  - intros a e rec c A. injection A as <-. destruct (list_eq_dec Z.eq_dec e de); [|discriminate]. intros R _. injection R as <-. discriminate.
  - intros lp e c H. unfold files. destruct (list_eq_dec Z.eq_dec (path lp e c) (path [47; 108] fr_FR c)) as [E|]; auto. exfalso. unfold path in E.
    assert (X : forall t, lp ++ 47 :: e ++ 47 :: t = [47; 108; 47] ++ fr_FR ++ 47 :: t -> False).
    { intros t Q. change (lp ++ [47] ++ e ++ [47] ++ t = [47; 108; 47; 102; 114; 95; 70; 82; 47] ++ t) in Q. rewrite !app_assoc in Q. apply app_inv_tail in Q. rewrite <- !app_assoc in Q.
      assert (L := f_equal (@length Z) Q). rewrite !app_length in L. cbn in L.
      destruct H as [->|[->| ->]]; cbn in L; repeat (destruct lp as [|? lp]; try discriminate L); cbn in Q; discriminate. }
    eapply X. exact E.
Qed.
Definition nowhere (v : list Z) : option (list Z) := None.
Definition ctype_fr (v : list Z) : option (list Z) := if list_eq_dec Z.eq_dec v (lc 0) then Some fr_utf8 else None.
Lemma de_plain : plain de.
Proof. split; [discriminate|]. split; [cbn; intuition discriminate|]. intros b c r (E & _). exfalso. assert (X : In 46 de) by (rewrite E, !in_app_iff; cbn; auto). cbn in X. intuition discriminate. Qed.
Lemma fr_plain : plain fr_utf8.
Proof.
  split; [discriminate|]. split; [cbn; intuition discriminate|]. intros b c r H.
  assert (H' : codeset_in fr_utf8 fr_FR [85; 84; 70; 45; 56] []) by (split; [reflexivity|]; repeat split; cbn; intuition discriminate).
  rewrite (codeset_unique _ _ _ _ _ _ _ H H'). reflexivity.
Qed.
(** LC_ALL from the archive, then LC_CTYPE from a file under a shorter name: the composite name restores both *)
Example C101_example : exists g1 g2, 
  setlocale (fun _ => 0) arch dirs files nowhere (c_locale (fun _ => 0)) LC_ALL (Some de) = Ok (Some de, g1) /\
  setlocale (fun _ => 0) arch dirs files nowhere g1 0 (Some fr_utf8) = Ok (Some fr_FR, g2) /\
  reached (fun _ => 0) arch dirs files true g2 /\ cat g2 0 = (fr_FR, 200) /\ cat g2 5 = (de, 105) /\
  all_name g2 = composite (fun c => if c =? 0 then fr_FR else de) /\
  (exists g3, setlocale (fun _ => 0) arch dirs files ctype_fr (c_locale (fun _ => 0)) LC_ALL (Some []) = Ok (Some (composite (fun c => if c =? 0 then fr_FR else name_C)), g3)).
Proof.
  eexists _, _. split; [reflexivity|]. split; [reflexivity|]. split; [|split; [reflexivity|split; [reflexivity|split; [reflexivity|eexists; reflexivity]]]].
  eapply (after_call _ _ _ _ true _ 0 (Some fr_utf8) nowhere (Some fr_FR)); [eapply (after_call _ _ _ _ true _ LC_ALL (Some de) nowhere (Some de)); [constructor| | |reflexivity]| | |reflexivity].
  - right. left. apply de_plain.
  - intros v n H. discriminate.
  - right. left. apply fr_plain.
  - intros v n H. discriminate.
Qed.
Example C101_variants : variants [100;101] (Some [68;69]) (Some [85;84;70;45;56]) (Some [101]) =
  map (fun s => [100;101] ++ s) [[95;68;69;46;85;84;70;45;56;64;101]; [95;68;69;46;117;116;102;56;64;101]; [95;68;69;64;101]; [95;68;69;46;85;84;70;45;56]; [95;68;69;46;117;116;102;56]; [95;68;69];
    [46;85;84;70;45;56;64;101]; [46;117;116;102;56;64;101]; [64;101]; [46;85;84;70;45;56]; [46;117;116;102;56]; []].
Proof. now vm_compute. Qed.
(** a locale with LC_CTYPE only *)
Example C101_failure_example : let files' := fun p c => if c =? 0 then files p c else None in
  plain fr_utf8 /\ stands_for (fun _ => 0) None dirs files' 0 fr_utf8 = Some (fr_FR, 200) /\ stands_for (fun _ => 0) None dirs files' 1 fr_utf8 = None.
Proof. split; [exact fr_plain|]. now vm_compute. Qed.
