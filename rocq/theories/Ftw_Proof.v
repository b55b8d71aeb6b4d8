From Verif Require Import Base Ftw_Model Ftw_Spec.
Open Scope Z_scope.

Lemma is_dot_proper n : is_dot n = negb (proper n).
Proof.
  unfold proper. destruct (in_dec list_Z_eq_dec n [[46]; [46; 46]]) as [I|I].
  - destruct I as [<-|[<-|[]]]; reflexivity.
  - cbn [negb]. destruct (is_dot n) eqn:E; [exfalso|reflexivity]. apply I. unfold is_dot in E.
    destruct n as [|a [|b [|c n]]]; try discriminate.
    + left. destruct a as [|a|a]; try discriminate. do 6 (destruct a as [a|a|]; try discriminate). reflexivity.
    + right. left. destruct a as [|a|a]; try discriminate. do 6 (destruct a as [a|a|]; try discriminate).
      destruct b as [|b|b]; try discriminate. do 6 (destruct b as [b|b|]; try discriminate). reflexivity.
    + destruct a as [|a|a]; try discriminate. do 6 (destruct a as [a|a|]; try discriminate).
      destruct b as [|b|b]; try discriminate. do 6 (destruct b as [b|b|]; try discriminate).
Qed.

Lemma last_nth (p : list Z) k : length p = S k -> last p 0 = nth k p 0.
Proof.
  intros L. destruct p as [|x p'] using rev_ind; [discriminate|]. rewrite last_last. rewrite app_length in L. cbn in L.
  rewrite app_nth2 by lia. replace (k - length p')%nat with 0%nat by lia. reflexivity.
Qed.
Lemma stem_slash p : last p 0 = slash -> exists q, p = q ++ [slash] /\ stem p = length q.
Proof.
  intros L. destruct p as [|x q _] using rev_ind; [discriminate|]. rewrite last_last in L. subst x. exists q. split; [reflexivity|].
  unfold stem. rewrite app_length. cbn [length]. replace (length q + 1)%nat with (S (length q)) by lia. cbv beta iota.
  rewrite app_nth2 by lia. rewrite Nat.sub_diag. cbn [nth]. unfold slash. rewrite Z.eqb_refl. lia.
Qed.
Lemma stem_plain p : last p 0 <> slash -> stem p = length p.
Proof.
  intros N. unfold stem. destruct (length p) eqn:E; [reflexivity|]. rewrite <- (last_nth p n E).
  destruct (Z.eqb_spec (last p 0) 47); [contradiction|reflexivity].
Qed.
Lemma child_path p n : firstn (stem p) p ++ 47 :: n = join p n.
Proof.
  unfold join, dir_prefix. destruct (Z.eqb_spec (last p 0) slash) as [E|E].
  - destruct (stem_slash p E) as (q & -> & S1). rewrite S1, firstn_app, firstn_all, Nat.sub_diag. cbn [firstn]. rewrite app_nil_r, <- app_assoc. reflexivity.
  - rewrite (stem_plain p E), firstn_all, <- app_assoc. reflexivity.
Qed.
Lemma child_base p : Z.of_nat (stem p) + 1 = Z.of_nat (length (dir_prefix p)).
Proof.
  unfold dir_prefix. destruct (Z.eqb_spec (last p 0) slash) as [E|E].
  - destruct (stem_slash p E) as (q & -> & S1). rewrite S1, app_length. cbn [length]. lia.
  - rewrite (stem_plain p E), app_length. cbn [length]. lia.
Qed.

Lemma until_app fn a b past : until_nonzero fn past (a ++ b) = (let '(v, past') := until_nonzero fn past a in if v =? 0 then until_nonzero fn past' b else (v, past')).
Proof.
  revert past. induction a as [|e a IH]; intros past; cbn [app until_nonzero]; [reflexivity|].
  cbv zeta. destruct (fn past e =? 0) eqn:E; [apply IH|]. rewrite E. reflexivity.
Qed.

Lemma flat_map_map {A B C} (f : B -> list C) (g : A -> B) l : flat_map f (map g l) = flat_map (fun x => f (g x)) l.
Proof. induction l as [|x l IH]; cbn; [reflexivity|]. rewrite IH. reflexivity. Qed.
Lemma flat_map_flat_map {A B C} (f : B -> list C) (g : A -> list B) l : flat_map f (flat_map g l) = flat_map (fun x => flat_map f (g x)) l.
Proof. induction l as [|x l IH]; cbn; [reflexivity|]. rewrite flat_map_app, IH. reflexivity. Qed.

Section W.
Variables stat lstat : list Z -> stat_t + Z.
Variable open : list Z -> option Z.
Variable entries : list Z -> list (list Z).
Variable fn : list event -> event -> Z.
Variable fl : flags.
Variable L : Z.

Definition view (t : tree) : tree := if mount fl then one_device t else t.
Definition evs (lim : nat) (level base : Z) (p : list Z) (t : tree) : list event :=
  (if depth fl then postorder else preorder) level base p (top_levels lim (view t)).
Definition lk (r : Z * list event) : Z :=
  if fst r =? 0 then 0 else
  match rev (snd r) with e :: _ => match e_type e with FTW_D => if e_level e <? L then 1 else 0 | _ => 0 end | [] => 0 end.
Definition cut (d : Z) (t : tree) : bool := mount fl && other_device d t.

Lemma kids_evs {C} (f : list Z -> tree -> list C) m d kids :
  flat_map (fun nt => f (fst nt) (snd nt))
    (map (fun nt : list Z * tree => (fst nt, top_levels m (snd nt)))
       (if mount fl then flat_map (fun nt : list Z * tree => if other_device d (snd nt) then [] else [(fst nt, one_device (snd nt))]) kids else kids)) =
  flat_map (fun nt : list Z * tree => if cut d (snd nt) then [] else f (fst nt) (top_levels m (view (snd nt)))) kids.
Proof.
  rewrite flat_map_map. unfold cut, view. destruct (mount fl); cbn [andb].
  - rewrite flat_map_flat_map. apply flat_map_ext. intros nt. destruct (other_device d (snd nt)); cbn; [reflexivity|apply app_nil_r].
  - apply flat_map_ext. intros nt. reflexivity.
Qed.
Lemma view_T w d i kids : view (T w d i kids) = T w d i (if mount fl then flat_map (fun nt : list Z * tree => if other_device d (snd nt) then [] else [(fst nt, one_device (snd nt))]) kids else kids).
Proof. unfold view. destruct (mount fl); reflexivity. Qed.

Definition kid_evs (m : nat) (level : Z) (p : list Z) (d : Z) (nt : list Z * tree) : list event :=
  if cut d (snd nt) then [] else evs m (level + 1) (Z.of_nat (length (dir_prefix p))) (join p (fst nt)) (snd nt).
Definition all_kids (lim : nat) level p d kids : list event := match lim with O => [] | S m => flat_map (kid_evs m level p d) kids end.
Lemma evs_pre lim level base p w d i kids : depth fl = false ->
  evs lim level base p (T w d i kids) =
  {| e_path := p; e_dev := d; e_ino := i; e_type := type_of w; e_level := level; e_base := base |} :: all_kids lim level p d kids.
Proof.
  intros D. unfold evs, all_kids, kid_evs, evs. rewrite D, view_T. destruct lim as [|m]; [reflexivity|].
  cbn [top_levels preorder]. f_equal. apply (kids_evs (fun n t => preorder (level + 1) (Z.of_nat (length (dir_prefix p))) (join p n) t)).
Qed.
Lemma evs_post lim level base p w d i kids : depth fl = true ->
  evs lim level base p (T w d i kids) =
  (match w with Loop => [] | _ => all_kids lim level p d kids ++
   [{| e_path := p; e_dev := d; e_ino := i; e_type := type_of_depth w; e_level := level; e_base := base |}] end).
Proof.
  intros D. unfold evs, all_kids, kid_evs, evs. rewrite D, view_T.
  assert (K : forall m, flat_map (fun nt : list Z * tree => postorder (level + 1) (Z.of_nat (length (dir_prefix p))) (join p (fst nt)) (snd nt))
     (map (fun nt : list Z * tree => (fst nt, top_levels m (snd nt))) (if mount fl then flat_map (fun nt : list Z * tree => if other_device d (snd nt) then [] else [(fst nt, one_device (snd nt))]) kids else kids)) =
     flat_map (fun nt : list Z * tree => if cut d (snd nt) then [] else postorder (level + 1) (Z.of_nat (length (dir_prefix p))) (join p (fst nt)) (top_levels m (view (snd nt)))) kids).
  { intros m. apply (kids_evs (fun n t => postorder (level + 1) (Z.of_nat (length (dir_prefix p))) (join p n) t)). }
  destruct lim as [|m]; destruct w; cbn [top_levels postorder]; try reflexivity; f_equal; apply K.
Qed.

Definition good (s : walked) (es : list event) (free : Prop) (r : Z * walked) : Prop :=
  exists k, r = (fst (until_nonzero fn (fst s) es), (snd (until_nonzero fn (fst s) es), k)) /\
    (free -> k = snd s + lk (until_nonzero fn (fst s) es)).

Lemma each_ok walk p ev kids : forall names,
  map fst kids = filter proper names ->
  (forall n t, In (n, t) kids -> Z.of_nat (length p) + Z.of_nat (length n) < PATH_MAX) ->
  (forall n t s, In (n, t) kids -> good s (ev (n, t)) (loop_free t) (walk (join p n) s)) ->
  forall s, good s (flat_map ev kids) (forall n t, In (n, t) kids -> loop_free t) (each walk p names s).
Proof.
  induction kids as [|[n t] kids IH]; intros names.
  - induction names as [|x names IHn]; intros F LN W s.
    + cbn [each flat_map]. exists (snd s). cbn [until_nonzero fst snd]. destruct s; cbn. split; [reflexivity|intros _]. unfold lk. cbn. lia.
    + cbn [each]. rewrite is_dot_proper. cbn [filter] in F. destruct (proper x) eqn:P; [discriminate|]. cbn [negb]. apply IHn; assumption.
  - induction names as [|x names IHn]; intros F LN W s; [discriminate|].
    cbn [each]. rewrite is_dot_proper. cbn [filter] in F. destruct (proper x) eqn:P; cbn [negb].
    2:{ apply IHn; assumption. }
    cbn [map fst] in F. injection F as <- F'.
    pose proof (LN n t (or_introl eq_refl)) as Ln. destruct (Z.leb_spec (PATH_MAX - Z.of_nat (length p)) (Z.of_nat (length n))); [lia|].
    rewrite child_path. destruct (W n t s (or_introl eq_refl)) as (k & -> & K).
    cbn [flat_map]. unfold good. rewrite until_app. destruct (until_nonzero fn (fst s) (ev (n, t))) as [v past] eqn:U. cbn [fst snd] in *.
    destruct (Z.eqb_spec v 0) as [->|NV].
    + destruct (IH names F' (fun a b I => LN a b (or_intror I)) (fun a b q I => W a b q (or_intror I)) (past, k)) as (k' & E & K').
      cbn [fst snd] in *. rewrite E. exists k'. split; [reflexivity|]. intros FR. rewrite K'.
      2:{ intros a b I. apply (FR a b). right. exact I. }
      rewrite (K (FR n t (or_introl eq_refl))). unfold lk at 1. cbn. lia.
    + exists k. cbn [fst snd]. split; [reflexivity|]. intros FR. apply K, (FR n t). left. reflexivity.
Qed.

Definition lvl (h : list hist) : Z := match h with x :: _ => h_level x + 1 | [] => 0 end.
Definition bas (h : list hist) (p : list Z) : Z := match h with x :: _ => h_base x | [] => root_base p end.
Definition up (h : list hist) : list (Z * Z) := map (fun x => (h_dev x, h_ino x)) h.
Lemma loop_test h d i : existsb (fun x => (h_dev x =? d) && (h_ino x =? i)) h = true <-> In (d, i) (up h).
Proof.
  unfold up. rewrite existsb_exists, in_map_iff. split.
  - intros (x & I & B). apply andb_prop in B as [B1 B2]. exists x. split; [|exact I]. f_equal; lia.
  - intros (x & E & I). exists x. split; [exact I|]. injection E as -> ->. rewrite !Z.eqb_refl. reflexivity.
Qed.
Definition first_type (w : what) : typeflag :=
  match w with Dir | Loop | Unreadable => if depth fl then FTW_DP else FTW_D | File => FTW_F | Symlink => FTW_SL | Dangling => FTW_SLN | Hidden => FTW_NS end.
Lemma classify_sees p w d i : sees stat lstat open (negb (phys fl)) p w d i -> classify stat lstat fl p = Some (first_type w, d, i).
Proof.
  unfold sees, classify, first_type. destruct (phys fl) eqn:P; cbn [negb andb]; destruct w.
  all: try (intros [-> _]; reflexivity). all: try (intros ->; reflexivity). all: try (intros [? _]; discriminate).
  - intros [_ ->]. reflexivity.
  - intros (-> & -> & ->). reflexivity.
  - intros (_ & -> & m & ->). reflexivity.
  - intros (-> & -> & ->). reflexivity.
Qed.

Lemma walk_cut lim : forall h x p t s, holds stat lstat open entries (negb (phys fl)) p t -> cut (h_dev x) t = true ->
  do_nftw stat lstat open entries fn fl lim (x :: h) p s = (0, s).
Proof.
  intros h x p t s H C. destruct H as [p w d i kids SE _ _ _ _]. apply classify_sees in SE. unfold cut in C. apply andb_prop in C as [M O].
  destruct lim; cbn [do_nftw]; rewrite SE, M; cbn [andb];
    (replace (negb (is_ns (first_type w)) && negb (d =? h_dev x)) with true; [reflexivity|]);
    unfold first_type; destruct w; cbn in O |- *; try discriminate; destruct (depth fl); cbn; auto.
Qed.

Lemma walk_ok : forall lim h p t s,
  holds stat lstat open entries (negb (phys fl)) p t -> marked (up h) t ->
  (match h with x :: _ => cut (h_dev x) t = false | [] => True end) -> lvl h + Z.of_nat lim = L ->
  good s (evs lim (lvl h) (bas h p) p t) (loop_free t) (do_nftw stat lstat open entries fn fl lim h p s).
Proof.
  induction lim as [|m IH]; intros h p t s H M C LL; destruct H as [p w d i kids SE KD KN KL KH];
    pose proof (classify_sees _ _ _ _ SE) as CL; inversion M as [up' w' d' i' kids' ML MK]; subst;
    cbn [do_nftw]; rewrite CL.
  all: assert (CF : mount fl && negb (is_ns (first_type w)) && match h with x :: _ => negb (d =? h_dev x) | [] => false end = false)
    by (destruct h as [|x h']; [apply andb_false_r|]; unfold cut in C; destruct (mount fl); cbn [andb] in *; [|reflexivity];
        unfold other_device in C; unfold first_type; destruct w; cbn in *; destruct (depth fl); cbn; auto).
  all: rewrite CF; clear CF; fold (lvl h); fold (bas h p).
  all: assert (OP : (if dir_type (first_type w) then open p else None) = match w with Unreadable => Some EACCES | _ => None end)
    by (unfold first_type; destruct w; cbn; try reflexivity; destruct SE as [_ SO]; destruct (depth fl); cbn; exact SO).
  all: rewrite OP; clear OP.
  all: set (e0 := {| e_path := p; e_dev := d; e_ino := i; e_type := (if depth fl then type_of_depth w else type_of w); e_level := lvl h; e_base := bas h p |}).
  all: assert (TY : (if dir_type (first_type w) && match match w with Unreadable => Some EACCES | _ => None end with Some e => e =? EACCES | None => false end then FTW_DNR else first_type w)
      = if depth fl then type_of_depth w else type_of w)
    by (unfold first_type; destruct w; destruct (depth fl); reflexivity).
  all: cbv zeta; rewrite TY; clear TY; cbn [h_level]; fold e0; assert (E0 : e_type e0 = (if depth fl then type_of_depth w else type_of w) /\ e_level e0 = lvl h) by (split; reflexivity).
  all: assert (EX : existsb (fun x => (h_dev x =? d) && (h_ino x =? i)) h = match w with Loop => true | _ => false end)
    by (apply Bool.eq_iff_eq_true; rewrite loop_test, <- ML; destruct w; split; congruence).
  all: rewrite EX; clear EX.
  - (* no descriptor left *)
    rewrite andb_false_r. destruct (depth fl) eqn:D.
    + rewrite (evs_post 0 _ _ p w d i kids D). fold e0. clearbody e0. cbn [negb]. cbv beta iota. cbn [Z.eqb negb]. unfold good. cbn [all_kids app].
      destruct w; cbn [until_nonzero]; cbv zeta; cbn [fst snd].
      all: try (destruct (fn (fst s) e0 =? 0) eqn:F; cbn [fst snd]; exists (snd s); (split; [try (apply Z.eqb_eq in F; rewrite F); reflexivity|]); intros _;
        unfold lk; cbn [fst snd]; rewrite ?F, ?rev_app_distr; cbn [rev app Z.eqb]; try (destruct E0 as [E0 _]; rewrite E0); cbn [type_of_depth type_of]; lia).
      exists (snd s). destruct s; split; [reflexivity|intros _; unfold lk; cbn; lia].
    + rewrite (evs_pre 0 _ _ p w d i kids D). fold e0. clearbody e0. cbn [negb]. cbv beta iota. unfold good. cbn [all_kids until_nonzero]. cbv zeta.
      destruct (fn (fst s) e0 =? 0) eqn:F; cbn [negb fst snd].
      * exists (snd s). split; [destruct w; reflexivity|]. intros _. unfold lk. cbn. lia.
      * exists (snd s). split; [reflexivity|]. intros _. unfold lk. cbn [fst snd]. rewrite F, rev_app_distr. cbn [rev app]. destruct E0 as [-> ->].
        destruct (Z.ltb_spec (lvl h) L); [lia|]. destruct w; cbn; lia.
  - set (n0 := {| h_dev := d; h_ino := i; h_level := lvl h; h_base := Z.of_nat (stem p) + 1 |}).
    assert (EO : w = Dir -> forall s0, good s0 (all_kids (S m) (lvl h) p d kids) (forall n t, In (n, t) kids -> loop_free t)
        (each (do_nftw stat lstat open entries fn fl m (n0 :: h)) p (entries p) s0)).
    { intros WD s0. cbn [all_kids]. apply each_ok; [apply KD, WD|exact KL|].
      intros n t s1 I. unfold kid_evs. cbn [fst snd]. pose proof (KH n t I) as HK. destruct (cut d t) eqn:CT.
      - rewrite (walk_cut m h n0 (join p n) t s1 HK CT). exists (snd s1). destruct s1; cbn. split; [reflexivity|]. intros _. unfold lk; cbn; lia.
      - specialize (IH (n0 :: h) (join p n) t s1 HK (MK n t I) CT). cbn [lvl bas n0 h_level h_base] in IH. rewrite child_base in IH. apply IH. lia. }
    assert (FK : loop_free (T w d i kids) -> forall n t, In (n, t) kids -> loop_free t) by (intros F; inversion F; assumption).
    destruct (depth fl) eqn:D.
    + rewrite (evs_post (S m) _ _ p w d i kids D). fold e0. clearbody e0. cbn [negb]. cbv beta iota. cbn [Z.eqb negb].
      unfold first_type. rewrite D.
      destruct w; cbn [dir_type andb negb Nat.eqb type_of_depth type_of]; cbv beta iota.
      all: try (rewrite (KN ltac:(discriminate)) in *; cbn [all_kids flat_map app until_nonzero]; unfold good; cbn [until_nonzero fst snd]; cbv zeta).
      2-7: cbn [Z.eqb negb].
      2,4-7: (destruct (fn (fst s) e0 =? 0) eqn:F; cbn [fst snd]; exists (snd s); (split; [try (apply Z.eqb_eq in F; rewrite F); reflexivity|]); intros _;
        unfold lk; cbn [fst snd]; rewrite ?F, ?rev_app_distr; cbn [rev app Z.eqb]; try (destruct E0 as [E0 _]; rewrite E0); cbn [type_of_depth type_of]; lia).
      2:{ exists (snd s + 1). split; [reflexivity|]. intros FR. inversion FR. congruence. }
      destruct (EO eq_refl (fst s, snd s + 1)) as (k & E & K). rewrite E. cbn [fst snd] in *. unfold good. rewrite until_app.
      destruct (until_nonzero fn (fst s) (all_kids (S m) (lvl h) p d kids)) as [v past] eqn:U. cbn [fst snd] in *.
      destruct (Z.eqb_spec v 0) as [->|NV]; cbn [negb].
      * cbn [until_nonzero]. cbv zeta. destruct (fn past e0 =? 0) eqn:F; cbn [fst snd].
        -- exists (k - 1). split; [apply Z.eqb_eq in F; rewrite F; reflexivity|]. intros FR. rewrite (K (FK FR)). unfold lk. cbn. lia.
        -- exists (k - 1). split; [reflexivity|]. intros FR. rewrite (K (FK FR)). unfold lk. cbn [fst snd]. rewrite F, rev_app_distr. cbn [rev app Z.eqb].
           destruct E0 as [-> _]. cbn. lia.
      * exists (k - 1). split; [reflexivity|]. intros FR. rewrite (K (FK FR)). cbn [fst snd]. lia.
    + rewrite (evs_pre (S m) _ _ p w d i kids D). fold e0. clearbody e0. cbn [negb]. cbv beta iota. unfold good. cbn [until_nonzero]. cbv zeta.
      unfold first_type. rewrite D. cbn [Nat.eqb negb]. rewrite andb_true_r.
      match goal with |- context [if ?b then (fst s, snd s + 1) else s] => set (s1 := if b then (fst s, snd s + 1) else s) end.
      assert (S1 : s1 = (fst s, snd s + match w with Dir | Loop => 1 | _ => 0 end)) by (destruct s; unfold s1; destruct w; cbn; f_equal; lia).
      clearbody s1. subst s1. cbn [fst snd].
      destruct (fn (fst s) e0 =? 0) eqn:F; cbn [negb fst snd].
      * destruct w; cbn [dir_type andb negb type_of]; cbv beta iota; cbn [fst snd negb Z.eqb].
        all: try (rewrite (KN ltac:(discriminate)) in *; cbn [all_kids flat_map until_nonzero fst snd]).
        2,4-7: (exists (snd s + 0); split; [reflexivity|]; intros _; unfold lk; cbn; lia).
        2:{ eexists. split; [reflexivity|]. intros FR. inversion FR. congruence. }
        destruct (EO eq_refl (fst s ++ [e0], snd s + 1)) as (k & E & K). rewrite E. cbn [fst snd] in *.
        destruct (until_nonzero fn (fst s ++ [e0]) (all_kids (S m) (lvl h) p d kids)) as [v past] eqn:U. cbn [fst snd] in *.
        exists (k - 1). split.
        -- destruct (Z.eqb_spec v 0) as [->|NV]; reflexivity.
        -- intros FR. rewrite (K (FK FR)). lia.
      * eexists. split; [reflexivity|]. intros FR. unfold lk. cbn [fst snd]. rewrite F, rev_app_distr. cbn [rev app]. destruct E0 as [-> ->].
        destruct (Z.ltb_spec (lvl h) L); [|lia]. destruct w; cbn; lia.
Qed.
End W.

Lemma strip (p : list Z) : exists q r, p = q ++ repeat slash r /\ (q = [] \/ last q 0 <> slash).
Proof.
  induction p as [|x p (q & r & -> & N)] using rev_ind; [exists [], 0%nat; auto|].
  destruct (Z.eq_dec x slash) as [->|X].
  - exists q, (S r). split; [|exact N]. rewrite <- app_assoc. f_equal. clear. induction r as [|r IH]; [reflexivity|]. cbn. f_equal. exact IH.
  - exists ((q ++ repeat slash r) ++ [x]), 0%nat. cbn. rewrite app_nil_r. split; [reflexivity|]. right. rewrite last_last. exact X.
Qed.
Lemma nth_ext_back (p1 p2 : list Z) k : (forall i, (i < k)%nat -> nth i p1 0 = nth i p2 0) -> back_name p1 k = back_name p2 k.
Proof.
  induction k as [|k IH]; intros E; [reflexivity|]. cbn [back_name]. rewrite (E k) by lia. rewrite IH; [reflexivity|]. intros i I. apply E. lia.
Qed.
Lemma back_name_spec q : forall rest, exists a n, q = a ++ n /\ back_name (q ++ rest) (length q) = length a /\ ~ In slash n /\ (a = [] \/ last a 0 = slash).
Proof.
  induction q as [|x q IH] using rev_ind; intros rest; [exists [], []; cbn; tauto|].
  rewrite app_length. cbn [length]. replace (length q + 1)%nat with (S (length q)) by lia. cbn [back_name].
  rewrite <- app_assoc, app_nth2 by lia. rewrite Nat.sub_diag. cbn [nth app]. destruct (Z.eqb_spec x 47) as [->|N].
  - exists (q ++ [47]), []. rewrite app_nil_r, app_length. cbn [length]. split; [reflexivity|]. split; [lia|]. split; [auto|]. right. apply last_last.
  - destruct (IH (x :: rest)) as (a & n & E & B & NI & LA). exists a, (n ++ [x]). rewrite B. split; [rewrite E, <- app_assoc; reflexivity|]. split; [reflexivity|].
    split; [|exact LA]. rewrite in_app_iff. cbn. unfold slash in *. intros [I|[I|[]]]; [contradiction|congruence].
Qed.
Lemma back_slash_spec q : forall r k, (q = [] \/ last q 0 <> slash) -> (k < length q + r)%nat -> (length q <= S k)%nat ->
  back_slash (q ++ repeat slash r) k = (length q - 1)%nat.
Proof.
  intros r. induction k as [|k IH]; intros Q K1 K2; [cbn; lia|]. cbn [back_slash].
  destruct (Nat.eq_dec (length q) (S (S k))) as [EQ|NE].
  - rewrite app_nth1 by lia. rewrite <- (last_nth q (S k) EQ). destruct Q as [->|Q]; [discriminate|].
    destruct (Z.eqb_spec (last q 0) 47); [contradiction|lia].
  - rewrite app_nth2 by lia.
    rewrite (nth_error_nth _ _ 0 (x := slash)); [rewrite Z.eqb_refl|].
    2:{ rewrite nth_error_repeat by lia. reflexivity. }
    apply IH; lia || assumption.
Qed.
Lemma root_base_ok p : last_component p (root_base p).
Proof.
  destruct (strip p) as (q & r & -> & Q).
  assert (B : root_base (q ++ repeat slash r) = Z.of_nat (back_name (q ++ repeat slash r) (length q))).
  { unfold root_base. f_equal. destruct r as [|r].
    - cbn [repeat]. rewrite app_nil_r. replace (stem q) with (length q).
      2:{ destruct Q as [->|Q]; [reflexivity|]. symmetry. apply stem_plain. exact Q. }
      destruct (length q) as [|k] eqn:E; [reflexivity|]. cbn [back_slash]. rewrite nth_overflow by lia. reflexivity.
    - assert (LS : last (q ++ repeat slash (S r)) 0 = slash).
      { replace (repeat slash (S r)) with (repeat slash r ++ [slash]).
        - rewrite app_assoc. apply last_last.
        - clear. induction r as [|r IH]; [reflexivity|]. cbn in *. f_equal. exact IH. }
      destruct (stem_slash _ LS) as (q' & E & ->).
      assert (Lq : length q' = (length q + r)%nat). { apply (f_equal (@length Z)) in E. rewrite !app_length, repeat_length in E. cbn in E. lia. }
      rewrite Lq, back_slash_spec by (assumption || lia).
      destruct (length q) as [|k] eqn:EL; [reflexivity|]. replace (S k - 1)%nat with k by lia. cbn [back_name].
      rewrite app_nth1 by lia. rewrite <- (last_nth q k EL). destruct Q as [->|Q]; [discriminate|].
      destruct (Z.eqb_spec (last q 0) 47); [contradiction|reflexivity]. }
  destruct (back_name_spec q (repeat slash r)) as (a & n & E & BN & NI & LA).
  exists a, n, (repeat slash r). rewrite B, BN, E, <- app_assoc. repeat (split; [reflexivity|]). split; [exact NI|].
  split; [intros c I; apply repeat_spec in I; exact I|]. split; [exact LA|].
  intros ->. rewrite app_nil_r in E. subst a. destruct LA as [|LA]; [assumption|]. destruct Q as [|Q]; [assumption|contradiction].
Qed.

Lemma in_height (kids : list (list Z * tree)) n t : In (n, t) kids ->
  (S (height t) <= fold_right (fun nt h => Nat.max (S (height (snd nt))) h) 0 kids)%nat.
Proof. induction kids as [|x kids IH]; intros []; cbn [fold_right snd]; [subst; cbn [snd]; lia|]. apply IH in H. lia. Qed.
Lemma top_levels_whole : forall n t, (height t <= n)%nat -> top_levels n t = t.
Proof.
  induction n as [|n IH]; intros [w d i kids] H; cbn [top_levels]; cbn [height] in H.
  - destruct kids as [|k kids]; [reflexivity|]. cbn [fold_right] in H. lia.
  - f_equal. rewrite <- (map_id kids) at 2. apply map_ext_in. intros [m t] I. cbn. f_equal. apply IH. apply in_height in I. lia.
Qed.
Lemma height_one_device : forall n t, (height t <= n)%nat -> (height (one_device t) <= n)%nat.
Proof.
  induction n as [|n IH]; intros [w d i kids] H; cbn [one_device height] in *.
  - destruct kids as [|k kids]; [cbn; lia|]. cbn [fold_right] in H. lia.
  - assert (forall m t, In (m, t) kids -> (height t <= n)%nat) as K by (intros m t I; apply in_height in I; lia). clear H.
    induction kids as [|[m t] kids IHk]; [cbn; lia|]. cbn [flat_map snd fst].
    destruct (other_device d t); cbn [app fold_right snd]; [apply IHk; intros; eapply K; right; eassumption|].
    apply Nat.max_lub; [pose proof (IH t (K m t (or_introl eq_refl))); lia|]. apply IHk. intros; eapply K; right; eassumption.
Qed.

Lemma until_past fn es : forall past, exists c, snd (until_nonzero fn past es) = past ++ c /\ incl c es.
Proof.
  induction es as [|e es IH]; intros past; cbn [until_nonzero]; cbv zeta.
  - exists []. cbn. rewrite app_nil_r. split; [reflexivity|apply incl_refl].
  - destruct (fn past e =? 0); cbn [snd].
    + destruct (IH (past ++ [e])) as (c & -> & I). exists (e :: c). rewrite <- app_assoc. split; [reflexivity|]. intros x [->|X]; [left; reflexivity|right; apply I, X].
    + exists [e]. split; [reflexivity|]. intros x [->|[]]. left. reflexivity.
Qed.
Lemma postorder_types : forall n t, (height t <= n)%nat -> forall level base p e, In e (postorder level base p t) -> e_type e <> FTW_D.
Proof.
  induction n as [|n IH]; intros [w d i kids] H level base p e I.
  all: assert (I' : In e (flat_map (fun nt : list Z * tree => postorder (level + 1) (Z.of_nat (length (dir_prefix p))) (join p (fst nt)) (snd nt)) kids) \/
     e_type e = type_of_depth w) by (destruct w; cbn [postorder] in I; [..|destruct I| | | |]; rewrite in_app_iff in I; destruct I as [I|[<-|[]]]; [left; exact I|right; reflexivity|..]; try (left; exact I); right; reflexivity).
  all: destruct I' as [I'|E]; [|rewrite E; destruct w; discriminate].
  all: apply in_flat_map in I' as ([m t] & K & I'); cbn [fst snd] in I'; cbn [height] in H; apply in_height in K.
  - lia.
  - eapply IH; [|exact I']. lia.
Qed.

Lemma nftw_walk stat lstat open entries fn fl p fd_limit t :
  0 < fd_limit -> Z.of_nat (length p) <= PATH_MAX -> holds stat lstat open entries (negb (phys fl)) p t -> marked [] t ->
  exists b k, last_component p b /\
    let r := until_nonzero fn [] ((if depth fl then postorder else preorder) 0 b p (top_levels (Z.to_nat fd_limit) (if mount fl then one_device t else t))) in
    nftw stat lstat open entries fn fl p fd_limit = (fst r, (snd r, k)) /\ (loop_free t -> k = lk fd_limit r).
Proof.
  intros F LP H M. unfold nftw. destruct (Z.leb_spec fd_limit 0); [lia|]. destruct (Z.ltb_spec PATH_MAX (Z.of_nat (length p))); [lia|].
  exists (root_base p). destruct (walk_ok stat lstat open entries fn fl fd_limit (Z.to_nat fd_limit) [] p t ([], 0) H M I) as (k & E & K).
  { cbn [lvl]. lia. }
  exists k. split; [apply root_base_ok|]. cbv zeta. cbn [lvl bas fst snd] in E, K. unfold evs, view in E, K. split; [exact E|]. intros LF. rewrite (K LF). lia.
Qed.
Lemma lk_bounds L r : 0 <= lk L r <= 1 /\ (fst r = 0 -> lk L r = 0).
Proof.
  unfold lk. destruct (Z.eqb_spec (fst r) 0); [lia|]. split; [|contradiction]. destruct (rev (snd r)) as [|e l]; [lia|]. destruct (e_type e); try lia. destruct (e_level e <? L); lia.
Qed.
Lemma lk_post L fn level base p t : lk L (until_nonzero fn [] (postorder level base p t)) = 0.
Proof.
  unfold lk. destruct (until_past fn (postorder level base p t) []) as (c & -> & I). cbn [app]. destruct (_ =? 0); [reflexivity|].
  destruct (rev c) as [|e l] eqn:E; [reflexivity|]. assert (J : In e c) by (apply in_rev; rewrite E; left; reflexivity).
  pose proof (postorder_types (height t) t (le_n _) level base p e (I e J)). destruct (e_type e); congruence || reflexivity.
Qed.

Lemma nftw_failure : forall stat lstat open entries fn fl p fd_limit e,
  0 < fd_limit -> Z.of_nat (length p) <= PATH_MAX -> e <> EACCES ->
  let look := if phys fl then lstat p else stat p in
  (look = inr e /\ lstat p = inr e -> nftw stat lstat open entries fn fl p fd_limit = (-1, ([], 0))) /\
  (forall d i, look = inl (DIR, d, i) -> open p = Some e -> exists v calls, nftw stat lstat open entries fn fl p fd_limit = (v, (calls, 0)) /\
     (if depth fl then v = -1 /\ calls = [] else exists b, calls = [{| e_path := p; e_dev := d; e_ino := i; e_type := FTW_D; e_level := 0; e_base := b |}] /\
        v = (let w := fn [] {| e_path := p; e_dev := d; e_ino := i; e_type := FTW_D; e_level := 0; e_base := b |} in if w =? 0 then -1 else w))).
Proof.
  intros stat lstat open entries fn fl p fd_limit e F LP NE look. unfold nftw. destruct (Z.leb_spec fd_limit 0); [lia|]. destruct (Z.ltb_spec PATH_MAX (Z.of_nat (length p))); [lia|].
  destruct (Z.to_nat fd_limit) as [|k] eqn:EK; [lia|]. assert (X : (e =? EACCES) = false) by lia. split.
  - intros [L1 L2]. cbn [do_nftw]. unfold classify. subst look. rewrite L1. destruct (negb (phys fl) && (e =? ENOENT)); rewrite ?L2, X; reflexivity.
  - intros d i L1 OP. cbn [do_nftw]. unfold classify. subst look. rewrite L1. rewrite andb_false_r. destruct (depth fl) eqn:D; cbn [dir_type andb negb existsb h_level]; rewrite OP, X; cbn [fst snd app Z.eqb negb dir_type].
    + do 2 eexists. split; [reflexivity|]. split; reflexivity.
    + cbn [andb fst snd app]. match goal with |- context [fn [] ?x] => destruct (fn [] x =? 0) eqn:W end; cbn [negb]; do 2 eexists; (split; [reflexivity|]); exists (root_base p); (split; [reflexivity|]); cbv zeta; rewrite W; reflexivity.
Qed.
