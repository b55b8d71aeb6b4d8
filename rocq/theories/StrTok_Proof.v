From Coq Require Import Sorted.
From Verif Require Import Base Mem_Model Mem_Proof Str_Model Str_Spec Str_Client Str_Proof StrSearch_Proof.
Open Scope Z_scope.

Lemma Forall2_weaken {A B} (P Q : A -> B -> Prop) l k : (forall a b, P a b -> Q a b) -> Forall2 P l k -> Forall2 Q l k.
Proof. intros H F. induction F; constructor; auto. Qed.


Lemma skip_loop_ok want cf s : forall fuel m p q ds, str_at m p s -> str_at m q ds ->
  (length s < fuel)%nat -> (length ds < cf)%nat ->
  exists a b, s = a ++ b /\ Forall (fun c => isd ds c = want) a /\
    (b = [] \/ exists c b', b = c :: b' /\ isd ds c = negb want) /\
    skip_loop want cf fuel m q p = Ok (p + Z.of_nat (length a)).
Proof.
  induction s as [|c s IH]; intros fuel m p q ds Hs Hq Hf Hcf; (destruct fuel as [|f]; [lia|]); cbn [skip_loop].
  - apply str_nil in Hs. unfold load. rewrite Hs. cbn [bind Z.eqb]. exists [], []. cbn [length].
    repeat split; [constructor|left; reflexivity|f_equal; lia].
  - apply str_cons in Hs as [H0 [Hc Hs]]. unfold load. rewrite H0. cbn [bind].
    replace (c =? 0) with false by lia. rewrite (in_chrs_ok cf m q ds c Hq Hcf Hc). cbn [bind].
    fold (isd ds c). destruct (Bool.eqb (isd ds c) want) eqn:E.
    + apply eqb_prop in E. destruct (IH f m (p + 1) q ds Hs Hq) as [a [b [-> [Ha [Hb Hk]]]]]; [cbn in Hf; lia|exact Hcf|].
      exists (c :: a), b. split; [reflexivity|]. split; [constructor; assumption|]. split; [exact Hb|].
      rewrite Hk. f_equal. cbn [length]. lia.
    + exists [], (c :: s). split; [reflexivity|]. split; [constructor|]. split.
      * right. exists c, s. split; [reflexivity|]. apply eqb_false_iff in E. destruct (isd ds c), want; cbn; congruence.
      * f_equal. cbn. lia.
Qed.

Lemma str_app_tail m p a b : str_at m p (a ++ b) -> str_at m (p + Z.of_nat (length a)) b.
Proof.
  intros [Hb Hf]. rewrite <- app_assoc in Hb. apply bytes_at_app in Hb as [_ Hb].
  apply Forall_app in Hf as [_ Hf]. split; assumption.
Qed.

(** cutting a string at a delimiter *)
Lemma cut_string m p a c b : str_at m p (a ++ c :: b) ->
  m (p + Z.of_nat (length a)) <> None /\
  str_at (upd m (p + Z.of_nat (length a)) 0) p a /\
  str_at (upd m (p + Z.of_nat (length a)) 0) (p + Z.of_nat (length a) + 1) b.
Proof.
  intros Hs. pose proof (str_app_tail _ _ _ _ Hs) as Ht. apply str_cons in Ht as [H0 [Hc Ht]].
  split; [congruence|]. split.
  - destruct Hs as [Hb Hf]. rewrite <- app_assoc in Hb. apply bytes_at_app in Hb as [Hb _].
    apply Forall_app in Hf as [Hf _]. split; [|exact Hf]. apply bytes_at_app. split.
    + apply upd_bytes; [exact Hb|lia].
    + apply bytes_at_cons. split; [unfold upd; rewrite Z.eqb_refl; reflexivity|]. intros i Hi; cbn in Hi; lia.
  - apply upd_str; [exact Ht|lia].
Qed.

Lemma fields_run ds a : Forall (fun c => isd ds c = false) a -> fields ds a = [a].
Proof.
  induction 1 as [|c a Hc Ha IH]; cbn [fields]; [reflexivity|].
  unfold isd in Hc. rewrite Hc, IH. reflexivity.
Qed.

Lemma fields_cut ds a c b : Forall (fun c => isd ds c = false) a -> isd ds c = true ->
  fields ds (a ++ c :: b) = a :: fields ds b.
Proof.
  intros Ha Hc. induction Ha as [|x a Hx Ha IH]; cbn [fields app].
  - unfold isd in Hc. rewrite Hc. reflexivity.
  - unfold isd in Hx. rewrite Hx, IH. reflexivity.
Qed.

Lemma fields_ne ds s : fields ds s <> [].
Proof. destruct s; cbn; [discriminate|]. destruct (existsb _ _); [discriminate|]. destruct (fields ds s); discriminate. Qed.

Lemma tokens_delims ds a b : Forall (fun c => isd ds c = true) a -> tokens ds (a ++ b) = tokens ds b.
Proof.
  induction 1 as [|x a Hx Ha IH]; cbn [app]; [reflexivity|].
  unfold tokens in *. cbn [fields]. unfold isd in Hx. rewrite Hx. cbn [filter]. exact IH.
Qed.

Lemma odc_refl m p s ds : only_delims_changed m m p s ds.
Proof. intros a Ha. congruence. Qed.

Lemma odc_step m m' p a c b ds : isd ds c = true ->
  only_delims_changed (upd m (p + Z.of_nat (length a)) 0) m' (p + Z.of_nat (length a) + 1) b ds ->
  only_delims_changed m m' p (a ++ c :: b) ds.
Proof.
  intros Hc H x Hx. destruct (Z.eq_dec x (p + Z.of_nat (length a))) as [->|Hn].
  - exists (length a), c. rewrite app_length; cbn [length]. split; [lia|]. split; [reflexivity|]. split.
    + rewrite nth_error_app2, Nat.sub_diag by lia. reflexivity.
    + apply existsb_in, Hc.
  - destruct (H x) as [i [d [Hi [Ex [Hd Hin]]]]].
    { unfold upd. replace (x =? _) with false by lia. exact Hx. }
    exists (length a + 1 + i)%nat, d. rewrite app_length; cbn [length]. split; [lia|]. split; [lia|]. split; [|exact Hin].
    rewrite nth_error_app2 by lia. replace (length a + 1 + i - length a)%nat with (S i) by lia. exact Hd.
Qed.

Lemma odc_str m m' p b ds q s : only_delims_changed m m' p b ds -> str_at m q s ->
  disjoint p (length b) q (length s + 1) -> str_at m' q s.
Proof.
  intros H [Hb Hf] Hd. split; [|exact Hf]. intros i Hi. rewrite <- (Hb i Hi).
  assert (HE : forall x y : option Z, ~ x <> y -> x = y).
  { intros x y Hxy. destruct x as [x|], y as [y|]; try reflexivity; try (exfalso; apply Hxy; discriminate).
    destruct (Z.eq_dec x y) as [->|Hn]; [reflexivity|]. exfalso. apply Hxy. congruence. }
  apply HE. intros Hx. apply H in Hx as [j [d [Hj [Ex _]]]]. rewrite app_length in Hi. cbn in Hi.
  unfold disjoint in Hd. lia.
Qed.

Lemma strsep_step fuel m p q s ds : str_at m p s -> str_at m q ds -> disjoint p (length s + 1) q (length ds + 1) ->
  (length s < fuel)%nat -> (length ds < fuel)%nat ->
  (Forall (fun c => isd ds c = false) s /\ strsep fuel m (Some p) q = Ok (m, None, Some p)) \/
  (exists a c b, s = a ++ c :: b /\ Forall (fun c => isd ds c = false) a /\ isd ds c = true /\
     strsep fuel m (Some p) q =
       Ok (upd m (p + Z.of_nat (length a)) 0, Some (p + Z.of_nat (length a) + 1), Some p)).
Proof.
  intros Hs Hq Hd Hf Hcf. cbn [strsep].
  destruct (skip_loop_ok false fuel s fuel m p q ds Hs Hq Hf Hcf) as [a [b [-> [Ha [Hb Hk]]]]].
  rewrite Hk. cbn [bind]. destruct Hb as [->|[c [b' [-> Hc]]]].
  - left. rewrite app_nil_r in *. split; [exact Ha|].
    rewrite (str_load _ _ _ (length a) Hs) by lia. rewrite str_end. reflexivity.
  - right. exists a, c, b'. split; [reflexivity|]. split; [exact Ha|]. split; [exact Hc|].
    pose proof (str_app_tail _ _ _ _ Hs) as Ht. apply str_cons in Ht as [H0 [Hcr _]].
    unfold load, store. rewrite H0. cbn [bind]. replace (c =? 0) with false by lia. reflexivity.
Qed.

Lemma in_place_cut p a c b t f : in_place (p + Z.of_nat (length a) + 1) b t f -> in_place p (a ++ c :: b) t f.
Proof.
  intros [pre [post [-> ->]]]. exists (a ++ c :: pre), post. split.
  - rewrite <- app_assoc. reflexivity.
  - rewrite app_length. cbn [length]. lia.
Qed.

Lemma in_place_ge p s t f : in_place p s t f -> p <= t.
Proof. intros [pre [post [_ ->]]]. lia. Qed.

Lemma strsep_all_ok n : forall calls fuel m p q s ds, (length s <= n)%nat ->
  str_at m p s -> str_at m q ds -> disjoint p (length s + 1) q (length ds + 1) ->
  (length s < fuel)%nat -> (length ds < fuel)%nat -> (length (fields ds s) < calls)%nat ->
  exists m' ts, strsep_all calls fuel m (Some p) q = Ok (m', None, ts) /\
    Forall2 (fun t f => str_at m' t f /\ in_place p s t f) ts (fields ds s) /\
    StronglySorted Z.lt ts /\ only_delims_changed m m' p s ds.
Proof.
  induction n as [|n IH]; intros calls fuel m p q s ds Hn Hs Hq Hd Hf Hcf Hcalls;
    (destruct calls as [|calls]; [lia|]); cbn [strsep_all];
    (destruct (strsep_step fuel m p q s ds Hs Hq Hd Hf Hcf) as [[Ha E]|[a [c [b [-> [Ha [Hc E]]]]]]]; rewrite E; cbn [bind]).
  1,3: (rewrite (fields_run ds s Ha) in *; cbn in Hcalls; destruct calls as [|calls]; [lia|]; cbn;
        exists m, [p]; split; [reflexivity|]; split; [|split; [repeat constructor|apply odc_refl]];
        constructor; [|constructor]; split; [exact Hs|]; exists [], []; rewrite app_nil_r; split; [reflexivity|cbn; lia]).
  - rewrite app_length in Hn; cbn in Hn; lia.
  - rewrite (fields_cut ds a c b Ha Hc) in *. cbn [length] in Hcalls.
    rewrite app_length in *. cbn [length] in *.
    destruct (cut_string m p a c b Hs) as [_ [HA HB]].
    destruct (IH calls fuel (upd m (p + Z.of_nat (length a)) 0) (p + Z.of_nat (length a) + 1) q b ds) as [m' [ts [E' [F [S O]]]]].
    + lia.
    + exact HB.
    + apply upd_str; [exact Hq|]. unfold disjoint in Hd; lia.
    + unfold disjoint in *; lia.
    + lia.
    + exact Hcf.
    + lia.
    + rewrite E'. cbn [bind]. exists m', (p :: ts). split; [reflexivity|]. split; [|split].
      * constructor.
        -- split; [|exists [], (c :: b); split; [reflexivity|cbn; lia]].
           eapply odc_str; [exact O|exact HA|]. unfold disjoint; lia.
        -- eapply Forall2_weaken; [|exact F]. cbn. intros t f [H1 H2]. split; [exact H1|]. apply in_place_cut, H2.
      * constructor; [exact S|]. clear - F. revert F. generalize (fields ds b). intros fs F.
        induction F as [|t f ts fs [_ H] F IHF]; constructor; [|exact IHF].
        apply in_place_ge in H. lia.
      * apply odc_step; assumption.
Qed.

Lemma strtok_step fuel m p q s ds : str_at m p s -> str_at m q ds -> disjoint p (length s + 1) q (length ds + 1) ->
  (length s < fuel)%nat -> (length ds < fuel)%nat ->
  exists d a, Forall (fun c => isd ds c = true) d /\ Forall (fun c => isd ds c = false) a /\
  ((s = d ++ a /\ forall st sv, (match st with Some x => Some x | None => sv end) = Some p ->
      strtok_r fuel m st q sv =
      Ok (m, None, match a with [] => None | _ => Some (p + Z.of_nat (length d)) end)) \/
  (exists c b, s = d ++ a ++ c :: b /\ a <> [] /\ isd ds c = true /\
     forall st sv, (match st with Some x => Some x | None => sv end) = Some p ->
     strtok_r fuel m st q sv =
       Ok (upd m (p + Z.of_nat (length d) + Z.of_nat (length a)) 0,
           Some (p + Z.of_nat (length d) + Z.of_nat (length a) + 1), Some (p + Z.of_nat (length d))))).
Proof.
  intros Hs Hq Hd Hf Hcf.
  destruct (skip_loop_ok true fuel s fuel m p q ds Hs Hq Hf Hcf) as [d [r [-> [Hda [Hr Hk]]]]].
  pose proof (str_app_tail _ _ _ _ Hs) as Hr'. rewrite app_length in Hf.
  destruct (skip_loop_ok false fuel r fuel m (p + Z.of_nat (length d)) q ds Hr' Hq) as [a [b [-> [Ha [Hb Hk2]]]]]; [lia|exact Hcf|].
  exists d, a. split; [exact Hda|]. split; [exact Ha|]. destruct Hb as [->|[c [b' [-> Hc]]]].
  - left. rewrite app_nil_r in *. split; [reflexivity|]. intros st sv Hst. unfold strtok_r. rewrite Hst, Hk. cbn [bind].
    rewrite Hk2. cbn [bind]. rewrite (str_load _ _ _ (length a) Hr') by lia. rewrite str_end. cbn [bind Z.eqb].
    repeat f_equal. destruct a; [cbn; replace (_ =? _) with true by lia; reflexivity|].
    cbn [length]. replace (_ =? _) with false by lia. reflexivity.
  - right. exists c, b'. split; [reflexivity|]. split.
    { intros ->. cbn [app] in Hr. destruct Hr as [Hr|[x [y [Hr Hx]]]]; [discriminate|]. cbn in *. congruence. }
    split; [exact Hc|]. intros st sv Hst. unfold strtok_r. rewrite Hst, Hk. cbn [bind].
    rewrite Hk2. cbn [bind]. pose proof (str_app_tail _ _ _ _ Hr') as Ht. apply str_cons in Ht as [H0 [Hcr _]].
    unfold load, store. rewrite H0. cbn [bind]. replace (c =? 0) with false by lia. cbn [bind].
    assert (Hne : a <> []).
    { intros ->. cbn [app] in Hr. destruct Hr as [Hr|[x [y [Hr Hx]]]]; [discriminate|]. cbn in *. congruence. }
    destruct a; [congruence|]. cbn [length]. replace (_ =? _) with false by lia. reflexivity.
Qed.

Lemma tokens_run ds a : Forall (fun c => isd ds c = false) a ->
  tokens ds a = match a with [] => [] | _ => [a] end.
Proof. intros H. unfold tokens. rewrite (fields_run ds a H). destruct a; reflexivity. Qed.

Lemma tokens_cut ds a c b : Forall (fun c => isd ds c = false) a -> a <> [] -> isd ds c = true ->
  tokens ds (a ++ c :: b) = a :: tokens ds b.
Proof. intros H Hne Hc. unfold tokens. rewrite (fields_cut ds a c b H Hc). destruct a; [congruence|reflexivity]. Qed.

Lemma str_app_head m p a c b : str_at m p (a ++ c :: b) -> 
  str_at (upd m (p + Z.of_nat (length a)) 0) p a.
Proof. intros H. apply (cut_string _ _ _ _ _ H). Qed.

Lemma strtok_none_stable fuel m q : strtok_r fuel m None q None = Ok (m, None, None).
Proof. reflexivity. Qed.

Lemma strtok_all_ok n : forall calls fuel m p q s ds st sv, (length s <= n)%nat ->
  (match st with Some x => Some x | None => sv end) = Some p ->
  str_at m p s -> str_at m q ds -> disjoint p (length s + 1) q (length ds + 1) ->
  (length s < fuel)%nat -> (length ds < fuel)%nat -> (length (tokens ds s) < calls)%nat ->
  exists m' ts, strtok_all calls fuel m st q sv = Ok (m', None, ts) /\
    Forall2 (fun t f => str_at m' t f /\ in_place p s t f) ts (tokens ds s) /\
    StronglySorted Z.lt ts /\ only_delims_changed m m' p s ds.
Proof.
  induction n as [|n IH]; intros calls fuel m p q s ds st sv Hn Hst Hs Hq Hd Hf Hcf Hcalls;
    (destruct calls as [|calls]; [lia|]); cbn [strtok_all];
    (destruct (strtok_step fuel m p q s ds Hs Hq Hd Hf Hcf) as [d [a [Hda [Ha [[-> E]|[c [b [-> [Hne [Hc E]]]]]]]]]]);
    rewrite (E st sv Hst); cbn [bind].
  1,3: (rewrite (tokens_delims ds d a Hda), (tokens_run ds a Ha) in *; destruct a as [|c a];
     [ exists m, []; split; [reflexivity|]; split; [constructor|]; split; [constructor|apply odc_refl]
     | cbn in Hcalls; destruct calls as [|calls]; [lia|]; cbn [strtok_all bind]; rewrite strtok_none_stable; cbn [bind];
       exists m, [p + Z.of_nat (length d)]; split; [reflexivity|]; split; [|split; [repeat constructor|apply odc_refl]];
       constructor; [|constructor]; split; [apply (str_app_tail _ _ _ _ Hs)|]; exists d, []; rewrite app_nil_r; split; reflexivity]).
  - rewrite !app_length in Hn; cbn in Hn; lia.
  - rewrite (tokens_delims ds d _ Hda), (tokens_cut ds a c b Ha Hne Hc) in *. cbn [length] in Hcalls.
    rewrite !app_length in *. cbn [length] in *.
    destruct (cut_string m (p + Z.of_nat (length d)) a c b (str_app_tail _ _ _ _ Hs)) as [_ [HA HB]].
    set (p' := p + Z.of_nat (length d)) in *.
    destruct (IH calls fuel (upd m (p' + Z.of_nat (length a)) 0) (p' + Z.of_nat (length a) + 1) q b ds None
                 (Some (p' + Z.of_nat (length a) + 1))) as [m' [ts [E' [F [S O]]]]].
    + lia.
    + reflexivity.
    + exact HB.
    + apply upd_str; [exact Hq|]. unfold disjoint in Hd; lia.
    + unfold disjoint in *; lia.
    + lia.
    + exact Hcf.
    + lia.
    + rewrite E'. cbn [bind]. exists m', (p' :: ts). split; [reflexivity|].
      assert (EL : p + Z.of_nat (length (d ++ a)) = p' + Z.of_nat (length a)) by (rewrite app_length; lia).
      split; [|split].
      * constructor.
        -- split; [|exists d, (c :: b); split; reflexivity].
           eapply odc_str; [exact O|exact HA|]. unfold disjoint; lia.
        -- eapply Forall2_weaken; [|exact F]. cbn. intros t f [H1 H2]. split; [exact H1|].
           rewrite app_assoc. apply in_place_cut. rewrite EL. exact H2.
      * constructor; [exact S|]. clear - F. revert F. generalize (tokens ds b). intros fs F.
        induction F as [|t f ts fs [_ H] F IHF]; constructor; [|exact IHF].
        apply in_place_ge in H. lia.
      * rewrite app_assoc. apply odc_step; [assumption|]. rewrite EL. exact O.
Qed.
