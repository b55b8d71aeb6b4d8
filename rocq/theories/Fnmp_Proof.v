(** fnmatch as a whole: components between slashes, and the two flags about them. *)
From Verif Require Import Base Mem_Proof Utf8_Model Utf8_Spec Utf8_Proof Utf8Conv_Proof Fnm_Model Fnm_Spec Fnm_Proof Fnmb_Proof Fnmm_Proof.
Open Scope Z_scope.

Local Notation len l := (Z.of_nat (length l)).

(** ** Splitting *)
Lemma split_none : forall (A : Type) (sep : A -> bool) l, Forall (fun x => sep x = false) l -> split sep l = [l].
Proof.
  intros A sep. induction l as [|x l IH]; intros H; [reflexivity|]. inversion H; subst. cbn. rewrite H2, IH by assumption. reflexivity.
Qed.

Lemma split_at : forall (A : Type) (sep : A -> bool) u x r, Forall (fun x => sep x = false) u -> sep x = true ->
  split sep (u ++ x :: r) = u :: split sep r.
Proof.
  intros A sep. induction u as [|y u IH]; intros x r H X; cbn.
  - rewrite X. reflexivity.
  - inversion H; subst. rewrite H2, IH by assumption. reflexivity.
Qed.

Lemma cut_at : forall (A : Type) (sep : A -> bool) l, Forall (fun x => sep x = false) l \/
  exists u x r, l = u ++ x :: r /\ Forall (fun x => sep x = false) u /\ sep x = true.
Proof.
  intros A sep. induction l as [|x l IH]; [left; constructor|]. destruct (sep x) eqn:E.
  - right. exists [], x, l. repeat split; auto.
  - destruct IH as [IH|(u & y & r & -> & H1 & H2)]; [left; constructor; assumption|].
    right. exists (x :: u), y, r. repeat split; auto.
Qed.

Lemma split_nil : forall (A : Type) (sep : A -> bool) l, split sep l <> [].
Proof. intros A sep [|x l]; cbn; [discriminate|]. destruct (sep x); [discriminate|]. destruct (split sep l); discriminate. Qed.

Section Paths.
Context (f : flags) (lc : locale) (m : mem).
Hypothesis LC : ok_locale lc.

(** with FNM_PATHNAME, in terms of the components *)
Definition pm (A : list (list elem)) (W : list (list Z)) : Prop :=
  exists n, Forall2 (matches1 f lc) A (firstn n W) /\ (f_lead f = false -> length W <= n)%nat.

Lemma pm_one : forall a u W, pm [a] (u :: W) <-> matches1 f lc a u /\ (W <> [] -> f_lead f = true).
Proof.
  intros a u W. split.
  - intros (n & H & L). destruct n as [|n]; cbn in H; [inversion H|]. inversion H as [|? ? ? ? H1 H2]; subst. split; [exact H1|].
    intros N. destruct (f_lead f); [reflexivity|]. exfalso. specialize (L eq_refl).
    destruct W as [|x W]; [congruence|]. cbn in L. destruct n; [lia|]. cbn in H2. inversion H2.
  - intros [H1 H2]. exists 1%nat. cbn. split; [constructor; [exact H1|constructor]|]. intros L.
    destruct W; [cbn; lia|]. rewrite H2 in L by discriminate. discriminate.
Qed.

Lemma pm_short : forall a A u, A <> [] -> ~ pm (a :: A) [u].
Proof.
  intros a A u N (n & H & _). destruct n as [|n]; cbn in H; [inversion H|]. rewrite firstn_nil in H.
  inversion H as [|? ? ? ? H1 H2]; subst. inversion H2. congruence.
Qed.

Lemma pm_cons : forall a A u W, pm (a :: A) (u :: W) <-> matches1 f lc a u /\ pm A W.
Proof.
  intros a A u W. split.
  - intros (n & H & L). destruct n as [|n]; cbn in H; [inversion H|]. inversion H; subst. split; [assumption|].
    exists n. split; [assumption|]. intros X. specialize (L X). cbn in L. lia.
  - intros [H1 (n & H & L)]. exists (S n). cbn. split; [constructor; assumption|]. intros X. specialize (L X). lia.
Qed.

(** ** The loops over the components *)
Lemma txt_plain : forall u, Forall char u -> Forall (fun k => (47 =? k) = false) u -> Forall (fun b => b <> 0 /\ b <> 47) (txt u).
Proof.
  induction u as [|k u IH]; intros H N; [constructor|]. inversion H; subst. inversion N; subst. rewrite txt_cons.
  apply Forall_app. split; [|auto]. pose proof (char_pos _ H2). destruct (Z.ltb_spec k 128).
  - rewrite utf8_ascii by assumption. repeat constructor; lia.
  - eapply Forall_impl; [|exact (utf8_high _ H2 ltac:(lia))]. cbn. lia.
Qed.

Lemma find_slash_spec : forall l fuel s b r, Forall (fun b => b <> 0 /\ b <> 47) l -> bytes_at m s (l ++ b :: r) ->
  b = 0 \/ b = 47 -> (length l < fuel)%nat -> find_slash fuel m s = Ok (s + len l).
Proof.
  induction l as [|c l IH]; intros fuel s b r F B E G; (destruct fuel as [|g]; [cbn in G; lia|]); cbn [find_slash app length] in *;
    apply bytes_at_cons in B as [B1 B2]; rewrite (load_some _ _ _ B1); cbn [bind].
  - replace ((b =? 0) || (b =? 47)) with true by lia. f_equal. lia.
  - inversion F; subst. replace ((c =? 0) || (c =? 47)) with false by lia.
    rewrite (IH g (s + 1) b r); auto; try lia. f_equal. lia.
Qed.

Lemma reg_z : forall p l, bytes_at m p (l ++ [0]) -> len l < 2 ^ 63 -> reg m p (usz (-1)) l.
Proof.
  intros p l B L. apply bytes_at_app in B as [B1 B2]. apply bytes_at_cons in B2 as [B2 _].
  change (usz (-1)) with (2 ^ 64 - 1). split; [exact B1|]. split; [lia|]. exists 0. split; [exact B2|]. right. split; [reflexivity|lia].
Qed.

Lemma code_slash : forall e, ok_elem f e -> (code e =? END) || (code e =? 47) = slash e.
Proof.
  intros [c|c| | |neg l] H; cbn [code slash]; try reflexivity.
  - destruct H as [H _]. apply char_pos in H. unfold END. lia.
  - destruct H as [H _]. apply char_pos in H. unfold END. lia.
Qed.

Lemma pat_slash_end : forall ps fuel p, Forall (ok_elem f) ps -> Forall (fun e => slash e = false) ps ->
  bytes_at m p (show ps ++ [0]) -> len (show ps) < 2 ^ 63 -> (length (show ps) < fuel)%nat ->
  pat_slash fuel f m p = Ok (p + len (show ps), END, 0).
Proof.
  induction ps as [|e ps IH]; intros fuel p OK NS B L G; (destruct fuel as [|g]; [cbn in G; lia|]); remember g as g1 eqn:EG; cbn [pat_slash];
    pose proof (reg_z _ _ B L) as R.
  - rewrite (pat_end f m _ _ _ R). cbn [bind]. cbn. f_equal. f_equal. f_equal. lia.
  - inversion OK; subst. inversion NS; subst. pose proof (show_pos _ _ H1).
    rewrite (show_cons e ps), app_length in G.
    rewrite (pat_step f m _ _ _ _ _ H1 R) by lia. cbn [bind]. rewrite code_slash, H3 by assumption.
    rewrite (show_cons e ps) in *. rewrite app_length in *. rewrite <- app_assoc in B. apply bytes_at_app in B as [_ B].
    rewrite IH; auto; try lia. f_equal. f_equal. f_equal. lia.
Qed.

Lemma pat_slash_at : forall a fuel p e ps, Forall (ok_elem f) (a ++ e :: ps) -> Forall (fun e => slash e = false) a ->
  slash e = true -> bytes_at m p (show (a ++ e :: ps) ++ [0]) -> len (show (a ++ e :: ps)) < 2 ^ 63 ->
  (length (show (a ++ e :: ps)) < fuel)%nat ->
  pat_slash fuel f m p = Ok (p + len (show a), 47, len (show_elem e)).
Proof.
  induction a as [|x a IH]; intros fuel p e ps OK NS SE B L G; (destruct fuel as [|g]; [lia|]); remember g as g1 eqn:EG; cbn [pat_slash];
    pose proof (reg_z _ _ B L) as R; cbn [app] in *; inversion OK; subst; pose proof (show_pos _ _ H1); rewrite show_cons, app_length in G.
  - rewrite (pat_step f m _ _ _ _ _ H1 R) by lia. cbn [bind]. rewrite code_slash, SE by assumption.
    assert (code e = 47) as -> by (destruct e; cbn in *; try discriminate; lia). f_equal. f_equal. f_equal. cbn. lia.
  - inversion NS; subst. rewrite (pat_step f m _ _ _ _ _ H1 R) by lia. cbn [bind]. rewrite code_slash, H4 by assumption.
    rewrite (show_cons x) in *. rewrite !app_length in *. rewrite <- app_assoc in B. apply bytes_at_app in B as [_ B].
    rewrite (IH g _ e ps); auto; try lia. f_equal. f_equal. f_equal. lia.
Qed.

(** the byte after a component of the pattern is not a period *)
Lemma slash_first : forall e, slash e = true -> show_elem e = [47] \/ show_elem e = [92; 47].
Proof.
  intros [c|c| | |neg l] H; cbn in H; try discriminate; apply Z.eqb_eq in H; subst; [left|right]; reflexivity.
Qed.

Lemma path_spec : forall fuel ps w p s, Forall (ok_elem f) ps -> Forall char w ->
  (f_period f = true -> Forall (fun c => hd_error c <> Some (Esc 46)) (split slash ps)) ->
  bytes_at m p (show ps ++ [0]) -> bytes_at m s (txt w ++ [0]) ->
  len (show ps) + len (txt w) < 2 ^ 63 -> (length (show ps) + length (txt w) < fuel)%nat ->
  exists x, path fuel f lc m p s = Ok x /\ (x = 0 \/ x = 1) /\ (x = 0 <-> pm (split slash ps) (split (Z.eqb 47) w)).
Proof.
  assert (NOM : forall P : Prop, ~ P -> exists x, Ok NOMATCH = Ok x /\ (x = 0 \/ x = 1) /\ (x = 0 <-> P)).
  { intros P N. exists NOMATCH. split; [reflexivity|]. split; [right; reflexivity|]. split; [discriminate|]. intros X. contradiction. }
  induction fuel as [|g IH]; intros ps w p s OK CW PE BP BS L G; [lia|]. remember g as g1 eqn:EG. cbn [path].
  (* the component of the string *)
  assert (exists u b W, split (Z.eqb 47) w = u :: W /\ find_slash (S g1) m s = Ok (s + len (txt u)) /\ Forall char u /\
    m (s + len (txt u)) = Some b /\ bytes_at m s (txt u) /\ (length (txt u) <= length (txt w))%nat /\
    ((b = 0 /\ W = []) \/ (b = 47 /\ exists w', W = split (Z.eqb 47) w' /\ Forall char w' /\
      (length (txt w') < length (txt w))%nat /\ bytes_at m (s + len (txt u) + 1) (txt w' ++ [0])))) as
    (u & b & W & SW & FS & CU & MB & BU & LU & CASE).
  { destruct (cut_at _ (Z.eqb 47) w) as [N|(u & x & w' & -> & N & X)].
    - exists w, 0, []. rewrite split_none by assumption. split; [reflexivity|].
      split; [apply (find_slash_spec _ _ _ 0 []); auto; [apply txt_plain; assumption|lia]|].
      apply bytes_at_app in BS as [B1 B2]. apply bytes_at_cons in B2 as [B2 _]. conj; auto.
    - apply Z.eqb_eq in X. subst x. apply Forall_app in CW as [CU CW]. inversion CW; subst.
      exists u, 47, (split (Z.eqb 47) w'). rewrite split_at by (try assumption; reflexivity). split; [reflexivity|].
      rewrite txt_app, txt_cons in BS, G, L |- *. rewrite (utf8_ascii 47) in * by lia. rewrite !app_length in *. cbn [length app] in *.
      rewrite <- app_assoc in BS. cbn [app] in BS.
      split; [apply (find_slash_spec _ _ _ 47 (txt w' ++ [0])); auto; [apply txt_plain; assumption|lia]|].
      apply bytes_at_app in BS as [B1 B2]. apply bytes_at_cons in B2 as [B2 B3]. conj; auto; [lia|].
      right. split; [reflexivity|]. exists w'. conj; auto. lia. }
  rewrite FS. cbn [bind].
  (* the component of the pattern *)
  assert (exists a c inc A, split slash ps = a :: A /\ pat_slash (S g1) f m p = Ok (p + len (show a), c, inc) /\
    Forall (ok_elem f) a /\ bytes_at m p (show a) /\ m (p + len (show a)) <> None /\ m (p + len (show a)) <> Some 46 /\
    (length (show a) <= length (show ps))%nat /\
    ((c = END /\ A = []) \/ (c = 47 /\ exists ps', A = split slash ps' /\ Forall (ok_elem f) ps' /\
      (length (show ps') < length (show ps))%nat /\ bytes_at m (p + len (show a) + inc) (show ps' ++ [0])))) as
    (a & c & inc & A & SA & PS & OA & BA & MA & MP & LA & PCASE).
  { destruct (cut_at _ slash ps) as [N|(a & e & ps' & -> & N & X)].
    - exists ps, END, 0, []. rewrite split_none by assumption. split; [reflexivity|].
      split; [apply pat_slash_end; auto; lia|].
      apply bytes_at_app in BP as [B1 B2]. apply bytes_at_cons in B2 as [B2 _]. rewrite B2. conj; auto; discriminate.
    - exists a, 47, (len (show_elem e)), (split slash ps'). rewrite split_at by assumption. split; [reflexivity|].
      split; [apply (pat_slash_at a _ p e ps'); auto; lia|].
      apply Forall_app in OK as [OA OP]. inversion OP; subst.
      rewrite show_app, show_cons in BP, G, L |- *. rewrite !app_length in *. rewrite <- !app_assoc in BP.
      apply bytes_at_app in BP as [B1 B2].
      assert (exists y, m (p + len (show a)) = Some y /\ y <> 46) as (y & Y1 & Y2).
      { destruct (slash_first _ X) as [E|E]; rewrite E in B2; cbn [app] in B2; apply bytes_at_cons in B2 as [B2 _]; eexists; (split; [exact B2|lia]). }
      rewrite Y1. apply bytes_at_app in B2 as [_ B2].
      assert (0 < length (show_elem e))%nat by (destruct (slash_first _ X) as [-> | ->]; cbn; lia).
      conj; auto; try discriminate; try congruence; try lia. right. split; [reflexivity|]. exists ps'. conj; auto. lia. }
  rewrite PS. cbn [bind]. rewrite (load_some _ _ _ MB). cbn [bind]. rewrite SA, SW.
  assert (PEA : f_period f = true -> hd_error a <> Some (Esc 46)).
  { intros H. specialize (PE H). rewrite SA in PE. inversion PE; assumption. }
  assert (RA : reg m p (usz (p + len (show a) - p)) (show a)).
  { unfold usz. rewrite Z.mod_small by lia. replace (p + len (show a) - p) with (len (show a)) by lia.
    split; [exact BA|]. split; [lia|]. destruct (m (p + len (show a))) as [y|]; [|congruence]. eauto. }
  assert (RU : reg m s (usz (s + len (txt u) - s)) (txt u)).
  { unfold usz. rewrite Z.mod_small by lia. replace (s + len (txt u) - s) with (len (txt u)) by lia.
    split; [exact BU|]. split; [lia|]. eauto. }
  destruct (internal_spec f lc m LC (S g1) p _ s _ a u OA CU RA RU MP) as (x & X1 & X2 & X3); auto; try lia.
  { rewrite MB. destruct CASE as [[-> _]|[-> _]]; discriminate. }
  assert (STEP : forall R : Prop, (x = 0 -> exists y, (if c =? 0 then Ok 0 else path g1 f lc m (p + len (show a) + inc) (s + len (txt u) + 1)) = Ok y /\
      (y = 0 \/ y = 1) /\ (y = 0 <-> R)) -> (R -> matches1 f lc a u) ->
    exists y, (r <- internal (S g1) f lc m p (usz (p + len (show a) - p)) s (usz (s + len (txt u) - s)) ;;
      if negb (r =? 0) then Ok NOMATCH else if c =? 0 then Ok 0 else path g1 f lc m (p + len (show a) + inc) (s + len (txt u) + 1)) = Ok y /\
      (y = 0 \/ y = 1) /\ (y = 0 <-> R)).
  { intros R H1 H2. rewrite X1. cbn [bind]. destruct (Z.eqb_spec x 0) as [E|E]; cbn [negb].
    - exact (H1 E).
    - apply NOM. intros HR. apply E, X3, H2, HR. }
  destruct PCASE as [[-> ->]|(-> & ps' & -> & OK' & LP & BP')].
  - (* the last component of the pattern *)
    destruct CASE as [[-> ->]|(-> & w' & -> & CW' & LW & BW')].
    + change (END =? 0) with true. cbn [negb andb]. apply STEP.
      * intros E. exists 0. split; [reflexivity|]. split; [auto|]. split; [|reflexivity]. intros _. apply pm_one. split; [apply X3, E|congruence].
      * intros H. apply pm_one in H. tauto.
    + change (END =? 47) with false. change (47 =? 0) with false. cbn [negb andb orb]. destruct (f_lead f) eqn:FL; cbn [negb].
      * apply STEP.
        -- intros E. exists 0. split; [reflexivity|]. split; [auto|]. split; [|reflexivity]. intros _. apply pm_one. split; [apply X3, E|auto].
        -- intros H. apply pm_one in H. tauto.
      * apply NOM. intros H. apply pm_one in H as [_ H]. specialize (H (split_nil _ _ _)). congruence.
  - destruct CASE as [[-> ->]|(-> & w' & -> & CW' & LW & BW')].
    + change (47 =? 0) with false. change (0 =? 0) with true. cbn [negb andb orb]. apply NOM. apply pm_short. apply split_nil.
    + change (47 =? 47) with true. cbn [negb andb]. change (47 =? 0) with false in STEP |- *. apply STEP.
      * intros E. destruct (IH ps' w' (p + len (show a) + inc) (s + len (txt u) + 1)) as (y & Y1 & Y2 & Y3); auto; try lia.
        { intros H. specialize (PE H). rewrite SA in PE. inversion PE; assumption. }
        exists y. split; [exact Y1|]. split; [exact Y2|]. rewrite Y3. rewrite pm_cons. apply X3 in E. tauto.
      * intros H. apply pm_cons in H. tauto.
Qed.

(** ** FNM_LEADING_DIR without FNM_PATHNAME *)
Lemma leading_run : forall l g p s q r, Forall (fun b => b <> 0 /\ b <> 47) l -> bytes_at m q (l ++ r) ->
  leading (length l + g) f lc m p s q = leading g f lc m p s (q + len l).
Proof.
  induction l as [|c l IH]; intros g p s q r F B; cbn [length Nat.add app] in *.
  - rewrite Z.add_0_r. reflexivity.
  - inversion F; subst. apply bytes_at_cons in B as [B1 B2]. cbn [leading]. rewrite (load_some _ _ _ B1). cbn [bind].
    destruct (Z.eqb_spec c 0); [lia|]. destruct (Z.eqb_spec c 47); [lia|]. rewrite (IH g p s (q + 1) r) by assumption. f_equal. lia.
Qed.

Lemma leading_spec : forall ps p s, Forall (ok_elem f) ps -> (f_period f = true -> hd_error ps <> Some (Esc 46)) ->
  bytes_at m p (show ps ++ [0]) ->
  forall v u fuel, Forall char (u ++ v) -> bytes_at m s (txt (u ++ v) ++ [0]) ->
  len (show ps) + len (txt (u ++ v)) < 2 ^ 63 ->
  (length (show ps) + length (txt (u ++ v)) + length (txt v) < fuel)%nat ->
  exists x, leading fuel f lc m p s (s + len (txt u)) = Ok x /\ (x = 0 \/ x = 1) /\
    (x = 0 <-> matches1 f lc ps (u ++ v) \/ exists v1 v2, v = v1 ++ 47 :: v2 /\ matches1 f lc ps (u ++ v1)).
Proof.
  intros ps p s OK PE BP.
  assert (EP : m (p + len (show ps)) <> Some 46).
  { apply bytes_at_app in BP as [_ B]. apply bytes_at_cons in B as [B _]. rewrite B. discriminate. }
  induction v as [|k v IH]; intros u fuel CW BS L G.
  - rewrite app_nil_r in *. destruct fuel as [|g]; [lia|]. remember g as g1 eqn:EG. cbn [leading].
    pose proof BS as B. apply bytes_at_app in B as [_ B]. apply bytes_at_cons in B as [B _].
    rewrite (load_some _ _ _ B). cbn [bind Z.eqb].
    destruct (internal_spec f lc m LC (S g1) p (usz (-1)) s (usz (-1)) ps u OK CW) as (x & X1 & X2 & X3); auto; try lia.
    { apply reg_z; [assumption|lia]. } { apply reg_z; [assumption|lia]. } { rewrite B. discriminate. }
    exists x. split; [exact X1|]. split; [exact X2|]. rewrite X3. split; [auto|]. intros [H|(v1 & v2 & E & _)]; [exact H|destruct v1; discriminate].
  - pose proof CW as CW0. apply Forall_app in CW0 as [CU CV]. inversion CV; subst.
    replace (u ++ k :: v) with ((u ++ [k]) ++ v) in * by (rewrite <- app_assoc; reflexivity).
    rewrite (txt_cons k v), app_length in G. pose proof (utf8_len k) as UL. pose proof (char_pos _ H1) as KP.
    assert (SH : s + len (txt u) + len (utf8 k) = s + len (txt (u ++ [k]))).
    { rewrite txt_app, app_length. cbn [txt map concat]. rewrite app_nil_r. lia. }
    assert (BK : exists t, bytes_at m (s + len (txt u)) (utf8 k ++ t)).
    { rewrite txt_app, txt_app in BS. cbn [txt map concat] in BS. rewrite app_nil_r in BS. rewrite <- !app_assoc in BS.
      apply bytes_at_app in BS as [_ BS]. eexists. exact BS. }
    destruct BK as [t BK].
    destruct (Z.eq_dec k 47) as [->|NK].
    + destruct fuel as [|g]; [lia|]. rewrite (utf8_ascii 47) in * by lia. cbn [length app] in *.
      remember g as g1 eqn:EG. cbn [leading]. pose proof BK as B. apply bytes_at_cons in B as [B _].
      rewrite (load_some _ _ _ B). cbn [bind Z.eqb Pos.eqb].
      assert (LTU : (length (txt u) <= length (txt ((u ++ [47%Z]) ++ v)))%nat).
      { rewrite txt_app, txt_app, !app_length. lia. }
      assert (RU : reg m s (usz (s + len (txt u) - s)) (txt u)).
      { unfold usz. rewrite Z.mod_small by lia. replace (s + len (txt u) - s) with (len (txt u)) by lia.
        split; [|split; [lia|eauto]]. rewrite txt_app, txt_app in BS. rewrite <- !app_assoc in BS. apply bytes_at_app in BS. tauto. }
      destruct (internal_spec f lc m LC (S g1) p (usz (-1)) s (usz (s + len (txt u) - s)) ps u OK CU) as (x & X1 & X2 & X3); auto; try lia.
      { apply reg_z; [assumption|lia]. } { rewrite B. discriminate. }
      rewrite X1. cbn [bind]. destruct (Z.eqb_spec x 0) as [E|E].
      * exists 0. split; [reflexivity|]. split; [auto|]. split; [|reflexivity]. intros _. right. exists [], v.
        rewrite app_nil_r. split; [reflexivity|apply X3, E].
      * replace (s + len (txt u) + 1) with (s + len (txt (u ++ [47]))) by lia.
        destruct (IH (u ++ [47]) g1 CW BS L ltac:(lia)) as (y & Y1 & Y2 & Y3).
        exists y. split; [exact Y1|]. split; [exact Y2|]. rewrite Y3. split.
        -- intros [H|(v1 & v2 & -> & H)]; [auto|]. right. exists (47 :: v1), v2. rewrite <- app_assoc in H. auto.
        -- intros [H|(v1 & v2 & Ev & H)]; [auto|]. right. destruct v1 as [|z v1].
           ++ rewrite app_nil_r in H. exfalso. apply E, X3, H.
           ++ cbn in Ev. injection Ev as <- ->. exists v1, v2. rewrite <- app_assoc. auto.
    + replace fuel with (length (utf8 k) + (fuel - length (utf8 k)))%nat by lia.
      rewrite (leading_run (utf8 k) _ p s (s + len (txt u)) t); [|  |exact BK].
      2:{ rewrite <- (app_nil_r (utf8 k)). apply (txt_plain [k]); (constructor; [|constructor]); [exact H1|]. destruct (Z.eqb_spec 47 k); congruence. }
      rewrite SH. destruct (IH (u ++ [k]) (fuel - length (utf8 k))%nat CW BS L ltac:(lia)) as (y & Y1 & Y2 & Y3).
      exists y. split; [exact Y1|]. split; [exact Y2|]. rewrite Y3. split.
      * intros [H|(v1 & v2 & -> & H)]; [auto|]. right. exists (k :: v1), v2. rewrite <- app_assoc in H. auto.
      * intros [H|(v1 & v2 & Ev & H)]; [auto|]. right. destruct v1 as [|z v1]; cbn in Ev; [congruence|].
        injection Ev as <- ->. exists v1, v2. rewrite <- app_assoc. auto.
Qed.

(** ** The whole function *)
Theorem fnmatch_spec : forall ps w p s fuel, pattern f ps -> Forall char w ->
  bytes_at m p (show ps ++ [0]) -> bytes_at m s (txt w ++ [0]) ->
  len (show ps) + len (txt w) < 2 ^ 63 -> (length (show ps) + 2 * length (txt w) < fuel)%nat ->
  exists x, fnmatch fuel f lc m p s = Ok x /\ (x = 0 \/ x = 1) /\ (x = 0 <-> matches f lc ps w).
Proof.
  intros ps w p s fuel [OK PE] CW BP BS L G. unfold fnmatch, matches. unfold ok_period in PE.
  destruct (f_path f).
  - apply path_spec; auto. lia.
  - destruct (f_lead f) eqn:FL.
    + destruct (leading_spec ps p s OK PE BP w [] fuel CW BS L) as (x & X1 & X2 & X3); [cbn [app]; lia|].
      cbn [txt map concat length app] in *. rewrite Z.add_0_r in X1.
      exists x. split; [exact X1|]. split; [exact X2|]. rewrite X3. split.
      * intros [H|(v1 & v2 & -> & H)]; [auto|]. right. split; [reflexivity|]. eauto.
      * intros [H|[_ (v1 & v2 & -> & H)]]; [auto|]. right. eauto.
    + destruct (internal_spec f lc m LC fuel p (usz (-1)) s (usz (-1)) ps w OK CW) as (x & X1 & X2 & X3); auto; try lia.
      { apply reg_z; [assumption|lia]. } { apply reg_z; [assumption|lia]. }
      { apply bytes_at_app in BP as [_ B]. apply bytes_at_cons in B as [B _]. rewrite B. discriminate. }
      { apply bytes_at_app in BS as [_ B]. apply bytes_at_cons in B as [B _]. rewrite B. discriminate. }
      exists x. split; [exact X1|]. split; [exact X2|]. rewrite X3. split; [auto|]. intros [H|[H _]]; [exact H|discriminate].
Qed.

End Paths.
