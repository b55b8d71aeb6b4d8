From Verif Require Import Base Mem_Model Mem_Proof Str_Spec Str_Model Str_Proof Utf8_Model Utf8_Spec Utf8_Client Utf8_Proof.
Open Scope Z_scope.

(** ** mbrtowc from a state holding a pending prefix *)
Lemma rep_init : rep [] mb_init.
Proof. cbn. lia. Qed.

Lemma wf_zero u : wf_char u 0 -> u = [0].
Proof.
  destruct u as [|a [|b [|d [|e [|f l]]]]]; cbn; unfold pair3, pair4, isc; try tauto; try lia.
  intros [_ ->]. reflexivity.
Qed.

Lemma mbrtowc_char fuel m w wp mbs n st p u c :
  rep p st -> wf_char (p ++ u) c -> u <> [] -> bytes_at m mbs u -> (length u <= n)%nat -> w wp <> None ->
  (length u < fuel)%nat ->
  exists w' st', mbrtowc fuel m w (Some wp) mbs n st = Ok (w', if c =? 0 then 0 else Z.of_nat (length u), st', false) /\
    written w w' wp [c] /\ rep [] st'.
Proof.
  intros Hr W Hu Hb Hn Hw Hf. unfold mbrtowc, decode_wtranscode.
  replace (wp =? wp + 1) with false by lia.
  rewrite (dloop_char u (fuel - length u) fuel m mbs (mbs + Z.of_nat n) w wp (wp + 1) p st c); try assumption; try lia.
  assert (Hwr : written w (upd w wp c) wp [c]) by apply written_cons, written_nil.
  destruct (c =? 0) eqn:Ec.
  - cbn [bind]. rewrite store_ok by exact Hw. cbn [bind]. assert (c = 0) by lia. subst c.
    exists (upd w wp 0), mb_init. split; [reflexivity|]. split; [exact Hwr|apply rep_init].
  - rewrite store_ok by exact Hw. cbn [bind].
    destruct (fuel - length u)%nat as [|f] eqn:Ef; [lia|]. cbn [dloop].
    rewrite (Z.eqb_refl (wp + 1)), orb_true_r. cbn [bind fst Z.eqb negb].
    exists (upd w wp c), (0, c). split; [|split; [exact Hwr|apply rep_done, (wf_range _ _ W)]].
    destruct (mbs + Z.of_nat (length u) =? mbs + Z.of_nat n); cbn [bind]; okeq.
Qed.

Lemma mbrtowc_viable fuel m w wp mbs st p u :
  rep p st -> viable (p ++ u) -> u <> [] -> bytes_at m mbs u -> Forall (fun b => 0 <= b < 256) u ->
  (length u < fuel)%nat ->
  exists st', mbrtowc fuel m w (Some wp) mbs (length u) st = Ok (w, -2, st', false) /\ rep (p ++ u) st'.
Proof.
  intros Hr V Hu Hb Hby Hf. unfold mbrtowc, decode_wtranscode. replace (wp =? wp + 1) with false by lia.
  destruct (dloop_viable u fuel m mbs (mbs + Z.of_nat (length u)) w wp (wp + 1) p st) as (ds' & -> & R); try assumption; try lia.
  cbn [bind]. assert (fst ds' <> 0).
  { intros E. apply (rep_progress _ _ R) in E. apply app_eq_nil in E as [_ E]. congruence. }
  replace (fst ds' =? 0) with false by lia. cbn [negb bind]. eauto.
Qed.

Lemma mbrtowc_dead fuel m w wp mbs n st p q b :
  rep p st -> viable (p ++ q) -> dead (p ++ q ++ [b]) -> bytes_at m mbs (q ++ [b]) ->
  Forall (fun b => 0 <= b < 256) (q ++ [b]) -> (length q < n)%nat -> (length q < fuel)%nat ->
  mbrtowc fuel m w (Some wp) mbs n st = Ok (w, -1, st, true).
Proof.
  intros Hr V D Hb Hby Hn Hf. unfold mbrtowc, decode_wtranscode. replace (wp =? wp + 1) with false by lia.
  destruct (dloop_dead q fuel m mbs (mbs + Z.of_nat n) w wp (wp + 1) p st b) as (ds' & ->); try assumption; try lia.
  reflexivity.
Qed.

(** the null destination gives the same result *)
Lemma mbrtowc_null fuel m w mbs n st w0 r st' er :
  mbrtowc fuel m (upd (fun _ => None) 0 0) (Some 0) mbs n st = Ok (w0, r, st', er) ->
  mbrtowc fuel m w None mbs n st = Ok (w, r, st', er).
Proof.
  unfold mbrtowc. destruct (decode_wtranscode _ _ _ _ _ _ _) as [[[[[e it] s] w1] wi]| | |]; cbn [bind]; try discriminate.
  destruct e; cbn [bind]; try discriminate; try (intros E; injection E; intros; subst; reflexivity).
  destruct (store w1 0 0); cbn [bind]; try discriminate. intros E; injection E; intros; subst; reflexivity.
Qed.

(** ** Classification of byte sequences *)
Lemma vpre_rep p : vpre p -> exists ds, rep p ds.
Proof.
  destruct p as [|a [|b [|d [|e p]]]]; cbn [vpre]; intros H.
  - exists (0, 0). cbn. lia.
  - destruct (Z_lt_le_dec a 224); [exists (1, a - 192)|destruct (Z_lt_le_dec a 240); [exists (2, a - 224)|exists (3, a - 240)]]; cbn; lia.
  - destruct H as [H|H].
    + exists (1, (a - 224) * 64 + (b - 128)). split; [left; auto|unfold pair3, isc in H; lia].
    + exists (2, (a - 240) * 64 + (b - 128)). split; [right; auto|unfold pair4, isc in H; lia].
  - destruct H as [H H2]. exists (1, (a - 240) * 4096 + (b - 128) * 64 + (d - 128)).
    split; [cbn; auto|unfold pair4, isc in *; lia].
  - destruct H.
Qed.

Lemma next_char l : forall p, viable p -> Forall (fun b => 0 <= b < 256) l ->
  (exists u r c, l = u ++ r /\ u <> [] /\ wf_char (p ++ u) c) \/ viable (p ++ l) \/
  (exists q b r, l = q ++ b :: r /\ viable (p ++ q) /\ dead (p ++ q ++ [b])).
Proof.
  induction l as [|b l IH]; intros p V Hf.
  - right. left. rewrite app_nil_r. exact V.
  - inversion Hf; subst. destruct (vpre_rep p) as [ds R]; [apply viable_iff, V|].
    pose proof (step_ok p ds b R ltac:(assumption)) as S. destruct (dstep ds b) as [ds'|].
    + destruct S as [(V' & _)|(W & _)].
      * destruct (IH (p ++ [b]) V' ltac:(assumption)) as [(u & r & c & -> & Hu & W)|[V2|(q & x & r & -> & V2 & D)]].
        -- left. exists (b :: u), r, c. split; [reflexivity|]. split; [discriminate|]. rewrite <- app_assoc in W. exact W.
        -- right. left. rewrite <- app_assoc in V2. exact V2.
        -- right. right. exists (b :: q), x, r. rewrite <- !app_assoc in *. auto.
      * left. exists [b], l, (snd ds'). split; [reflexivity|]. split; [discriminate|exact W].
    + right. right. exists [], b, l. rewrite app_nil_r. auto.
Qed.

Lemma viable_nil : viable [].
Proof. apply viable_iff. exact I. Qed.

Lemma outcome_exists : forall k l, (length l <= k)%nat -> Forall (fun b => 0 <= b < 256) l -> exists cs e, outcome l cs e.
Proof.
  induction k as [|k IH]; intros l Hk Hf.
  - destruct l; [|cbn in Hk; lia]. exists [], Complete, [], []. split; [reflexivity|]. split; [constructor|reflexivity].
  - destruct l as [|x l].
    { exists [], Complete, [], []. split; [reflexivity|]. split; [constructor|reflexivity]. }
    destruct (next_char (x :: l) [] viable_nil Hf) as [(u & r & c & E & Hu & W)|[V|(q & b & r & E & V & D)]].
    + rewrite E in *. apply Forall_app in Hf as [_ Hf]. rewrite app_length in Hk.
      assert (length u <> 0)%nat by (destruct u; [congruence|cbn; lia]).
      destruct (IH r ltac:(lia) Hf) as (cs & e & a & t & -> & Hd & He).
      exists (c :: cs), e, (u ++ a), t. rewrite app_assoc. split; [reflexivity|]. split; [|exact He].
      constructor; assumption.
    + exists [], Unfinished, [], (x :: l). split; [reflexivity|]. split; [constructor|]. split; [discriminate|exact V].
    + exists [], Error, [], (x :: l). split; [reflexivity|]. split; [constructor|]. exists q, b, r. auto.
Qed.

Lemma app_eq_split {A} (a b c d : list A) : a ++ b = c ++ d ->
  (exists x, a = c ++ x /\ d = x ++ b) \/ (exists x, x <> [] /\ c = a ++ x /\ b = x ++ d).
Proof.
  revert c. induction a as [|y a IH]; intros c E.
  - destruct c as [|z c]; [left; exists []; auto|right; exists (z :: c); repeat split; [discriminate|exact E]].
  - destruct c as [|z c].
    + left. exists (y :: a). auto.
    + cbn in E. injection E as -> E. destruct (IH c E) as [(x & -> & ->)|(x & Hx & -> & ->)].
      * left. exists x. auto.
      * right. exists x. auto.
Qed.

Lemma wf_no_ext u c x r : wf_char u c -> viable (u ++ x) \/ (x <> [] /\ exists c', wf_char (u ++ x) c') \/ (x ++ r <> [] /\ exists c', wf_char (u ++ x ++ r) c') -> False.
Proof.
  intros W H. apply (viable_not_wf u c); [|exact W]. destruct H as [(r' & c' & Hr & W')|[(Hx & c' & W')|(Hx & c' & W')]].
  - exists (x ++ r'), c'. rewrite app_assoc. split; [|exact W']. intros E. apply app_eq_nil in E. tauto.
  - exists x, c'. auto.
  - exists (x ++ r), c'. auto.
Qed.

Lemma wf_prefix_unique u c r u' c' r' : wf_char u c -> wf_char u' c' -> u ++ r = u' ++ r' -> u = u' /\ r = r' /\ c = c'.
Proof.
  intros W W' E. destruct (app_eq_split _ _ _ _ E) as [(x & -> & ->)|(x & Hx & -> & ->)].
  - destruct x as [|y x].
    + rewrite app_nil_r in *. split; [reflexivity|]. split; [reflexivity|]. eapply wf_char_fun; eauto.
    + exfalso. apply (wf_no_ext u' c' (y :: x) [] W'). right. left. split; [discriminate|eauto].
  - exfalso. apply (wf_no_ext u c x [] W). right. left. eauto.
Qed.

Lemma tail_not_char t u c r e :
  t = u ++ r -> wf_char u c ->
  match e with Complete => t = [] | Unfinished => t <> [] /\ viable t
  | Error => exists p b s, t = p ++ b :: s /\ viable p /\ dead (p ++ [b]) end -> False.
Proof.
  intros Et W He. destruct e; subst t.
  - apply app_eq_nil in He as [-> _]. exact (wf_nonempty _ _ W eq_refl).
  - destruct He as [_ V]. apply (wf_no_ext u c r [] W). auto.
  - destruct He as (p & b & s & E & V & D). destruct (app_eq_split _ _ _ _ E) as [(x & -> & E2)|(x & Hx & -> & ->)].
    + destruct x as [|y x].
      * rewrite app_nil_r in W. exact (viable_not_wf _ _ V W).
      * cbn in E2. injection E2 as -> _. apply D. exists x, c. rewrite <- app_assoc. exact W.
    + apply (wf_no_ext u c x [] W). auto.
Qed.

Lemma outcome_fun l cs e cs' e' : outcome l cs e -> outcome l cs' e' -> cs = cs' /\ e = e'.
Proof.
  intros (a & t & E & Hd & He) (a' & t' & E' & Hd' & He'). rewrite E in E'. clear E l.
  revert a' cs' Hd' E'. induction Hd as [|u c l cs W Hd IH]; intros a' cs' Hd' E'.
  - inversion Hd'; subst.
    + cbn in E'. subst t'. split; [reflexivity|].
      destruct e, e'; try reflexivity; exfalso.
      * tauto.
      * destruct He' as (p & b & s & -> & _). destruct p; discriminate.
      * tauto.
      * destruct He as [_ V], He' as (p & b & s & -> & _ & D). apply D. destruct V as (r & c & _ & W).
        exists (s ++ r), c. rewrite <- app_assoc in *. exact W.
      * destruct He as (p & b & s & -> & _). destruct p; discriminate.
      * destruct He' as [_ V], He as (p & b & s & -> & _ & D). apply D. destruct V as (r & c & _ & W).
        exists (s ++ r), c. rewrite <- app_assoc in *. exact W.
    + exfalso. cbn [app] in E'. rewrite <- app_assoc in E'. eapply (tail_not_char t); eassumption.
  - inversion Hd'; subst.
    + exfalso. cbn [app] in E'. rewrite <- app_assoc in E'. eapply (tail_not_char t'); [symmetry; exact E'|exact W|exact He'].
    + rewrite <- !app_assoc in E'. destruct (wf_prefix_unique _ _ _ _ _ _ W H E') as (-> & E2 & ->).
      destruct (IH _ _ H0 E2) as [-> ->]. auto.
Qed.

(** ** Chunked decoding *)
Lemma written_at w w' wp c : written w w' wp [c] -> load w' wp = Ok c.
Proof. intros [H _]. apply bytes_at_cons in H as [H _]. unfold load. rewrite H. reflexivity. Qed.
Lemma written_some w w' wp c : written w w' wp [c] -> w' wp <> None.
Proof. intros [H _]. apply bytes_at_cons in H as [H _]. congruence. Qed.

Lemma feed_chunk_ok k : forall fuel m w wp it l st p,
  rep p st -> bytes_at m it l -> Forall (fun b => 0 <= b < 256) l -> w wp <> None ->
  (length l <= k)%nat -> (length l < fuel)%nat -> (l = [] -> p = []) ->
  exists cs e st' a t, feed_chunk k fuel m w wp it (length l) st = Ok (cs, e, st') /\
    p ++ l = a ++ t /\ decodes a cs /\
    match e with
    | Complete => t = [] /\ rep [] st'
    | Unfinished => t <> [] /\ viable t /\ rep t st'
    | Error => exists q b r, t = q ++ b :: r /\ viable q /\ dead (q ++ [b])
    end.
Proof.
  induction k as [|k IH]; intros fuel m w wp it l st p Hr Hb Hf Hw Hk Hfu Hne.
  - destruct l; [|cbn in Hk; lia]. rewrite (Hne eq_refl) in *. cbn.
    exists [], Complete, st, [], []. split; [reflexivity|]. split; [reflexivity|]. split; [constructor|auto].
  - destruct l as [|x l'].
    { rewrite (Hne eq_refl) in *. cbn. exists [], Complete, st, [], [].
      split; [reflexivity|]. split; [reflexivity|]. split; [constructor|auto]. }
    set (l := x :: l') in *. assert (Hl : length l = S (length l')) by reflexivity.
    cbn [feed_chunk]. rewrite Hl. rewrite <- Hl.
    assert (Vp : viable p) by (apply viable_iff; eapply rep_vpre; exact Hr).
    destruct (next_char l p Vp Hf) as [(u & r & c & E & Hu & W)|[V|(q & b & r & E & V & D)]].
    + rewrite E in Hb, Hf. apply bytes_at_app in Hb as [Hb1 Hb2]. apply Forall_app in Hf as [Hf1 Hf2].
      assert (El : length l = (length u + length r)%nat) by (rewrite E, app_length; reflexivity).
      assert (Hu0 : length u <> 0%nat) by (destruct u; [congruence|cbn; lia]).
      destruct (mbrtowc_char fuel m w wp it (length l) st p u c) as (w1 & st1 & E1 & Wr & R1); try assumption; try lia.
      rewrite E1. cbn [bind]. rewrite (written_at _ _ _ _ Wr).
      set (used := if (if c =? 0 then 0 else Z.of_nat (length u)) =? 0 then 1%nat else Z.to_nat (if c =? 0 then 0 else Z.of_nat (length u))).
      assert (Hused : used = length u).
      { subst used. destruct (c =? 0) eqn:Ec.
        - assert (c = 0) by lia. subst c. apply wf_zero in W. destruct p as [|y p]; [cbn in W; subst u; reflexivity|].
          destruct u; [congruence|]. destruct p; discriminate.
        - replace (Z.of_nat (length u) =? 0) with false by lia. lia. }
      replace ((if c =? 0 then 0 else Z.of_nat (length u)) =? -1) with false by (destruct (c =? 0); lia).
      replace ((if c =? 0 then 0 else Z.of_nat (length u)) =? -2) with false by (destruct (c =? 0); lia).
      cbn [bind]. rewrite Hused. replace (length l - length u)%nat with (length r) by lia.
      destruct (IH fuel m w1 wp (it + Z.of_nat (length u)) r st1 []) as (cs & e & st2 & a & t & E2 & Ep & Hd & He); try assumption; try lia.
      * apply (written_some _ _ _ _ Wr).
      * auto.
      * rewrite E2. cbn [bind]. exists (c :: cs), e, st2, ((p ++ u) ++ a), t. split; [reflexivity|].
        split; [rewrite E; cbn [app] in Ep; rewrite Ep, !app_assoc; reflexivity|]. split; [constructor; assumption|exact He].
    + destruct (mbrtowc_viable fuel m w wp it st p l) as (st1 & -> & R1); try assumption; try lia; try discriminate.
      cbn [bind Z.eqb Pos.eqb]. exists [], Unfinished, st1, [], (p ++ l). split; [reflexivity|]. split; [reflexivity|].
      split; [constructor|]. split; [|auto]. intros E0. apply app_eq_nil in E0 as [_ E0]. discriminate.
    + rewrite E in Hb, Hf.
      assert (length q < length l)%nat by (rewrite E, app_length; cbn; lia).
      rewrite (mbrtowc_dead fuel m w wp it (length l) st p q b); try assumption; try lia.
      * cbn [bind Z.eqb Pos.eqb]. exists [], Error, st, [], (p ++ l). split; [reflexivity|]. split; [reflexivity|].
        split; [constructor|]. exists (p ++ q), b, r. rewrite E, <- !app_assoc. auto.
      * change (b :: r) with ([b] ++ r) in Hb. rewrite app_assoc in Hb. apply bytes_at_app in Hb. tauto.
      * change (b :: r) with ([b] ++ r) in Hf. rewrite app_assoc in Hf. apply Forall_app in Hf. tauto.
Qed.


Lemma feed_rest fuel m w wp chunks : forall ls st p,
  rep p st -> (chunks = [] -> p = []) ->
  Forall2 (chunk_at m) chunks ls -> Forall (Forall (fun b => 0 <= b < 256)) ls -> w wp <> None ->
  (length (concat ls) < fuel)%nat ->
  exists cs e, feed fuel m w wp chunks st = Ok (cs, e) /\ outcome (p ++ concat ls) cs e.
Proof.
  induction chunks as [|[q n] chunks IH]; intros ls st p Hr Hp H2 Hf Hw Hfu; inversion H2; subst.
  - rewrite Hp by reflexivity. cbn. exists [], Complete. split; [reflexivity|]. exists [], []. split; [reflexivity|].
    split; [constructor|reflexivity].
  - destruct H1 as (Hb & Hn & Hne). cbn [fst snd] in *. subst n. inversion Hf; subst.
    match goal with H : Forall2 _ chunks _ |- _ => rename H into HF end.
    cbn [concat] in *. rewrite app_length in Hfu.
    cbn [feed]. destruct (feed_chunk_ok (length y) fuel m w wp q y st p) as (cs & e & st' & a & t & -> & Ep & Hd & He); try assumption; try lia; try congruence.
    cbn [bind]. rewrite app_assoc, Ep.
    destruct e; destruct chunks as [|ch chunks].
    + inversion HF; subst. cbn. exists cs, Complete. split; [reflexivity|]. exists a, []. destruct He as [-> _].
      rewrite !app_nil_r. split; [reflexivity|]. split; [exact Hd|reflexivity].
    + destruct He as [-> R]. rewrite app_nil_r.
      destruct (IH l' st' [] R ltac:(congruence) HF ltac:(assumption) Hw ltac:(lia)) as (cs2 & e2 & -> & (a2 & t2 & E2 & D2 & He2)).
      cbn [bind]. exists (cs ++ cs2), e2. split; [reflexivity|]. exists (a ++ a2), t2. cbn [app] in E2. rewrite E2, app_assoc.
      split; [reflexivity|]. split; [|exact He2]. clear -Hd D2. induction Hd; [exact D2|]. rewrite <- app_assoc. cbn. constructor; assumption.
    + inversion HF; subst. cbn. exists cs, Unfinished. split; [reflexivity|]. exists a, t. rewrite app_nil_r. tauto.
    + destruct He as (Ht & V & R).
      destruct (IH l' st' t R ltac:(congruence) HF ltac:(assumption) Hw ltac:(lia)) as (cs2 & e2 & -> & (a2 & t2 & E2 & D2 & He2)).
      cbn [bind]. exists (cs ++ cs2), e2. split; [reflexivity|]. exists (a ++ a2), t2. rewrite <- app_assoc, E2, app_assoc.
      split; [reflexivity|]. split; [|exact He2]. clear -Hd D2. induction Hd; [exact D2|]. rewrite <- app_assoc. cbn. constructor; assumption.
    + cbn. exists cs, Error. split; [reflexivity|]. exists a, (t ++ concat l'). split; [rewrite <- app_assoc; reflexivity|]. split; [exact Hd|].
      destruct He as (q' & b & r & -> & V & D). exists q', b, (r ++ concat l'). split; [rewrite <- app_assoc; reflexivity|auto].
    + cbn. exists cs, Error. split; [reflexivity|]. exists a, (t ++ concat l'). split; [rewrite <- app_assoc; reflexivity|]. split; [exact Hd|].
      destruct He as (q' & b & r & -> & V & D). exists q', b, (r ++ concat l'). split; [rewrite <- app_assoc; reflexivity|auto].
Qed.

Lemma feed_ok fuel m w wp chunks ls :
  Forall2 (chunk_at m) chunks ls -> Forall (Forall (fun b => 0 <= b < 256)) ls -> w wp <> None ->
  (length (concat ls) < fuel)%nat ->
  exists cs e, feed fuel m w wp chunks mb_init = Ok (cs, e) /\ outcome (concat ls) cs e.
Proof. intros. apply (feed_rest fuel m w wp chunks ls mb_init []); auto. apply rep_init. Qed.

Lemma feed_split fuel m w wp chunks ls fuel' m' w' wp' chunks' ls' :
  Forall2 (chunk_at m) chunks ls -> Forall2 (chunk_at m') chunks' ls' -> concat ls = concat ls' ->
  Forall (Forall (fun b => 0 <= b < 256)) ls -> Forall (Forall (fun b => 0 <= b < 256)) ls' ->
  w wp <> None -> w' wp' <> None -> (length (concat ls) < fuel)%nat -> (length (concat ls) < fuel')%nat ->
  feed fuel m w wp chunks mb_init = feed fuel' m' w' wp' chunks' mb_init.
Proof.
  intros H1 H2 E F1 F2 W1 W2 L1 L2.
  destruct (feed_ok fuel m w wp chunks ls H1 F1 W1 L1) as (cs & e & -> & O1).
  rewrite E in L2. destruct (feed_ok fuel' m' w' wp' chunks' ls' H2 F2 W2 L2) as (cs' & e' & -> & O2).
  rewrite <- E in O2. destruct (outcome_fun _ _ _ _ _ O1 O2) as [-> ->]. reflexivity.
Qed.

(** ** mbstowcs *)
Lemma dloop_decodes a cs : decodes a cs -> forall f m it en w wit wen ds,
  rep [] ds -> Forall (fun c => c <> 0) cs -> bytes_at m it a ->
  (forall j, (j < length a)%nat -> it + Z.of_nat j <> en) -> wit + Z.of_nat (length cs) <= wen ->
  mapped w wit (length cs) ->
  exists w' ds', dloop (length a + f) m it en w wit wen ds =
     dloop f m (it + Z.of_nat (length a)) en w' (wit + Z.of_nat (length cs)) wen ds' /\
     written w w' wit cs /\ rep [] ds'.
Proof.
  induction 1 as [|u c l cs W Hd IH]; intros f m it en w wit wen ds Hr Hnz Hb Hen Hroom Hm.
  - cbn [length]. rewrite !Z.add_0_r. exists w, ds. split; [reflexivity|]. split; [apply written_nil|exact Hr].
  - inversion Hnz; subst. apply bytes_at_app in Hb as [Hb1 Hb2]. cbn [length] in *. rewrite app_length in *.
    rewrite (dloop_char u (length l + f) _ m it en w wit wen [] ds c); try assumption; try lia.
    2:{ eapply wf_nonempty; eassumption. }
    2:{ intros j Hj. apply Hen. lia. }
    replace (c =? 0) with false by lia.
    rewrite store_ok by (apply (mapped_hd _ _ (S (length cs))); [exact Hm|lia]). cbn [bind].
    destruct (IH f m (it + Z.of_nat (length u)) en (upd w wit c) (wit + 1) wen (0, c)) as (w' & ds' & E & Wr & R).
    + apply rep_done, (wf_range _ _ W).
    + assumption.
    + exact Hb2.
    + intros j Hj. specialize (Hen (length u + j)%nat ltac:(lia)). lia.
    + lia.
    + apply upd_mapped, mapped_tl, Hm.
    + exists w', ds'. split; [|split; [apply written_cons, Wr|exact R]].
      rewrite E. replace (it + Z.of_nat (length u) + Z.of_nat (length l)) with (it + Z.of_nat (length u + length l)) by lia.
      replace (wit + 1 + Z.of_nat (length cs)) with (wit + Z.of_nat (S (length cs))) by lia. reflexivity.
Qed.

Lemma decodes_nz a cs : decodes a cs -> ~ In 0 a -> Forall (fun c => c <> 0) cs.
Proof.
  induction 1 as [|u c l cs W Hd IH]; intros Hn; constructor.
  - intros ->. apply wf_zero in W. subst u. apply Hn. left. reflexivity.
  - apply IH. intros H. apply Hn, in_or_app. auto.
Qed.

Lemma decodes_split a cs n : decodes a cs -> (n <= length cs)%nat ->
  exists a1 a2, a = a1 ++ a2 /\ decodes a1 (firstn n cs) /\ decodes a2 (skipn n cs).
Proof.
  intros H. revert n. induction H as [|u c l cs W Hd IH]; intros n Hn.
  - destruct n; [|cbn in Hn; lia]. exists [], []. repeat split; constructor.
  - destruct n as [|n].
    + exists [], (u ++ l). repeat split; [constructor|constructor; assumption].
    + cbn in Hn. destruct (IH n ltac:(lia)) as (a1 & a2 & -> & D1 & D2). exists (u ++ a1), a2.
      rewrite <- app_assoc. cbn. repeat split; [constructor; assumption|assumption].
Qed.

Lemma decodes_range a cs : decodes a cs -> Forall (fun b => 0 <= b < 256) a.
Proof. induction 1; [constructor|]. apply Forall_app. split; [apply (wf_range _ _ H)|assumption]. Qed.

Lemma mbstowcs_limit fuel m w wcs mbs a cs : 0 < mbs -> bytes_at m mbs a -> decodes a cs -> ~ In 0 a ->
  cs <> [] -> mapped w wcs (length cs) -> (length a < fuel)%nat ->
  exists w', mbstowcs fuel m w (Some wcs) mbs (length cs) = Ok (w', Z.of_nat (length cs), false) /\ written w w' wcs cs.
Proof.
  intros Hp Hb Hd Hnz Hcs Hm Hf. unfold mbstowcs, decode_wtranscode.
  assert (length cs <> 0%nat) by (destruct cs; [congruence|cbn; lia]).
  replace (wcs =? wcs + Z.of_nat (length cs)) with false by lia.
  replace fuel with (length a + (fuel - length a))%nat by lia.
  destruct (dloop_decodes a cs Hd (fuel - length a) m mbs 0 w wcs (wcs + Z.of_nat (length cs)) mb_init) as (w' & ds' & -> & Wr & R);
    try assumption; try lia; [apply rep_init|eapply decodes_nz; eassumption|].
  destruct (fuel - length a)%nat as [|f] eqn:Efu; [lia|]. cbn [dloop]. rewrite Z.eqb_refl, orb_true_r. cbn [bind].
  assert (fst ds' = 0) by (apply (rep_progress _ _ R); reflexivity).
  replace (fst ds' =? 0) with true by lia. cbn [negb].
  replace (mbs + Z.of_nat (length a) =? 0) with false by lia.
  replace (wcs + Z.of_nat (length cs) - wcs <? Z.of_nat (length cs)) with false by lia.
  exists w'. split; [|exact Wr]. okeq.
Qed.

Lemma str_no0 m p s : str_at m p s -> ~ In 0 s.
Proof. intros [_ H] H0. rewrite Forall_forall in H. specialize (H 0 H0). lia. Qed.

Lemma str_bytes m p s : str_at m p s -> bytes_at m p s /\ m (p + Z.of_nat (length s)) = Some 0.
Proof.
  intros [H _]. split; [apply bytes_at_app in H; tauto|]. apply bytes_at_app in H as [_ H]. apply bytes_at_cons in H. tauto.
Qed.

Lemma dec_nul : wf_char [0] 0.
Proof. cbn. lia. Qed.

Lemma mbstowcs_ok fuel m w wcs mbs s cs limit : 0 < mbs -> str_at m mbs s -> decodes s cs -> (0 < limit)%nat ->
  mapped w wcs (Nat.min limit (length cs + 1)) -> (length s + 1 < fuel)%nat ->
  exists w', mbstowcs fuel m w (Some wcs) mbs limit = Ok (w', Z.of_nat (Nat.min limit (length cs)), false) /\
    written w w' wcs (firstn limit (cs ++ [0])).
Proof.
  intros Hp Hs Hd Hl Hm Hf. pose proof (str_no0 _ _ _ Hs) as H0. pose proof (str_bytes _ _ _ Hs) as [Hb Hz].
  destruct (le_lt_dec limit (length cs)) as [Hc|Hc].
  - destruct (decodes_split s cs limit Hd Hc) as (a1 & a2 & -> & D1 & D2).
    assert (Hlen : length (firstn limit cs) = limit) by (rewrite firstn_length; lia).
    apply bytes_at_app in Hb as [Hb _]. rewrite app_length in Hf.
    destruct (mbstowcs_limit fuel m w wcs mbs a1 (firstn limit cs)) as (w' & E & Wr); try assumption.
    + intros H. apply H0, in_or_app. auto.
    + intros E. rewrite E in Hlen. cbn in Hlen. lia.
    + rewrite Hlen. eapply mapped_sub; [exact Hm|lia|lia].
    + lia.
    + rewrite Hlen in E. exists w'. rewrite Nat.min_l by lia. split; [exact E|].
      rewrite firstn_app. replace (limit - length cs)%nat with 0%nat by lia. cbn [firstn]. rewrite app_nil_r. exact Wr.
  - unfold mbstowcs, decode_wtranscode. replace (wcs =? wcs + Z.of_nat limit) with false by lia.
    replace fuel with (length s + (fuel - length s))%nat by lia.
    destruct (dloop_decodes s cs Hd (fuel - length s) m mbs 0 w wcs (wcs + Z.of_nat limit) mb_init) as (w' & ds' & -> & Wr & R);
      try assumption; try lia; [apply rep_init|eapply decodes_nz; eassumption|eapply mapped_sub; [exact Hm|lia|lia]|].
    rewrite (dloop_char [0] (fuel - length s - 1) _ m _ 0 w' _ _ [] ds' 0); try assumption; try lia.
    + cbn [Z.eqb bind length]. replace (wcs + Z.of_nat (length cs) - wcs) with (Z.of_nat (length cs)) by lia.
      replace (Z.of_nat (length cs) <? Z.of_nat limit) with true by lia.
      rewrite store_ok.
      * cbn [bind]. eexists. split; [rewrite Nat.min_r by lia; reflexivity|].
        rewrite firstn_all2 by (rewrite app_length; cbn; lia).
        eapply written_app; [exact Wr|]. apply written_cons, written_nil.
      * apply (written_mapped _ _ _ _ _ _ Wr Hm). lia.
    + exact dec_nul.
    + discriminate.
    + apply bytes_at_cons. split; [exact Hz|]. intros i Hi. cbn in Hi. lia.
    + cbn. lia.
Qed.

Lemma mbstowcs_err fuel m w wcs mbs s a cs p b r limit : 0 < mbs -> str_at m mbs s ->
  s ++ [0] = a ++ p ++ b :: r -> decodes a cs -> viable p -> dead (p ++ [b]) ->
  (length cs < limit)%nat -> mapped w wcs limit -> (length s + 1 < fuel)%nat ->
  exists w', mbstowcs fuel m w (Some wcs) mbs limit = Ok (w', -1, true) /\ same_outside w w' wcs limit.
Proof.
  intros Hp Hs E Hd V D Hl Hm Hf. pose proof Hs as [Hb Hrg]. rewrite E in Hb.
  assert (Ha : exists s2, s = a ++ s2).
  { assert (a ++ (p ++ b :: r) = s ++ [0]) by congruence.
    destruct (app_eq_split _ _ _ _ H) as [(x & -> & E2)|(x & Hx & -> & _)]; [|eauto].
    destruct x as [|y x]; [exists []; rewrite !app_nil_r; reflexivity|].
    cbn in E2. injection E2 as _ E2. symmetry in E2. apply app_eq_nil in E2 as [_ E2]. apply app_eq_nil in E2 as [_ E2]. discriminate. }
  destruct Ha as [s2 ->].
  assert (Hby : Forall (fun x => 0 <= x < 256) (p ++ b :: r)).
  { rewrite <- app_assoc in E. apply app_inv_head in E. rewrite <- E. apply Forall_app in Hrg as [_ Hrg].
    apply Forall_app. split; [|repeat constructor; lia]. eapply Forall_impl; [|exact Hrg]. cbn. intros. lia. }
  assert (Hlen : (length a + length p < fuel)%nat).
  { apply (f_equal (@length Z)) in E. rewrite !app_length in E. cbn in E. rewrite app_length in *. lia. }
  apply bytes_at_app in Hb as [Hb1 Hb2].
  unfold mbstowcs, decode_wtranscode. replace (wcs =? wcs + Z.of_nat limit) with false by lia.
  replace fuel with (length a + (fuel - length a))%nat by lia.
  destruct (dloop_decodes a cs Hd (fuel - length a) m mbs 0 w wcs (wcs + Z.of_nat limit) mb_init) as (w' & ds' & -> & Wr & R); try assumption; try lia.
  - apply rep_init.
  - eapply decodes_nz; [eassumption|]. intros H. apply (str_no0 _ _ _ Hs), in_or_app. auto.
  - eapply mapped_sub; [exact Hm|lia|lia].
  - change (b :: r) with ([b] ++ r) in *. rewrite app_assoc in Hb2, Hby. apply bytes_at_app in Hb2 as [Hb2 _].
    apply Forall_app in Hby as [Hby _].
    destruct (dloop_dead p (fuel - length a) m (mbs + Z.of_nat (length a)) 0 w' (wcs + Z.of_nat (length cs)) (wcs + Z.of_nat limit) [] ds' b) as (ds2 & ->); try assumption; try lia.
    cbn [bind]. exists w'. split; [reflexivity|]. intros x Hx. apply Wr. lia.
Qed.

(** length computation *)
Lemma dlen_char u : forall f fuel m it en p ds c n,
  rep p ds -> wf_char (p ++ u) c -> u <> [] -> bytes_at m it u ->
  (forall j, (j < length u)%nat -> it + Z.of_nat j <> en) -> fuel = (length u + f)%nat ->
  dlen_loop fuel m it en ds n =
    if c =? 0 then Ok (NullTerm, n) else dlen_loop f m (it + Z.of_nat (length u)) en (0, c) (n + 1).
Proof.
  induction u as [|b u IH]; intros f fuel m it en p ds c n Hr W Hne Hb Hen ->; [congruence|].
  cbn [length Nat.add dlen_loop].
  pose proof (Hen 0%nat ltac:(cbn; lia)) as H0. rewrite Z.add_0_r in H0.
  replace (it =? en) with false by lia.
  apply bytes_at_cons in Hb as [Hb0 Hb]. unfold load. rewrite Hb0. cbn [bind].
  destruct (step_wf p ds b u c Hr W) as (ds' & -> & [(Hu & Hr' & Hg)|(-> & ->)]).
  - replace (fst ds' =? 0) with false by lia.
    rewrite (IH f _ m (it + 1) en (p ++ [b]) ds' c); try assumption; try reflexivity.
    + replace (it + 1 + Z.of_nat (length u)) with (it + Z.of_nat (S (length u))) by lia. reflexivity.
    + rewrite <- app_assoc. exact W.
    + intros j Hj. specialize (Hen (S j) ltac:(cbn; lia)). lia.
  - cbn [fst snd length]. rewrite Z.eqb_refl. reflexivity.
Qed.

Lemma dlen_decodes a cs : decodes a cs -> forall f m it en ds n,
  rep [] ds -> Forall (fun c => c <> 0) cs -> bytes_at m it a ->
  (forall j, (j < length a)%nat -> it + Z.of_nat j <> en) ->
  exists ds', dlen_loop (length a + f) m it en ds n =
     dlen_loop f m (it + Z.of_nat (length a)) en ds' (n + Z.of_nat (length cs)) /\ rep [] ds'.
Proof.
  induction 1 as [|u c l cs W Hd IH]; intros f m it en ds n Hr Hnz Hb Hen.
  - cbn [length]. rewrite !Z.add_0_r. exists ds. auto.
  - inversion Hnz; subst. apply bytes_at_app in Hb as [Hb1 Hb2]. cbn [length] in *. rewrite app_length in *.
    rewrite (dlen_char u (length l + f) _ m it en [] ds c); try assumption; try lia.
    2:{ eapply wf_nonempty; eassumption. }
    2:{ intros j Hj. apply Hen. lia. }
    replace (c =? 0) with false by lia.
    destruct (IH f m (it + Z.of_nat (length u)) en (0, c) (n + 1)) as (ds' & E & R).
    + apply rep_done, (wf_range _ _ W).
    + assumption.
    + exact Hb2.
    + intros j Hj. specialize (Hen (length u + j)%nat ltac:(lia)). lia.
    + exists ds'. split; [|exact R].
      rewrite E. replace (it + Z.of_nat (length u) + Z.of_nat (length l)) with (it + Z.of_nat (length u + length l)) by lia.
      replace (n + 1 + Z.of_nat (length cs)) with (n + Z.of_nat (S (length cs))) by lia. reflexivity.
Qed.

Lemma mbstowcs_len_ok fuel m w mbs s cs limit : 0 < mbs -> str_at m mbs s -> decodes s cs -> (length s + 1 < fuel)%nat ->
  mbstowcs fuel m w None mbs limit = Ok (w, Z.of_nat (length cs), false).
Proof.
  intros Hp Hs Hd Hf. pose proof (str_no0 _ _ _ Hs) as H0. pose proof (str_bytes _ _ _ Hs) as [Hb Hz].
  unfold mbstowcs. replace fuel with (length s + (fuel - length s))%nat by lia.
  destruct (dlen_decodes s cs Hd (fuel - length s) m mbs 0 mb_init 0) as (ds' & -> & R);
      try assumption; try lia; [apply rep_init|eapply decodes_nz; eassumption|].
  rewrite (dlen_char [0] (fuel - length s - 1) _ m _ 0 [] ds' 0); try assumption; try lia.
  - reflexivity.
  - exact dec_nul.
  - discriminate.
  - apply bytes_at_cons. split; [exact Hz|]. intros i Hi. cbn in Hi. lia.
  - cbn. lia.
Qed.

(** ** Encoder *)
Lemma lor_tab : forallb (fun i => (Z.lor 192 (Z.of_nat i) =? 192 + Z.of_nat i)) (seq 0 32) &&
  forallb (fun i => (Z.lor 224 (Z.of_nat i) =? 224 + Z.of_nat i)) (seq 0 16) &&
  forallb (fun i => (Z.lor 240 (Z.of_nat i) =? 240 + Z.of_nat i)) (seq 0 8) &&
  forallb (fun i => (Z.lor 128 (Z.of_nat i) =? 128 + Z.of_nat i)) (seq 0 64) = true.
Proof. vm_compute. reflexivity. Qed.
Lemma lor_tab_ok (k : nat) b i : forallb (fun i => (Z.lor b (Z.of_nat i) =? b + Z.of_nat i)) (seq 0 k) = true ->
  0 <= i < Z.of_nat k -> Z.lor b i = b + i.
Proof.
  intros H Hi. rewrite forallb_forall in H. specialize (H (Z.to_nat i)). rewrite Z2Nat.id in H by lia.
  apply Z.eqb_eq, H, in_seq. lia.
Qed.
Lemma lor192 i : 0 <= i < 32 -> Z.lor 192 i = 192 + i.
Proof. apply (lor_tab_ok 32). vm_compute. reflexivity. Qed.
Lemma lor224 i : 0 <= i < 16 -> Z.lor 224 i = 224 + i.
Proof. apply (lor_tab_ok 16). vm_compute. reflexivity. Qed.
Lemma lor240 i : 0 <= i < 8 -> Z.lor 240 i = 240 + i.
Proof. apply (lor_tab_ok 8). vm_compute. reflexivity. Qed.
Lemma cont_eq v : cont v = 128 + v mod 64.
Proof.
  unfold cont. change 63 with (Z.ones 6). rewrite Z.land_ones by lia. change (2^6) with 64.
  apply (lor_tab_ok 64); [vm_compute; reflexivity|]. apply Z.mod_pos_bound. lia.
Qed.

Lemma enc_bytes_ok c : 0 <= c <= 1114111 -> enc_bytes c = Some (utf8 c).
Proof.
  intros Hc. unfold enc_bytes, utf8. rewrite !cont_eq. rewrite !Z.shiftr_div_pow2 by lia.
  change (2^6) with 64. change (2^12) with 4096. change (2^18) with 262144.
  replace (c <? 128) with (c <=? 127) by lia. destruct (c <=? 127) eqn:E1; [rewrite Z.mod_small by lia; reflexivity|].
  replace (c <? 2048) with (c <=? 2047) by lia. destruct (c <=? 2047) eqn:E2.
  { assert (0 <= c / 64 < 32) by (split; [apply Z.div_pos; lia|apply Z.div_lt_upper_bound; lia]).
    rewrite lor192, Z.mod_small by lia. reflexivity. }
  replace (c <? 65536) with (c <=? 65535) by lia. destruct (c <=? 65535) eqn:E3.
  { assert (0 <= c / 4096 < 16) by (split; [apply Z.div_pos; lia|apply Z.div_lt_upper_bound; lia]).
    rewrite lor224, (Z.mod_small (_ + _)) by lia. reflexivity. }
  replace (c <=? 1114111) with true by lia.
  assert (0 <= c / 262144 < 8) by (split; [apply Z.div_pos; lia|apply Z.div_lt_upper_bound; lia]).
  rewrite lor240, (Z.mod_small (_ + _)) by lia. reflexivity.
Qed.
Lemma enc_bytes_big c : 1114111 < c -> enc_bytes c = None.
Proof.
  intros H. unfold enc_bytes. replace (c <=? 127) with false by lia. replace (c <=? 2047) with false by lia.
  replace (c <=? 65535) with false by lia. replace (c <=? 1114111) with false by lia. reflexivity.
Qed.

Lemma wf_utf8 l c : wf_char l c <-> scalar c /\ l = utf8 c.
Proof.
  split.
  - intros W. destruct l as [|a [|b [|d [|e [|f l]]]]]; cbn in W; try tauto.
    + destruct W as [H ->]. unfold scalar, utf8. replace (a <? 128) with true by lia. split; [lia|reflexivity].
    + unfold isc in W. destruct W as (H1 & H2 & ->). unfold scalar, utf8.
      replace ((a - 192) * 64 + (b - 128) <? 128) with false by lia.
      replace ((a - 192) * 64 + (b - 128) <? 2048) with true by lia.
      rewrite <- (Z.div_unique ((a - 192) * 64 + (b - 128)) 64 (a - 192) (b - 128)) by lia.
      rewrite <- (Z.mod_unique ((a - 192) * 64 + (b - 128)) 64 (a - 192) (b - 128)) by lia.
      split; [lia|]. f_equal; [lia|]. f_equal. lia.
    + unfold isc, pair3, isc in W. destruct W as (H1 & H2 & ->). unfold scalar, utf8.
      set (c := (a - 224) * 4096 + (b - 128) * 64 + (d - 128)).
      assert (Hc : 2048 <= c < 65536 /\ ~ (55296 <= c <= 57343)) by (subst c; lia).
      replace (c <? 128) with false by lia. replace (c <? 2048) with false by lia. replace (c <? 65536) with true by lia.
      rewrite <- (Z.div_unique c 4096 (a - 224) ((b - 128) * 64 + (d - 128))) by (subst c; lia).
      rewrite <- (Z.div_unique c 64 ((a - 224) * 64 + (b - 128)) (d - 128)) by (subst c; lia).
      rewrite <- (Z.mod_unique ((a - 224) * 64 + (b - 128)) 64 (a - 224) (b - 128)) by lia.
      rewrite <- (Z.mod_unique c 64 ((a - 224) * 64 + (b - 128)) (d - 128)) by (subst c; lia).
      split; [lia|]. repeat (f_equal; [lia|]). f_equal. lia.
    + unfold isc, pair4, isc in W. destruct W as (H1 & H2 & H3 & ->). unfold scalar, utf8.
      set (c := (a - 240) * 262144 + (b - 128) * 4096 + (d - 128) * 64 + (e - 128)).
      assert (Hc : 65536 <= c <= 1114111) by (subst c; lia).
      replace (c <? 128) with false by lia. replace (c <? 2048) with false by lia. replace (c <? 65536) with false by lia.
      rewrite <- (Z.div_unique c 262144 (a - 240) ((b - 128) * 4096 + (d - 128) * 64 + (e - 128))) by (subst c; lia).
      rewrite <- (Z.div_unique c 4096 ((a - 240) * 64 + (b - 128)) ((d - 128) * 64 + (e - 128))) by (subst c; lia).
      rewrite <- (Z.div_unique c 64 ((a - 240) * 4096 + (b - 128) * 64 + (d - 128)) (e - 128)) by (subst c; lia).
      rewrite <- (Z.mod_unique ((a - 240) * 64 + (b - 128)) 64 (a - 240) (b - 128)) by lia.
      rewrite <- (Z.mod_unique ((a - 240) * 4096 + (b - 128) * 64 + (d - 128)) 64 ((a - 240) * 64 + (b - 128)) (d - 128)) by lia.
      rewrite <- (Z.mod_unique c 64 ((a - 240) * 4096 + (b - 128) * 64 + (d - 128)) (e - 128)) by (subst c; lia).
      split; [lia|]. repeat (f_equal; [lia|]). f_equal. lia.
  - intros [[Hr Hs] ->]. unfold utf8.
    destruct (c <? 128) eqn:E1; [cbn; lia|].
    assert (X0 : 0 <= c mod 64 < 64) by (apply Z.mod_pos_bound; lia).
    assert (D0 : c = 64 * (c / 64) + c mod 64) by (apply Z.div_mod; lia).
    destruct (c <? 2048) eqn:E2.
    { cbn [wf_char]. unfold isc. lia. }
    assert (X1 : 0 <= c / 64 mod 64 < 64) by (apply Z.mod_pos_bound; lia).
    assert (D1 : c / 64 = 64 * (c / 64 / 64) + c / 64 mod 64) by (apply Z.div_mod; lia).
    rewrite Z.div_div in D1 by lia. change (64 * 64) with 4096 in D1.
    destruct (c <? 65536) eqn:E3.
    { cbn [wf_char]. unfold isc, pair3, isc. lia. }
    assert (X2 : 0 <= c / 4096 mod 64 < 64) by (apply Z.mod_pos_bound; lia).
    assert (D2 : c / 4096 = 64 * (c / 4096 / 64) + c / 4096 mod 64) by (apply Z.div_mod; lia).
    rewrite Z.div_div in D2 by lia. change (4096 * 64) with 262144 in D2.
    cbn [wf_char]. unfold isc, pair4, isc. lia.
Qed.

Lemma utf8_len c : (1 <= length (utf8 c) <= 4)%nat.
Proof. unfold utf8. destruct (c <? 128), (c <? 2048), (c <? 65536); cbn; lia. Qed.

Lemma push_ok bs : forall m it en, mapped m it (length bs) -> it + Z.of_nat (length bs) <= en ->
  exists m', push m it en bs = Ok (m', it + Z.of_nat (length bs), true) /\ written m m' it bs.
Proof.
  induction bs as [|b bs IH]; intros m it en Hm He; cbn [push length] in *.
  - exists m. rewrite Z.add_0_r. split; [reflexivity|apply written_nil].
  - replace (it =? en) with false by lia. rewrite store_ok by (apply (mapped_hd _ _ _ Hm); lia). cbn [bind].
    destruct (IH (upd m it b) (it + 1) en) as (m' & -> & W); [apply upd_mapped, mapped_tl, Hm|lia|].
    exists m'. split; [okeq|apply written_cons, W].
Qed.

Lemma push_over bs : forall m it en, mapped m it (Z.to_nat (en - it)) -> it <= en < it + Z.of_nat (length bs) ->
  exists m', push m it en bs = Ok (m', en, false) /\ same_outside m m' it (Z.to_nat (en - it)).
Proof.
  induction bs as [|b bs IH]; intros m it en Hm He; cbn [push length] in *; [lia|].
  destruct (it =? en) eqn:E.
  - assert (it = en) by lia. subst. exists m. split; [reflexivity|intros a _; reflexivity].
  - rewrite store_ok by (apply (mapped_hd _ _ _ Hm); lia). cbn [bind].
    destruct (IH (upd m it b) (it + 1) en) as (m' & -> & W); [|lia|].
    + apply upd_mapped. eapply mapped_sub; [exact Hm|lia|lia].
    + exists m'. split; [reflexivity|]. intros a Ha. rewrite W by lia. unfold upd. replace (a =? it) with false by lia. reflexivity.
Qed.

Lemma wcrtomb_ok m mbs c st : 0 <= c <= 1114111 -> mapped m mbs (length (utf8 c)) -> fst st = 0 ->
  exists m', wcrtomb m mbs c st = Ok (m', Z.of_nat (length (utf8 c)), mb_init, false) /\ written m m' mbs (utf8 c).
Proof.
  intros Hc Hm Hst. unfold wcrtomb, encode_wtranscode. replace (fst st =? 0) with true by lia. cbn [negb].
  cbn [eloop]. replace (mbs =? mbs + 4) with false by lia. cbn [orb Z.eqb]. unfold load, upd. cbn [Z.eqb bind].
  destruct (c =? 0) eqn:E.
  - assert (c = 0) by lia. subst c. cbn [bind]. rewrite store_ok by (apply (mapped_hd _ _ _ Hm); cbn; lia).
    cbn [bind]. eexists. split; [reflexivity|]. apply written_cons, written_nil.
  - unfold estep. rewrite enc_bytes_ok by lia. pose proof (utf8_len c).
    destruct (push_ok (utf8 c) m mbs (mbs + 4)) as (m' & -> & W); [exact Hm|lia|]. cbn [bind].
    change (0 + 1) with 1. rewrite Z.eqb_refl, orb_true_r. cbn [bind]. exists m'. split; [okeq|exact W].
Qed.

Lemma wcrtomb_big m mbs c st : 1114111 < c -> fst st = 0 -> wcrtomb m mbs c st = Ok (m, -1, st, true).
Proof.
  intros Hc Hst. unfold wcrtomb, encode_wtranscode. replace (fst st =? 0) with true by lia. cbn [negb].
  cbn [eloop]. replace (mbs =? mbs + 4) with false by lia. cbn [orb Z.eqb]. unfold load, upd. cbn [Z.eqb bind].
  replace (c =? 0) with false by lia. unfold estep. rewrite enc_bytes_big by lia. reflexivity.
Qed.

Lemma roundtrip fuel m mbs c w wp n : scalar c -> mapped m mbs (length (utf8 c)) -> w wp <> None ->
  (length (utf8 c) <= n)%nat -> (4 < fuel)%nat ->
  exists m' w' st', wcrtomb m mbs c mb_init = Ok (m', Z.of_nat (length (utf8 c)), mb_init, false) /\
    (length (utf8 c) <= 4)%nat /\ wf_char (utf8 c) c /\ written m m' mbs (utf8 c) /\
    mbrtowc fuel m' w (Some wp) mbs n mb_init = Ok (w', if c =? 0 then 0 else Z.of_nat (length (utf8 c)), st', false) /\
    written w w' wp [c] /\ fst st' = 0.
Proof.
  intros Hc Hm Hw Hn Hf. destruct (wcrtomb_ok m mbs c mb_init) as (m' & E & W); try assumption; try reflexivity; [apply Hc|].
  assert (Wf : wf_char (utf8 c) c) by (apply wf_utf8; auto). pose proof (utf8_len c).
  destruct (mbrtowc_char fuel m' w wp mbs n mb_init [] (utf8 c) c) as (w' & st' & E2 & W2 & R); try assumption; try lia.
  - apply rep_init.
  - eapply wf_nonempty; eassumption.
  - apply W.
  - exists m', w', st'. repeat (split; [assumption || lia|]). apply (rep_progress _ _ R). reflexivity.
Qed.

(** ** wcsrtombs *)

Lemma eloop_ok ws : forall f m it en w wit wen,
  Forall (fun c => 0 < c <= 1114111) ws -> bytes_at w wit ws -> (forall j, (j < length ws)%nat -> wit + Z.of_nat j <> wen) ->
  mapped m it (length (enc ws)) -> it + Z.of_nat (length (enc ws)) <= en ->
  exists m', eloop (length ws + f) m it en w wit wen =
             eloop f m' (it + Z.of_nat (length (enc ws))) en w (wit + Z.of_nat (length ws)) wen /\
             written m m' it (enc ws).
Proof.
  induction ws as [|c ws IH]; intros f m it en w wit wen Hf Hb Hw Hm He.
  - cbn [enc map concat length Nat.add] in *. rewrite !Z.add_0_r. exists m. split; [reflexivity|apply written_nil].
  - inversion Hf; subst. unfold enc in *. cbn [map concat length Nat.add] in *. rewrite app_length in *. pose proof (utf8_len c).
    pose proof (Hw 0%nat ltac:(lia)) as H0. rewrite Z.add_0_r in H0.
    cbn [eloop]. replace (it =? en) with false by lia. replace (wit =? wen) with false by lia. cbn [orb].
    apply bytes_at_cons in Hb as [Hb0 Hb]. unfold load. rewrite Hb0. cbn [bind]. replace (c =? 0) with false by lia.
    unfold estep. rewrite enc_bytes_ok by lia.
    destruct (push_ok (utf8 c) m it en) as (m1 & -> & W1); [eapply mapped_sub; [exact Hm|lia|lia]|lia|]. cbn [bind].
    destruct (IH f m1 (it + Z.of_nat (length (utf8 c))) en w (wit + 1) wen) as (m2 & E & W2); try assumption; try lia.
    + intros j Hj. specialize (Hw (S j) ltac:(lia)). lia.
    + eapply written_mapped; [exact W1|]. eapply mapped_sub; [exact Hm|lia|lia].
    + exists m2. split; [|eapply written_app; eassumption]. rewrite E.
      replace (it + Z.of_nat (length (utf8 c)) + Z.of_nat (length (concat (map utf8 ws)))) with
        (it + Z.of_nat (length (utf8 c) + length (concat (map utf8 ws)))) by lia.
      replace (wit + 1 + Z.of_nat (length ws)) with (wit + Z.of_nat (S (length ws))) by lia. reflexivity.
Qed.

(** whole string fits, with or without its terminator *)
Lemma wcsrtombs_all fuel m w p wcs ws limit :
  0 < wcs -> bytes_at w wcs (ws ++ [0]) -> Forall (fun c => 0 < c <= 1114111) ws ->
  (length (enc ws) <= limit)%nat -> mapped m p (Nat.min limit (length (enc ws) + 1)) -> (length ws < fuel)%nat ->
  exists m', wcsrtombs fuel m w (Some p) wcs limit mb_init =
    Ok (m', Z.of_nat (length (enc ws)), if (length (enc ws) <? limit)%nat then None else Some (wcs + Z.of_nat (length ws)), mb_init, false)
    /\ written m m' p (firstn limit (enc ws ++ [0])).
Proof.
  intros Hp Hb Hf Hl Hm Hfu. apply bytes_at_app in Hb as [Hb Hz]. apply bytes_at_cons in Hz as [Hz _].
  unfold wcsrtombs, encode_wtranscode. cbn [mb_init fst Z.eqb negb].
  replace fuel with (length ws + (fuel - length ws))%nat by lia.
  destruct (eloop_ok ws (fuel - length ws) m p (p + Z.of_nat limit) w wcs 0) as (m1 & -> & W); try assumption; try lia.
  { eapply mapped_sub; [exact Hm|lia|lia]. }
  destruct (fuel - length ws)%nat as [|f] eqn:Efu; [lia|]. cbn [eloop].
  replace (wcs + Z.of_nat (length ws) =? 0) with false by lia.
  destruct (length (enc ws) <? limit)%nat eqn:El.
  - replace (p + Z.of_nat (length (enc ws)) =? p + Z.of_nat limit) with false by lia. cbn [orb].
    unfold load. rewrite Hz. cbn [bind Z.eqb].
    replace (p + Z.of_nat (length (enc ws)) - p) with (Z.of_nat (length (enc ws))) by lia.
    replace (Z.of_nat (length (enc ws)) <? Z.of_nat limit) with true by lia.
    rewrite store_ok; [cbn [bind]|].
    + eexists. split; [reflexivity|]. rewrite firstn_all2 by (rewrite app_length; cbn; lia).
      eapply written_app; [exact W|]. apply written_cons, written_nil.
    + apply (written_mapped _ _ _ _ _ _ W Hm). lia.
  - replace (p + Z.of_nat (length (enc ws)) =? p + Z.of_nat limit) with true by lia. cbn [orb bind].
    exists m1. split; [okeq|]. rewrite firstn_app. replace (limit - length (enc ws))%nat with 0%nat by lia.
    cbn [firstn]. rewrite app_nil_r, firstn_all2 by lia. exact W.
Qed.

(** the limit is reached exactly at a character boundary *)
Lemma wcsrtombs_cut fuel m w p wcs ws :
  0 < wcs -> bytes_at w wcs ws -> Forall (fun c => 0 < c <= 1114111) ws ->
  mapped m p (length (enc ws)) -> (length ws < fuel)%nat ->
  exists m', wcsrtombs fuel m w (Some p) wcs (length (enc ws)) mb_init =
    Ok (m', Z.of_nat (length (enc ws)), Some (wcs + Z.of_nat (length ws)), mb_init, false) /\ written m m' p (enc ws).
Proof.
  intros Hp Hb Hf Hm Hfu. unfold wcsrtombs, encode_wtranscode. cbn [mb_init fst Z.eqb negb].
  replace fuel with (length ws + (fuel - length ws))%nat by lia.
  destruct (eloop_ok ws (fuel - length ws) m p (p + Z.of_nat (length (enc ws))) w wcs 0) as (m1 & -> & W); try assumption; try lia.
  destruct (fuel - length ws)%nat as [|f] eqn:Efu; [lia|]. cbn [eloop].
  replace (wcs + Z.of_nat (length ws) =? 0) with false by lia. rewrite Z.eqb_refl. cbn [orb bind].
  exists m1. split; [okeq|exact W].
Qed.

(** an invalid character before the limit *)
Lemma wcsrtombs_bad fuel m w p wcs ws c limit :
  0 < wcs -> bytes_at w wcs (ws ++ [c]) -> Forall (fun c => 0 < c <= 1114111) ws -> 1114111 < c ->
  (length (enc ws) < limit)%nat -> mapped m p (length (enc ws)) -> (length ws < fuel)%nat ->
  exists m', wcsrtombs fuel m w (Some p) wcs limit mb_init = Ok (m', -1, Some wcs, mb_init, true) /\ written m m' p (enc ws).
Proof.
  intros Hp Hb Hf Hc Hl Hm Hfu. apply bytes_at_app in Hb as [Hb Hz]. apply bytes_at_cons in Hz as [Hz _].
  unfold wcsrtombs, encode_wtranscode. cbn [mb_init fst Z.eqb negb].
  replace fuel with (length ws + (fuel - length ws))%nat by lia.
  destruct (eloop_ok ws (fuel - length ws) m p (p + Z.of_nat limit) w wcs 0) as (m1 & -> & W); try assumption; try lia.
  destruct (fuel - length ws)%nat as [|f] eqn:Efu; [lia|]. cbn [eloop].
  replace (wcs + Z.of_nat (length ws) =? 0) with false by lia.
  replace (p + Z.of_nat (length (enc ws)) =? p + Z.of_nat limit) with false by lia. cbn [orb].
  unfold load. rewrite Hz. cbn [bind]. replace (c =? 0) with false by lia. unfold estep. rewrite enc_bytes_big by lia.
  cbn [bind]. exists m1. split; [reflexivity|exact W].
Qed.

(** the next character does not fit into what is left of the buffer *)
Lemma wcsrtombs_straddle fuel m w p wcs ws c limit :
  0 < wcs -> bytes_at w wcs (ws ++ [c]) -> Forall (fun c => 0 < c <= 1114111) (ws ++ [c]) ->
  (length (enc ws) < limit < length (enc ws) + length (utf8 c))%nat -> mapped m p limit -> (length ws < fuel)%nat ->
  wcsrtombs fuel m w (Some p) wcs limit mb_init = Abort.
Proof.
  intros Hp Hb Hf Hl Hm Hfu. apply bytes_at_app in Hb as [Hb Hz]. apply bytes_at_cons in Hz as [Hz _].
  apply Forall_app in Hf as [Hf Hc]. inversion Hc; subst.
  unfold wcsrtombs, encode_wtranscode. cbn [mb_init fst Z.eqb negb].
  replace fuel with (length ws + (fuel - length ws))%nat by lia.
  destruct (eloop_ok ws (fuel - length ws) m p (p + Z.of_nat limit) w wcs 0) as (m1 & -> & W); try assumption; try lia.
  { eapply mapped_sub; [exact Hm|lia|lia]. }
  destruct (fuel - length ws)%nat as [|f] eqn:Efu; [lia|]. cbn [eloop].
  replace (wcs + Z.of_nat (length ws) =? 0) with false by lia.
  replace (p + Z.of_nat (length (enc ws)) =? p + Z.of_nat limit) with false by lia. cbn [orb].
  unfold load. rewrite Hz. cbn [bind]. replace (c =? 0) with false by lia. unfold estep. rewrite enc_bytes_ok by lia.
  destruct (push_over (utf8 c) m1 (p + Z.of_nat (length (enc ws))) (p + Z.of_nat limit)) as (m2 & -> & _).
  - eapply written_mapped; [exact W|]. eapply mapped_sub; [exact Hm|lia|lia].
  - lia.
  - reflexivity.
Qed.

Lemma wcsnrtombs_straddle fuel m w p wcs ws c limit wlimit :
  0 < wcs -> bytes_at w wcs (ws ++ [c]) -> Forall (fun c => 0 < c <= 1114111) (ws ++ [c]) -> (length ws < wlimit)%nat ->
  (length (enc ws) < limit < length (enc ws) + length (utf8 c))%nat -> mapped m p limit -> (length ws < fuel)%nat ->
  exists m', wcsnrtombs fuel m w p wcs wlimit limit mb_init =
    Ok (m', Z.of_nat (length (enc ws)), Some (wcs + Z.of_nat (length ws)), mb_init, false) /\
    bytes_at m' p (enc ws) /\ same_outside m m' p limit.
Proof.
  intros Hp Hb Hf Hwl Hl Hm Hfu. apply bytes_at_app in Hb as [Hb Hz]. apply bytes_at_cons in Hz as [Hz _].
  apply Forall_app in Hf as [Hf Hc]. inversion Hc; subst.
  unfold wcsnrtombs, encode_wtranscode. cbn [mb_init fst Z.eqb negb].
  replace fuel with (length ws + (fuel - length ws))%nat by lia.
  destruct (eloop_ok ws (fuel - length ws) m p (p + Z.of_nat limit) w wcs (wcs + Z.of_nat wlimit)) as (m1 & -> & W); try assumption; try lia.
  { eapply mapped_sub; [exact Hm|lia|lia]. }
  destruct (fuel - length ws)%nat as [|f] eqn:Efu; [lia|]. cbn [eloop].
  replace (wcs + Z.of_nat (length ws) =? wcs + Z.of_nat wlimit) with false by lia.
  replace (p + Z.of_nat (length (enc ws)) =? p + Z.of_nat limit) with false by lia. cbn [orb].
  unfold load. rewrite Hz. cbn [bind]. replace (c =? 0) with false by lia. unfold estep. rewrite enc_bytes_ok by lia.
  destruct (push_over (utf8 c) m1 (p + Z.of_nat (length (enc ws))) (p + Z.of_nat limit)) as (m2 & -> & S2).
  - eapply written_mapped; [exact W|]. eapply mapped_sub; [exact Hm|lia|lia].
  - lia.
  - cbn [bind]. exists m2. split; [okeq|]. split.
    + intros i Hi. rewrite S2 by lia. apply W, Hi.
    + intros a Ha. rewrite S2 by lia. apply W. lia.
Qed.

Lemma wcsrtombs_count fuel m w wcs ws limit :
  0 < wcs -> bytes_at w wcs (ws ++ [0]) -> Forall (fun c => 0 < c <= 1114111) ws -> (length ws < fuel)%nat ->
  wcsrtombs fuel m w None wcs limit mb_init = Ok (m, Z.of_nat (length (enc ws)), Some wcs, mb_init, false).
Proof.
  intros Hp Hb Hf Hfu. unfold wcsrtombs. cbn [mb_init fst Z.eqb negb].
  assert (G : forall ws fuel wcs n, 0 < wcs -> bytes_at w wcs (ws ++ [0]) -> Forall (fun c => 0 < c <= 1114111) ws -> (length ws < fuel)%nat ->
    elen_loop fuel w wcs 0 n = Ok (NullTerm, n + Z.of_nat (length (enc ws)))).
  { clear. induction ws as [|c ws IH]; intros fuel wcs n Hp Hb Hf Hfu; (destruct fuel as [|f]; [cbn in Hfu; lia|]);
      cbn [elen_loop]; replace (wcs =? 0) with false by lia; cbn [app] in Hb; apply bytes_at_cons in Hb as [Hz Hb]; unfold load; rewrite Hz; cbn [bind].
    - cbn. rewrite Z.add_0_r. reflexivity.
    - inversion Hf; subst. replace (c =? 0) with false by lia. rewrite enc_bytes_ok by lia.
      rewrite IH; [|lia|assumption|assumption|cbn in Hfu; lia]. unfold enc. cbn [map concat]. rewrite app_length. okeq. }
  rewrite (G ws) by assumption. reflexivity.
Qed.
