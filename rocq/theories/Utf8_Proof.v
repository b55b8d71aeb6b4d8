From Verif Require Import Base Mem_Model Mem_Proof Str_Spec Str_Model Str_Proof Utf8_Model Utf8_Spec Utf8_Client.
Open Scope Z_scope.

(** ** Bit operations as arithmetic *)
Definition byte_masks (b : Z) : bool :=
  Bool.eqb (Z.land b 128 =? 0) (b <? 128) &&
  Bool.eqb (Z.land b 224 =? 192) ((192 <=? b) && (b <? 224)) &&
  Bool.eqb (Z.land b 240 =? 224) ((224 <=? b) && (b <? 240)) &&
  Bool.eqb (Z.land b 248 =? 240) ((240 <=? b) && (b <? 248)) &&
  Bool.eqb (Z.land b 192 =? 128) ((128 <=? b) && (b <? 192)) &&
  (Z.land b 31 =? b mod 32) && (Z.land b 15 =? b mod 16) && (Z.land b 7 =? b mod 8) && (Z.land b 63 =? b mod 64).
Lemma byte_masks_all : forallb (fun i => byte_masks (Z.of_nat i)) (seq 0 256) = true.
Proof. vm_compute. reflexivity. Qed.
Lemma byte_masks_ok b : 0 <= b < 256 -> byte_masks b = true.
Proof.
  intros H. pose proof byte_masks_all as A. rewrite forallb_forall in A.
  specialize (A (Z.to_nat b)). rewrite Z2Nat.id in A by lia. apply A, in_seq. lia.
Qed.

Lemma lor_add6 c x : 0 <= x < 64 -> Z.lor (Z.shiftl c 6) x = c * 64 + x.
Proof.
  intros Hx. rewrite Z.shiftl_mul_pow2 by lia. change (2^6) with 64.
  assert (L : Z.land (c * 64) x = 0).
  { apply Z.bits_inj'. intros n Hn. rewrite Z.land_spec, Z.bits_0.
    destruct (Z_lt_le_dec n 6).
    + replace (c * 64) with (c * 2^6) by reflexivity. rewrite Z.mul_pow2_bits_low by lia. reflexivity.
    + replace x with (x mod 2^6) by (apply Z.mod_small; lia). rewrite Z.mod_pow2_bits_high by lia. apply andb_false_r. }
  rewrite <- (Z.lxor_lor _ _ L), <- Z.add_nocarry_lxor by exact L. reflexivity.
Qed.

(** ** dstep in arithmetic form *)
Definition dstep' (ds : mbstate) (uc : Z) : option mbstate :=
  let '(pr, cp) := ds in
  if pr =? 0 then
    if uc <? 128 then Some (0, uc)
    else if (192 <=? uc) && (uc <? 224) then
      if uc <? 194 then None else Some (1, uc mod 32)
    else if (224 <=? uc) && (uc <? 240) then Some (2, uc mod 16)
    else if (240 <=? uc) && (uc <? 248) then
      if 245 <=? uc then None else Some (3, uc mod 8)
    else None
  else
    if (128 <=? uc) && (uc <? 192) then
      if (pr =? 2) && (cp =? 0) && (uc <? 160) then None
      else if (pr =? 2) && (cp =? 13) && (160 <=? uc) then None
      else if (pr =? 3) && (cp =? 0) && (uc <? 144) then None
      else if (pr =? 3) && (cp =? 4) && (144 <=? uc) then None
      else Some (pr - 1, cp * 64 + uc mod 64)
    else None.

Lemma dstep_arith ds b : 0 <= b < 256 -> 0 <= snd ds < 2^26 -> dstep ds b = dstep' ds b.
Proof.
  intros Hb Hc. pose proof (byte_masks_ok b Hb) as M. destruct ds as [pr cp]. cbn [snd] in Hc.
  unfold byte_masks in M. repeat rewrite andb_true_iff in M.
  destruct M as [[[[[[[[M1 M2] M3] M4] M5] M6] M7] M8] M9].
  apply Bool.eqb_prop in M1, M2, M3, M4, M5. apply Z.eqb_eq in M6, M7, M8, M9.
  unfold dstep, dstep'. rewrite M1, M2, M3, M4, M5, M6, M7, M8, M9.
  replace (Z.shiftl cp 6 mod 2^32) with (Z.shiftl cp 6).
  - rewrite lor_add6; [reflexivity|]. apply Z.mod_pos_bound. lia.
  - rewrite Z.shiftl_mul_pow2 by lia. symmetry. apply Z.mod_small. lia.
Qed.

(** ** Decoder state as a pending prefix *)
Definition rep (p : list Z) (ds : mbstate) : Prop :=
  let '(g, c) := ds in
  match p with
  | [] => g = 0
  | [a] => (194 <= a <= 223 /\ g = 1 /\ c = a - 192) \/ (224 <= a <= 239 /\ g = 2 /\ c = a - 224) \/
           (240 <= a <= 244 /\ g = 3 /\ c = a - 240)
  | [a; b] => (pair3 a b /\ g = 1 /\ c = (a - 224) * 64 + (b - 128)) \/
              (pair4 a b /\ g = 2 /\ c = (a - 240) * 64 + (b - 128))
  | [a; b; d] => pair4 a b /\ isc d /\ g = 1 /\ c = (a - 240) * 4096 + (b - 128) * 64 + (d - 128)
  | _ => False
  end /\ 0 <= c <= 1114111.

Definition vpre (p : list Z) : Prop :=
  match p with
  | [] => True
  | [a] => 194 <= a <= 244
  | [a; b] => pair3 a b \/ pair4 a b
  | [a; b; c] => pair4 a b /\ isc c
  | _ => False
  end.

Lemma viable_iff l : viable l <-> vpre l.
Proof.
  split.
  - intros (r & c & Hr & H). destruct r as [|r0 r]; [congruence|].
    destruct l as [|a [|b [|d [|e l]]]]; cbn [app vpre] in *; auto.
    + destruct r as [|r1 [|r2 [|? ?]]]; cbn in H; unfold pair3, pair4, isc in *; lia.
    + destruct r as [|r1 [|? ?]]; cbn in H; tauto.
    + destruct r as [|? ?]; cbn in H; tauto.
    + destruct l; destruct H.
  - intros H. destruct l as [|a [|b [|d [|e l]]]]; cbn [vpre] in H.
    + exists [0], 0. split; [discriminate|]. cbn. lia.
    + destruct (Z_lt_le_dec a 224); [|destruct (Z_lt_le_dec a 240)].
      * exists [128]. eexists. split; [discriminate|]. cbn. unfold isc. repeat split; lia.
      * destruct (Z.eq_dec a 224); [exists [160;128]|exists [128;128]]; eexists; (split; [discriminate|]); cbn;
          unfold pair3, isc; repeat split; lia.
      * destruct (Z.eq_dec a 240); [exists [144;128;128]|exists [128;128;128]]; eexists; (split; [discriminate|]); cbn;
          unfold pair4, isc; repeat split; lia.
    + destruct H as [H|H].
      * exists [128]. eexists. split; [discriminate|]. cbn. unfold isc. repeat split; try lia. exact H.
      * exists [128;128]. eexists. split; [discriminate|]. cbn. unfold isc. repeat split; try lia. exact H.
    + exists [128]. eexists. split; [discriminate|]. cbn. destruct H. unfold isc in *. repeat split; try lia. assumption.
    + destruct H.
Qed.

Lemma wf_not_vpre l c : wf_char l c -> vpre l -> False.
Proof.
  destruct l as [|a [|b [|d [|e [|f l]]]]]; cbn; unfold pair3, pair4, isc; try tauto; lia.
Qed.

Lemma wf_char_fun l c c' : wf_char l c -> wf_char l c' -> c = c'.
Proof. destruct l as [|a [|b [|d [|e [|f l]]]]]; cbn; try tauto; intuition congruence. Qed.

Lemma dead_iff l : dead l <-> ~ vpre l /\ ~ exists c, wf_char l c.
Proof.
  split.
  - intros H. split.
    + intros V. apply viable_iff in V as (r & c & _ & W). apply H. eauto.
    + intros [c W]. apply H. exists [], c. rewrite app_nil_r. exact W.
  - intros [H1 H2] (r & c & W). destruct r as [|x r].
    + rewrite app_nil_r in W. eauto.
    + apply H1, viable_iff. exists (x :: r), c. split; [discriminate|exact W].
Qed.

Lemma wf_range l c : wf_char l c -> 0 <= c <= 1114111 /\ Forall (fun b => 0 <= b < 256) l.
Proof.
  destruct l as [|a [|b [|d [|e [|f l]]]]]; cbn; unfold pair3, pair4, isc; try tauto; intros H;
    (split; [lia|repeat constructor; lia]).
Qed.

Lemma wf_nonempty l c : wf_char l c -> l <> [].
Proof. destruct l; cbn; [tauto|discriminate]. Qed.

Lemma rep_bound p ds : rep p ds -> 0 <= snd ds < 2^26.
Proof. destruct ds. unfold rep. cbn [snd]. lia. Qed.

Lemma rep_progress p ds : rep p ds -> fst ds = 0 <-> p = [].
Proof.
  destruct ds as [g c]. unfold rep. intros [H _]. cbn [fst].
  destruct p as [|a [|b [|d [|e p]]]]; (split; [intros E; try reflexivity; exfalso; lia|intros E; try discriminate; try lia]).
Qed.

Lemma rep_vpre p ds : rep p ds -> vpre p.
Proof.
  destruct ds as [g c]. unfold rep. intros [H _].
  destruct p as [|a [|b [|d [|e p]]]]; cbn; tauto || lia.
Qed.

Lemma step0 ds b : rep [] ds -> 0 <= b < 256 ->
  match dstep' ds b with
  | None => ~ vpre [b] /\ ~ exists c, wf_char [b] c
  | Some ds' => (vpre [b] /\ rep [b] ds' /\ fst ds' <> 0) \/ (wf_char [b] (snd ds') /\ fst ds' = 0)
  end.
Proof.
  destruct ds as [g c]. cbn [rep]. intros [-> _] Hb. cbn [dstep' Z.eqb].
  destruct (b <? 128) eqn:E1; [right; cbn; lia|].
  destruct ((192 <=? b) && (b <? 224)) eqn:E2.
  - destruct (b <? 194) eqn:E3; [split; [cbn; lia|intros [x Hx]; cbn in Hx; lia]|].
    left. replace (b mod 32) with (b - 192) by (pose proof (Z.mod_unique b 32 6 (b - 192)); lia). cbn; lia.
  - destruct ((224 <=? b) && (b <? 240)) eqn:E3.
    + left. replace (b mod 16) with (b - 224) by (pose proof (Z.mod_unique b 16 14 (b - 224)); lia). cbn; lia.
    + destruct ((240 <=? b) && (b <? 248)) eqn:E4.
      * destruct (245 <=? b) eqn:E5; [split; [cbn; lia|intros [x Hx]; cbn in Hx; lia]|].
        left. replace (b mod 8) with (b - 240) by (pose proof (Z.mod_unique b 8 30 (b - 240)); lia). cbn; lia.
      * split; [cbn; lia|intros [x Hx]; cbn in Hx; lia].
Qed.

Lemma step1 a ds b : rep [a] ds -> 0 <= b < 256 ->
  match dstep' ds b with
  | None => ~ vpre [a;b] /\ ~ exists c, wf_char [a;b] c
  | Some ds' => (vpre [a;b] /\ rep [a;b] ds' /\ fst ds' <> 0) \/ (wf_char [a;b] (snd ds') /\ fst ds' = 0)
  end.
Proof.
  destruct ds as [g c]. unfold rep at 1. intros [H Hc] Hb. unfold dstep'.
  replace (g =? 0) with false by lia.
  destruct ((128 <=? b) && (b <? 192)) eqn:E1.
  2:{ split; [cbn; unfold pair3, pair4, isc; lia|intros [x Hx]; cbn in Hx; unfold isc in Hx; lia]. }
  assert (Hm : b mod 64 = b - 128) by (pose proof (Z.mod_unique b 64 2 (b - 128)); lia). rewrite Hm.
  destruct H as [(Ha & -> & ->)|[(Ha & -> & ->)|(Ha & -> & ->)]]; cbn [Z.eqb andb Pos.eqb].
  - right. cbn. unfold isc. lia.
  - destruct ((a - 224 =? 0) && (b <? 160)) eqn:E2.
    { split; [cbn; unfold pair3, pair4, isc; lia|intros [x Hx]; cbn in Hx; unfold isc in Hx; lia]. }
    destruct ((a - 224 =? 13) && (160 <=? b)) eqn:E3.
    { split; [cbn; unfold pair3, pair4, isc; lia|intros [x Hx]; cbn in Hx; unfold isc in Hx; lia]. }
    left. cbn [vpre rep fst]. unfold pair3, pair4, isc. repeat split; try lia.
  - destruct ((a - 240 =? 0) && (b <? 144)) eqn:E2.
    { split; [cbn; unfold pair3, pair4, isc; lia|intros [x Hx]; cbn in Hx; unfold isc in Hx; lia]. }
    destruct ((a - 240 =? 4) && (144 <=? b)) eqn:E3.
    { split; [cbn; unfold pair3, pair4, isc; lia|intros [x Hx]; cbn in Hx; unfold isc in Hx; lia]. }
    left. cbn [vpre rep fst]. unfold pair3, pair4, isc. repeat split; try lia.
Qed.

Lemma step2 a d ds b : rep [a;d] ds -> 0 <= b < 256 ->
  match dstep' ds b with
  | None => ~ vpre [a;d;b] /\ ~ exists c, wf_char [a;d;b] c
  | Some ds' => (vpre [a;d;b] /\ rep [a;d;b] ds' /\ fst ds' <> 0) \/ (wf_char [a;d;b] (snd ds') /\ fst ds' = 0)
  end.
Proof.
  destruct ds as [g c]. unfold rep at 1. intros [H Hc] Hb. unfold dstep'.
  replace (g =? 0) with false by lia.
  destruct ((128 <=? b) && (b <? 192)) eqn:E1.
  2:{ split; [cbn; unfold isc; lia|intros [x Hx]; cbn in Hx; unfold isc in Hx; lia]. }
  assert (Hm : b mod 64 = b - 128) by (pose proof (Z.mod_unique b 64 2 (b - 128)); lia). rewrite Hm. clear Hm.
  destruct H as [(Ha & -> & ->)|(Ha & -> & ->)]; cbn [Z.eqb andb Pos.eqb].
  - right. cbn [wf_char snd fst]. unfold isc. repeat split; try lia. exact Ha.
  - assert (16 <= (a - 240) * 64 + (d - 128) <= 4 * 64 + 15) by (unfold pair4, isc in Ha; lia).
    replace ((a - 240) * 64 + (d - 128) =? 0) with false by lia.
    replace ((a - 240) * 64 + (d - 128) =? 13) with false by lia. cbn [andb].
    left. cbn [vpre rep fst]. unfold isc. repeat split; try assumption; try lia.
Qed.

Lemma step3 a d e ds b : rep [a;d;e] ds -> 0 <= b < 256 ->
  match dstep' ds b with
  | None => ~ vpre [a;d;e;b] /\ ~ exists c, wf_char [a;d;e;b] c
  | Some ds' => (vpre [a;d;e;b] /\ rep [a;d;e;b] ds' /\ fst ds' <> 0) \/ (wf_char [a;d;e;b] (snd ds') /\ fst ds' = 0)
  end.
Proof.
  destruct ds as [g c]. unfold rep at 1. intros [(Ha & He & -> & ->) Hc] Hb. unfold dstep'.
  cbn [Z.eqb andb Pos.eqb].
  destruct ((128 <=? b) && (b <? 192)) eqn:E1.
  2:{ split; [cbn; tauto|intros [x Hx]; cbn in Hx; unfold isc in Hx; lia]. }
  assert (Hm : b mod 64 = b - 128) by (pose proof (Z.mod_unique b 64 2 (b - 128)); lia). rewrite Hm. clear Hm.
  right. cbn [wf_char snd fst]. unfold isc in *. repeat split; try lia. exact Ha.
Qed.

Lemma step_ok p ds b : rep p ds -> 0 <= b < 256 ->
  match dstep ds b with
  | None => dead (p ++ [b])
  | Some ds' => (viable (p ++ [b]) /\ rep (p ++ [b]) ds' /\ fst ds' <> 0) \/ (wf_char (p ++ [b]) (snd ds') /\ fst ds' = 0)
  end.
Proof.
  intros Hr Hb. rewrite dstep_arith by (try assumption; apply (rep_bound p ds Hr)).
  assert (H : match dstep' ds b with
  | None => ~ vpre (p ++ [b]) /\ ~ exists c, wf_char (p ++ [b]) c
  | Some ds' => (vpre (p ++ [b]) /\ rep (p ++ [b]) ds' /\ fst ds' <> 0) \/ (wf_char (p ++ [b]) (snd ds') /\ fst ds' = 0)
  end).
  { destruct p as [|a [|d [|e [|f p]]]]; cbn [app].
    - apply step0; assumption.
    - apply step1; assumption.
    - apply step2; assumption.
    - apply step3; assumption.
    - destruct ds. destruct Hr as [[] _]. }
  destruct (dstep' ds b) as [ds'|].
  - destruct H as [H|H]; [left|right; exact H]. rewrite viable_iff. exact H.
  - apply dead_iff, H.
Qed.

(** ** One character of the loop *)
Lemma viable_not_wf l c : viable l -> wf_char l c -> False.
Proof. intros V W. apply viable_iff in V. eapply wf_not_vpre; eauto. Qed.

Lemma wf_prefix_viable p u c : u <> [] -> wf_char (p ++ u) c -> viable p.
Proof. intros Hu W. exists u, c. auto. Qed.

Lemma step_wf p ds b u c : rep p ds -> wf_char (p ++ b :: u) c ->
  exists ds', dstep ds b = Some ds' /\
    ((u <> [] /\ rep (p ++ [b]) ds' /\ fst ds' <> 0) \/ (u = [] /\ ds' = (0, c))).
Proof.
  intros Hr W. assert (Hb : 0 <= b < 256).
  { apply wf_range in W as [_ W]. apply Forall_app in W as [_ W]. inversion W; assumption. }
  pose proof (step_ok p ds b Hr Hb) as S. destruct (dstep ds b) as [ds'|].
  - exists ds'. split; [reflexivity|]. destruct S as [(V & R & G)|(W' & G)].
    + left. split; [|auto]. intros ->. eapply viable_not_wf; eauto.
    + right. destruct u as [|x u].
      * split; [reflexivity|]. destruct ds' as [g c']. cbn in *. subst g. f_equal. eapply wf_char_fun; eauto.
      * exfalso. eapply (viable_not_wf (p ++ [b])); [|exact W'].
        exists (x :: u), c. split; [discriminate|]. rewrite <- app_assoc. exact W.
  - exfalso. apply S. exists u, c. rewrite <- app_assoc. exact W.
Qed.

Lemma rep_done c : 0 <= c <= 1114111 -> rep [] (0, c).
Proof. cbn. lia. Qed.

Lemma dloop_char u : forall f fuel m it en w wit wen p ds c,
  rep p ds -> wf_char (p ++ u) c -> u <> [] -> bytes_at m it u ->
  (forall j, (j < length u)%nat -> it + Z.of_nat j <> en) -> wit <> wen -> fuel = (length u + f)%nat ->
  dloop fuel m it en w wit wen ds =
    if c =? 0 then Ok (Some NullTerm, it + Z.of_nat (length u), (0, c), w, wit)
    else w1 <- store w wit c ;; dloop f m (it + Z.of_nat (length u)) en w1 (wit + 1) wen (0, c).
Proof.
  induction u as [|b u IH]; intros f fuel m it en w wit wen p ds c Hr W Hne Hb Hen Hw ->; [congruence|].
  cbn [length Nat.add dloop].
  pose proof (Hen 0%nat ltac:(cbn; lia)) as H0. rewrite Z.add_0_r in H0.
  replace (it =? en) with false by lia. replace (wit =? wen) with false by lia. cbn [orb].
  apply bytes_at_cons in Hb as [Hb0 Hb]. unfold load. rewrite Hb0. cbn [bind].
  destruct (step_wf p ds b u c Hr W) as (ds' & -> & [(Hu & Hr' & Hg)|(-> & ->)]).
  - replace (fst ds' =? 0) with false by lia.
    rewrite (IH f _ m (it + 1) en w wit wen (p ++ [b]) ds' c); try assumption; try reflexivity.
    + replace (it + 1 + Z.of_nat (length u)) with (it + Z.of_nat (S (length u))) by lia. reflexivity.
    + rewrite <- app_assoc. exact W.
    + intros j Hj. specialize (Hen (S j) ltac:(cbn; lia)). lia.
  - cbn [fst snd length]. rewrite Z.eqb_refl. reflexivity.
Qed.

Lemma dloop_viable u : forall fuel m it en w wit wen p ds,
  rep p ds -> viable (p ++ u) -> bytes_at m it u -> Forall (fun b => 0 <= b < 256) u ->
  en = it + Z.of_nat (length u) -> wit <> wen -> (length u < fuel)%nat ->
  exists ds', dloop fuel m it en w wit wen ds = Ok (None, en, ds', w, wit) /\ rep (p ++ u) ds'.
Proof.
  induction u as [|b u IH]; intros fuel m it en w wit wen p ds Hr V Hb Hf -> Hw Hfu; (destruct fuel as [|fuel]; [cbn in Hfu; lia|]).
  - cbn [dloop length]. rewrite Z.add_0_r, Z.eqb_refl. exists ds. rewrite app_nil_r. auto.
  - cbn [dloop length]. replace (it =? it + Z.of_nat (S (length u))) with false by lia.
    replace (wit =? wen) with false by lia. cbn [orb].
    apply bytes_at_cons in Hb as [Hb0 Hb]. unfold load. rewrite Hb0. cbn [bind]. inversion Hf; subst.
    destruct V as (r & c & Hrn & W). rewrite <- app_assoc in W. cbn [app] in W.
    destruct (step_wf p ds b (u ++ r) c Hr W) as (ds' & -> & [(Hu & Hr' & Hg)|(E & ->)]).
    + replace (fst ds' =? 0) with false by lia.
      destruct (IH fuel m (it + 1) (it + Z.of_nat (S (length u))) w wit wen (p ++ [b]) ds') as (ds'' & E & R); try assumption; try lia.
      * exists r, c. split; [assumption|]. rewrite <- !app_assoc. exact W.
      * cbn in Hfu. lia.
      * exists ds''. rewrite E. split; [reflexivity|]. rewrite <- app_assoc in R. exact R.
    + exfalso. apply app_eq_nil in E as [_ E]. congruence.
Qed.

Lemma dloop_dead q : forall fuel m it en w wit wen p ds b,
  rep p ds -> viable (p ++ q) -> dead (p ++ q ++ [b]) -> bytes_at m it (q ++ [b]) ->
  Forall (fun b => 0 <= b < 256) (q ++ [b]) ->
  (forall j, (j <= length q)%nat -> it + Z.of_nat j <> en) -> wit <> wen -> (length q < fuel)%nat ->
  exists ds', dloop fuel m it en w wit wen ds = Ok (Some Illegal, it + Z.of_nat (length q), ds', w, wit).
Proof.
  induction q as [|x q IH]; intros fuel m it en w wit wen p ds b Hr V D Hb Hf Hen Hw Hfu; (destruct fuel as [|fuel]; [cbn in Hfu; lia|]).
  - cbn [dloop length app] in *. specialize (Hen 0%nat ltac:(lia)). rewrite Z.add_0_r in *.
    replace (it =? en) with false by lia. replace (wit =? wen) with false by lia. cbn [orb].
    apply bytes_at_cons in Hb as [Hb0 Hb]. unfold load. rewrite Hb0. cbn [bind]. inversion Hf; subst.
    pose proof (step_ok p ds b Hr ltac:(assumption)) as S. destruct (dstep ds b) as [ds'|]; [|eauto].
    exfalso. apply dead_iff in D as [D1 D2]. destruct S as [(V' & _)|(W & _)].
    + apply D1, viable_iff, V'.
    + apply D2. eauto.
  - cbn [dloop length app] in *. pose proof (Hen 0%nat ltac:(lia)) as H0. rewrite Z.add_0_r in H0.
    replace (it =? en) with false by lia. replace (wit =? wen) with false by lia. cbn [orb].
    apply bytes_at_cons in Hb as [Hb0 Hb]. unfold load. rewrite Hb0. cbn [bind]. inversion Hf; subst.
    destruct V as (r & c & Hrn & W). rewrite <- app_assoc in W. cbn [app] in W.
    destruct (step_wf p ds x (q ++ r) c Hr W) as (ds' & -> & [(Hu & Hr' & Hg)|(E & ->)]).
    + replace (fst ds' =? 0) with false by lia.
      destruct (IH fuel m (it + 1) en w wit wen (p ++ [x]) ds' b) as (ds'' & E); try assumption; try lia.
      * exists r, c. split; [assumption|]. rewrite <- !app_assoc. exact W.
      * rewrite <- app_assoc. exact D.
      * intros j Hj. specialize (Hen (S j) ltac:(lia)). lia.
      * exists ds''. rewrite E. replace (it + 1 + Z.of_nat (length q)) with (it + Z.of_nat (S (length q))) by lia. reflexivity.
    + exfalso. apply app_eq_nil in E as [_ E]. congruence.
Qed.
