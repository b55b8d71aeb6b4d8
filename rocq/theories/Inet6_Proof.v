From Verif Require Import Base Mem_Proof Strtol_Model Strtol_Spec Strtol_Proof Str_Spec Str_Proof Snprintf_Model Snprintf_Spec Snprintf_Proof
  Inet_Model Inet_Spec InetNum_Proof Inet4_Proof.
Open Scope Z_scope.

(** ** The longest run of zero groups *)
Fixpoint all_bools (n : nat) : list (list bool) :=
  match n with O => [[]] | S k => map (cons true) (all_bools k) ++ map (cons false) (all_bools k) end.
Lemma in_all n : forall bs, length bs = n -> In bs (all_bools n).
Proof.
  induction n as [|n IH]; intros [|b bs] H; try discriminate; [left; reflexivity|]. cbn. apply in_or_app.
  injection H as H. apply IH in H. destruct b; [left|right]; apply in_map, H.
Qed.
Definition run_at (bs : list bool) (o l : nat) : bool := forallb (fun k => nth (o + k) bs false) (seq 0 l).
Definition zr_ok (bs : list bool) : bool :=
  let '(zo, zl) := zero_run bs 0 0 0 0 0 in
  ((zl =? 0) || (2 <=? zl))%nat && (zo + zl <=? 8)%nat && run_at bs zo zl &&
  forallb (fun o => forallb (fun l => negb ((2 <=? l)%nat && run_at bs o l) || (l <? zl)%nat || ((l =? zl)%nat && (zo <=? o)%nat)) (seq 0 9)) (seq 0 9).
Lemma zr_all : forallb zr_ok (all_bools 8) = true.
Proof. vm_cast_no_check (eq_refl true). Qed.
Lemma zr bs : length bs = 8%nat -> zr_ok bs = true.
Proof. intros H. pose proof zr_all as A. rewrite forallb_forall in A. apply A, in_all, H. Qed.

Lemma run_repeat gs o l : run_at (map (fun g => g =? 0) gs) o l = true -> (o + l <= length gs)%nat -> gs = firstn o gs ++ repeat 0 l ++ skipn (o + l) gs.
Proof.
  revert o gs. induction l as [|l IH]; intros o gs H Hl; [cbn [repeat app]; rewrite Nat.add_0_r, firstn_skipn; reflexivity|].
  assert (R : run_at (map (fun g => g =? 0) gs) (S o) l = true).
  { unfold run_at in *. rewrite forallb_forall in *. intros k Hk. replace (S o + k)%nat with (o + S k)%nat by lia. apply H. rewrite in_seq in *. lia. }
  assert (Z0 : nth o gs 1 = 0).
  { unfold run_at in H. rewrite forallb_forall in H. specialize (H 0%nat). rewrite Nat.add_0_r in H. rewrite in_seq in H. specialize (H ltac:(lia)).
    rewrite (nth_indep _ false (1 =? 0)) in H by (rewrite map_length; lia). rewrite (map_nth (fun g => g =? 0)) in H. lia. }
  specialize (IH (S o) gs R ltac:(lia)). rewrite IH at 1. cbn [repeat app].
  assert (F : firstn (S o) gs = firstn o gs ++ [0]).
  { rewrite <- Z0. clear - Hl. revert o Hl. induction gs as [|g gs IH]; intros o Hl; [cbn in Hl; lia|].
    destruct o as [|o]; [reflexivity|]. cbn [firstn nth app]. f_equal. apply IH. cbn in Hl. lia. }
  rewrite F, <- app_assoc. replace (o + S l)%nat with (S o + l)%nat by lia. reflexivity.
Qed.
Lemma repeat_run pre z suf : run_at (map (fun g => g =? 0) (pre ++ repeat 0 z ++ suf)) (length pre) z = true.
Proof.
  unfold run_at. rewrite forallb_forall. intros k Hk. rewrite in_seq in Hk. rewrite !map_app, app_nth2 by (rewrite map_length; lia).
  rewrite map_length. replace (length pre + k - length pre)%nat with k by lia. rewrite app_nth1 by (rewrite map_length, repeat_length; lia).
  rewrite (nth_indep _ false (0 =? 0)) by (rewrite map_length, repeat_length; lia). rewrite (map_nth (fun g => g =? 0)). rewrite nth_repeat. reflexivity.
Qed.
Lemma zero_run_spec gs : length gs = 8%nat -> exists zo zl, zero_run (map (fun g => g =? 0) gs) 0 0 0 0 0 = (zo, zl) /\ (zl = 0 \/ 2 <= zl)%nat /\ (zo + zl <= 8)%nat /\
  gs = firstn zo gs ++ repeat 0 zl ++ skipn (zo + zl) gs /\
  (forall pre z suf, gs = pre ++ repeat 0 z ++ suf -> (2 <= z)%nat -> (z < zl \/ (z = zl /\ zo <= length pre))%nat).
Proof.
  intros L. pose proof (zr (map (fun g => g =? 0) gs) ltac:(rewrite map_length; exact L)) as H. unfold zr_ok in H.
  destruct (zero_run (map (fun g => g =? 0) gs) 0 0 0 0 0) as [zo zl]. apply andb_true_iff in H as [H H4]. apply andb_true_iff in H as [H H3]. apply andb_true_iff in H as [H1 H2].
  exists zo, zl. split; [reflexivity|]. split; [lia|]. split; [lia|]. split; [apply run_repeat; [exact H3|lia]|].
  intros pre z suf E Hz. rewrite forallb_forall in H4. assert (Lz : (length pre + z <= 8)%nat) by (rewrite E, !app_length, repeat_length in L; lia).
  specialize (H4 (length pre)). rewrite in_seq in H4. specialize (H4 ltac:(lia)). rewrite forallb_forall in H4. specialize (H4 z). rewrite in_seq in H4. specialize (H4 ltac:(lia)).
  rewrite E in H4 at 1. rewrite repeat_run in H4. replace (2 <=? z)%nat with true in H4 by lia. cbn [andb negb orb] in H4. lia.
Qed.

(** ** The printer *)
Definition sep (t : list Z) : list Z := match t with [] => [] | _ => if last t 0 =? 58 then [] else [58] end.
Definition emit (t : list Z) (gs : list Z) : list Z := fold_left (fun t g => t ++ sep t ++ num 16 g) gs t.

Lemma emit_len gs : forall t, (length t <= length (emit t gs))%nat.
Proof. induction gs as [|g gs IH]; intros t; [cbn; lia|]. unfold emit in *. cbn [fold_left]. specialize (IH (t ++ sep t ++ num 16 g)). rewrite !app_length in IH at 1. lia. Qed.

Lemma last_app_ne (a b : list Z) d : b <> [] -> last (a ++ b) d = last b d.
Proof.
  intros N. induction a as [|x a IH]; [reflexivity|]. cbn [app]. destruct (a ++ b) eqn:E; [|cbn [last]; rewrite <- IH; cbn [last]; reflexivity].
  apply app_eq_nil in E as [_ ->]. congruence.
Qed.
Lemma num_last g : group g -> num 16 g <> [] /\ last (num 16 g) 0 <> 58.
Proof.
  unfold group. intros H. destruct (num_ok 16 g ltac:(lia) ltac:(lia)) as (N & F & _). split; [exact N|].
  assert (I : In (last (num 16 g) 0) (num 16 g)).
  { clear F. destruct (num 16 g) as [|x l] using rev_ind; [congruence|]. rewrite last_last. apply in_or_app. right. left. reflexivity. }
  rewrite Forall_forall in F. destruct (F _ I) as [D _]. intros E. rewrite E in D. vm_compute in D. discriminate.
Qed.
Lemma num16 g : group g -> numeral 16 g (num 16 g).
Proof. unfold group. intros H. apply num_ok; lia. Qed.

Lemma emit_after gs : Forall group gs -> gs <> [] -> forall t, t <> [] -> last t 0 <> 58 -> exists ts, groups gs ts /\ emit t gs = t ++ [58] ++ ts.
Proof.
  induction gs as [|g gs IH]; intros F N t Ht Hl; [congruence|]. inversion F as [|? ? Hg Fs]; subst. destruct (num_last g Hg) as [Nn Ln].
  unfold emit. cbn [fold_left]. assert (E : sep t = [58]) by (unfold sep; destruct t; [congruence|]; replace (last (z :: t) 0 =? 58) with false by lia; reflexivity).
  rewrite E. destruct gs as [|g2 gs].
  - exists (num 16 g). split; [constructor; apply num16, Hg|reflexivity].
  - destruct (IH Fs ltac:(discriminate) (t ++ [58] ++ num 16 g)) as (ts & G & Et).
    + intros H. apply app_eq_nil in H as [_ H]. discriminate.
    + rewrite last_app_ne by discriminate. rewrite last_app_ne by exact Nn. exact Ln.
    + exists (num 16 g ++ [58] ++ ts). split; [constructor; [apply num16, Hg|exact G|discriminate]|]. unfold emit in Et. rewrite Et. rewrite <- !app_assoc. reflexivity.
Qed.
Lemma emit_start gs t : Forall group gs -> sep t = [] -> exists ts, groups gs ts /\ emit t gs = t ++ ts.
Proof.
  intros F Hs. destruct gs as [|g gs]; [exists []; split; [constructor|rewrite app_nil_r; reflexivity]|].
  inversion F as [|? ? Hg Fs]; subst. destruct (num_last g Hg) as [Nn Ln]. unfold emit. cbn [fold_left]. rewrite Hs. cbn [app].
  destruct gs as [|g2 gs]; [exists (num 16 g); split; [constructor; apply num16, Hg|reflexivity]|].
  destruct (emit_after (g2 :: gs) Fs ltac:(discriminate) (t ++ num 16 g)) as (ts & G & E).
  - intros H. apply app_eq_nil in H as [_ H]. congruence.
  - rewrite last_app_ne by exact Nn. exact Ln.
  - exists (num 16 g ++ [58] ++ ts). split; [constructor; [apply num16, Hg|exact G|discriminate]|]. unfold emit in E. rewrite E, <- app_assoc. reflexivity.
Qed.

Lemma bytes_prefix m p a b : bytes_at m p (a ++ b) -> bytes_at m p a.
Proof. intros H i Hi. rewrite H by (rewrite app_length; lia). rewrite nth_error_app1 by exact Hi. reflexivity. Qed.
Lemma bytes_snoc m p a c : bytes_at m p a -> bytes_at (upd m (p + Z.of_nat (length a)) c) p (a ++ [c]).
Proof.
  intros H i Hi. rewrite app_length in Hi. cbn [length] in Hi. unfold upd. destruct (Nat.eq_dec i (length a)) as [->|N].
  - rewrite Z.eqb_refl, nth_error_app2, Nat.sub_diag by lia. reflexivity.
  - replace (_ =? _) with false by lia. rewrite nth_error_app1 by lia. apply H. lia.
Qed.
Lemma bytes_written m m' p a l : bytes_at m p a -> written m m' (p + Z.of_nat (length a)) l -> bytes_at m' p (a ++ l).
Proof.
  intros H [Hb Ho] i Hi. rewrite app_length in Hi. destruct (Nat.lt_ge_cases i (length a)) as [L|L].
  - rewrite Ho by lia. rewrite nth_error_app1 by exact L. apply H, L.
  - rewrite nth_error_app2 by exact L. rewrite <- Hb by lia. f_equal. lia.
Qed.
Lemma same_trans m1 m2 m3 p n : same_outside m1 m2 p n -> same_outside m2 m3 p n -> same_outside m1 m3 p n.
Proof. intros H1 H2 a Ha. rewrite H2, H1 by exact Ha. reflexivity. Qed.
Lemma same_written m m' p n q l : written m m' q l -> p <= q -> q + Z.of_nat (length l) <= p + Z.of_nat n -> same_outside m m' p n.
Proof. intros [_ H] H1 H2 a Ha. apply H. lia. Qed.
Lemma same_upd m p n q c : p <= q < p + Z.of_nat n -> same_outside m (upd m q c) p n.
Proof. intros H a Ha. unfold upd. replace (a =? q) with false by lia. reflexivity. Qed.
Lemma store_in m p n i c : mapped m p n -> (i < n)%nat -> store m (p + Z.of_nat i) c = Ok (upd m (p + Z.of_nat i) c).
Proof. intros H Hi. apply store_ok. apply H, Hi. Qed.
Lemma truncated_len size l : (length (truncated size l) <= size)%nat.
Proof. unfold truncated. destruct size as [|k]; [cbn; lia|]. rewrite app_length, firstn_length. cbn [length]. lia. Qed.

Section Print.
  Variables (gs : list Z) (dst : Z) (size zo zl : nat).
  Definition inv (m0 m : mem) (t : list Z) : Prop :=
    bytes_at m dst t /\ mapped m dst size /\ same_outside m0 m dst size /\ (length t <= size)%nat.

  Lemma colon_test m t : bytes_at m dst t ->
    (if (0 <? length t)%nat then c <- load m (dst + Z.of_nat (length t) - 1) ;; Ok (negb (c =? 58)) else Ok false)
    = Ok (match sep t with [] => false | _ => true end).
  Proof.
    intros H. destruct t as [|x t] using rev_ind; [reflexivity|]. rewrite app_length. cbn [length]. replace (0 <? length t + 1)%nat with true by lia.
    replace (dst + Z.of_nat (length t + 1) - 1) with (dst + Z.of_nat (length t)) by lia.
    rewrite (bytes_load _ _ _ _ H) by (rewrite app_length; cbn; lia). rewrite app_nth2, Nat.sub_diag by lia. cbn [nth bind].
    unfold sep. destruct (t ++ [x]) eqn:E; [destruct t; discriminate|]. rewrite <- E, last_last. destruct (x =? 58); reflexivity.
  Qed.

  Lemma print_step f m0 m t i : inv m0 m t -> (i < 8)%nat -> ((i =? zo) && (2 <=? zl))%nat = false ->
    let t' := t ++ sep t ++ num 16 (nth i gs 0%Z) in
    (length t' < size)%nat ->
    exists m1, print6 (S f) m gs dst size zo zl i (length t) = print6 f m1 gs dst size zo zl (S i) (length t') /\ inv m0 m1 t'.
  Proof.
    intros (Hb & Hm & Ho & Hl) Hi Hz t' Ht'. cbn [print6]. replace (i <? 8)%nat with true by lia. rewrite Hz.
    rewrite (colon_test m t Hb). cbn [bind].
    assert (C : exists m1, (if (match sep t with [] => false | _ => true end) && (length t <? size)%nat
        then m1 <- store m (dst + Z.of_nat (length t)) 58 ;; Ok (m1, S (length t)) else Ok (m, length t)) = Ok (m1, length (t ++ sep t)) /\ inv m0 m1 (t ++ sep t)).
    { unfold t' in Ht'. rewrite !app_length in Ht'. destruct (sep t) as [|x [|]] eqn:E.
      - cbn [andb]. rewrite app_nil_r. exists m. repeat split; auto.
      - assert (x = 58) by (unfold sep in E; destruct t; [discriminate|]; destruct (_ =? _); [discriminate|injection E; auto]). subst x.
        cbn [length] in Ht'. replace (length t <? size)%nat with true by lia. cbn [andb]. rewrite (store_in m dst size) by (auto; lia). cbn [bind].
        exists (upd m (dst + Z.of_nat (length t)) 58). split; [do 2 f_equal; rewrite app_length; cbn; lia|]. split; [apply bytes_snoc, Hb|].
        split; [apply upd_mapped, Hm|]. split; [eapply same_trans; [exact Ho|apply same_upd; lia]|]. rewrite app_length. cbn [length]. lia.
      - unfold sep in E. destruct t; [discriminate|]. destruct (_ =? _); discriminate. }
    destruct C as (m1 & -> & Hb1 & Hm1 & Ho1 & Hl1). cbn [bind].
    destruct (print_chars m1 (dst + Z.of_nat (length (t ++ sep t))) (size - length (t ++ sep t)) (num 16 (nth i gs 0%Z))) as (m2 & -> & W).
    { apply (mapped_sub m1 dst size _ _ Hm1); lia. }
    cbn [bind]. unfold t' in *. rewrite app_assoc, (app_length (t ++ sep t)) in Ht'.
    replace (size - length (t ++ sep t) <=? length (num 16 (nth i gs 0%Z)))%nat with false by lia.
    exists m2. rewrite app_assoc, (app_length (t ++ sep t)). split; [reflexivity|]. rewrite truncated_full in W by lia.
    split; [|split; [|split]].
    - apply (bytes_prefix _ _ _ [0]). rewrite <- app_assoc. apply (bytes_written m1); [exact Hb1|exact W].
    - eapply written_mapped; [exact W|exact Hm1].
    - eapply same_trans; [exact Ho1|]. eapply same_written; [exact W|lia|]. rewrite (app_length (num 16 (nth i gs 0%Z))). cbn [length]. lia.
    - rewrite (app_length (t ++ sep t)). lia.
  Qed.

  Lemma print_step_fail f m0 m t i : inv m0 m t -> (i < 8)%nat -> ((i =? zo) && (2 <=? zl))%nat = false ->
    (size <= length (t ++ sep t ++ num 16 (nth i gs 0%Z)))%nat ->
    exists m1, print6 (S f) m gs dst size zo zl i (length t) = Ok (m1, None) /\ same_outside m0 m1 dst size.
  Proof.
    intros (Hb & Hm & Ho & Hl) Hi Hz Ht'. cbn [print6]. replace (i <? 8)%nat with true by lia. rewrite Hz.
    rewrite (colon_test m t Hb). cbn [bind].
    assert (C : exists m1 off, (if (match sep t with [] => false | _ => true end) && (length t <? size)%nat
        then m1 <- store m (dst + Z.of_nat (length t)) 58 ;; Ok (m1, S (length t)) else Ok (m, length t)) = Ok (m1, off) /\ mapped m1 dst size /\ same_outside m0 m1 dst size /\
        (off <= size)%nat /\ (size - off <= length (num 16 (nth i gs 0%Z)))%nat).
    { rewrite !app_length in Ht'. destruct (sep t) as [|x l] eqn:E.
      - cbn [andb]. exists m, (length t). cbn [length] in Ht'. repeat split; auto; lia.
      - assert (length (x :: l) = 1%nat) as El by (unfold sep in E; destruct t; [discriminate|]; destruct (_ =? _); [discriminate|injection E as <- <-; auto]).
        rewrite El in Ht'. cbn [andb]. destruct (length t <? size)%nat eqn:L.
        + rewrite (store_in m dst size) by (auto; lia). cbn [bind]. do 2 eexists. split; [reflexivity|].
          split; [apply upd_mapped, Hm|]. split; [eapply same_trans; [exact Ho|apply same_upd; lia]|]. lia.
        + do 2 eexists. split; [reflexivity|]. repeat split; auto; lia. }
    destruct C as (m1 & off & -> & Hm1 & Ho1 & Hl1 & Hs). cbn [bind].
    destruct (print_chars m1 (dst + Z.of_nat off) (size - off) (num 16 (nth i gs 0%Z))) as (m2 & -> & W).
    { apply (mapped_sub m1 dst size _ _ Hm1); lia. }
    cbn [bind]. replace (size - off <=? length (num 16 (nth i gs 0%Z)))%nat with true by lia. exists m2. split; [reflexivity|].
    eapply same_trans; [exact Ho1|]. eapply same_written; [exact W|lia|]. pose proof (truncated_len (size - off) (num 16 (nth i gs 0%Z))). lia.
  Qed.

  (** groups i .. i+n-1 none of which starts the abbreviated run *)
  Lemma print_run n : forall f m0 m t i, inv m0 m t -> (i + n <= 8)%nat -> (n <= f)%nat -> (zl < 2 \/ zo < i \/ i + n <= zo)%nat -> (n = 0 \/ 0 < n)%nat -> (8 <= length gs)%nat ->
    let T := emit t (firstn n (skipn i gs)) in
    (length T < size \/ n = 0 ->
       exists m1, print6 f m gs dst size zo zl i (length t) = print6 (f - n) m1 gs dst size zo zl (i + n) (length T) /\ inv m0 m1 T)%nat /\
    (size <= length T -> 0 < n -> exists m1, print6 f m gs dst size zo zl i (length t) = Ok (m1, None) /\ same_outside m0 m1 dst size)%nat.
  Proof.
    induction n as [|n IH]; intros f m0 m t i Hv Hi Hf Hz _ Hg T.
    { split; [|lia]. intros _. exists m. rewrite Nat.sub_0_r, Nat.add_0_r. split; [reflexivity|exact Hv]. }
    assert (Eg : firstn (S n) (skipn i gs) = nth i gs 0 :: firstn n (skipn (S i) gs)).
    { clear - Hi Hg. assert (L : (i < length gs)%nat) by lia. clear Hi Hg. revert i L. induction gs as [|g l IHl]; intros i L; [cbn in L; lia|].
      destruct i as [|i]; [reflexivity|]. cbn [skipn nth]. apply IHl. cbn in L. lia. }
    assert (ET : T = emit (t ++ sep t ++ num 16 (nth i gs 0%Z)) (firstn n (skipn (S i) gs))) by (unfold T; rewrite Eg; reflexivity).
    assert (NZ : ((i =? zo) && (2 <=? zl))%nat = false) by lia.
    pose proof (emit_len (firstn n (skipn (S i) gs)) (t ++ sep t ++ num 16 (nth i gs 0%Z))) as Le. rewrite <- ET in Le.
    destruct f as [|f]; [lia|]. split.
    - intros HT. destruct (print_step f m0 m t i Hv ltac:(lia) NZ) as (m1 & E1 & Hv1); [lia|].
      destruct (IH f m0 m1 _ (S i) Hv1 ltac:(lia) ltac:(lia) ltac:(lia) ltac:(lia) Hg) as (A & _).
      rewrite E1. replace (i + S n)%nat with (S i + n)%nat by lia. replace (S f - S n)%nat with (f - n)%nat by lia. rewrite ET. apply A. rewrite <- ET. lia.
    - intros HT _. destruct (Nat.lt_ge_cases (length (t ++ sep t ++ num 16 (nth i gs 0%Z))) size) as [L|L].
      + destruct (print_step f m0 m t i Hv ltac:(lia) NZ L) as (m1 & E1 & Hv1). rewrite E1.
        destruct n as [|n].
        { cbn [firstn] in ET. unfold emit in ET. cbn [fold_left] in ET. rewrite ET in HT. lia. }
        destruct (IH f m0 m1 _ (S i) Hv1 ltac:(lia) ltac:(lia) ltac:(lia) ltac:(lia) Hg) as (_ & B). apply B; [rewrite <- ET; exact HT|lia].
      + apply (print_step_fail f m0 m t i Hv ltac:(lia) NZ L).
  Qed.

  (** the abbreviated run itself *)
  Lemma print_zeros f m0 m t : inv m0 m t -> (zo < 8)%nat -> (2 <= zl)%nat ->
    exists m1, print6 (S f) m gs dst size zo zl zo (length t) = print6 f m1 gs dst size zo zl (zo + zl) (length (firstn size (t ++ [58; 58]))) /\
      inv m0 m1 (firstn size (t ++ [58; 58])).
  Proof.
    intros (Hb & Hm & Ho & Hl) Hi Hz. cbn [print6]. replace (zo <? 8)%nat with true by lia. replace ((zo =? zo) && (2 <=? zl))%nat with true by lia.
    destruct (length t <? size)%nat eqn:L1.
    - rewrite (store_in m dst size) by (auto; lia). cbn [bind]. destruct (S (length t) <? size)%nat eqn:L2.
      + rewrite (store_in _ dst size) by (try apply upd_mapped; auto; lia). cbn [bind]. eexists. split.
        * rewrite firstn_all2 by (rewrite app_length; cbn; lia). rewrite app_length. cbn [length]. replace (length t + 2)%nat with (S (S (length t))) by lia. reflexivity.
        * rewrite firstn_all2 by (rewrite app_length; cbn; lia). split; [|split; [|split]].
          -- change [58; 58] with ([58] ++ [58]). rewrite app_assoc. replace (S (length t)) with (length (t ++ [58])) by (rewrite app_length; cbn; lia). apply bytes_snoc, bytes_snoc, Hb.
          -- do 2 apply upd_mapped. exact Hm.
          -- eapply same_trans; [exact Ho|]. eapply same_trans; apply same_upd; lia.
          -- rewrite app_length. cbn [length]. lia.
      + cbn [bind]. assert (E : firstn size (t ++ [58; 58]) = t ++ [58]).
        { change [58; 58] with ([58] ++ [58]). rewrite app_assoc, firstn_app. rewrite firstn_all2 by (rewrite app_length; cbn; lia).
          rewrite app_length. cbn [length]. replace (size - (length t + 1))%nat with 0%nat by lia. apply app_nil_r. }
        rewrite E. eexists. split; [rewrite app_length; cbn [length]; replace (length t + 1)%nat with (S (length t)) by lia; reflexivity|].
        split; [apply bytes_snoc, Hb|]. split; [apply upd_mapped, Hm|]. split; [eapply same_trans; [exact Ho|apply same_upd; lia]|]. rewrite app_length. cbn [length]. lia.
    - cbn [bind]. rewrite L1. cbn [bind]. assert (E : firstn size (t ++ [58; 58]) = t).
      { rewrite firstn_app. rewrite firstn_all2 by lia. replace (size - length t)%nat with 0%nat by lia. apply app_nil_r. }
      rewrite E. exists m. split; [reflexivity|]. repeat split; auto.
  Qed.
End Print.

Lemma groups_chars gs t : groups gs t -> Forall (fun c => 0 < c < 256) t.
Proof.
  intros G. induction G as [|g t N|g t gs ts N G IH Ne]; [constructor|eapply numeral_chars; exact N|].
  apply Forall_app. split; [eapply numeral_chars; exact N|]. constructor; [lia|exact IH].
Qed.
Lemma canonical_chars gs t : canonical6 gs t -> Forall (fun c => 0 < c < 256) t.
Proof.
  intros [t' _ G _|pre suf z tp ts _ _ _ G1 G2 _]; [eapply groups_chars; exact G|].
  apply Forall_app. split; [eapply groups_chars; exact G1|]. do 2 (constructor; [lia|]). eapply groups_chars; exact G2.
Qed.
Lemma groups_last gs ts : groups gs ts -> gs <> [] -> ts <> [] /\ last ts 0 <> 58.
Proof.
  intros G. induction G as [|g t (N & F & _)|g t gs ts (N & F & _) G IH Ne]; intros Hn; [congruence| |].
  - split; [exact N|]. destruct t as [|c t] using rev_ind; [congruence|]. rewrite last_last. apply Forall_app in F as [_ F]. inversion F as [|? ? [D _] _]; subst.
    intros ->. vm_compute in D. discriminate.
  - destruct (IH Ne) as [A B]. split; [destruct t; discriminate|]. rewrite last_app_ne by discriminate. rewrite last_app_ne by exact A. exact B.
Qed.

Lemma ntop6_print m gs dst size zo zl : length gs = 8%nat -> Forall group gs -> mapped m dst size ->
  zero_run (map (fun g => g =? 0) gs) 0 0 0 0 0 = (zo, zl) -> v4mapped gs = false ->
  (zl = 0 \/ 2 <= zl)%nat -> (zo + zl <= 8)%nat -> gs = firstn zo gs ++ repeat 0 zl ++ skipn (zo + zl) gs ->
  (forall pre z suf, gs = pre ++ repeat 0 z ++ suf -> (2 <= z)%nat -> (z < zl \/ (z = zl /\ zo <= length pre))%nat) ->
  exists t, canonical6 gs t /\
    ((length t < size)%nat -> exists m', inet_ntop6 m gs dst size = Ok (m', true) /\ str_at m' dst t /\ same_outside m m' dst size) /\
    ((size <= length t)%nat -> last t 0 <> 58 -> exists m', inet_ntop6 m gs dst size = Ok (m', false) /\ same_outside m m' dst size).
Proof.
  intros L F Hm Ez Ev Hzl Hzo Hg Hmax.
  assert (I0 : inv dst size m m []) by (split; [intros i Hi; cbn in Hi; lia|]; split; [exact Hm|]; split; [intros a _; reflexivity|cbn; lia]).
  assert (Fin : forall m1 t, canonical6 gs t -> inv dst size m m1 t -> (length t < size)%nat ->
     exists m', (m2 <- store m1 (dst + Z.of_nat (length t)) 0 ;; Ok (m2, true)) = Ok (m', true) /\ str_at m' dst t /\ same_outside m m' dst size).
  { intros m1 t Ct (Hb1 & Hm1 & Ho1 & _) Hl. rewrite (store_in m1 dst size) by (auto; lia). cbn [bind]. eexists. split; [reflexivity|]. split.
    - split; [apply bytes_snoc, Hb1|eapply canonical_chars; exact Ct].
    - eapply same_trans; [exact Ho1|apply same_upd; lia]. }
  destruct Hzl as [H0|H2].
  - (* nothing to abbreviate *)
    destruct (emit_start gs [] F eq_refl) as (ts & G & E). cbn [app] in E.
    assert (Ct : canonical6 gs ts). { constructor; [exact L|exact G|]. intros pre z suf Eg. destruct (Nat.le_gt_cases z 1) as [|Hz]; [assumption|]. destruct (Hmax pre z suf Eg Hz); lia. }
    exists ts. split; [exact Ct|]. unfold inet_ntop6. rewrite Ev, Ez.
    pose proof (print_run gs dst size zo zl 8 9 m m [] 0 I0 ltac:(lia) ltac:(lia) ltac:(lia) ltac:(lia) ltac:(lia)) as [A B].
    cbn [skipn] in A, B. rewrite firstn_all2 in A, B by lia. rewrite E in A, B. cbn [length] in A, B. split.
    + intros Hl. destruct (A (or_introl Hl)) as (m1 & E1 & I1). rewrite E1. cbn [Nat.sub Nat.add print6 Nat.ltb Nat.leb bind]. apply Fin; assumption.
    + intros Hl _. destruct (B Hl ltac:(lia)) as (m1 & -> & S1). cbn [bind]. eauto.
  - set (pre := firstn zo gs) in *. set (suf := skipn (zo + zl) gs) in *.
    assert (Lp : length pre = zo) by (unfold pre; rewrite firstn_length; lia).
    assert (Ls : length suf = (8 - zo - zl)%nat) by (unfold suf; rewrite skipn_length; lia).
    assert (Fp : Forall group pre) by (rewrite Hg in F; apply Forall_app in F; tauto).
    assert (Fs : Forall group suf) by (rewrite Hg in F; apply Forall_app in F as [_ F]; apply Forall_app in F; tauto).
    destruct (emit_start pre [] Fp eq_refl) as (tp & Gp & Ep). cbn [app] in Ep.
    assert (Sc : forall l, sep (l ++ [58; 58]) = []).
    { intros l. unfold sep. destruct (l ++ [58; 58]) eqn:E; [reflexivity|]. rewrite <- E. rewrite last_app_ne by discriminate. reflexivity. }
    destruct (emit_start suf (tp ++ [58; 58]) Fs (Sc tp)) as (ts & Gs & Es). rewrite <- app_assoc in Es.
    assert (Ct : canonical6 gs (tp ++ [58; 58] ++ ts)).
    { apply (CCompressed gs pre suf zl); auto. intros pre' z' suf' Eg Hz. rewrite Lp. exact (Hmax pre' z' suf' Eg Hz). }
    exists (tp ++ [58; 58] ++ ts). split; [exact Ct|]. unfold inet_ntop6. rewrite Ev, Ez.
    pose proof (print_run gs dst size zo zl zo 9 m m [] 0 I0 ltac:(lia) ltac:(lia) ltac:(lia) ltac:(lia) ltac:(lia)) as [A B].
    cbn [skipn] in A, B. fold pre in A, B. rewrite Ep in A, B. cbn [length Nat.add] in A, B.
    assert (Lt : length (tp ++ [58; 58] ++ ts) = (length tp + 2 + length ts)%nat) by (rewrite !app_length; cbn; lia).
    assert (Es2 : firstn (8 - zo - zl) (skipn (zo + zl) gs) = suf) by (fold suf; apply firstn_all2; lia).
    destruct (Nat.eq_dec zo 8) as [|Nz]; [exfalso; lia|].
    split.
    + intros Hl. rewrite Lt in Hl. destruct (A ltac:(lia)) as (m1 & E1 & I1). rewrite E1.
      destruct (9 - zo)%nat as [|f] eqn:Ef; [lia|].
      destruct (print_zeros gs dst size zo zl f m m1 tp I1 ltac:(lia) H2) as (m2 & E2 & I2). rewrite E2.
      rewrite firstn_all2 in I2 by (rewrite app_length; cbn; lia). rewrite firstn_all2 by (rewrite app_length; cbn; lia).
      pose proof (print_run gs dst size zo zl (8 - zo - zl) f m m2 _ (zo + zl) I2 ltac:(lia) ltac:(lia) ltac:(lia) ltac:(lia) ltac:(lia)) as [A2 _].
      rewrite Es2, Es in A2. rewrite Lt in A2. destruct (A2 ltac:(lia)) as (m3 & E3 & I3). rewrite E3.
      replace (zo + zl + (8 - zo - zl))%nat with 8%nat by lia. destruct (f - (8 - zo - zl))%nat as [|f'] eqn:Ef'; [lia|].
      cbn [print6 Nat.ltb Nat.leb bind]. rewrite <- Lt. apply Fin; auto. lia.
    + intros Hl Hlast. rewrite Lt in Hl.
      assert (Ns : suf <> []). { intros E. rewrite E in Gs. inversion Gs; subst ts. apply Hlast. rewrite last_app_ne by discriminate. reflexivity. }
      assert (Ns' : (0 < 8 - zo - zl)%nat) by (rewrite <- Ls; destruct suf; [congruence|cbn; lia]).
      destruct (Nat.lt_ge_cases (length tp) size) as [L1|L1].
      * destruct (A (or_introl L1)) as (m1 & E1 & I1). rewrite E1. destruct (9 - zo)%nat as [|f] eqn:Ef; [lia|].
        destruct (print_zeros gs dst size zo zl f m m1 tp I1 ltac:(lia) H2) as (m2 & E2 & I2). rewrite E2.
        destruct (Nat.le_gt_cases (length tp + 2) size) as [L2|L2].
        -- rewrite firstn_all2 in I2 by (rewrite app_length; cbn; lia). rewrite firstn_all2 by (rewrite app_length; cbn; lia).
           pose proof (print_run gs dst size zo zl (8 - zo - zl) f m m2 _ (zo + zl) I2 ltac:(lia) ltac:(lia) ltac:(lia) ltac:(lia) ltac:(lia)) as [_ B2].
           rewrite Es2, Es in B2. rewrite Lt in B2. destruct (B2 Hl Ns') as (m3 & E3 & S3). rewrite E3. cbn [bind]. eauto.
        -- destruct f as [|f]; [lia|].
           destruct (print_step_fail gs dst size zo zl f m m2 _ (zo + zl) I2 ltac:(lia) ltac:(lia)) as (m3 & E3 & S3).
           { rewrite (app_length (firstn _ _)), firstn_length, (app_length tp). cbn [length]. lia. }
           rewrite E3. cbn [bind]. eauto.
      * destruct (Nat.eq_dec zo 0) as [Z0|Z0].
        -- (* leading abbreviation: the buffer has no byte *)
           assert (Epre : pre = []) by (apply length_zero_iff_nil; lia). assert (Etp : tp = []) by (rewrite Epre in Gp; inversion Gp; reflexivity). rewrite Etp in L1. cbn [length] in L1. assert (Sz : size = 0%nat) by lia.
           destruct (print_zeros gs dst size zo zl 8 m m [] I0 ltac:(lia) H2) as (m2 & E2 & I2). cbn [length] in E2.
           replace (print6 9 m gs dst size zo zl 0 0) with (print6 9 m gs dst size zo zl zo 0) by (rewrite Z0 at 2; reflexivity). rewrite E2.
           destruct (print_step_fail gs dst size zo zl 7 m m2 _ (zo + zl) I2 ltac:(lia) ltac:(lia)) as (m3 & E3 & S3); [lia|]. rewrite E3. cbn [bind]. eauto.
        -- destruct (B L1 ltac:(lia)) as (m1 & E1 & S1). rewrite E1. cbn [bind]. eauto.
Qed.

Lemma v4mapped_false gs : length gs = 8%nat -> ~ mapped4 gs -> v4mapped gs = false.
Proof.
  intros L N. destruct gs as [|a [|b [|c [|d [|e [|f [|g [|h [|]]]]]]]]]; try discriminate L. cbn [v4mapped].
  apply not_true_is_false. intros H. apply N. exists g, h. repeat (apply andb_prop in H as [H ?]). repeat f_equal; lia.
Qed.
Lemma ntop6_ok m gs dst size : length gs = 8%nat -> Forall group gs -> ~ mapped4 gs -> mapped m dst size ->
  exists t, canonical6 gs t /\
    ((length t < size)%nat -> exists m', inet_ntop6 m gs dst size = Ok (m', true) /\ str_at m' dst t /\ same_outside m m' dst size) /\
    ((size <= length t)%nat -> last t 0 <> 58 -> exists m', inet_ntop6 m gs dst size = Ok (m', false) /\ same_outside m m' dst size).
Proof.
  intros L F N Hm. destruct (zero_run_spec gs L) as (zo & zl & Ez & H1 & H2 & H3 & H4).
  eapply ntop6_print; eauto using v4mapped_false.
Qed.
Lemma canonical_v6text gs t : canonical6 gs t -> v6text gs t.
Proof. intros [t' L G _|pre suf z tp ts E Z L G1 G2 _]; [constructor; assumption|eapply Compressed; eauto]. Qed.
Lemma ntop6_mapped m g h dst size : group g -> group h -> mapped m dst size ->
  exists m' t, quad (g / 256) (g mod 256) (h / 256) (h mod 256) t /\
    inet_ntop6 m [0;0;0;0;0;65535;g;h] dst size = Ok (m', (length (ffff ++ t) <? size)%nat) /\ written m m' dst (truncated size (ffff ++ t)).
Proof.
  unfold group. intros Hg Hh Hm. destruct (print_chars m dst size (ffff ++ dotted (g / 256) (g mod 256) (h / 256) (h mod 256)) Hm) as (m' & E & W).
  exists m', (dotted (g / 256) (g mod 256) (h / 256) (h mod 256)). split; [apply dotted_quad; unfold octet; lia|].
  unfold inet_ntop6. cbn [v4mapped Z.eqb Pos.eqb andb nth]. rewrite E. cbn [bind]. split; [reflexivity|exact W].
Qed.

(** ** The parser *)
Definition numeral0 (g : Z) (t : list Z) : Prop := numeral 16 g t \/ (g = 0 /\ t = []).
Definition ends6 (rest : list Z) : Prop := rest = [] \/ hd0 rest = 58.
Lemma strtol_group fuel m src g t rest : group g -> numeral0 g t -> str_at m src (t ++ rest) -> ends6 rest -> (length (t ++ rest) < fuel)%nat ->
  (exists e, strtol fuel m src 16 = Ok (g, src + Z.of_nat (length t), e)) /\ (length t <= 4)%nat.
Proof.
  unfold group. intros Hg [N|[-> ->]] Hs He Hf.
  - pose proof (numeral_len 16 g t 4 ltac:(lia) N ltac:(cbn; lia) ltac:(lia)) as L. destruct N as (N & F & V & _). split; [|lia].
    assert (Ft : Forall (fun c => digit_in 16 c = true) t) by (eapply Forall_impl; [|exact F]; cbn; tauto).
    destruct (strtol_digits fuel m src 16 t rest) as (e & E); auto; try lia.
    + destruct He as [->|He]; [right; reflexivity|left; rewrite He; reflexivity].
    + intros _. destruct He as [->|He]; [cbn; lia|lia].
    + exists e. rewrite E, V. rewrite Z.min_l by lia. reflexivity.
  - split; [|cbn; lia]. cbn [app length Z.of_nat] in *. exists false. rewrite Z.add_0_r. apply (strtol_empty fuel m src 16 rest); auto; try lia.
    + destruct He as [->|He]; [left; reflexivity|right]. rewrite He. repeat split; lia.
    + destruct He as [->|He]; [cbn; lia|lia].
Qed.

Lemma step_end k fuel m i src e0 arr dco g t : group g -> numeral0 g t -> str_at m src t -> (length t < fuel)%nat ->
  pton6_loop (S k) fuel m i src e0 arr dco = Ok (Some (i, src + Z.of_nat (length t), set_nth arr i g, dco)).
Proof.
  intros Hg N Hs Hf. rewrite <- (app_nil_r t) in Hs, Hf. destruct (strtol_group fuel m src g t [] Hg N Hs (or_introl eq_refl) Hf) as [(e & E) L].
  cbn [pton6_loop]. rewrite E. cbn [bind]. replace (src + Z.of_nat (length t) - src) with (Z.of_nat (length t)) by lia. unfold group in Hg.
  replace ((g >? 65535) || (Z.of_nat (length t) >? 4)) with false by lia. apply str_app in Hs. rewrite (str_hd _ _ _ Hs). cbn [bind hd0 Z.eqb Pos.eqb orb negb andb].
  rewrite Z.mod_small by lia. reflexivity.
Qed.
Lemma step_colon k fuel m i src e0 arr dco g t rest : group g -> numeral0 g t -> str_at m src (t ++ 58 :: rest) -> (length (t ++ 58%Z :: rest) < fuel)%nat -> hd0 rest <> 58 ->
  pton6_loop (S k) fuel m i src e0 arr dco = pton6_loop k fuel m (S i) (src + Z.of_nat (length t) + 1) (src + Z.of_nat (length t)) (set_nth arr i g) dco.
Proof.
  intros Hg N Hs Hf Hr. destruct (strtol_group fuel m src g t (58 :: rest) Hg N Hs (or_intror eq_refl) Hf) as [(e & E) L].
  cbn [pton6_loop]. rewrite E. cbn [bind]. replace (src + Z.of_nat (length t) - src) with (Z.of_nat (length t)) by lia. unfold group in Hg.
  replace ((g >? 65535) || (Z.of_nat (length t) >? 4)) with false by lia. apply str_app in Hs. rewrite (str_hd _ _ _ Hs). cbn [bind hd0 Z.eqb Pos.eqb orb negb andb].
  apply str_cons in Hs as (_ & _ & Hs). rewrite (str_hd _ _ _ Hs). cbn [bind]. replace (hd0 rest =? 58) with false by lia. cbn [andb].
  rewrite Z.mod_small by lia. reflexivity.
Qed.
Lemma step_dcolon k fuel m i src e0 arr g t rest : group g -> numeral0 g t -> str_at m src (t ++ 58 :: 58 :: rest) -> (length (t ++ 58%Z :: 58%Z :: rest) < fuel)%nat ->
  pton6_loop (S k) fuel m i src e0 arr None = pton6_loop k fuel m (S i) (src + Z.of_nat (length t) + 2) (src + Z.of_nat (length t)) (set_nth arr i g) (Some (S i)).
Proof.
  intros Hg N Hs Hf. destruct (strtol_group fuel m src g t (58 :: 58 :: rest) Hg N Hs (or_intror eq_refl) Hf) as [(e & E) L].
  cbn [pton6_loop]. rewrite E. cbn [bind]. replace (src + Z.of_nat (length t) - src) with (Z.of_nat (length t)) by lia. unfold group in Hg.
  replace ((g >? 65535) || (Z.of_nat (length t) >? 4)) with false by lia. apply str_app in Hs. rewrite (str_hd _ _ _ Hs). cbn [bind hd0 Z.eqb Pos.eqb orb negb andb].
  apply str_cons in Hs as (_ & _ & Hs). rewrite (str_hd _ _ _ Hs). cbn [bind hd0 Z.eqb Pos.eqb andb]. rewrite Z.mod_small by lia. reflexivity.
Qed.

Definition filled (done : list Z) : list Z := done ++ repeat 0 (8 - length done).
Lemma filled_set done g : (length done < 8)%nat -> set_nth (filled done) (length done) g = filled (done ++ [g]).
Proof.
  intros H. unfold filled. rewrite app_length. cbn [length]. destruct (8 - length done)%nat as [|n] eqn:E; [lia|].
  replace (8 - (length done + 1))%nat with n by lia. clear. cbn [repeat]. induction done as [|x d IH]; [reflexivity|]. cbn. f_equal. exact IH.
Qed.
Lemma numeral_hd g t rest : numeral 16 g t -> hd0 (t ++ rest) <> 58 /\ digit_in 16 (hd0 (t ++ rest)) = true.
Proof.
  intros (N & F & _). destruct t as [|c t]; [congruence|]. cbn [app hd0]. inversion F as [|? ? [D _] _]; subst. split; [|exact D].
  intros ->. vm_compute in D. discriminate.
Qed.
Lemma groups_hd gs ts : groups gs ts -> gs <> [] -> hd0 ts <> 58 /\ digit_in 16 (hd0 ts) = true.
Proof.
  intros G Hn. destruct G as [|g t N|g t gs' ts' N G Ne]; [congruence| |].
  - rewrite <- (app_nil_r t). apply (numeral_hd g); assumption.
  - apply (numeral_hd g); assumption.
Qed.

Lemma parse_end gs ts : groups gs ts -> gs <> [] -> forall fuel m src e0 done dco, Forall group gs -> str_at m src ts -> (length ts < fuel)%nat -> (length done + length gs <= 8)%nat ->
  exists e, pton6_loop (8 - length done) fuel m (length done) src e0 (filled done) dco = Ok (Some ((length done + length gs - 1)%nat, e, filled (done ++ gs), dco)) /\ load m e = Ok 0.
Proof.
  intros G. induction G as [|g t N|g t gs ts N G IH Ne]; intros Hn fuel m src e0 done dco F Hs Hf Hl; [congruence| |]; inversion F as [|? ? Hg Fs]; subst; cbn [length] in Hl;
  destruct (8 - length done)%nat as [|k] eqn:Ek; try lia.
  - rewrite (step_end k fuel m (length done) src e0 _ dco g t Hg (or_introl N) Hs Hf). rewrite filled_set by lia. eexists. split; [cbn [length]; replace (length done + 1 - 1)%nat with (length done) by lia; reflexivity|].
    rewrite <- (app_nil_r t) in Hs. apply str_app in Hs. apply (str_hd _ _ _ Hs).
  - rewrite (step_colon k fuel m (length done) src e0 _ dco g t ts Hg (or_introl N) Hs Hf (proj1 (groups_hd _ _ G Ne))). rewrite filled_set by lia.
    apply str_app in Hs. cbn [app] in Hs. apply str_cons in Hs as (_ & _ & Hs).
    destruct (IH Ne fuel m _ (src + Z.of_nat (length t)) (done ++ [g]) dco Fs Hs) as (e & E & H0).
    + rewrite !app_length in Hf. cbn [length] in Hf. lia.
    + rewrite app_length. cbn [length]. lia.
    + rewrite app_length in E. cbn [length] in E. replace (8 - (length done + 1))%nat with k in E by lia. replace (length done + 1)%nat with (S (length done)) in E by lia.
      exists e. split; [|exact H0]. rewrite E. rewrite <- app_assoc. cbn [app length].
      replace (length done + S (length gs) - 1)%nat with (S (length done) + length gs - 1)%nat by lia. reflexivity.
Qed.
Lemma parse_mid gs ts : groups gs ts -> gs <> [] -> forall fuel m src e0 done rest, Forall group gs -> str_at m src (ts ++ 58 :: 58 :: rest) -> (length (ts ++ 58%Z :: 58%Z :: rest) < fuel)%nat ->
  (length done + length gs <= 8)%nat ->
  exists e, pton6_loop (8 - length done) fuel m (length done) src e0 (filled done) None =
    pton6_loop (8 - length (done ++ gs)) fuel m (length (done ++ gs)) (src + Z.of_nat (length ts) + 2) e (filled (done ++ gs)) (Some (length (done ++ gs))).
Proof.
  intros G. induction G as [|g t N|g t gs ts N G IH Ne]; intros Hn fuel m src e0 done rest F Hs Hf Hl; [congruence| |]; inversion F as [|? ? Hg Fs]; subst; cbn [length] in Hl;
  destruct (8 - length done)%nat as [|k] eqn:Ek; try lia.
  - rewrite (step_dcolon k fuel m (length done) src e0 _ g t rest Hg (or_introl N) Hs Hf). rewrite filled_set by lia. rewrite app_length. cbn [length].
    replace (8 - (length done + 1))%nat with k by lia. replace (length done + 1)%nat with (S (length done)) by lia. eauto.
  - rewrite <- !app_assoc in Hs, Hf. cbn [app] in Hs, Hf. rewrite (step_colon k fuel m (length done) src e0 _ None g t _ Hg (or_introl N) Hs Hf).
    2: { destruct (groups_last _ _ G Ne) as [Nn _]. destruct ts as [|c ts]; [congruence|]. destruct (groups_hd _ _ G Ne) as [H _]. exact H. }
    rewrite filled_set by lia. apply str_app in Hs. apply str_cons in Hs as (_ & _ & Hs).
    destruct (IH Ne fuel m _ (src + Z.of_nat (length t)) (done ++ [g]) rest Fs Hs) as (e & E).
    + rewrite !app_length in *. cbn [length] in *. rewrite !app_length in *. cbn [length] in *. lia.
    + rewrite app_length. cbn [length]. lia.
    + exists e. rewrite app_length in E. cbn [length] in E. replace (8 - (length done + 1))%nat with k in E by lia. replace (length done + 1)%nat with (S (length done)) in E by lia.
      rewrite E. rewrite <- app_assoc. cbn [app]. repeat (rewrite !app_length; cbn [length]). f_equal. lia.
Qed.

Lemma xdigit16 c : digit_in 16 c = true -> is_xdigit c = true.
Proof.
  intros H. destruct (digit_dig 16 c H) as (d & E & Hd). unfold dig in E. unfold is_xdigit, is_digit.
  destruct ((48 <=? c) && (c <=? 57)) eqn:E1; [reflexivity|]. destruct ((97 <=? c) && (c <=? 122)) eqn:E2; [injection E as <-; lia|].
  destruct ((65 <=? c) && (c <=? 90)) eqn:E3; [injection E as <-; lia|discriminate].
Qed.
Lemma filled_full l : length l = 8%nat -> filled l = l.
Proof. intros H. unfold filled. rewrite H. apply app_nil_r. Qed.
Lemma filled_parts (a b : list Z) : (length a + length b <= 8)%nat -> firstn (length a) (filled (a ++ b)) = a /\ firstn (length b) (skipn (length a) (filled (a ++ b))) = b.
Proof.
  intros H. unfold filled. rewrite <- app_assoc. split.
  - rewrite firstn_app, Nat.sub_diag, firstn_all, firstn_O, app_nil_r. reflexivity.
  - rewrite skipn_app, Nat.sub_diag, skipn_all. cbn [app skipn]. rewrite firstn_app, Nat.sub_diag, firstn_all, firstn_O, app_nil_r. reflexivity.
Qed.

Lemma pton6_ok fuel m src gs t : Forall group gs -> v6text gs t -> str_at m src t -> (length t < fuel)%nat -> inet_pton6 fuel m src = Ok (Some gs).
Proof.
  intros F V Hs Hf. unfold inet_pton6. change (repeat 0 8) with (filled []). destruct V as [t L G|pre suf z tp ts E Hz L Gp Gs].
  - assert (Ne : gs <> []) by (destruct gs; discriminate). destruct (groups_hd _ _ G Ne) as [_ D]. rewrite (str_hd _ _ _ Hs). cbn [bind]. rewrite (xdigit16 _ D). cbn [negb andb].
    destruct (parse_end gs t G Ne fuel m src 0 [] None F Hs Hf ltac:(cbn; lia)) as (e & E & H0). cbn [length Nat.add Nat.sub app] in E. cbn [length].
    rewrite L in E. cbn [Nat.sub] in E. rewrite E. cbn [bind]. rewrite H0. cbn [bind Z.eqb negb Nat.ltb Nat.leb]. rewrite filled_full by exact L. reflexivity.
  - assert (Lz : (length pre + z + length suf = 8)%nat) by (rewrite E, !app_length, repeat_length in L; lia).
    assert (Fp : Forall group pre) by (rewrite E in F; apply Forall_app in F; tauto).
    assert (Fs : Forall group suf) by (rewrite E in F; apply Forall_app in F as [_ F']; apply Forall_app in F'; tauto).
    assert (G0 : group 0) by (unfold group; lia).
    (* what is read before the abbreviation *)
    assert (P : exists pre' e, (1 <= length pre' <= 6)%nat /\ (length pre' + length suf <= 7)%nat /\ (exists z', gs = pre' ++ repeat 0 z' ++ suf /\ (1 <= z')%nat) /\
        pton6_loop 8 fuel m 0 src 0 (filled []) None =
          pton6_loop (8 - length pre') fuel m (length pre') (src + Z.of_nat (length tp) + 2) e (filled pre') (Some (length pre'))).
    { destruct pre as [|g pre].
      - inversion Gp; subst tp. exists [0]. cbn [app length] in *. rewrite (step_dcolon 7 fuel m 0 src 0 _ 0 [] ts G0 (or_intror (conj eq_refl eq_refl)) Hs Hf).
        exists (src + 0). split; [lia|]. split; [lia|]. split; [|reflexivity]. destruct z as [|z']; [lia|]. exists z'. split; [rewrite E; reflexivity|lia].
      - exists (g :: pre). destruct (parse_mid _ _ Gp ltac:(discriminate) fuel m src 0 [] ts Fp Hs Hf ltac:(cbn in *; lia)) as (e & E1). exists e.
        cbn [length] in *. split; [lia|]. split; [lia|]. split; [exists z; split; [exact E|lia]|]. exact E1. }
    destruct P as (pre' & e & L1 & L2 & (z' & Eg & Hz') & EP).
    assert (Lg : (length pre' + z' + length suf = 8)%nat) by (rewrite Eg, !app_length, repeat_length in L; lia).
    rewrite (str_hd _ _ _ Hs). cbn [bind].
    assert (Hd : negb (is_xdigit (hd0 (tp ++ [58; 58] ++ ts))) && negb (hd0 (tp ++ [58; 58] ++ ts) =? 58) = false).
    { destruct pre as [|g pre]; [inversion Gp; subst tp; reflexivity|]. destruct (groups_hd _ _ Gp ltac:(discriminate)) as [_ D].
      destruct (groups_last _ _ Gp ltac:(discriminate)) as [Nn _]. destruct tp as [|c tp]; [congruence|]. cbn [app hd0] in *. rewrite (xdigit16 _ D). reflexivity. }
    rewrite Hd. cbn [length] in EP. rewrite EP. apply str_app in Hs. cbn [app] in Hs. apply str_cons in Hs as (_ & _ & Hs). apply str_cons in Hs as (_ & _ & Hs).
    replace (src + Z.of_nat (length tp) + 1 + 1) with (src + Z.of_nat (length tp) + 2) in Hs by lia.
    destruct suf as [|g suf].
    + inversion Gs; subst ts. destruct (8 - length pre')%nat as [|k] eqn:Ek; [lia|].
      rewrite (step_end k fuel m (length pre') _ e (filled pre') _ 0 [] G0 (or_intror (conj eq_refl eq_refl)) Hs) by (cbn; lia).
      cbn [bind length Z.of_nat]. rewrite Z.add_0_r, (str_hd _ _ _ Hs). cbn [bind hd0 Z.eqb negb]. rewrite filled_set by lia.
      replace (length pre' + 1 - length pre')%nat with 1%nat by lia. cbn [length] in Lg. replace (8 <=? length pre' + 1)%nat with false by lia.
      destruct (filled_parts pre' [0] ltac:(cbn; lia)) as [A B]. rewrite A. cbn [length] in B. rewrite B. rewrite Eg. do 3 f_equal.
      replace z' with (8 - length pre' - 1 + 1)%nat by lia. rewrite app_nil_r, repeat_app. reflexivity.
    + destruct (parse_end _ _ Gs ltac:(discriminate) fuel m _ e pre' (Some (length pre')) Fs Hs) as (e1 & E1 & H0).
      * rewrite !app_length in Hf. cbn [length] in Hf. lia.
      * lia.
      * rewrite E1. cbn [bind]. rewrite H0. cbn [bind Z.eqb negb].
        replace (length pre' + length (g :: suf) - 1 + 1 - length pre')%nat with (length (g :: suf)) by lia.
        replace (8 <=? length pre' + length (g :: suf))%nat with false by lia.
        destruct (filled_parts pre' (g :: suf) ltac:(lia)) as [A B]. rewrite A, B. rewrite Eg. replace (8 - length pre' - length (g :: suf))%nat with z' by lia. reflexivity.
Qed.
