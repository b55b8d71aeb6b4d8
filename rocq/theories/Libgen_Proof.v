From Verif Require Import Base Mem_Proof Str_Model Str_Spec Str_Proof StrTok_Proof Libgen_Model Libgen_Spec.
Open Scope Z_scope.


Lemma slashes_repeat l : slashes l -> l = repeat 47 (length l).
Proof. induction 1 as [|c l <- H IH]; cbn; [reflexivity|]. f_equal. exact IH. Qed.

Lemma bytes_mid m p a c b : bytes_at m p (a ++ c :: b) -> load m (p + Z.of_nat (length a)) = Ok c.
Proof.
  intros H. apply bytes_at_app in H as [_ H]. apply bytes_at_cons in H as [H _]. unfold load. rewrite H. reflexivity.
Qed.

Lemma written_app_rev m m1 m2 p l1 l2 : written m m1 (p + Z.of_nat (length l1)) l2 -> written m1 m2 p l1 ->
  written m m2 p (l1 ++ l2).
Proof.
  intros [B1 O1] [B2 O2]. split.
  - apply bytes_at_app. split; [exact B2|]. intros i Hi. rewrite O2 by lia. apply B1, Hi.
  - intros a Ha. rewrite app_length in Ha. rewrite O2 by lia. apply O1. lia.
Qed.

Lemma repeat_snoc {A} (x : A) n : repeat x (S n) = repeat x n ++ [x].
Proof. induction n; cbn; [reflexivity|]. cbn in IHn. rewrite <- IHn. reflexivity. Qed.

(** deleting trailing slashes after [a ++ [c]] *)
Lemma del_slashes_ok n : forall m p a c, bytes_at m p (a ++ c :: repeat 47 n) -> (c <> 47 \/ a = []) ->
  exists m', del_slashes (length a + n) m p = Ok (m', length a) /\ written m m' (p + Z.of_nat (length a) + 1) (repeat 0 n).
Proof.
  induction n as [|n IH]; intros m p a c Hb Hc.
  - exists m. rewrite Nat.add_0_r. split; [|apply written_nil]. destruct Hc as [Hc| ->]; [|reflexivity].
    destruct (length a) eqn:EL; [reflexivity|]. cbn [del_slashes]. rewrite <- EL.
    rewrite (bytes_mid _ _ _ _ _ Hb). cbn [bind]. replace (c =? 47) with false by lia. reflexivity.
  - replace (length a + S n)%nat with (S (length a + n)) by lia. cbn [del_slashes].
    replace (Z.of_nat (S (length a + n))) with (Z.of_nat (length (a ++ c :: repeat 47 n)))
      by (rewrite app_length; cbn [length]; rewrite repeat_length; lia).
    rewrite repeat_snoc in Hb. replace (a ++ c :: repeat 47 n ++ [47]) with ((a ++ c :: repeat 47 n) ++ 47 :: []) in Hb
      by (rewrite <- app_assoc; reflexivity).
    rewrite (bytes_mid _ _ _ _ _ Hb). cbn [bind Z.eqb Pos.eqb].
    rewrite store_ok.
    2:{ apply bytes_at_app in Hb as [_ Hb]. apply bytes_at_cons in Hb as [Hb _]. congruence. }
    cbn [bind]. apply bytes_at_app in Hb as [Hb _].
    set (q := p + Z.of_nat (length (a ++ c :: repeat 47 n))).
    destruct (IH (upd m q 0) p a c) as [m' [E W]]; [apply upd_bytes; [exact Hb|lia]|exact Hc|].
    exists m'. split; [exact E|]. rewrite repeat_snoc. eapply written_app_rev; [|exact W].
    rewrite repeat_length. replace (p + Z.of_nat (length a) + 1 + Z.of_nat n) with q
      by (unfold q; rewrite app_length; cbn [length]; rewrite repeat_length; lia).
    apply written_cons, written_nil.
Qed.

Lemma find_slash_ok c : forall m p pre rest, bytes_at m p (pre ++ c ++ rest) -> noslash c ->
  (pre = [] \/ ends_slash pre) -> find_slash (length pre + length c) m p = Ok (length pre).
Proof.
  induction c as [|x c IH] using rev_ind; intros m p pre rest Hb Hn Hp.
  - cbn [app length] in *. rewrite Nat.add_0_r. destruct Hp as [->|[l' ->]]; [reflexivity|].
    rewrite app_length. cbn [length]. rewrite Nat.add_1_r. cbn [find_slash].
    rewrite <- app_assoc in Hb. cbn [app] in Hb. rewrite (bytes_mid _ _ _ _ _ Hb). reflexivity.
  - rewrite app_length. cbn [length]. replace (length pre + (length c + 1))%nat with (S (length pre + length c)) by lia.
    cbn [find_slash]. rewrite <- !app_assoc in Hb. cbn [app] in Hb.
    replace (Z.of_nat (length pre + length c)) with (Z.of_nat (length (pre ++ c))) by (rewrite app_length; lia).
    pose proof Hb as Hb2. rewrite app_assoc in Hb2. rewrite (bytes_mid _ _ _ _ _ Hb2). cbn [bind].
    assert (x <> 47) by (intros ->; apply Hn, in_or_app; right; left; reflexivity).
    replace (x =? 47) with false by lia. apply (IH m p pre (x :: rest)); [exact Hb| |exact Hp].
    intros Hi. apply Hn, in_or_app. auto.
Qed.

Lemma back_while_ok want b : forall m p a rest, bytes_at m p (a ++ b ++ rest) ->
  Forall (fun c => (c =? 47) = want) b ->
  (a = [] \/ exists a' x, a = a' ++ [x] /\ (x =? 47) = negb want) -> (a ++ b) <> [] ->
  back_while want (length a + length b - 1) m p =
    Ok (match a with [] => None | _ => Some (length a - 1)%nat end).
Proof.
  induction b as [|x b IH] using rev_ind; intros m p a rest Hb Hf Ha Hne.
  - destruct Ha as [->|[a' [x [-> Hx]]]]; [cbn in Hne; congruence|].
    cbn [length app] in *. rewrite app_length. cbn [length].
    replace (length a' + 1 + 0 - 1)%nat with (length a') by lia.
    rewrite <- app_assoc in Hb. cbn [app] in Hb.
    replace (match a' ++ [x] with [] => None | _ :: _ => Some (length a' + 1 - 1)%nat end) with (Some (length a'))
      by (destruct a'; cbn; f_equal; lia).
    destruct (length a') eqn:EL; cbn [back_while]; rewrite <- EL; rewrite (bytes_mid _ _ _ _ _ Hb); cbn [bind];
      rewrite Hx; destruct want; reflexivity.
  - rewrite app_length. cbn [length]. replace (length a + (length b + 1) - 1)%nat with (length a + length b)%nat by lia.
    apply Forall_app in Hf as [Hf Hx]. inversion Hx as [|? ? Hx' _]; subst.
    rewrite <- !app_assoc in Hb. cbn [app] in Hb. pose proof Hb as Hb2. rewrite app_assoc in Hb2.
    assert (HL : load m (p + Z.of_nat (length a + length b)) = Ok x).
    { replace (length a + length b)%nat with (length (a ++ b)) by apply app_length. apply (bytes_mid _ _ _ _ _ Hb2). }
    destruct (length a + length b)%nat as [|k] eqn:EK; cbn [back_while]; rewrite HL; cbn [bind];
      rewrite Bool.eqb_reflx.
    + destruct a; [reflexivity|cbn in EK; lia].
    + replace k with (length a + length b - 1)%nat by lia. apply (IH m p a (x :: rest)); [exact Hb|exact Hf|exact Ha|].
      intros E. apply (f_equal (@length _)) in E. rewrite app_length in E. cbn in E. lia.
Qed.

Lemma noslash_Forall l : noslash l -> Forall (fun c => (c =? 47) = false) l.
Proof. intros H. apply Forall_forall. intros c Hc. apply Z.eqb_neq. intros ->. apply H, Hc. Qed.
Lemma slashes_Forall l : slashes l -> Forall (fun c => (c =? 47) = true) l.
Proof. intros H. eapply Forall_impl; [|exact H]. cbn. intros c <-. reflexivity. Qed.

Lemma noslash_last c : noslash c -> c <> [] -> exists c' x, c = c' ++ [x] /\ (x =? 47) = false.
Proof.
  intros Hn Hne. destruct (exists_last Hne) as [c' [x ->]]. exists c', x. split; [reflexivity|].
  apply Z.eqb_neq. intros ->. apply Hn, in_or_app. right; left; reflexivity.
Qed.

Lemma str_first m p s : str_at m p s -> s <> [] -> exists c, load m p = Ok c /\ (c =? 0) = false.
Proof.
  destruct s as [|c s]; intros H Hn; [congruence|]. apply str_cons in H as [H0 [Hc _]]. exists c.
  unfold load. rewrite H0. split; [reflexivity|lia].
Qed.

Lemma cut_zeros m m' p s n : str_at m p (s ++ repeat 47 n) -> written m m' (p + Z.of_nat (length s)) (repeat 0 n) ->
  str_at m' p s.
Proof.
  intros [Hb Hf] [Wb Wo]. apply Forall_app in Hf as [Hf _]. split; [|exact Hf].
  rewrite <- app_assoc in Hb. apply bytes_at_app in Hb as [Hb Hb2]. apply bytes_at_app. split.
  - intros i Hi. rewrite Wo by lia. apply Hb, Hi.
  - apply bytes_at_cons. split; [|intros i Hi; cbn in Hi; lia]. destruct n as [|n].
    + cbn [repeat app] in Hb2. apply bytes_at_cons in Hb2 as [Hb2 _]. rewrite Wo by (cbn; lia). exact Hb2.
    + cbn [repeat] in Wb. apply bytes_at_cons in Wb. tauto.
Qed.

(** basename *)
Lemma basename_empty fuel m p : str_at m p [] -> basename fuel m (Some p) = Ok (m, Static [46]).
Proof. intros H. apply str_nil in H. unfold basename, load. rewrite H. reflexivity. Qed.

Lemma basename_root fuel m p sl : str_at m p sl -> slashes sl -> sl <> [] -> (length sl < fuel)%nat ->
  exists m', basename fuel m (Some p) = Ok (m', Ptr p) /\ str_at m' p [47] /\ same_outside m m' (p + 1) (length sl - 1).
Proof.
  intros Hs Hsl Hne Hf. destruct (str_first _ _ _ Hs Hne) as [c0 [E0 E0']].
  unfold basename. rewrite E0. cbn [bind]. rewrite E0', (strlen_ok _ _ _ _ Hs Hf). cbn [bind].
  rewrite (slashes_repeat sl Hsl) in Hs. destruct sl as [|x sl]; [congruence|]. inversion Hsl; subst x.
  cbn [length] in *. replace (S (length sl) - 1)%nat with (length (@nil Z) + length sl)%nat by (cbn; lia).
  cbn [repeat] in Hs.
  destruct (del_slashes_ok (length sl) m p [] 47) as [m' [E W]]; [|right; reflexivity|].
  { destruct Hs as [Hb _]. apply bytes_at_app in Hb as [Hb _]. exact Hb. }
  rewrite E. cbn [bind length find_slash]. exists m'. split; [repeat f_equal; lia|]. cbn [length] in W.
  split.
  - apply (cut_zeros m m' p [47] (length sl)); [exact Hs|]. cbn [length].
    replace (p + Z.of_nat 1) with (p + Z.of_nat 0 + 1) by lia. exact W.
  - destruct W as [_ Wo]. rewrite repeat_length in Wo. replace (p + Z.of_nat 0 + 1) with (p + 1) in Wo by lia.
    replace (0 + length sl)%nat with (length sl) by lia. exact Wo.
Qed.

Lemma basename_comp fuel m p pre c sl : str_at m p (pre ++ c ++ sl) -> c <> [] -> noslash c -> slashes sl ->
  (pre = [] \/ ends_slash pre) -> (length (pre ++ c ++ sl) < fuel)%nat ->
  exists m', basename fuel m (Some p) = Ok (m', Ptr (p + Z.of_nat (length pre))) /\
    str_at m' (p + Z.of_nat (length pre)) c /\
    same_outside m m' (p + Z.of_nat (length pre + length c)) (length sl).
Proof.
  intros Hs Hne Hn Hsl Hp Hf.
  destruct (str_first _ _ _ Hs) as [c0 [E0 E0']]; [intros E; destruct pre, c; cbn in E; congruence|].
  unfold basename. rewrite E0. cbn [bind]. rewrite E0', (strlen_ok _ _ _ _ Hs Hf). cbn [bind].
  rewrite (slashes_repeat sl Hsl) in Hs.
  destruct (noslash_last c Hn Hne) as [c' [x [-> Hx]]].
  rewrite !app_length. cbn [length].
  replace (length pre + (length c' + 1 + length sl) - 1)%nat with (length (pre ++ c') + length sl)%nat
    by (rewrite app_length; lia).
  pose proof Hs as [Hb _]. apply bytes_at_app in Hb as [Hb _].
  destruct (del_slashes_ok (length sl) m p (pre ++ c') x) as [m' [E W]]; [|left; lia|].
  { rewrite <- !app_assoc in Hb. cbn [app] in Hb. rewrite <- app_assoc. exact Hb. }
  rewrite E. cbn [bind]. rewrite app_length in *.
  assert (HS' : str_at m' p (pre ++ c' ++ [x])).
  { apply (cut_zeros m m' p (pre ++ c' ++ [x]) (length sl)).
    - rewrite <- !app_assoc in *. exact Hs.
    - rewrite !app_length. cbn [length]. replace (p + Z.of_nat (length pre + (length c' + 1))) with (p + Z.of_nat (length pre + length c') + 1) by lia.
      exact W. }
  rewrite (find_slash_ok c' m' p pre ([x] ++ [0])).
  - cbn [bind]. exists m'. split; [reflexivity|]. split; [apply (str_app_tail _ _ _ _ HS')|].
    destruct W as [_ Wo]. rewrite repeat_length in Wo.
    replace (p + Z.of_nat (length pre + (length c' + 1))) with (p + Z.of_nat (length pre + length c') + 1) by lia. exact Wo.
  - destruct HS' as [HB _]. rewrite <- !app_assoc in HB. exact HB.
  - intros Hi. apply Hn, in_or_app. auto.
  - exact Hp.
Qed.

(** dirname *)
Lemma dirname_empty fuel m p : str_at m p [] -> dirname fuel m (Some p) = Ok (m, Static [46]).
Proof. intros H. apply str_nil in H. unfold dirname, load. rewrite H. reflexivity. Qed.

Lemma str_bytes m p s : str_at m p s -> bytes_at m p (s ++ [0]).
Proof. intros [H _]; exact H. Qed.

Lemma dirname_slashes fuel m p sl : str_at m p sl -> slashes sl -> sl <> [] -> (length sl < fuel)%nat ->
  dirname fuel m (Some p) = Ok (m, Static [47]).
Proof.
  intros Hs Hsl Hne Hf. destruct (str_first _ _ _ Hs Hne) as [c0 [E0 E0']].
  unfold dirname. rewrite E0. cbn [bind]. rewrite E0', (strlen_ok _ _ _ _ Hs Hf). cbn [bind].
  pose proof (back_while_ok true sl m p [] [0]) as H. cbn [app length Nat.add] in H.
  rewrite H; [reflexivity|apply str_bytes, Hs|apply slashes_Forall, Hsl|left; reflexivity|exact Hne].
Qed.

(** common part: trailing slashes and the last component are skipped *)
Lemma dirname_two fuel m p pre c sl : str_at m p (pre ++ c ++ sl) -> c <> [] -> noslash c -> slashes sl ->
  (pre = [] \/ ends_slash pre) -> (length (pre ++ c ++ sl) < fuel)%nat ->
  dirname fuel m (Some p) =
    match pre with
    | [] => Ok (m, Static [46])
    | _ => r3 <- back_while true (length pre - 1) m p ;;
           match r3 with
           | None => Ok (m, Static [47])
           | Some i => m1 <- store m (p + Z.of_nat i + 1) 0 ;; Ok (m1, Ptr p)
           end
    end.
Proof.
  intros Hs Hne Hn Hsl Hp Hf.
  destruct (str_first _ _ _ Hs) as [c0 [E0 E0']]; [intros E; destruct pre, c; cbn in E; congruence|].
  unfold dirname. rewrite E0. cbn [bind]. rewrite E0', (strlen_ok _ _ _ _ Hs Hf). cbn [bind].
  pose proof (str_bytes _ _ _ Hs) as Hb.
  replace (length (pre ++ c ++ sl) - 1)%nat with (length (pre ++ c) + length sl - 1)%nat by (rewrite !app_length; lia).
  destruct (noslash_last c Hn Hne) as [c' [x [Ec Hx]]].
  rewrite (back_while_ok true sl m p (pre ++ c) [0]).
  - assert (EM : (match pre ++ c with [] => None | _ :: _ => Some (length (pre ++ c) - 1)%nat end) = Some (length pre + length c - 1)%nat).
    { rewrite app_length. destruct pre, c; try reflexivity; try congruence. }
    rewrite EM. cbn [bind].
    rewrite (back_while_ok false c m p pre (sl ++ [0])).
    + destruct pre as [|y pre]; [reflexivity|]. reflexivity.
    + rewrite <- !app_assoc in Hb. exact Hb.
    + apply noslash_Forall, Hn.
    + destruct Hp as [->|[l' ->]]; [left; reflexivity|right]. exists l', 47. auto.
    + intros E. destruct pre, c; cbn in E; congruence.
  - rewrite <- !app_assoc in *. exact Hb.
  - apply slashes_Forall, Hsl.
  - right. exists (pre ++ c'), x. rewrite Ec, app_assoc. auto.
  - intros E. destruct pre, c; cbn in E; congruence.
Qed.

Lemma dirname_single fuel m p c sl : str_at m p (c ++ sl) -> c <> [] -> noslash c -> slashes sl ->
  (length (c ++ sl) < fuel)%nat -> dirname fuel m (Some p) = Ok (m, Static [46]).
Proof.
  intros Hs Hne Hn Hsl Hf. apply (dirname_two fuel m p [] c sl); auto.
Qed.

Lemma slashes_end l : slashes l -> l <> [] -> ends_slash l.
Proof.
  intros H Hne. destruct (exists_last Hne) as [l' [x ->]]. apply Forall_app in H as [_ H]. inversion H; subst.
  exists l'. reflexivity.
Qed.

Lemma dirname_root fuel m p sl1 c sl : str_at m p (sl1 ++ c ++ sl) -> sl1 <> [] -> slashes sl1 -> c <> [] -> noslash c ->
  slashes sl -> (length (sl1 ++ c ++ sl) < fuel)%nat -> dirname fuel m (Some p) = Ok (m, Static [47]).
Proof.
  intros Hs Hne1 Hsl1 Hne Hn Hsl Hf.
  rewrite (dirname_two fuel m p sl1 c sl); try assumption; [|right; apply slashes_end; assumption].
  pose proof (back_while_ok true sl1 m p [] (c ++ sl ++ [0])) as H. cbn [app length Nat.add] in H.
  rewrite H; [destruct sl1; [congruence|reflexivity]| |apply slashes_Forall, Hsl1|left; reflexivity|exact Hne1].
  pose proof (str_bytes _ _ _ Hs) as Hb. rewrite <- !app_assoc in Hb. exact Hb.
Qed.

Lemma dirname_dir fuel m p d sl1 c sl : str_at m p (d ++ sl1 ++ c ++ sl) -> d <> [] -> ~ ends_slash d ->
  sl1 <> [] -> slashes sl1 -> c <> [] -> noslash c ->
  slashes sl -> (length (d ++ sl1 ++ c ++ sl) < fuel)%nat ->
  exists m', dirname fuel m (Some p) = Ok (m', Ptr p) /\ str_at m' p d /\ same_outside m m' (p + Z.of_nat (length d)) 1.
Proof.
  intros Hs Hd Hnd Hne1 Hsl1 Hne Hn Hsl Hf.
  rewrite (dirname_two fuel m p (d ++ sl1) c sl); try assumption.
  2:{ rewrite <- app_assoc. exact Hs. }
  2:{ right. destruct (slashes_end _ Hsl1 Hne1) as [l' ->]. exists (d ++ l'). rewrite app_assoc. reflexivity. }
  2:{ rewrite <- app_assoc. exact Hf. }
  destruct (exists_last Hd) as [d' [x Ed]].
  assert (Hx : (x =? 47) = false) by (apply Z.eqb_neq; intros ->; apply Hnd; exists d'; exact Ed).
  rewrite app_length. rewrite (back_while_ok true sl1 m p d (c ++ sl ++ [0])).
  - destruct sl1 as [|y sl1]; [congruence|]. inversion Hsl1; subst y.
    destruct (cut_string m p d 47 (sl1 ++ c ++ sl) Hs) as [HN [HS1 HS2]].
    exists (upd m (p + Z.of_nat (length d)) 0).
    assert (HLd : (0 < length d)%nat) by (destruct d; [congruence|cbn; lia]).
    assert (EA : p + Z.of_nat (length d - 1) + 1 = p + Z.of_nat (length d)) by lia.
    split.
    + destruct d as [|z d]; [congruence|]. cbn [app bind]. rewrite EA.
      rewrite store_ok by exact HN. reflexivity.
    + split; [exact HS1|]. intros a Ha. unfold upd. replace (_ =? _) with false by lia. reflexivity.
  - pose proof (str_bytes _ _ _ Hs) as Hb. rewrite <- !app_assoc in Hb. exact Hb.
  - apply slashes_Forall, Hsl1.
  - right. exists d', x. auto.
  - intros E. destruct d; cbn in E; congruence.
Qed.

(** every path falls under exactly one of the cases *)
Lemma split_trailing (f : Z -> bool) (s : list Z) : exists a b, s = a ++ b /\ Forall (fun c => f c = true) b /\
  (a = [] \/ exists a' x, a = a' ++ [x] /\ f x = false).
Proof.
  induction s as [|x s IH] using rev_ind; [exists [], []; auto|].
  destruct (f x) eqn:E.
  - destruct IH as [a [b [-> [Hb Ha]]]]. exists a, (b ++ [x]). split; [rewrite app_assoc; reflexivity|].
    split; [apply Forall_app; auto|exact Ha].
  - exists (s ++ [x]), []. rewrite app_nil_r. split; [reflexivity|]. split; [constructor|]. right. eauto.
Qed.

Lemma path_cases s : s = [] \/ (s <> [] /\ slashes s) \/
  (exists c sl, s = c ++ sl /\ c <> [] /\ noslash c /\ slashes sl) \/
  (exists sl1 c sl, s = sl1 ++ c ++ sl /\ sl1 <> [] /\ slashes sl1 /\ c <> [] /\ noslash c /\ slashes sl) \/
  (exists d sl1 c sl, s = d ++ sl1 ++ c ++ sl /\ d <> [] /\ ~ ends_slash d /\ sl1 <> [] /\ slashes sl1 /\
     c <> [] /\ noslash c /\ slashes sl).
Proof.
  assert (HT : forall b, Forall (fun c => (c =? 47) = true) b -> slashes b)
    by (intros b H; eapply Forall_impl; [|exact H]; cbn; intros; lia).
  assert (HF : forall b, Forall (fun c => negb (c =? 47) = true) b -> noslash b)
    by (intros b H Hi; rewrite Forall_forall in H; apply H in Hi; discriminate).
  destruct (split_trailing (fun c => c =? 47) s) as [a [sl [-> [Hsl Ha]]]]. apply HT in Hsl.
  destruct Ha as [->|[a' [x [-> Hx]]]].
  { destruct sl as [|y sl]; [left; reflexivity|right; left]. split; [discriminate|exact Hsl]. }
  destruct (split_trailing (fun c => negb (c =? 47)) (a' ++ [x])) as [b [c [E [Hc Hb]]]]. apply HF in Hc.
  assert (Hne : c <> []).
  { intros ->. destruct Hb as [->|[b' [y [-> Hy]]]].
    - destruct a'; discriminate.
    - rewrite app_nil_r in E. apply app_inj_tail in E as [_ <-]. rewrite Hx in Hy. discriminate. }
  rewrite E. destruct Hb as [->|[b' [y [-> Hy]]]].
  { right; right; left. exists c, sl. auto. }
  assert (y = 47) by (destruct (Z.eqb_spec y 47); [assumption|discriminate]). subst y.
  destruct (split_trailing (fun c => c =? 47) (b' ++ [47])) as [d [sl1 [E1 [Hsl1 Hd]]]]. apply HT in Hsl1.
  assert (Hne1 : sl1 <> []).
  { intros ->. destruct Hd as [->|[d0 [y0 [-> Hy0]]]].
    - destruct b'; discriminate.
    - rewrite app_nil_r in E1. apply app_inj_tail in E1 as [_ <-]. discriminate. }
  rewrite E1. destruct Hd as [->|[d0 [y0 [-> Hy0]]]].
  - right; right; right; left. exists sl1, c, sl. cbn [app]. rewrite <- ?app_assoc. split; [reflexivity|]. auto 10.
  - right; right; right; right. exists (d0 ++ [y0]), sl1, c, sl. rewrite <- !app_assoc. split; [reflexivity|].
    split; [destruct d0; discriminate|]. split; [|auto 10].
    intros [l E2]. apply app_inj_tail in E2 as [_ ->]. discriminate.
Qed.
