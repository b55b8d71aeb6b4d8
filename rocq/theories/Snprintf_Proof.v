From Verif Require Import Base Mem_Model Mem_Proof Str_Model Str_Spec Str_Proof Snprintf_Model Snprintf_Spec.
Open Scope Z_scope.

Lemma firstn_app_min {A} (l : list A) n k : firstn (Nat.min n k) l = firstn n (firstn k l).
Proof. rewrite firstn_firstn. reflexivity. Qed.

Lemma text_keep m m' buf size l p t : written m m' buf l -> (length l <= size)%nat -> piece_text m buf size p t -> piece_text m' buf size p t.
Proof.
  intros W L T. destruct T as [c|str s k d Hs Hd Hl]; constructor; auto.
  apply (written_str m m' buf l str s W Hs). unfold disjoint in *. lia.
Qed.

Lemma strncpy_0 m d p s : str_at m p s -> strncpy m d p 0 = Ok (m, d).
Proof.
  intros H. unfold strncpy. cbn [ncopy_loop]. pose proof (str_load m p s 0 H ltac:(lia)) as E. cbn [Z.of_nat] in E. rewrite Z.add_0_r in E.
  rewrite E. cbn [bind]. destruct (nth 0 s 0 =? 0); reflexivity.
Qed.
Lemma strncpy_room m d p s n : str_at m p s -> mapped m d n -> (n = 0%nat \/ disjoint d n p (length s + 1)) -> (n <= length s)%nat ->
  exists m', strncpy m d p n = Ok (m', d) /\ written m m' d (firstn n s).
Proof.
  intros Hs Hm [->|Hd] Hn.
  - rewrite (strncpy_0 m d p s Hs). eexists. split; [reflexivity|]. apply written_nil.
  - destruct (strncpy_ok m d p s n Hs Hm Hd) as (m' & E & W). replace (n - length s)%nat with 0%nat in W by lia.
    cbn [repeat] in W. rewrite app_nil_r in W. eauto.
Qed.

Lemma append_ok m0 m buf size lim out p t : mapped m0 buf size -> (lim <= size)%nat -> written m0 m buf (firstn lim out) ->
  piece_text m0 buf size p t ->
  exists m', append m {| buffer := buf; limit := lim; count := length out |} p = Ok (m', {| buffer := buf; limit := lim; count := length (out ++ t) |}) /\
             written m0 m' buf (firstn lim (out ++ t)).
Proof.
  intros Hm L W T. assert (Hm' : mapped m buf size) by (eapply written_mapped; eassumption).
  assert (T' : piece_text m buf size p t) by (eapply text_keep; [exact W|rewrite firstn_length; lia|exact T]).
  destruct T' as [c|str s k d Hs Hd Hl].
  - cbn [append limit count buffer]. unfold bump. cbn [limit count buffer]. rewrite app_length. cbn [length].
    destruct (length out <? lim)%nat eqn:E.
    + rewrite store_ok by (apply Hm'; lia). cbn [bind]. eexists. split; [reflexivity|].
      rewrite !firstn_all2 in * by (try rewrite app_length; cbn; lia).
      apply (written_app m0 m _ buf out [c] W). apply written_cons, written_nil.
    + cbn [bind]. eexists. split; [reflexivity|]. rewrite firstn_app. replace (lim - length out)%nat with 0%nat by lia. cbn. rewrite app_nil_r. exact W.
  - cbn [append limit count buffer]. rewrite (strnlen_ok m str (firstn k s) k (str_nstr m str s k Hs)). cbn [bind].
    set (t := firstn k s) in *. unfold remaining, bump. cbn [limit count buffer].
    set (r := (if (length out <? lim)%nat then lim - length out else 0)%nat).
    replace (Nat.min (length t) (Nat.min d r)) with (Nat.min (length t) r) by lia.
    set (n := Nat.min (length t) r).
    assert (Hn : (n <= size - length out)%nat /\ (n = 0 \/ length out + n <= size)%nat) by (unfold n, r; destruct (length out <? lim)%nat eqn:E; lia).
    assert (Hns : (n <= length s)%nat) by (unfold n, t; rewrite firstn_length; lia).
    destruct (strncpy_room m (buf + Z.of_nat (length out)) str s n Hs) as (m1 & E1 & W1).
    { intros i Hi. replace (buf + Z.of_nat (length out) + Z.of_nat i) with (buf + Z.of_nat (length out + i)) by lia. apply Hm'. lia. }
    { destruct Hn as [_ [->|Hn]]; [left; reflexivity|right]. unfold disjoint in *. lia. }
    { exact Hns. }
    rewrite E1. cbn [bind]. rewrite app_length. eexists. split; [reflexivity|].
    assert (Et : firstn n s = firstn r t).
    { unfold n, t. rewrite firstn_firstn, firstn_length. rewrite <- (firstn_firstn s r k) at 1. rewrite firstn_firstn.
      destruct (Nat.le_gt_cases (Nat.min r k) (length s)); [f_equal; lia|]. rewrite !firstn_all2 by lia. reflexivity. }
    rewrite Et in W1. rewrite firstn_app. unfold r in W1. destruct (length out <? lim)%nat eqn:E.
    + rewrite firstn_all2 in W |- * by lia. eapply written_app; eassumption.
    + cbn [firstn] in W1. replace (lim - length out)%nat with 0%nat by lia. cbn [firstn]. rewrite app_nil_r.
      destruct W as [Wb Ws], W1 as [_ W1s]. split.
      * intros i Hi. rewrite W1s by (cbn; lia). apply Wb, Hi.
      * intros a Ha. rewrite W1s by (cbn; lia). apply Ws, Ha.
Qed.

Lemma append_all_ok m0 buf size lim ps ts : mapped m0 buf size -> (lim <= size)%nat -> Forall2 (piece_text m0 buf size) ps ts ->
  forall m out, written m0 m buf (firstn lim out) ->
  exists m', append_all m {| buffer := buf; limit := lim; count := length out |} ps
             = Ok (m', {| buffer := buf; limit := lim; count := length (out ++ concat ts) |}) /\ written m0 m' buf (firstn lim (out ++ concat ts)).
Proof.
  intros Hm L F. induction F as [|p t ps ts Hp F IH]; intros m out W; cbn [append_all concat].
  - rewrite app_nil_r. eauto.
  - destruct (append_ok m0 m buf size lim out p t Hm L W Hp) as (m1 & -> & W1). cbn [bind].
    destruct (IH m1 (out ++ t) W1) as (m2 & -> & W2). rewrite app_assoc. eauto.
Qed.

Lemma vsnprintf_ok m buf size ps ts : mapped m buf size -> Forall2 (piece_text m buf size) ps ts ->
  exists m', vsnprintf m buf size ps = Ok (m', length (concat ts)) /\ written m m' buf (truncated size (concat ts)).
Proof.
  intros Hm F. unfold vsnprintf, truncated. destruct size as [|k].
  - cbn [Nat.eqb]. destruct (append_all_ok m buf 0 0 ps ts Hm ltac:(lia) F m [] (written_nil _ _)) as (m1 & E & W).
    cbn [length] in E. rewrite E. cbn [bind count app]. eexists. split; [reflexivity|exact W].
  - cbn [Nat.eqb]. replace (S k - 1)%nat with k by lia.
    assert (W0 : written m m buf (firstn k [])) by (rewrite firstn_nil; apply written_nil).
    destruct (append_all_ok m buf (S k) k ps ts Hm ltac:(lia) F m [] W0) as (m1 & E & W). cbn [length] in E. rewrite E. cbn [bind count buffer app] in *.
    assert (Hm1 : mapped m1 buf (S k)) by (eapply written_mapped; eassumption).
    rewrite store_ok by (apply Hm1; lia). cbn [bind]. eexists. split; [reflexivity|].
    eapply written_app; [exact W|]. rewrite firstn_length. apply written_cons, written_nil.
Qed.

(** ** asprintf *)
Lemma set_nth_app a x b c : set_nth (a ++ x :: b) (length a) c = Some (a ++ c :: b).
Proof. induction a as [|y a IH]; cbn; [reflexivity|]. rewrite IH. reflexivity. Qed.
Lemma expand_ok junk out tail : exists tail', expand junk {| block := out ++ tail; used := length out |} = Ok {| block := out ++ tail'; used := length out |} /\ tail' <> [].
Proof.
  unfold expand. cbn [block used]. destruct (length out =? length (out ++ tail))%nat eqn:E.
  - rewrite app_length in E. assert (tail = []) by (destruct tail; [reflexivity|cbn in E; lia]). subst tail. rewrite app_nil_r.
    rewrite firstn_all. cbn [block used]. exists (map junk (seq (length out) (Nat.max (2 * length out) 16 - length out))).
    rewrite app_length, map_length, seq_length. replace (_ <? _)%nat with true by lia. split; [reflexivity|].
    intros H. apply (f_equal (@length Z)) in H. rewrite map_length, seq_length in H. cbn in H. lia.
  - cbn [block used]. exists tail. rewrite app_length in *. destruct tail as [|x tail]; [cbn in E; lia|]. cbn [length].
    replace (_ <? _)%nat with true by lia. split; [reflexivity|discriminate].
Qed.
Lemma rappend_all_ok junk cs : forall out tail, exists tail',
  rappend_all junk {| block := out ++ tail; used := length out |} cs = Ok {| block := (out ++ cs) ++ tail'; used := length (out ++ cs) |}.
Proof.
  induction cs as [|c cs IH]; intros out tail; cbn [rappend_all]; [rewrite app_nil_r; eauto|].
  unfold rappend. destruct (expand_ok junk out tail) as (tail1 & -> & N). cbn [bind block used].
  destruct tail1 as [|x tail1]; [congruence|]. rewrite set_nth_app.
  destruct (IH (out ++ [c]) tail1) as (tail2 & E). rewrite <- !app_assoc in E. cbn [app] in E. rewrite app_length in E. cbn [length] in E.
  cbn [bind]. rewrite E. exists tail2. rewrite <- app_assoc. reflexivity.
Qed.
Lemma vasprintf_ok junk cs : exists tail, vasprintf junk cs = Ok (cs ++ 0 :: tail, length cs).
Proof.
  unfold vasprintf. destruct (rappend_all_ok junk cs [] []) as (tail & E). cbn [app length] in E. rewrite E. cbn [bind].
  destruct (expand_ok junk cs tail) as (tail1 & -> & N). cbn [bind block used]. destruct tail1 as [|x tail1]; [congruence|].
  rewrite set_nth_app. eauto.
Qed.
