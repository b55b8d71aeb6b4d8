(** Proofs about getsubopt. *)
From Verif Require Import Base Mem_Proof Str_Model Str_Spec Str_Client Str_Proof StrSearch_Proof StrTok_Proof Subopt_Model Subopt_Spec.
Open Scope Z_scope.

Lemma lex_eq a : forall b, lex a b = Eq <-> a = b.
Proof.
  induction a as [|x a IH]; destruct b as [|y b]; cbn; try (split; [discriminate|discriminate]); [tauto|].
  destruct (Z.compare_spec x y) as [->| |]; [rewrite IH; split; congruence| |]; split; try discriminate; intros E; inversion E; lia.
Qed.
Lemma scan_ok go s : forall fuel m p, str_at m p s -> (length s < fuel)%nat ->
  exists a b, s = a ++ b /\ Forall (fun c => go c = true) a /\ (b = [] \/ exists c b', b = c :: b' /\ go c = false) /\
    scan go fuel m p = Ok (p + Z.of_nat (length a)).
Proof.
  induction s as [|c s IH]; intros fuel m p Hs Hf; (destruct fuel as [|f]; [lia|]); cbn [scan].
  - apply str_nil in Hs. unfold load. rewrite Hs. cbn [bind Z.eqb negb andb]. exists [], []. cbn [length].
    repeat split; [constructor|left; reflexivity|f_equal; lia].
  - apply str_cons in Hs as [H0 [Hc Hs]]. unfold load. rewrite H0. cbn [bind].
    replace (c =? 0) with false by lia. cbn [negb andb]. destruct (go c) eqn:E.
    + destruct (IH f m (p + 1) Hs) as [a [b [-> [Ha [Hb Hk]]]]]; [cbn in Hf; lia|].
      exists (c :: a), b. split; [reflexivity|]. split; [constructor; assumption|]. split; [exact Hb|].
      rewrite Hk. f_equal. cbn [length]. lia.
    + exists [], (c :: s). split; [reflexivity|]. split; [constructor|]. split; [eauto|]. f_equal. cbn. lia.
Qed.
Lemma load_end m p a : str_at m p a -> load m (p + Z.of_nat (length a)) = Ok 0.
Proof. intros H. rewrite (str_load _ _ _ (length a) H) by lia. rewrite str_end. reflexivity. Qed.
Lemma load_mid m p a c b : str_at m p (a ++ c :: b) -> load m (p + Z.of_nat (length a)) = Ok c /\ 0 < c < 256.
Proof.
  intros H. apply str_app_tail in H. apply str_cons in H as [H0 [Hc _]]. unfold load. rewrite H0. auto.
Qed.
Lemma store_cut m p a c b : str_at m p (a ++ c :: b) -> store m (p + Z.of_nat (length a)) 0 = Ok (upd m (p + Z.of_nat (length a)) 0).
Proof. intros H. apply cut_string in H as [H _]. unfold store. destruct (m _); [reflexivity|congruence]. Qed.

Lemma trim_stop c s : separator c = false -> trim (c :: s) = c :: s.
Proof. unfold separator. intros H. cbn [trim]. destruct ((c =? 32) || (c =? 9)) eqn:E; [|reflexivity]. lia. Qed.
Lemma subopts_seps d r : Forall (fun c => separator c = true) d -> suboptions (d ++ r) = suboptions r.
Proof.
  induction 1 as [|x d Hx Hd IH]; cbn [app]; [reflexivity|]. rewrite <- IH. clear IH. unfold suboptions. cbn [fields existsb].
  destruct (x =? 44) eqn:E; cbn [orb map trim filter]; [reflexivity|].
  pose proof (fields_ne [44] (d ++ r)). destruct (fields [44] (d ++ r)) as [|f fs]; [congruence|]. cbn [map trim].
  unfold separator in Hx. rewrite E in Hx. cbn [orb] in Hx. rewrite Hx. reflexivity.
Qed.
Definition nocomma (c : Z) : Prop := isd [44] c = false.
Lemma subopts_one c a : separator c = false -> Forall nocomma a -> suboptions (c :: a) = [c :: a].
Proof.
  intros Hc Ha. unfold suboptions. rewrite (fields_run [44] (c :: a)).
  - cbn [map]. rewrite trim_stop by exact Hc. reflexivity.
  - constructor; [|exact Ha]. unfold separator in Hc. cbn. lia.
Qed.
Lemma subopts_cut c a u : separator c = false -> Forall nocomma a -> suboptions (c :: a ++ 44 :: u) = (c :: a) :: suboptions u.
Proof.
  intros Hc Ha. unfold suboptions. change (c :: a ++ 44 :: u) with ((c :: a) ++ 44 :: u). rewrite (fields_cut [44] (c :: a)).
  - cbn [map]. rewrite trim_stop by exact Hc. reflexivity.
  - constructor; [|exact Ha]. unfold separator in Hc. cbn. lia.
  - reflexivity.
Qed.
Lemma cut_none n : Forall (fun c => negb (c =? 44) && negb (c =? 61) = true) n -> cut n = (n, None).
Proof. induction 1 as [|c n Hc Hn IH]; cbn [cut]; [reflexivity|]. replace (c =? 61) with false by lia. rewrite IH. reflexivity. Qed.
Lemma cut_some n v : Forall (fun c => negb (c =? 44) && negb (c =? 61) = true) n -> cut (n ++ 61 :: v) = (n, Some v).
Proof. induction 1 as [|c n Hc Hn IH]; cbn [cut app Z.eqb Pos.eqb]; [reflexivity|]. replace (c =? 61) with false by lia. rewrite IH. reflexivity. Qed.
Lemma nc1 n : Forall (fun c => negb (c =? 44) && negb (c =? 61) = true) n -> Forall nocomma n.
Proof. apply Forall_impl. unfold nocomma. cbn. lia. Qed.
Lemma nc2 n : Forall (fun c => negb (c =? 44) = true) n -> Forall nocomma n.
Proof. apply Forall_impl. unfold nocomma. cbn. lia. Qed.

Lemma find_ok fuel m q n : str_at m q n -> (length n < fuel)%nat -> forall addrs keys cnt,
  Forall2 (fun a k => str_at m a k) addrs keys -> 0 <= cnt ->
  exists r, find fuel m q addrs cnt = Ok r /\
    ((r = -1 /\ ~ In n keys) \/
     (exists k, r = cnt + Z.of_nat k /\ nth_error keys k = Some n /\ forall j, (j < k)%nat -> nth_error keys j <> Some n)).
Proof.
  intros Hn Hf addrs keys cnt F. revert cnt. induction F as [|a k addrs keys Hk F IH]; intros cnt Hc; cbn [find].
  - exists (-1). split; [reflexivity|]. left. cbn. tauto.
  - destruct (strcmp_ok fuel m q a n k Hn Hk Hf) as (r & E & L). rewrite E. cbn [bind].
    destruct (Z.eqb_spec r 0) as [->|NZ].
    + symmetry in L. apply lex_eq in L as ->. exists cnt. split; [reflexivity|]. right. exists 0%nat. split; [lia|]. split; [reflexivity|]. lia.
    + assert (NE : n <> k). { intros ->. assert (lex k k = Eq) by (apply lex_eq; reflexivity). rewrite <- L in H. apply Z.compare_eq in H. contradiction. }
      destruct (IH (cnt + 1)) as (r' & E' & [[-> NI]|(j & -> & N & M)]); [lia| |].
      * exists (-1). split; [exact E'|]. left. split; [reflexivity|]. cbn. intros [X|X]; [congruence|auto].
      * exists (cnt + 1 + Z.of_nat j). split; [exact E'|]. right. exists (S j). split; [lia|]. split; [exact N|].
        intros [|i] I; cbn [nth_error]; [congruence|]. apply M. lia.
Qed.

(** the state after a call: [r] is still to be read at [q]; [f] has been read *)
Lemma odc_tail m m' p d r ds : only_delims_changed m m' (p + Z.of_nat (length d)) r ds -> only_delims_changed m m' p (d ++ r) ds.
Proof.
  intros H x Hx. destruct (H x Hx) as (i & c & Hi & Ex & Hc & Hin). exists (length d + i)%nat, c.
  rewrite app_length. split; [lia|]. split; [lia|]. split; [|exact Hin].
  rewrite nth_error_app2 by lia. replace (length d + i - length d)%nat with i by lia. exact Hc.
Qed.
Lemma keys_upd m p s addrs keys a : keys_at m p s addrs keys -> p <= a <= p + Z.of_nat (length s) ->
  keys_at (upd m a 0) p s addrs keys.
Proof.
  intros K A. unfold keys_at in *. eapply Forall2_weaken; [|exact K]. cbn. intros b k [S D]. split; [|exact D].
  apply upd_str; [exact S|]. unfold disjoint in D. lia.
Qed.
Lemma keys_strs m p s addrs keys : keys_at m p s addrs keys -> Forall2 (fun a k => str_at m a k) addrs keys.
Proof. apply Forall2_weaken. intros a k [S _]. exact S. Qed.
Lemma keys_sub m p s addrs keys d r : keys_at m p s addrs keys -> s = d ++ r -> keys_at m (p + Z.of_nat (length d)) r addrs keys.
Proof.
  intros K ->. eapply Forall2_weaken; [|exact K]. cbn. intros b k [S D]. split; [exact S|].
  rewrite app_length in D. unfold disjoint in *. lia.
Qed.

(** what one call does *)
Definition call_ok (fuel : nat) (m : mem) (p : Z) (s addrs : list Z) (keys : list (list Z)) : Prop :=
  exists m1 q v r d f rest,
    getsubopt fuel m (Some p) addrs = Ok (m1, Some q, v, r) /\
    s = d ++ rest /\ q = p + Z.of_nat (length d) /\ d <> [] /\
    suboptions s = f :: suboptions rest /\
    (rest = [] \/ exists c rest', rest = c :: rest' /\ separator c = false) /\
    str_at m1 q rest /\ keys_at m1 p s addrs keys /\
    is_index (name f) keys r /\
    match value f with
    | None => v = None
    | Some x => exists t, v = Some t /\ str_at m1 t x /\ in_place p s t x /\ t + Z.of_nat (length x) < q + (match rest with [] => 1 | _ => 0 end)
    end /\
    only_delims_changed m m1 p d [44; 61].

Lemma find_index fuel m q n addrs keys : str_at m q n -> (length n < fuel)%nat -> Forall2 (fun a k => str_at m a k) addrs keys ->
  exists r, find fuel m q addrs 0 = Ok r /\ is_index n keys r.
Proof.
  intros H1 H2 H3. destruct (find_ok fuel m q n H1 H2 addrs keys 0 H3) as (r & E & I); [lia|].
  exists r. split; [exact E|]. destruct I as [I|(k & E1 & I)]; [left; exact I|right]. exists k. split; [lia|exact I].
Qed.
Lemma sep_rest fuel m p s : str_at m p s -> (length s < fuel)%nat -> exists d r, s = d ++ r /\
  scan separator fuel m p = Ok (p + Z.of_nat (length d)) /\ suboptions r = suboptions s /\
  (r = [] \/ exists c r', r = c :: r' /\ separator c = false) /\ str_at m (p + Z.of_nat (length d)) r.
Proof.
  intros H F. destruct (scan_ok separator s fuel m p H F) as (d & r & -> & D & R & E). exists d, r.
  split; [reflexivity|]. split; [exact E|]. split; [symmetry; apply subopts_seps, D|]. split; [exact R|]. apply (str_app_tail _ _ _ _ H).
Qed.
Lemma call_holds fuel m p s addrs keys : str_at m p s -> keys_at m p s addrs keys -> (length s < fuel)%nat ->
  suboptions s <> [] -> call_ok fuel m p s addrs keys.
Proof.
  intros Hs K Hf NE. unfold call_ok. cbn [getsubopt].
  destruct (sep_rest fuel m p s Hs Hf) as (d & r & -> & E & SU & R & Hr). rewrite E. cbn [bind].
  destruct R as [->|(c & r' & -> & Hc)]; [rewrite <- SU in NE; cbn in NE; congruence|].
  rewrite <- SU. clear SU NE E. set (p1 := p + Z.of_nat (length d)) in *.
  pose proof (load_mid _ _ d c r' Hs) as [L0 C0]. fold p1 in L0. rewrite L0. cbn [bind]. replace (c =? 0) with false by lia.
  pose proof Hr as Hr1. apply str_cons in Hr1 as [_ [_ Hr1]].
  rewrite app_length in Hf. cbn [length] in Hf.
  destruct (scan_ok (fun x => negb (x =? 44) && negb (x =? 61)) r' fuel m (p1 + 1) Hr1) as (n & t & -> & Hn & Ht & E); [lia|].
  rewrite E. cbn [bind]. clear E. rewrite app_length in Hf.
  pose proof (keys_strs _ _ _ _ _ K) as KS.
  destruct Ht as [->|(x & t' & -> & Hx)].
  - (* the name is the rest of the string *)
    rewrite app_nil_r in *. rewrite (load_end _ _ _ Hr1). cbn [bind Z.eqb].
    destruct (find_index fuel m p1 (c :: n) addrs keys Hr) as (r & E & I); [cbn; lia|exact KS|]. rewrite E. cbn [bind].
    exists m, (p1 + 1 + Z.of_nat (length n)), None, r, (d ++ c :: n), (c :: n), [].
    split; [reflexivity|]. split; [rewrite app_nil_r; reflexivity|]. split; [rewrite app_length; cbn [length]; lia|].
    split; [destruct d; discriminate|]. split; [apply subopts_one; [exact Hc|apply nc1, Hn]|]. split; [auto|].
    split. { apply str_nil. pose proof (load_end _ _ _ Hr1) as L. unfold load in L. destruct (m _); congruence. }
    split; [exact K|]. cbn [name value]. rewrite (cut_none n Hn). cbn [fst snd]. split; [exact I|]. split; [reflexivity|]. apply odc_refl.
  - pose proof (load_mid _ _ n x t' Hr1) as [L1 X0]. rewrite L1. cbn [bind]. replace (x =? 0) with false by lia.
    pose proof (store_cut _ _ n x t' Hr1) as ST.
    assert (Hr' : str_at m p1 ((c :: n) ++ x :: t')) by exact Hr.
    pose proof (cut_string _ _ _ _ _ Hr') as (_ & NM & TL).
    replace (p1 + Z.of_nat (length (c :: n))) with (p1 + 1 + Z.of_nat (length n)) in NM, TL by (cbn [length]; lia).
    set (p2 := p1 + 1 + Z.of_nat (length n)) in *. cbn [length] in Hf.
    assert (K1 : keys_at (upd m p2 0) p (d ++ c :: n ++ x :: t') addrs keys).
    { apply keys_upd; [exact K|]. rewrite app_length. cbn [length]. rewrite app_length. lia. }
    destruct (x =? 61) eqn:X.
    + (* there is a value *)
      rewrite ST. cbn [bind].
      destruct (scan_ok (fun x => negb (x =? 44)) t' fuel (upd m p2 0) (p2 + 1) TL) as (v & u & -> & Hv & Hu & E); [lia|].
      rewrite E. cbn [bind]. clear E. rewrite app_length in Hf.
      assert (X61 : x = 61) by lia. subst x. clear X.
      destruct Hu as [->|(y & u' & -> & Hy)].
      * rewrite app_nil_r in *. rewrite (load_end _ _ _ TL). cbn [bind Z.eqb].
        assert (EN : str_at (upd m p2 0) (p2 + 1 + Z.of_nat (length v)) []).
        { apply str_nil. pose proof (load_end _ _ _ TL) as L. unfold load in L. destruct (upd m p2 0 _); congruence. }
        destruct (sep_rest fuel _ _ _ EN) as (d2 & r2 & E2 & S2 & _ & _ & _); [cbn; lia|].
        symmetry in E2. apply app_eq_nil in E2 as [-> ->]. rewrite S2. cbn [bind].
        destruct (find_index fuel (upd m p2 0) p1 (c :: n) addrs keys NM) as (r & E & I);
          [cbn; lia|apply (keys_strs _ _ _ _ _ K1)|]. rewrite E. cbn [bind].
        exists (upd m p2 0), (p2 + 1 + Z.of_nat (length v)), (Some (p2 + 1)), r, (d ++ c :: n ++ 61 :: v), (c :: n ++ 61 :: v), [].
        split; [cbn [length]; rewrite Z.add_0_r; reflexivity|]. split; [rewrite app_nil_r; reflexivity|].
        split; [rewrite app_length; cbn [length]; rewrite app_length; cbn [length]; lia|].
        split; [destruct d; discriminate|].
        split; [apply subopts_one; [exact Hc|]; apply Forall_app; split; [apply nc1, Hn|constructor; [reflexivity|apply nc2, Hv]]|].
        split; [auto|]. split; [exact EN|]. split; [exact K1|]. cbn [name value]. rewrite (cut_some n v Hn). cbn [fst snd].
        split; [exact I|]. split.
        { exists (p2 + 1). split; [reflexivity|]. split; [exact TL|]. split; [|lia].
          exists (d ++ c :: n ++ [61]), []. split; [rewrite app_nil_r, <- app_assoc; cbn [app]; rewrite <- app_assoc; reflexivity|].
          rewrite app_length. cbn [length]. rewrite app_length. cbn [length]. lia. }
        replace (d ++ c :: n ++ 61 :: v) with ((d ++ c :: n) ++ 61 :: v) by (rewrite <- app_assoc; reflexivity).
        replace p2 with (p + Z.of_nat (length (d ++ c :: n))) by (rewrite app_length; cbn [length]; lia).
        apply odc_step; [reflexivity|]. apply odc_refl.
      * pose proof (load_mid _ _ v y u' TL) as [L2 Y0]. rewrite L2. cbn [bind]. replace (y =? 0) with false by lia.
        rewrite (store_cut _ _ v y u' TL). cbn [bind].
        pose proof (cut_string _ _ _ _ _ TL) as (_ & VA & TL2). set (p3 := p2 + 1 + Z.of_nat (length v)) in *.
        assert (Y44 : y = 44) by lia. subst y. clear Hy.
        assert (NM2 : str_at (upd (upd m p2 0) p3 0) p1 (c :: n)). { apply upd_str; [exact NM|]. cbn [length]. lia. }
        assert (K2 : keys_at (upd (upd m p2 0) p3 0) p (d ++ c :: n ++ 61 :: v ++ 44 :: u') addrs keys).
        { apply keys_upd; [exact K1|]. rewrite app_length. cbn [length]. rewrite app_length. cbn [length]. rewrite app_length. lia. }
        destruct (sep_rest fuel _ _ _ TL2) as (d2 & r2 & -> & S2 & U2 & R2 & T2); [cbn [length] in Hf; lia|]. rewrite S2. cbn [bind].
        destruct (find_index fuel (upd (upd m p2 0) p3 0) p1 (c :: n) addrs keys NM2) as (r & E & I);
          [cbn; lia|apply (keys_strs _ _ _ _ _ K2)|]. rewrite E. cbn [bind].
        exists (upd (upd m p2 0) p3 0), (p3 + 1 + Z.of_nat (length d2)), (Some (p2 + 1)), r, (d ++ c :: n ++ 61 :: v ++ 44 :: d2), (c :: n ++ 61 :: v), r2.
        split; [reflexivity|]. split; [rewrite <- !app_assoc; cbn [app]; rewrite <- !app_assoc; cbn [app]; rewrite <- !app_assoc; reflexivity|].
        split; [rewrite app_length; cbn [length]; rewrite app_length; cbn [length]; rewrite app_length; cbn [length]; lia|].
        split; [destruct d; discriminate|].
        split. { rewrite U2. replace (c :: n ++ 61 :: v ++ 44 :: d2 ++ r2) with (c :: (n ++ 61 :: v) ++ 44 :: (d2 ++ r2)) by (rewrite <- app_assoc; reflexivity).
          apply subopts_cut; [exact Hc|]. apply Forall_app; split; [apply nc1, Hn|constructor; [reflexivity|apply nc2, Hv]]. }
        split; [exact R2|]. split; [exact T2|]. split; [exact K2|]. cbn [name value]. rewrite (cut_some n v Hn). cbn [fst snd].
        split; [exact I|]. split.
        { exists (p2 + 1). split; [reflexivity|]. split; [exact VA|]. split; [|destruct r2; lia].
          exists (d ++ c :: n ++ [61]), (44 :: d2 ++ r2). split; [rewrite <- app_assoc; cbn [app]; rewrite <- app_assoc; reflexivity|].
          rewrite app_length. cbn [length]. rewrite app_length. cbn [length]. lia. }
        replace (d ++ c :: n ++ 61 :: v ++ 44 :: d2) with ((d ++ c :: n) ++ 61 :: v ++ 44 :: d2) by (rewrite <- app_assoc; reflexivity).
        replace p2 with (p + Z.of_nat (length (d ++ c :: n))) by (rewrite app_length; cbn [length]; lia).
        apply odc_step; [reflexivity|].
        replace p3 with (p + Z.of_nat (length (d ++ c :: n)) + 1 + Z.of_nat (length v)) by (rewrite app_length; cbn [length]; lia).
        apply odc_step; [reflexivity|]. apply odc_refl.
    + (* the name ends at a comma *)
      assert (X44 : x = 44) by lia. subst x. rewrite ST. cbn [bind].
      destruct (sep_rest fuel _ _ _ TL) as (d2 & r2 & -> & S2 & U2 & R2 & T2); [lia|]. rewrite S2. cbn [bind].
      destruct (find_index fuel (upd m p2 0) p1 (c :: n) addrs keys NM) as (r & E & I);
        [cbn; lia|apply (keys_strs _ _ _ _ _ K1)|]. rewrite E. cbn [bind].
      exists (upd m p2 0), (p2 + 1 + Z.of_nat (length d2)), None, r, (d ++ c :: n ++ 44 :: d2), (c :: n), r2.
      split; [reflexivity|]. split; [rewrite <- !app_assoc; cbn [app]; rewrite <- !app_assoc; reflexivity|].
      split; [rewrite app_length; cbn [length]; rewrite app_length; cbn [length]; lia|].
      split; [destruct d; discriminate|].
      split. { rewrite U2. apply subopts_cut; [exact Hc|apply nc1, Hn]. }
      split; [exact R2|]. split; [exact T2|]. split; [exact K1|]. cbn [name value]. rewrite (cut_none n Hn). cbn [fst snd].
      split; [exact I|]. split; [reflexivity|].
      replace (d ++ c :: n ++ 44 :: d2) with ((d ++ c :: n) ++ 44 :: d2) by (rewrite <- app_assoc; reflexivity).
      replace p2 with (p + Z.of_nat (length (d ++ c :: n))) by (rewrite app_length; cbn [length]; lia).
      apply odc_step; [reflexivity|]. apply odc_refl.
Qed.
Lemma call_empty fuel m p s addrs : str_at m p s -> (length s < fuel)%nat -> suboptions s = [] ->
  getsubopt fuel m (Some p) addrs = Ok (m, Some (p + Z.of_nat (length s)), None, -1).
Proof.
  intros Hs Hf NE. cbn [getsubopt]. destruct (sep_rest fuel m p s Hs Hf) as (d & r & -> & E & SU & R & Hr). rewrite E. cbn [bind].
  destruct R as [->|(c & r' & -> & Hc)].
  - rewrite app_nil_r in *. rewrite (load_end _ _ _ Hs). reflexivity.
  - exfalso. rewrite NE in SU. unfold suboptions in SU. cbn [fields existsb] in SU. pose proof (fields_ne [44] r').
    destruct (fields [44] r') as [|f fs]; [congruence|].
    assert (C44 : (c =? 44) = false) by (unfold separator in Hc; lia). rewrite C44 in SU. cbn [orb map] in SU. rewrite trim_stop in SU by exact Hc. discriminate.
Qed.
Lemma nonempty_head c r : separator c = false -> suboptions (c :: r) <> [].
Proof.
  intros Hc SU. unfold suboptions in SU. cbn [fields existsb] in SU. pose proof (fields_ne [44] r).
  destruct (fields [44] r) as [|f fs]; [congruence|].
  assert (C44 : (c =? 44) = false) by (unfold separator in Hc; lia). rewrite C44 in SU. cbn [orb map] in SU. rewrite trim_stop in SU by exact Hc. discriminate.
Qed.
Lemma odc_head m m' p d r ds : only_delims_changed m m' p d ds -> only_delims_changed m m' p (d ++ r) ds.
Proof.
  intros H x Hx. destruct (H x Hx) as (i & c & Hi & Ex & Hc & Hin). exists i, c. rewrite app_length.
  split; [lia|]. split; [lia|]. split; [|exact Hin]. rewrite nth_error_app1 by lia. exact Hc.
Qed.
Lemma odc_trans m m1 m2 p d ds : only_delims_changed m m1 p d ds -> only_delims_changed m1 m2 p d ds -> only_delims_changed m m2 p d ds.
Proof.
  intros H1 H2 x Hx. assert (D : m2 x <> m1 x \/ m1 x <> m x).
  { destruct (m2 x) as [a|], (m1 x) as [b|]; try (left; discriminate).
    - destruct (Z.eq_dec a b) as [->|N]; [right; exact Hx|left; congruence].
    - right. exact Hx. }
  destruct D; auto.
Qed.
Lemma parse_ok n : forall calls fuel m p s addrs keys, (length s <= n)%nat -> (length s < calls)%nat -> (length s < fuel)%nat ->
  str_at m p s -> keys_at m p s addrs keys -> (s = [] \/ suboptions s <> []) ->
  exists m' rs, parse calls fuel m p addrs = Ok (m', p + Z.of_nat (length s), rs) /\
    Forall2 (is_result m' p s keys) rs (suboptions s) /\ only_delims_changed m m' p s [44; 61].
Proof.
  induction n as [|n IH]; intros calls fuel m p s addrs keys Ln Lc Lf Hs K NE; (destruct calls as [|calls]; [lia|]); cbn [parse].
  - destruct s; [|cbn in Ln; lia]. pose proof (load_end _ _ _ Hs) as L0. cbn [length] in *. rewrite Z.add_0_r in *. rewrite L0. cbn [bind Z.eqb].
    exists m, []. split; [reflexivity|]. split; [constructor|]. apply odc_refl.
  - destruct s as [|c0 s0] eqn:ES.
    { pose proof (load_end _ _ _ Hs) as L0. cbn [length] in *. rewrite Z.add_0_r in *. rewrite L0. cbn [bind Z.eqb].
      exists m, []. split; [reflexivity|]. split; [constructor|]. apply odc_refl. }
    pose proof (proj1 (str_cons _ _ _ _) Hs) as (M0 & C0 & _). unfold load at 1. rewrite M0. cbn [bind]. replace (c0 =? 0) with false by lia.
    rewrite <- ES in *. assert (SN : suboptions s <> []) by (destruct NE; [congruence|assumption]). clear NE M0 C0 ES c0 s0.
    destruct (call_holds fuel m p s addrs keys Hs K Lf SN) as (m1 & q & v & r & d & f & rest & E & ES & EQ & DN & SU & RN & HR & K1 & IX & VL & OD).
    rewrite E. cbn [bind]. assert (LD : (0 < length d)%nat) by (destruct d; [congruence|cbn; lia]).
    assert (LS : length s = (length d + length rest)%nat) by (rewrite ES; apply app_length).
    destruct (IH calls fuel m1 q rest addrs keys) as (m2 & rs & E2 & F2 & O2); [lia|lia|lia|exact HR| | |].
    + rewrite EQ. eapply keys_sub; [exact K1|exact ES].
    + destruct RN as [->|(c & r' & -> & Hc)]; [auto|right; apply nonempty_head, Hc].
    + rewrite E2. cbn [bind]. exists m2, ((r, v) :: rs). split; [do 3 f_equal; lia|].
      assert (O : only_delims_changed m m2 p s [44; 61]).
      { apply odc_trans with m1; rewrite ES; [apply odc_head, OD|]. apply odc_tail. rewrite <- EQ. exact O2. }
      split; [|exact O]. rewrite SU. constructor.
      * split; cbn [fst snd]; [exact IX|]. destruct (value f) as [x|]; [|exact VL].
        destruct VL as (t & -> & ST & IP & LT). exists t. split; [reflexivity|]. split; [|exact IP].
        destruct rest as [|c0 rest0]; [|eapply odc_str; [exact O2|exact ST|unfold disjoint; lia]].
        destruct ST as [Hb Hfo]. split; [|exact Hfo]. intros i Hi. rewrite <- (Hb i Hi).
        assert (D : m2 (t + Z.of_nat i) = m1 (t + Z.of_nat i) \/ m2 (t + Z.of_nat i) <> m1 (t + Z.of_nat i)).
        { destruct (m2 (t + Z.of_nat i)) as [y|], (m1 (t + Z.of_nat i)) as [z|]; try (right; discriminate); try (left; reflexivity).
          destruct (Z.eq_dec y z) as [->|N]; [left; reflexivity|right; congruence]. }
        destruct D as [D|D]; [exact D|]. apply O2 in D as (j & c & Hj & _). cbn in Hj. lia.
      * eapply Forall2_weaken; [|exact F2]. intros [a b] g [H1 H2]. split; [exact H1|]. cbn [fst snd] in *.
        destruct (value g) as [x|]; [|exact H2]. destruct H2 as (t & -> & ST & (pre & post & E3 & E4)). exists t.
        split; [reflexivity|]. split; [exact ST|]. exists (d ++ pre), post. rewrite app_length. split; [rewrite ES, E3, <- app_assoc; reflexivity|lia].
Qed.
