(** Proofs about getopt. *)
From Verif Require Import Base Getopt_Model Getopt_Spec.
Open Scope Z_scope.

Ltac conj := repeat match goal with |- _ /\ _ => split end.

(** ** Lists *)
Lemma nth_mid {A} (P : list A) x R : nth_error (P ++ x :: R) (length P) = Some x.
Proof. rewrite nth_error_app2 by lia. rewrite Nat.sub_diag. reflexivity. Qed.

Lemma skipn_mid {A} (P R : list A) : skipn (length P) (P ++ R) = R.
Proof. rewrite skipn_app, skipn_all2, Nat.sub_diag by lia. reflexivity. Qed.

Lemma set_mid {A} (P : list A) x y R : set (P ++ x :: R) (length P) y = P ++ y :: R.
Proof. induction P as [|p P IH]; cbn; [reflexivity|]. rewrite IH. reflexivity. Qed.

Lemma shift_ok {A} (P X : list A) t R :
  shift (length X) (length P) (P ++ X ++ t :: R) = Ok (match X with [] => P ++ t :: R | x :: _ => P ++ x :: X ++ R end).
Proof.
  revert t R. induction X as [|x X IH] using rev_ind; intros t R; [reflexivity|].
  rewrite app_length. cbn [length]. rewrite Nat.add_1_r. cbn [shift].
  replace (P ++ (X ++ [x]) ++ t :: R) with ((P ++ X) ++ x :: t :: R) by (rewrite <- !app_assoc; reflexivity).
  rewrite <- app_length, nth_mid.
  replace (length P + S (length X))%nat with (length ((P ++ X) ++ [x])) by (rewrite !app_length; cbn; lia).
  replace ((P ++ X) ++ x :: t :: R) with (((P ++ X) ++ [x]) ++ t :: R) by (rewrite <- !app_assoc; reflexivity).
  rewrite set_mid. rewrite <- !app_assoc. cbn [app]. rewrite IH.
  destruct X as [|y X]; cbn [app]; [reflexivity|]. rewrite <- ?app_assoc. reflexivity.
Qed.

Lemma permute_ok {A} (P X : list A) t R : X <> [] ->
  permute (P ++ X ++ t :: R) (length P) (length P + length X) = Ok (P ++ t :: X ++ R).
Proof.
  intros Hx. unfold permute.
  destruct (Nat.leb_spec (length P + length X) (length P)); [destruct X; [congruence | cbn in *; lia]|].
  rewrite <- app_length, app_assoc, nth_mid, <- app_assoc, app_length.
  replace (length P + length X - length P)%nat with (length X) by lia.
  rewrite shift_ok. destruct X as [|x X]; [congruence|]. cbn [bind]. rewrite set_mid. reflexivity.
Qed.

Lemma repeat_permute_ok {A} (W P X R : list A) : X <> [] ->
  repeat_permute (length W) (P ++ X ++ W ++ R) (length P) (length P + length X + length W - 1) = Ok (P ++ W ++ X ++ R).
Proof.
  intros Hx. 
  assert (K : forall n W V P, length W = n -> 
    repeat_permute n (P ++ V ++ X ++ W ++ R) (length P) (length P + length V + length X + length W - 1) = Ok (P ++ W ++ V ++ X ++ R)).
  { intros n. induction n as [|n IH]; intros W0 V P0 Hl.
    - destruct W0; [reflexivity | discriminate].
    - destruct (exists_last (l := W0)) as (W1 & t & ->); [intros ->; discriminate|].
      rewrite app_length in *. cbn [length] in *.
      cbn [repeat_permute].
      replace (length P0 + length V + length X + (length W1 + 1) - 1)%nat with (length P0 + length (V ++ X ++ W1))%nat
        by (rewrite !app_length; lia).
      replace (P0 ++ V ++ X ++ (W1 ++ [t]) ++ R) with (P0 ++ (V ++ X ++ W1) ++ t :: R) by (rewrite <- !app_assoc; reflexivity).
      rewrite permute_ok by (destruct V, X; cbn; congruence). cbn [bind].
      replace (P0 ++ t :: (V ++ X ++ W1) ++ R) with (P0 ++ (t :: V) ++ X ++ W1 ++ R) by (rewrite <- !app_assoc; reflexivity).
      replace (length P0 + length (V ++ X ++ W1))%nat with (length P0 + length (t :: V) + length X + length W1 - 1)%nat
        by (rewrite !app_length; cbn; lia).
      rewrite IH by lia. rewrite <- !app_assoc. reflexivity. }
  specialize (K _ W [] P eq_refl). cbn [app length] in K. rewrite Nat.add_0_r in K. exact K.
Qed.

(** ** Looking for the first option word *)
Definition dashed (w : list Z) : Prop := exists b r, w = 45 :: b :: r /\ b <> 0.

Lemma at0 w : at_ w 0 = Ok (hd 0 w).
Proof. destruct w; reflexivity. Qed.

Lemma first_dash_skip ops R i : Forall bare ops -> first_dash (ops ++ R) i = first_dash R (i + length ops).
Proof.
  intros H. revert i. induction H as [|w ops (Ht & Hw) _ IH]; intros i; cbn [app first_dash length].
  - rewrite Nat.add_0_r. reflexivity.
  - rewrite at0. cbn [bind]. replace (i + S (length ops))%nat with (S i + length ops)%nat by lia.
    destruct Hw as [Hw | ->].
    + destruct (Z.eqb_spec (hd 0 w) 45); [congruence|]. cbn [bind andb]. apply IH.
    + cbn. apply IH.
Qed.

Lemma first_dash_here w R i : dashed w -> first_dash (w :: R) i = Ok (Some i).
Proof.
  intros (b & r & -> & Hb). cbn. destruct (Z.eqb_spec b 0); [congruence|]. reflexivity.
Qed.

(** ** A call *)
Section Call.
Variables (m : mode) (posix : bool) (d : decl) (l : list longopt).
Hypothesis WF : wf_decl d.
Let os := optstring d.

Lemma os_head : exists b, at_ os 0 = Ok b /\ b <> 45 /\ ((b =? 43) = plus d) /\ ((b =? 58) = silent d).
Proof.
  destruct WF as (_ & Hl & Hp). unfold os, optstring. destruct (plus d) eqn:E.
  - rewrite Hp by reflexivity. eexists; conj; [reflexivity | lia | reflexivity | reflexivity].
  - destruct (silent d).
    + eexists; conj; [reflexivity | lia | reflexivity | reflexivity].
    + destruct (letters d) as [|(c, k) r] eqn:E2.
      * eexists; conj; [reflexivity | lia | reflexivity | reflexivity].
      * destruct (Hl c k (or_introl eq_refl)) as (H1 & H2 & H3 & H4 & H5 & H6).
        exists c. cbn. conj; [destruct k; reflexivity | assumption | lia | lia].
Qed.

(** what a call makes of the words [W] that follow the operands [ops] *)
Lemma call_words s P ops W R w s1 r :
  argv s = P ++ ops ++ w :: R -> optind s = length P -> P <> [] -> Forall bare ops -> dashed w ->
  (plus d = true -> ops = []) ->
  internal m posix os l (w_ind (length P + length ops) s) = Ok (r, s1) ->
  argv s1 = argv s -> optind s1 = (length P + length ops + length W)%nat -> (exists R', w :: R = W ++ R') ->
  exists R', w :: R = W ++ R' /\
  getopt m posix os l s = Ok (r, w_ind (length P + length W) (w_argv (P ++ W ++ ops ++ R') s1)).
Proof.
  intros Ha Hi HP Ho Hw Hpl Hint Ha1 Hi1 (R' & HR). exists R'. split; [exact HR|].
  unfold getopt. rewrite Hi. destruct (Nat.eqb_spec (length P) 0); [destruct P; [congruence|discriminate]|].
  rewrite Hi. destruct os_head as (b & -> & Hb & Hp & _). cbn [bind].
  assert (Hst : (if negb (b =? 43) && negb (b =? 45) then first_dash (skipn (length P) (argv s)) (length P)
    else Ok (Some (length P))) = Ok (Some (length P + length ops)%nat)).
  { rewrite Hp. destruct (plus d).
    - cbn. rewrite Hpl by reflexivity. cbn. rewrite Nat.add_0_r. reflexivity.
    - destruct (Z.eqb_spec b 45); [congruence|]. cbn [negb andb]. rewrite Ha, skipn_mid, first_dash_skip by exact Ho.
      apply first_dash_here, Hw. }
  rewrite Hst. cbn [bind]. rewrite Hint. cbn [bind].
  destruct (Nat.ltb_spec (length P) (length P + length ops)) as [Hlt|Hlt].
  - rewrite Ha1, Ha, Hi1, HR.
    replace (length P + length ops + length W - (length P + length ops))%nat with (length W) by lia.
    rewrite repeat_permute_ok by (intros ->; cbn in Hlt; lia). reflexivity.
  - assert (ops = []) as -> by (destruct ops; [reflexivity | cbn in Hlt; lia]).
    cbn [app]. rewrite <- HR. f_equal. f_equal. destruct s1; unfold w_ind, w_argv; cbn in *. f_equal; try congruence; lia.
Qed.

(** no option words are left *)
Lemma call_none s P ops : argv s = P ++ ops -> optind s = length P -> P <> [] -> Forall bare ops -> plus d = false ->
  getopt m posix os l s = Ok (-1, w_arg None s).
Proof.
  intros Ha Hi HP Ho Hp. unfold getopt. rewrite Hi. destruct (Nat.eqb_spec (length P) 0); [destruct P; [congruence|discriminate]|].
  rewrite Hi. destruct os_head as (b & -> & Hb & Hp' & _). cbn [bind]. rewrite Hp', Hp.
  destruct (Z.eqb_spec b 45); [congruence|]. cbn [negb andb]. rewrite Ha, skipn_mid.
  pose proof (first_dash_skip ops [] (length P) Ho) as E. rewrite app_nil_r in E. rewrite E. reflexivity.
Qed.

(** ** Letters *)
Lemma index_app s1 c s2 i : ~ In c s1 -> index (s1 ++ c :: s2) c i = Some (i + length s1)%nat.
Proof.
  revert i. induction s1 as [|b s1 IH]; intros i H; cbn.
  - rewrite Z.eqb_refl. f_equal. lia.
  - destruct (Z.eqb_spec b c) as [->|]; [destruct H; left; reflexivity|].
    rewrite IH by (intros K; apply H; right; exact K). f_equal. lia.
Qed.

Lemma index_none s c i : c <> 0 -> ~ In c s -> index s c i = None.
Proof.
  revert i. induction s as [|b s IH]; intros i H0 H; cbn.
  - destruct (Z.eqb_spec c 0); [congruence|reflexivity].
  - destruct (Z.eqb_spec b c) as [->|]; [destruct H; left; reflexivity|]. apply IH; [exact H0|].
    intros K; apply H; right; exact K.
Qed.

Lemma at_app s1 s2 k : at_ (s1 ++ s2) (length s1 + k) = at_ s2 k.
Proof.
  unfold at_. rewrite nth_error_app2 by lia. replace (length s1 + k - length s1)%nat with k by lia.
  rewrite app_length. destruct (nth_error s2 k); [reflexivity|].
  destruct (Nat.eqb_spec (length s1 + k) (length s1 + length s2)), (Nat.eqb_spec k (length s2)); try lia; reflexivity.
Qed.

Lemma split_letters c k : In (c, k) (letters d) -> exists s1 s2,
  os = s1 ++ letter (c, k) ++ s2 /\ ~ In c s1 /\ hd 0 s2 <> 58 /\ hd 0 s2 <> 59.
Proof.
  destruct WF as (Hnd & Hl & _). intros Hin. unfold os, optstring.
  set (pre := if plus d then [43] else if silent d then [58] else []).
  assert (Hpre : ~ In c pre).
  { destruct (Hl _ _ Hin) as (H1 & H2 & H3 & H4 & H5 & H6). unfold pre. destruct (plus d), (silent d); cbn; lia. }
  destruct (in_split _ _ Hin) as (a & b & E). rewrite E in *.
  rewrite map_app, concat_app. cbn [map concat].
  exists (pre ++ concat (map letter a)), (concat (map letter b)). conj.
  - rewrite <- !app_assoc. reflexivity.
  - intros K. apply in_app_or in K. destruct K as [K|K]; [exact (Hpre K)|].
    rewrite map_app in Hnd. cbn in Hnd. apply NoDup_remove_2 in Hnd. apply Hnd, in_or_app. left.
    apply in_concat in K. destruct K as (x & Hx & Hc). apply in_map_iff in Hx. destruct Hx as ((c', k') & <- & Hx).
    destruct (Hl c k Hin) as (H1 & H2 & _).
    assert (c = c') as ->.
    { destruct k'; cbn in Hc; repeat (destruct Hc as [Hc|Hc]; [lia|]); destruct Hc. }
    apply in_map_iff. exists (c', k'). split; [reflexivity|exact Hx].
  - destruct b as [|(c', k') b]; cbn; [lia|]. destruct (Hl c' k') as (H1 & H2 & _); [apply in_or_app; right; right; left; reflexivity|].
    destruct k'; cbn; exact H2.
  - destruct b as [|(c', k') b]; cbn; [lia|].
    destruct (Hl c' k') as (H1 & H2 & H3 & H4 & H5 & H6); [apply in_or_app; right; right; left; reflexivity|].
    destruct k'; cbn; exact H6.
Qed.

Lemma letter_at c k : In (c, k) (letters d) -> exists i k1, index os c 0 = Some i /\ at_ os (S i) = Ok k1 /\ k1 <> 59 /\
  match k with
  | No => k1 <> 58
  | Required => k1 = 58 /\ exists k2, at_ os (S (S i)) = Ok k2 /\ k2 <> 58
  | Optional => k1 = 58 /\ at_ os (S (S i)) = Ok 58
  end.
Proof.
  intros Hin. destruct (split_letters c k Hin) as (s1 & s2 & E & Hn & H58 & H59).
  exists (length s1). rewrite E.
  assert (Hi : forall t, index (s1 ++ c :: t) c 0 = Some (length s1)) by (intros t; rewrite index_app by exact Hn; reflexivity).
  assert (A1 : forall t, at_ (s1 ++ t) (S (length s1)) = at_ t 1)
    by (intros t; replace (S (length s1)) with (length s1 + 1)%nat by lia; apply at_app).
  assert (A2 : forall t, at_ (s1 ++ t) (S (S (length s1))) = at_ t 2)
    by (intros t; replace (S (S (length s1))) with (length s1 + 2)%nat by lia; apply at_app).
  destruct k; cbn [letter snd fst app]; rewrite Hi, A1, ?A2.
  - exists (hd 0 s2). conj; [reflexivity | destruct s2; reflexivity | exact H59 | exact H58].
  - exists 58. conj; [reflexivity | reflexivity | lia | reflexivity |]. exists (hd 0 s2). split; [destruct s2; reflexivity | exact H58].
  - exists 58. conj; [reflexivity | reflexivity | lia | reflexivity | reflexivity].
Qed.

Lemma not_letter c : 32 < c < 127 -> ~ In c (map fst (letters d)) -> c <> 58 -> c <> 43 -> index os c 0 = None.
Proof.
  intros H0 H H1 H2. apply index_none; [lia|]. unfold os, optstring. intros K. apply in_app_or in K. destruct K as [K|K].
  - destruct (plus d), (silent d); cbn in K; lia.
  - apply in_concat in K. destruct K as (x & Hx & Hc). apply in_map_iff in Hx. destruct Hx as ((c', k') & <- & Hx).
    assert (c = c') as ->.
    { destruct k'; cbn in Hc; repeat (destruct Hc as [Hc|Hc]; [lia|]); destruct Hc. }
    apply H, in_map_iff. exists (c', k'). split; [reflexivity|exact Hx].
Qed.

(** ** Long names *)
Lemma prefix_begins nm t full : prefix (length nm) (nm ++ t) full = true <-> begins nm full.
Proof.
  revert full. induction nm as [|x nm IH]; intros full; cbn.
  - split; [intros _; exists full; reflexivity | reflexivity].
  - destruct full as [|y full].
    + split; [discriminate | intros (r & E); discriminate].
    + rewrite andb_true_iff, IH, Z.eqb_eq. split.
      * intros (-> & r & ->). exists r. reflexivity.
      * intros (r & E). cbn in E. injection E as -> ->. split; [reflexivity | exists r; reflexivity].
Qed.

Lemma exact_name nm t full : prefix (length nm) (nm ++ t) full && (length full =? length nm)%nat = true <-> full = nm.
Proof.
  rewrite andb_true_iff, prefix_begins, Nat.eqb_eq. split.
  - intros ((r & ->) & E). rewrite app_length in E. destruct r; [apply app_nil_r | cbn in E; lia].
  - intros ->. split; [exists []; symmetry; apply app_nil_r | reflexivity].
Qed.

Lemma only_done p (x : list longopt) i j : only p x i (One j) = if existsb p x then Many else One j.
Proof. revert i. induction x as [|o x IH]; intros i; cbn; [reflexivity|]. destruct (p o); [reflexivity | apply IH]. Qed.

Lemma only_spec p (x : list longopt) i :
  match only p x i Nobody with
  | Nobody => forall o, In o x -> p o = false
  | Many => exists a b oa ob, nth_error x a = Some oa /\ nth_error x b = Some ob /\ p oa = true /\ p ob = true /\ a <> b
  | One k => exists j o, k = (i + j)%nat /\ nth_error x j = Some o /\ p o = true /\
             forall j' o', nth_error x j' = Some o' -> p o' = true -> j' = j
  end.
Proof.
  revert i. induction x as [|o x IH]; intros i; cbn [only].
  - intros o [].
  - destruct (p o) eqn:Ep.
    + rewrite only_done. destruct (existsb p x) eqn:Ex.
      * apply existsb_exists in Ex. destruct Ex as (o' & Hin & Hp). apply In_nth_error in Hin. destruct Hin as (n & Hn).
        exists 0%nat, (S n), o, o'. conj; auto.
      * exists 0%nat, o. conj; [lia | reflexivity | exact Ep |]. intros [|j'] o' Hn Hp; [reflexivity|]. exfalso.
        cbn in Hn. apply nth_error_In in Hn. assert (existsb p x = true) by (apply existsb_exists; exists o'; auto). congruence.
    + specialize (IH (S i)). destruct (only p x (S i) Nobody).
      * destruct IH as (j & o1 & -> & Hn & Hp & Hu). exists (S j), o1. conj; [lia | exact Hn | exact Hp |].
        intros [|j'] o' Hn' Hp'; cbn in Hn'; [congruence|]. f_equal. eapply Hu; eauto.
      * destruct IH as (a & b & oa & ob & H1 & H2 & H3 & H4 & H5). exists (S a), (S b), oa, ob. conj; auto.
      * intros o1 [<-|H]; [exact Ep | apply IH; exact H].
Qed.

Lemma only_spec' p (Q : longopt -> Prop) (x : list longopt) : (forall o, p o = true <-> Q o) ->
  match only p x 0 Nobody with
  | Nobody => forall o, In o x -> ~ Q o
  | Many => exists a b oa ob, nth_error x a = Some oa /\ nth_error x b = Some ob /\ Q oa /\ Q ob /\ a <> b
  | One k => exists o, nth_error x k = Some o /\ Q o /\ forall j' o', nth_error x j' = Some o' -> Q o' -> j' = k
  end.
Proof.
  intros HQ. pose proof (only_spec p x 0) as H. destruct (only p x 0 Nobody).
  - destruct H as (j & o & -> & Hn & Hp & Hu). exists o. conj; [exact Hn | apply HQ, Hp |].
    intros j' o' Hj Ho. eapply Hu; [exact Hj | apply HQ, Ho].
  - destruct H as (a & b & oa & ob & Ha & Hb & Pa & Pb & Hab). exists a, b, oa, ob. conj; auto; apply HQ; assumption.
  - intros o Hin K. apply HQ in K. rewrite (H o Hin) in K. discriminate.
Qed.

Lemma find_denotes nm t k : longopt_find (nm ++ t) (length nm) l = One k <-> exists o, denotes l nm k o.
Proof.
  unfold longopt_find, denotes.
  pose proof (only_spec' _ _ l (fun o => exact_name nm t (name o))) as H1.
  pose proof (only_spec' _ _ l (fun o => prefix_begins nm t (name o))) as H2. cbn beta in *.
  destruct (only _ l 0 Nobody) as [k1| |] eqn:E1.
  - destruct H1 as (o & Hn & Hp & Hu). split.
    + intros E. injection E as <-. exists o. split; [exact Hn|]. left. split; [exact Hp | exact Hu].
    + intros (o' & Hn' & [(E & Hu')|(Hno & _)]).
      * f_equal. apply Hu' with (1 := Hn). exact Hp.
      * exfalso. apply (Hno o); [eapply nth_error_In; eauto | exact Hp].
  - destruct H1 as (a & b & oa & ob & Ha & Hb & Pa & Pb & Hab). split; [discriminate|].
    intros (o' & Hn' & [(E & Hu')|(Hno & _)]).
    + exfalso. apply Hab. rewrite (Hu' a oa Ha Pa), (Hu' b ob Hb Pb). reflexivity.
    + exfalso. apply (Hno oa); [eapply nth_error_In; eauto | exact Pa].
  - destruct (only (fun o => prefix (length nm) (nm ++ t) (name o)) l 0 Nobody) as [k1| |] eqn:E2.
    + destruct H2 as (o & Hn & Hp & Hu). split.
      * intros E. injection E as <-. exists o. split; [exact Hn|]. right. auto.
      * intros (o' & Hn' & [(E & _)|(_ & _ & Hu')]).
        -- exfalso. apply (H1 o'); [eapply nth_error_In; eauto | exact E].
        -- f_equal. apply Hu' with (1 := Hn). exact Hp.
    + destruct H2 as (a & b & oa & ob & Ha & Hb & Pa & Pb & Hab). split; [discriminate|].
      intros (o' & Hn' & [(E & Hu')|(Hno & _ & Hu')]).
      * exfalso. apply (H1 o'); [eapply nth_error_In; eauto | exact E].
      * exfalso. apply Hab. rewrite (Hu' a oa Ha Pa), (Hu' b ob Hb Pb). reflexivity.
    + split; [discriminate|]. intros (o' & Hn' & [(E & Hu')|(Hno & Hb & Hu')]).
      * exfalso. apply (H1 o'); [eapply nth_error_In; eauto | exact E].
      * exfalso. apply (H2 o'); [eapply nth_error_In; eauto | exact Hb].
Qed.

(** ** One option *)
Lemma internal_short s A b w R : argv s = A ++ (45 :: b :: w) :: R -> optind s = length A -> b <> 45 -> b <> 0 ->
  internal m posix os l s = short_word m os (silent d) (45 :: b :: w) s.
Proof.
  intros Ha Hi Hb Hb0. unfold internal. destruct os_head as (b0 & -> & _ & _ & Hs). cbn [bind]. rewrite Hs.
  rewrite Ha, Hi, nth_mid. unfold is_option. change (at_ (45 :: b :: w) 0) with (Ok 45). cbn [bind].
  destruct (list_eq_dec Z.eq_dec (45 :: b :: w) [45]); [discriminate|].
  destruct (list_eq_dec Z.eq_dec (45 :: b :: w) [45; 45]) as [E|_]; [injection E; congruence|].
  change (at_ (45 :: b :: w) 1) with (Ok b). cbn -[short_word long_word].
  destruct (Z.eqb_spec b 45); [congruence|]. destruct m; reflexivity.
Qed.

Lemma internal_long s A w R : argv s = A ++ (45 :: 45 :: w) :: R -> optind s = length A -> w <> [] -> m = Long ->
  internal m posix os l s = long_word l (silent d) (45 :: 45 :: w) s.
Proof.
  intros Ha Hi Hw ->. unfold internal. destruct os_head as (b0 & -> & _ & _ & Hs). cbn [bind]. rewrite Hs.
  rewrite Ha, Hi, nth_mid. unfold is_option. change (at_ (45 :: 45 :: w) 0) with (Ok 45). cbn [bind].
  destruct (list_eq_dec Z.eq_dec (45 :: 45 :: w) [45]); [discriminate|].
  destruct (list_eq_dec Z.eq_dec (45 :: 45 :: w) [45; 45]) as [E|_]; [injection E; congruence|].
  change (at_ (45 :: 45 :: w) 1) with (Ok 45). cbn -[short_word long_word]. reflexivity.
Qed.

Lemma not_w k1 c : k1 <> 59 -> match m with Short => false | Long => (c =? 87) && (k1 =? 59) end = false.
Proof. intros H. destruct m; [reflexivity|]. destruct (Z.eqb_spec k1 59); [congruence|]. apply andb_false_r. Qed.

Definition ok_step (a : arg) (e : event) (s s1 : state) (r : Z) (A : list (list Z)) : Prop :=
  saw e s s1 r /\ argv s1 = argv s /\ optind s1 = (length A + length (words a))%nat /\ optpos s1 = 1%nat.

Lemma letter_kind c k k' : In (c, k) (letters d) -> In (c, k') (letters d) -> k = k'.
Proof.
  destruct WF as (Hnd & _ & _). clear WF. intros H1 H2. induction (letters d) as [|(c0, k0) r IH]; [destruct H1|].
  cbn in Hnd. inversion Hnd as [|x y Hn Hnd']; subst.
  destruct H1 as [H1|H1], H2 as [H2|H2].
  - congruence.
  - injection H1 as -> ->. exfalso. apply Hn, in_map_iff. exists (c, k'). auto.
  - injection H2 as -> ->. exfalso. apply Hn, in_map_iff. exists (c, k). auto.
  - apply IH; auto.
Qed.

Lemma ok_letter c k : In (c, k) (letters d) -> c <> 45 /\ c <> 0 /\ c <> 63.
Proof. intros H. destruct WF as (_ & Hl & _). destruct (Hl _ _ H) as (H1 & H2 & H3 & H4 & H5). lia. Qed.

Ltac fin := unfold ok_step, saw; cbn [returns argument sets which offender]; conj; try reflexivity;
  try (intros ? K; first [discriminate K | injection K as <-; reflexivity]); cbn; try congruence; try lia.

Lemma step_plain c s A R : ok_arg m d l (Plain c) -> argv s = A ++ words (Plain c) ++ R -> optind s = length A -> optpos s = 1%nat ->
  exists e r s1, event_of d (Plain c) = [e] /\ internal m posix os l s = Ok (r, s1) /\ ok_step (Plain c) e s s1 r A.
Proof.
  intros (k & Hin & Hk) Ha Hi Hp. cbn [words app] in Ha. destruct (ok_letter _ _ Hin) as (H45 & H0 & _).
  cbn [event_of]. eexists. 
  erewrite internal_short by eauto. unfold short_word. rewrite Hp.
  change (at_ [45; c] 1) with (Ok c). change (at_ [45; c] 2) with (Ok 0). cbn [bind].
  destruct (letter_at c k Hin) as (i & k1 & -> & -> & H59 & H). cbn [bind]. rewrite not_w by exact H59.
  destruct k; [| congruence |].
  - destruct (Z.eqb_spec k1 58); [congruence|]. cbn [bind negb Z.eqb].
    destruct (Z.eqb_spec c 0); [congruence|]. cbn [negb].
    eexists _, _. conj; [reflexivity | reflexivity|].
    destruct (existsb _ _) eqn:E; [exfalso|].
    { apply existsb_exists in E. destruct E as ((c', k') & Hin' & E). cbn in E. apply andb_true_iff in E.
      destruct E as (E1 & E2). apply Z.eqb_eq in E1. subst c'. destruct k'; try discriminate.
      pose proof (letter_kind _ _ _ Hin Hin'). discriminate. }
    fin.
  - destruct H as (-> & ->). cbn [bind Z.eqb Pos.eqb negb].
    assert (Hn : exists x, match nth_error (argv s) (S (optind s)) with
      | Some v => b <- at_ v 0 ;; Ok (if false && negb (b =? 45) then Some v else None) | None => Ok x end = Ok None).
    { exists None. destruct (nth_error _ _); [rewrite at0|]; reflexivity. }
    destruct Hn as (x & Hn). destruct (nth_error (argv s) (S (optind s))) eqn:En.
    + rewrite at0. cbn [bind andb negb].
      eexists _, _. conj; [reflexivity | reflexivity|].
      destruct (existsb _ _) eqn:E; [fin|].
      exfalso. rewrite <- not_true_iff_false in E. apply E, existsb_exists. exists (c, Optional). cbn. rewrite Z.eqb_refl. auto.
    + cbn [bind andb negb].
      eexists _, _. conj; [reflexivity | reflexivity|].
      destruct (existsb _ _) eqn:E; [fin|].
      exfalso. rewrite <- not_true_iff_false in E. apply E, existsb_exists. exists (c, Optional). cbn. rewrite Z.eqb_refl. auto.
Qed.

Lemma step_joined c v s A R : ok_arg m d l (Joined c v) -> argv s = A ++ words (Joined c v) ++ R -> optind s = length A -> optpos s = 1%nat ->
  exists e r s1, event_of d (Joined c v) = [e] /\ internal m posix os l s = Ok (r, s1) /\ ok_step (Joined c v) e s s1 r A.
Proof.
  intros ((k & Hin & Hk) & Ht & Hv) Ha Hi Hp. cbn [words app] in Ha. destruct (ok_letter _ _ Hin) as (H45 & H0 & _).
  cbn [event_of]. eexists. 
  erewrite internal_short by eauto. unfold short_word. rewrite Hp.
  destruct v as [|b v]; [congruence|]. inversion Ht as [|? ? Hb _]; subst.
  change (at_ (45 :: c :: b :: v) 1) with (Ok c). change (at_ (45 :: c :: b :: v) 2) with (Ok b). cbn [bind].
  destruct (letter_at c k Hin) as (i & k1 & -> & -> & H59 & H). cbn [bind]. rewrite not_w by exact H59.
  assert (H' : k1 = 58 /\ exists k2, at_ os (S (S i)) = Ok k2).
  { destruct k; [congruence | |]; destruct H as (-> & H); [destruct H as (k2 & H & _)|]; eauto. }
  destruct H' as (-> & k2 & ->). cbn [bind Z.eqb Pos.eqb].
  destruct (Z.eqb_spec b 0); [lia|]. cbn [negb].
  eexists _, _. conj; [reflexivity | reflexivity |]. fin.
Qed.

Lemma step_separate c v s A R : ok_arg m d l (Separate c v) -> argv s = A ++ words (Separate c v) ++ R -> optind s = length A -> optpos s = 1%nat ->
  exists e r s1, event_of d (Separate c v) = [e] /\ internal m posix os l s = Ok (r, s1) /\ ok_step (Separate c v) e s s1 r A.
Proof.
  intros (Hin & Ht & Hv) Ha Hi Hp. cbn [words app] in Ha. destruct (ok_letter _ _ Hin) as (H45 & H0 & _).
  cbn [event_of]. eexists. 
  erewrite internal_short by eauto. unfold short_word. rewrite Hp.
  change (at_ [45; c] 1) with (Ok c). change (at_ [45; c] 2) with (Ok 0). cbn [bind].
  destruct (letter_at c _ Hin) as (i & k1 & -> & -> & H59 & -> & k2 & -> & Hk2). cbn [bind]. rewrite not_w by exact H59.
  cbn [bind Z.eqb Pos.eqb negb].
  assert (En : nth_error (argv s) (S (optind s)) = Some v).
  { rewrite Ha, Hi. change ([45; c] :: v :: R) with ([[45; c]] ++ v :: R). rewrite app_assoc.
    replace (S (length A)) with (length (A ++ [[45; c]])) by (rewrite app_length; cbn; lia). apply nth_mid. }
  rewrite En, at0. cbn [bind]. destruct (Z.eqb_spec k2 58); [congruence|]. destruct (Z.eqb_spec (hd 0 v) 45); [congruence|].
  cbn [negb andb bind].
  eexists _, _. conj; [reflexivity | reflexivity |]. fin.
Qed.

Lemma step_unknown c s A R : ok_arg m d l (Unknown c) -> argv s = A ++ words (Unknown c) ++ R -> optind s = length A -> optpos s = 1%nat ->
  exists e r s1, event_of d (Unknown c) = [e] /\ internal m posix os l s = Ok (r, s1) /\ ok_step (Unknown c) e s s1 r A.
Proof.
  intros (Hr & Hn & H58 & H45 & H43) Ha Hi Hp. cbn [words app] in Ha.
  cbn [event_of]. eexists. 
  erewrite internal_short by (eauto; lia). unfold short_word. rewrite Hp.
  change (at_ [45; c] 1) with (Ok c). cbn [bind]. rewrite not_letter by assumption. cbn [bind].
  eexists _, _. conj; [reflexivity | reflexivity |]. fin.
Qed.

Lemma index_eq nm v i : ~ In 61 nm -> index (nm ++ 61 :: v) 61 i = Some (i + length nm)%nat.
Proof. apply index_app. Qed.

Lemma skip_eq (nm v : list Z) : skipn (S (length nm)) (nm ++ 61 :: v) = v.
Proof. change (61 :: v) with ([61] ++ v). rewrite app_assoc. replace (S (length nm)) with (length (nm ++ [61])) by (rewrite app_length; cbn; lia). apply skipn_mid. Qed.

Lemma step_lplain i o nm s A R : ok_arg m d l (LPlain i o nm) -> argv s = A ++ words (LPlain i o nm) ++ R -> optind s = length A -> optpos s = 1%nat ->
  exists e r s1, event_of d (LPlain i o nm) = [e] /\ internal m posix os l s = Ok (r, s1) /\ ok_step (LPlain i o nm) e s s1 r A.
Proof.
  intros (Hm & (Ht & H61 & Hne) & Hd & k & Hk & Hk') Ha Hi Hp. cbn [words app] in Ha.
  cbn [event_of]. exists (long_event i o None).
  erewrite internal_long by eauto. unfold long_word. cbn [skipn].
  rewrite index_none by (assumption || lia).
  destruct (find_denotes nm [] i) as (_ & Hf). rewrite app_nil_r in Hf. rewrite Hf by eauto.
  destruct Hd as (Hn & _). rewrite Hn. unfold longopt_consume, kind_of in *.
  destruct (Z.eqb_spec (has_arg o) 0) as [E0|E0].
  - rewrite E0. cbn [Z.eqb negb bind]. destruct (flag o) eqn:Fl; eexists _, _; (conj; [reflexivity | reflexivity |]; unfold ok_step, saw, long_event; rewrite Fl; fin).
  - destruct (Z.eqb_spec (has_arg o) 1) as [E1|E1]; [congruence|].
    destruct (Z.eqb_spec (has_arg o) 2) as [E2|E2]; [|discriminate].
    cbn [bind]. destruct (flag o) eqn:Fl; eexists _, _; (conj; [reflexivity | reflexivity |]; unfold ok_step, saw, long_event; rewrite Fl; fin).
Qed.

Lemma step_ljoined i o nm v s A R : ok_arg m d l (LJoined i o nm v) -> argv s = A ++ words (LJoined i o nm v) ++ R -> optind s = length A -> optpos s = 1%nat ->
  exists e r s1, event_of d (LJoined i o nm v) = [e] /\ internal m posix os l s = Ok (r, s1) /\ ok_step (LJoined i o nm v) e s s1 r A.
Proof.
  intros (Hm & (Ht & H61 & Hne) & Hd & Htv & k & Hk & Hk') Ha Hi Hp. cbn [words app] in Ha.
  cbn [event_of]. exists (long_event i o (Some v)).
  erewrite internal_long by (eauto; destruct nm; cbn; congruence). unfold long_word. change (skipn 2 (45 :: 45 :: nm ++ 61 :: v)) with (nm ++ 61 :: v). cbv zeta.
  rewrite index_eq by assumption. rewrite Nat.add_0_l. rewrite skip_eq.
  destruct (find_denotes nm (61 :: v) i) as (_ & Hf). rewrite Hf by eauto.
  destruct Hd as (Hn & _). rewrite Hn. unfold longopt_consume, kind_of in *.
  destruct (Z.eqb_spec (has_arg o) 0) as [E0|E0]; [congruence|].
  destruct (Z.eqb_spec (has_arg o) 1) as [E1|E1].
  - cbn [bind]. destruct (flag o) eqn:Fl; eexists _, _; (conj; [reflexivity | reflexivity |]; unfold ok_step, saw, long_event; rewrite Fl; fin).
  - destruct (Z.eqb_spec (has_arg o) 2) as [E2|E2]; [|discriminate].
    cbn [bind]. destruct (flag o) eqn:Fl; eexists _, _; (conj; [reflexivity | reflexivity |]; unfold ok_step, saw, long_event; rewrite Fl; fin).
Qed.

Lemma step_lseparate i o nm v s A R : ok_arg m d l (LSeparate i o nm v) -> argv s = A ++ words (LSeparate i o nm v) ++ R -> optind s = length A -> optpos s = 1%nat ->
  exists e r s1, event_of d (LSeparate i o nm v) = [e] /\ internal m posix os l s = Ok (r, s1) /\ ok_step (LSeparate i o nm v) e s s1 r A.
Proof.
  intros (Hm & (Ht & H61 & Hne) & Hd & Htv & Hk) Ha Hi Hp. cbn [words app] in Ha.
  cbn [event_of]. exists (long_event i o (Some v)).
  erewrite internal_long by eauto. unfold long_word. cbn [skipn].
  rewrite index_none by (assumption || lia).
  destruct (find_denotes nm [] i) as (_ & Hf). rewrite app_nil_r in Hf. rewrite Hf by eauto.
  destruct Hd as (Hn & _). rewrite Hn. unfold longopt_consume, kind_of in *.
  assert (En : nth_error (argv s) (S (optind s)) = Some v).
  { rewrite Ha, Hi. change ((45 :: 45 :: nm) :: v :: R) with ([45 :: 45 :: nm] ++ v :: R). rewrite app_assoc.
    replace (S (length A)) with (length (A ++ [45 :: 45 :: nm])) by (rewrite app_length; cbn; lia). apply nth_mid. }
  cbn [w_idx argv optind]. rewrite En.
  destruct (Z.eqb_spec (has_arg o) 0) as [E0|E0]; [congruence|].
  destruct (Z.eqb_spec (has_arg o) 1) as [E1|E1]; [|destruct (has_arg o =? 2); discriminate].
  cbn [bind]. destruct (flag o) eqn:Fl; eexists _, _; (conj; [reflexivity | reflexivity |]; unfold ok_step, saw, long_event; rewrite Fl; fin).
Qed.

Lemma step_lunknown nm s A R : ok_arg m d l (LUnknown nm) -> argv s = A ++ words (LUnknown nm) ++ R -> optind s = length A -> optpos s = 1%nat ->
  exists e r s1, event_of d (LUnknown nm) = [e] /\ internal m posix os l s = Ok (r, s1) /\ ok_step (LUnknown nm) e s s1 r A.
Proof.
  intros (Hm & (Ht & H61 & Hne) & Hd) Ha Hi Hp. cbn [words app] in Ha.
  cbn [event_of]. eexists. 
  erewrite internal_long by eauto. unfold long_word. cbn [skipn].
  rewrite index_none by (assumption || lia).
  destruct (longopt_find nm (length nm) l) as [k| |] eqn:E.
  - exfalso. destruct (find_denotes nm [] k) as (Hf & _). rewrite app_nil_r in Hf. destruct (Hf E) as (o & Ho). eapply Hd; eauto.
  - eexists _, _. conj; [reflexivity | reflexivity |]. fin.
  - eexists _, _. conj; [reflexivity | reflexivity |]. fin.
Qed.

Definition single (a : arg) : Prop := match a with Operand _ | Cluster _ => False | _ => True end.

Lemma step a s A R : single a -> ok_arg m d l a -> argv s = A ++ words a ++ R -> optind s = length A -> optpos s = 1%nat ->
  exists e r s1, event_of d a = [e] /\ internal m posix os l s = Ok (r, s1) /\ ok_step a e s s1 r A.
Proof.
  destruct a; intros Hs; try destruct Hs; intros; eauto using step_plain, step_joined, step_separate, step_unknown, step_lplain, step_ljoined, step_lseparate, step_lunknown.
Qed.

(** ** A word with several letters *)
Lemma at_cs cs j : at_ (45 :: cs) (S j) = at_ cs j.
Proof. unfold at_. cbn. reflexivity. Qed.

Lemma cluster_internal s A cs c cs1 cs2 R : cs = cs1 ++ c :: cs2 -> (forall c, In c cs -> In (c, No) (letters d)) ->
  argv s = A ++ (45 :: cs) :: R -> optind s = length A -> optpos s = S (length cs1) ->
  internal m posix os l s = Ok (c, match cs2 with [] => inc s | _ => w_pos (S (S (length cs1))) s end).
Proof.
  intros E Hcs Ha Hi Hp.
  assert (Hin : In (c, No) (letters d)) by (apply Hcs; rewrite E; apply in_or_app; right; left; reflexivity).
  destruct (ok_letter _ _ Hin) as (H45 & H0 & _).
  assert (Hb : exists b r, cs = b :: r /\ b <> 45 /\ b <> 0).
  { destruct cs as [|b r]; [destruct cs1; discriminate|]. exists b, r. split; [reflexivity|].
    destruct (ok_letter b No) as (H1 & H2 & _); [apply Hcs; left; reflexivity|]. auto. }
  destruct Hb as (b & r & Eb & Hb45 & Hb0). rewrite Eb in Ha. erewrite internal_short by eauto. rewrite <- Eb.
  unfold short_word. rewrite Hp, !at_cs. rewrite E at 1. rewrite <- (Nat.add_0_r (length cs1)) at 1. rewrite at_app.
  change (at_ (c :: cs2) 0) with (Ok c). cbn [bind].
  destruct (letter_at c No Hin) as (i & k1 & -> & -> & H59 & H). cbn [bind]. rewrite not_w by exact H59.
  destruct (Z.eqb_spec k1 58); [congruence|].
  rewrite E. replace (S (length cs1)) with (length cs1 + 1)%nat by lia. rewrite at_app.
  destruct cs2 as [|c2 cs2].
  - cbn. destruct (Z.eqb_spec c 0); [congruence|]. reflexivity.
  - change (at_ (c :: c2 :: cs2) 1) with (Ok c2). cbn [bind].
    destruct (ok_letter c2 No) as (_ & H2 & _); [apply Hcs; rewrite E; apply in_or_app; right; right; left; reflexivity|].
    destruct (Z.eqb_spec c2 0); [congruence|]. cbn [negb]. repeat f_equal.
Qed.

Lemma dashed_letter c cs : (forall c0, In c0 (c :: cs) -> In (c0, No) (letters d)) -> dashed (45 :: c :: cs).
Proof. intros H. exists c, cs. split; [reflexivity|]. apply (ok_letter c No), H. left; reflexivity. Qed.

Lemma cluster_calls cs P ops R : (forall c, In c cs -> In (c, No) (letters d)) -> P <> [] -> Forall bare ops ->
  (plus d = true -> ops = []) ->
  forall cs2 cs1 s, cs = cs1 ++ cs2 -> cs2 <> [] ->
  argv s = P ++ ops ++ (45 :: cs) :: R -> optind s = length P -> optpos s = S (length cs1) ->
  exists s1, argv s1 = P ++ [45 :: cs] ++ ops ++ R /\ optind s1 = (length P + 1)%nat /\
    forall es s', calls m posix os l s1 es s' -> calls m posix os l s (map (fun c => Ev c None None None None) cs2 ++ es) s'.
Proof.
  intros Hcs HP Ho Hpl. induction cs2 as [|c cs2 IH]; intros cs1 s E Hne Ha Hi Hp; [congruence|].
  assert (Hd : dashed (45 :: cs)).
  { destruct cs as [|b r]; [destruct cs1; discriminate|]. apply dashed_letter. exact Hcs. }
  assert (Hint : internal m posix os l (w_ind (length P + length ops) s) =
     Ok (c, match cs2 with [] => inc (w_ind (length P + length ops) s) | _ => w_pos (S (S (length cs1))) (w_ind (length P + length ops) s) end)).
  { apply cluster_internal with (A := P ++ ops) (cs := cs) (R := R); auto.
    - cbn. rewrite Ha, <- app_assoc. reflexivity.
    - cbn. rewrite app_length. reflexivity. }
  destruct cs2 as [|c2 cs2].
  - edestruct call_words with (W := [45 :: cs]) (s := s) (P := P) (ops := ops) (R := R) as (R' & ER & Hc); eauto.
    { cbn. lia. }
    { eexists; reflexivity. }
    cbn in ER. injection ER as <-.
    set (s1 := w_ind _ (w_argv _ _)) in Hc. exists s1. conj; [reflexivity | reflexivity |].
    intros es s' Hs'. cbn [map app]. eapply calls_next; [exact Hc | | exact Hs'].
    unfold saw; cbn. conj; try reflexivity; intros; discriminate.
  - edestruct call_words with (W := @nil (list Z)) (s := s) (P := P) (ops := ops) (R := R) as (R' & ER & Hc); eauto.
    { eexists; reflexivity. }
    cbn in ER. subst R'.
    set (s1 := w_ind _ (w_argv _ _)) in Hc.
    destruct (IH (cs1 ++ [c]) s1) as (s2 & H1 & H2 & H3).
    + rewrite E, <- app_assoc. reflexivity.
    + discriminate.
    + unfold s1. cbn. reflexivity.
    + unfold s1. cbn. lia.
    + unfold s1. cbn. rewrite app_length. cbn. lia.
    + exists s2. conj; [exact H1 | exact H2 |]. intros es s' Hs'. cbn [map app]. eapply calls_next; [exact Hc | | apply H3, Hs'].
      unfold saw; cbn. conj; try reflexivity; intros; discriminate.
Qed.

(** ** All of the command line *)
Lemma words_dashed a : ok_arg m d l a -> operand a = false -> exists w r, words a = w :: r /\ dashed w.
Proof.
  assert (N : forall nm r, exists w r', (45 :: 45 :: nm) :: r = w :: r' /\ dashed w).
  { intros nm r. exists (45 :: 45 :: nm), r. split; [reflexivity|]. exists 45, nm. split; [reflexivity|lia]. }
  destruct a; cbn [ok_arg words operand]; intros H Hop; try discriminate; auto.
  - destruct H as (k & Hin & _). eexists _, _. split; [reflexivity|]. exists c, []. split; [reflexivity|]. apply (ok_letter _ _ Hin).
  - destruct H as ((k & Hin & _) & _). eexists _, _. split; [reflexivity|]. exists c, v. split; [reflexivity|]. apply (ok_letter _ _ Hin).
  - destruct H as (Hin & _). eexists _, _. split; [reflexivity|]. exists c, []. split; [reflexivity|]. apply (ok_letter _ _ Hin).
  - eexists _, _. split; [reflexivity|]. exists c, []. split; [reflexivity|lia].
  - destruct H as (Hl & H). destruct cs as [|c cs]; [cbn in Hl; lia|]. eexists _, _. split; [reflexivity|].
    apply dashed_letter. exact H.
Qed.

Lemma call_step a s P ops R : single a -> ok_arg m d l a -> argv s = P ++ ops ++ words a ++ R -> optind s = length P ->
  optpos s = 1%nat -> P <> [] -> Forall bare ops -> (plus d = true -> ops = []) ->
  exists e r s1, event_of d a = [e] /\ getopt m posix os l s = Ok (r, s1) /\ saw e s s1 r /\
    argv s1 = (P ++ words a) ++ ops ++ R /\ optind s1 = length (P ++ words a) /\ optpos s1 = 1%nat.
Proof.
  intros Hs Ha Hv Hi Hp HP Ho Hpl.
  destruct (step a (w_ind (length P + length ops) s) (P ++ ops) R Hs Ha) as (e & r & s1 & He & Hint & Hsaw & Hv1 & Hi1 & Hp1).
  { cbn. rewrite Hv, <- app_assoc. reflexivity. }
  { cbn. rewrite app_length. reflexivity. }
  { exact Hp. }
  destruct (words_dashed a Ha) as (w & wr & Ew & Hd); [destruct a; try reflexivity; destruct Hs|].
  destruct (call_words s P ops (words a) (wr ++ R) w s1 r) as (R' & ER & Hc); auto.
  { rewrite Hv, Ew. reflexivity. }
  { rewrite Hi1, app_length. reflexivity. }
  { exists R. rewrite Ew. reflexivity. }
  assert (R' = R) as -> by (rewrite Ew in ER; cbn in ER; injection ER as ER; apply app_inv_head in ER; congruence).
  exists e, r. eexists. conj; [exact He | exact Hc | | | |].
  - destruct Hsaw as (S1 & S2 & S3 & S4 & S5). unfold saw. cbn. auto.
  - cbn. rewrite <- app_assoc. reflexivity.
  - cbn. rewrite app_length. reflexivity.
  - exact Hp1.
Qed.

Lemma call_dashdash s P ops R : argv s = P ++ ops ++ [45; 45] :: R -> optind s = length P -> P <> [] -> Forall bare ops ->
  (plus d = true -> ops = []) ->
  exists s1, getopt m posix os l s = Ok (-1, s1) /\ argv s1 = P ++ [45; 45] :: ops ++ R /\ optind s1 = S (length P).
Proof.
  intros Ha Hi HP Ho Hpl.
  destruct (call_words s P ops [[45; 45]] R [45; 45] (inc (w_ind (length P + length ops) s)) (-1)) as (R' & ER & Hc); auto.
  { exists 45, []. split; [reflexivity | lia]. }
  { unfold internal. destruct os_head as (b0 & -> & _ & _ & _). cbn [bind w_ind argv optind].
    rewrite Ha, app_assoc, <- app_length, nth_mid. reflexivity. }
  { cbn. lia. }
  { exists R. reflexivity. }
  injection ER as <-. eexists. conj; [exact Hc | reflexivity |]. cbn. lia.
Qed.

Lemma clusters_tail a r : clusters_last (a :: r) -> clusters_last r.
Proof. intros H b cs c E. apply (H (a :: b) cs c). rewrite E. reflexivity. Qed.

Lemma all_operands r : (forall x, In x r -> operand x = true) -> options r = [] /\ operands r = r.
Proof.
  induction r as [|x r IH]; intros H; [split; reflexivity|].
  destruct IH as (I1 & I2); [intros y Hy; apply H; right; exact Hy|].
  unfold options, operands in *. cbn. rewrite (H x (or_introl eq_refl)). cbn. rewrite I1, I2. split; reflexivity.
Qed.

Lemma calls_args dd rest : plus d = false -> (dd = [] /\ rest = [] \/ dd = [[45; 45]]) ->
  forall args s P ops, Forall (ok_arg m d l) args -> clusters_last args ->
  argv s = P ++ ops ++ line args ++ dd ++ rest -> optind s = length P -> (optpos s = 1%nat \/ options args = []) -> P <> [] -> Forall bare ops ->
  exists s', calls m posix os l s (events d args) s' /\
    argv s' = P ++ line (options args) ++ dd ++ ops ++ line (operands args) ++ rest /\
    optind s' = (length P + length (line (options args)) + length dd)%nat.
Proof.
  intros Hpl Hdd args. induction args as [|a args IH]; intros s P ops Hok Hcl Ha Hi Hp HP Ho.
  - cbn [line map concat app] in *. destruct Hdd as [(-> & ->) | ->].
    + cbn [app] in *. rewrite app_nil_r in Ha. exists (w_arg None s). conj.
      * apply calls_end. eapply call_none; eauto.
      * cbn. rewrite app_nil_r. exact Ha.
      * cbn. lia.
    + destruct (call_dashdash s P ops rest) as (s1 & Hc & H1 & H2); auto; [congruence|].
      exists s1. conj; [apply calls_end; exact Hc | exact H1 | cbn; lia].
  - inversion Hok as [|? ? Hoka Hokr]; subst.
    destruct (operand a) eqn:Eo.
    + destruct a; try discriminate.
      destruct (IH s P (ops ++ [w])) as (s' & H1 & H2 & H3); auto.
      { eapply clusters_tail; eauto. }
      { rewrite Ha. cbn [line map concat words app]. rewrite <- !app_assoc. reflexivity. }
      { apply Forall_app; split; [exact Ho | constructor; [exact Hoka | constructor]]. }
      exists s'. conj; [exact H1 | | exact H3].
      rewrite H2. unfold operands, options, line. cbn [filter operand map concat words app negb]. rewrite <- !app_assoc. reflexivity.
    + destruct Hp as [Hp|Hp]; [|unfold options in Hp; cbn in Hp; rewrite Eo in Hp; discriminate].
      assert (Eopt : options (a :: args) = a :: options args) by (unfold options; cbn; rewrite Eo; reflexivity).
      assert (Eopd : operands (a :: args) = operands args) by (unfold operands; cbn; rewrite Eo; reflexivity).
      rewrite Eopt, Eopd. unfold events, line in *. cbn [map concat] in *. fold (events d args) in *. fold (line args) (line (options args)) (line (operands args)) in *.
      assert (Hcase : single a \/ exists cs, a = Cluster cs) by (destruct a; cbn; eauto; discriminate).
      destruct Hcase as [Hs | (cs & ->)].
      * destruct (call_step a s P ops (line args ++ dd ++ rest)) as (e & r & s1 & He & Hc & Hsaw & A1 & A2 & A3); auto.
        { rewrite Ha, <- app_assoc. reflexivity. }
        { congruence. }
        destruct (IH s1 (P ++ words a) ops) as (s' & H1 & H2 & H3); auto.
        { eapply clusters_tail; eauto. }
        { destruct P; cbn; congruence. }
        exists s'. rewrite He. conj.
        -- cbn [app]. eapply calls_next; eauto.
        -- rewrite H2, <- !app_assoc. reflexivity.
        -- rewrite H3, !app_length. lia.
      * destruct Hoka as (Hlen & Hlet).
        assert (Hall : forall x, In x args -> operand x = true) by (intros x Hx; apply (Hcl [] cs args eq_refl x Hx)).
        destruct (all_operands _ Hall) as (O1 & O2).
        destruct (cluster_calls cs P ops (line args ++ dd ++ rest) Hlet HP Ho ltac:(congruence) cs [] s) as (s1 & A1 & A2 & A3); auto.
        { intros ->; cbn in Hlen; lia. }
        destruct (IH s1 (P ++ [45 :: cs]) ops) as (s' & H1 & H2 & H3); auto.
        { eapply clusters_tail; eauto. }
        { rewrite A1, <- app_assoc. reflexivity. }
        { rewrite A2, app_length. reflexivity. }
        { destruct P; cbn; congruence. }
        exists s'. conj.
        -- cbn [event_of]. apply A3. exact H1.
        -- rewrite H2. cbn [words]. rewrite <- !app_assoc. reflexivity.
        -- rewrite H3. cbn [words]. rewrite !app_length. cbn. lia.
Qed.

(** with '+': up to the first operand *)
Lemma calls_plus tail k : plus d = true ->
  (tail = [] /\ k = 0%nat \/ (exists w r, tail = w :: r /\ bare w /\ k = 0%nat) \/ (exists r, tail = [45; 45] :: r /\ k = 1%nat)) ->
  forall args s P, Forall (ok_arg m d l) args -> Forall (fun a => operand a = false) args -> (forall cs, ~ In (Cluster cs) args) ->
  argv s = P ++ line args ++ tail -> optind s = length P -> optpos s = 1%nat -> P <> [] ->
  exists s', calls m posix os l s (events d args) s' /\ argv s' = argv s /\ optind s' = (length P + length (line args) + k)%nat.
Proof.
  intros Hpl Htail args. induction args as [|a args IH]; intros s P Hok Hop Hcl Ha Hi Hp HP.
  - cbn [line map concat app] in *.
    destruct Htail as [(-> & ->) | [(w & r & -> & (Ht & Hw) & ->) | (r & -> & ->)]].
    + exists (w_arg None s). conj; [| reflexivity | cbn; lia].
      apply calls_end. unfold getopt. rewrite Hi. destruct (Nat.eqb_spec (length P) 0); [destruct P; [congruence|discriminate]|].
      destruct os_head as (b & E & Hb & Hpb & _). rewrite E. cbn [bind]. rewrite Hpb, Hpl. cbn [negb andb bind].
      unfold internal. rewrite E. cbn [bind w_ind argv optind]. rewrite Hi, Ha.
      replace (nth_error (P ++ []) (length P)) with (@None (list Z)) by (symmetry; apply nth_error_None; rewrite app_length; cbn; lia).
      cbn [bind]. rewrite Nat.ltb_irrefl. rewrite <- Hi. destruct s; reflexivity.
    + exists (w_arg None s). conj; [| reflexivity | cbn; lia].
      apply calls_end. unfold getopt. rewrite Hi. destruct (Nat.eqb_spec (length P) 0); [destruct P; [congruence|discriminate]|].
      destruct os_head as (b & E & Hb & Hpb & _). rewrite E. cbn [bind]. rewrite Hpb, Hpl. cbn [negb andb bind].
      unfold internal. rewrite E. cbn [bind w_ind argv optind]. rewrite Hi, Ha, nth_mid.
      assert (Hio : is_option w = Ok false).
      { unfold is_option. rewrite at0. cbn [bind]. destruct Hw as [Hw| ->]; [|reflexivity].
        destruct (Z.eqb_spec (hd 0 w) 45); [congruence|reflexivity]. }
      rewrite Hio. cbn [bind]. destruct (list_eq_dec Z.eq_dec w [45; 45]) as [->|_].
      { exfalso. destruct Hw as [Hw|Hw]; [apply Hw; reflexivity | discriminate]. }
      rewrite Hpb, Hpl. cbn [orb bind]. rewrite Nat.ltb_irrefl. rewrite <- Hi. destruct s; reflexivity.
    + destruct (call_dashdash s P [] r) as (s1 & Hc & H1 & H2); auto.
      exists s1. conj; [apply calls_end; exact Hc | rewrite H1, Ha; reflexivity | cbn; lia].
  - inversion Hok as [|? ? Hoka Hokr]; subst. inversion Hop as [|? ? Hopa Hopr]; subst.
    assert (Hs : single a) by (destruct a; cbn; auto; [eapply Hcl; left; reflexivity | discriminate]).
    unfold events, line in *. cbn [map concat] in *. fold (events d args) in *. fold (line args) in *.
    destruct (call_step a s P [] (line args ++ tail)) as (e & r & s1 & He & Hc & Hsaw & A1 & A2 & A3); auto.
    { rewrite Ha, <- app_assoc. reflexivity. }
    destruct (IH s1 (P ++ words a)) as (s' & H1 & H2 & H3); auto.
    { intros cs K. eapply Hcl. right. exact K. }
    { destruct P; cbn; congruence. }
    exists s'. rewrite He. conj.
    + cbn [app]. eapply calls_next; eauto.
    + rewrite H2, A1, Ha, <- !app_assoc. reflexivity.
    + rewrite H3, !app_length. lia.
Qed.
End Call.
