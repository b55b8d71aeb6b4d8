(** Proofs about glob. *)
From Coq Require Import Sorted Permutation.
From Verif Require Import Base Glob_Model Glob_Spec.
Open Scope Z_scope.

Lemma len_app a b : len (a ++ b) = len a + len b. Proof. unfold len. rewrite app_length. lia. Qed.
Lemma len_nonneg a : 0 <= len a. Proof. unfold len. lia. Qed.
Lemma len_1 x : len [x] = 1. Proof. reflexivity. Qed.
Lemma len_cons x l : len (x :: l) = 1 + len l. Proof. unfold len. cbn [length]. lia. Qed.

(* ---------- components ---------- *)
Lemma to_slash_app a b : to_slash a = (fst (to_slash a), snd (to_slash a)) -> ~ In 47 a -> to_slash (a ++ b) = (a ++ fst (to_slash b), snd (to_slash b)).
Proof.
  intros _. induction a as [|x a IH]; cbn [app to_slash]; intro N; [apply surjective_pairing|]. destruct (x =? 47) eqn:X; [apply Z.eqb_eq in X; subst x; destruct N; left; reflexivity|].
  rewrite IH by (intro; apply N; right; assumption). reflexivity.
Qed.
Lemma to_slash_spec p : let '(a, b) := to_slash p in p = a ++ b /\ ~ In 47 a /\ (b = [] \/ exists r, b = 47 :: r).
Proof.
  induction p as [|x p IH]; cbn [to_slash]. { split; [reflexivity|split; [intros []|left; reflexivity]]. }
  destruct (x =? 47) eqn:X. { apply Z.eqb_eq in X. subst x. split; [reflexivity|split; [intros []|right; eexists; reflexivity]]. }
  destruct (to_slash p) as [a b]. destruct IH as (-> & N & B). split; [reflexivity|split; [|exact B]]. intros [Y|Y]; [subst x; discriminate X|contradiction].
Qed.
Lemma run_app l m : run (l ++ m) = if (run l =? length l)%nat then (length l + run m)%nat else run l.
Proof.
  induction l as [|x l IH]; cbn [app run length]; [reflexivity|]. destruct (x =? 92); [|reflexivity]. rewrite IH. cbn [Nat.eqb]. destruct (run l =? length l)%nat; reflexivity.
Qed.
Lemma run_repeat k : run (repeat 92 k) = k. Proof. induction k; cbn; [reflexivity|]. rewrite IHk. reflexivity. Qed.
Lemma rev_repeat (x : Z) k : rev (repeat x k) = repeat x k.
Proof. induction k; cbn; [reflexivity|]. rewrite IHk. clear. induction k; cbn; [reflexivity|]. f_equal. exact IHk. Qed.
Lemma run_split l : exists r, l = repeat 92 (run l) ++ r /\ (forall e, r <> 92 :: e).
Proof.
  induction l as [|x l (r & E & N)]; [exists []; split; [reflexivity|discriminate]|]. cbn [run]. destruct (x =? 92) eqn:X.
  - apply Z.eqb_eq in X. subst x. exists r. split; [cbn [repeat app]; rewrite <- E; reflexivity|exact N].
  - exists (x :: l). split; [reflexivity|]. intros e Y. injection Y as -> _. discriminate X.
Qed.
Lemma paired_iff c : paired c <-> Nat.even (run (rev c)) = true.
Proof.
  split.
  - intros (d & k & -> & N). rewrite rev_app_distr, rev_repeat, run_app, run_repeat, repeat_length, Nat.eqb_refl.
    assert (run (rev d) = 0%nat) as ->. { destruct (rev d) as [|x r] eqn:R; [reflexivity|]. cbn [run]. destruct (x =? 92) eqn:X; [|reflexivity]. apply Z.eqb_eq in X. subst x. exfalso. apply (N (rev r)). rewrite <- (rev_involutive d), R. reflexivity. }
    rewrite Nat.add_0_r. apply Nat.even_spec. exists k. reflexivity.
  - intro E. apply Nat.even_spec in E. destruct E as (k & E). destruct (run_split (rev c)) as (r & R & N). exists (rev r), k. split.
    + rewrite <- (rev_involutive c), R, rev_app_distr, rev_repeat, E. reflexivity.
    + intros e X. apply (N (rev e)). rewrite <- (rev_involutive r), X, rev_app_distr. reflexivity.
Qed.

Section Comp.
  Variable fl : flags.
  Notation esc := (negb (f_noescape fl)).
  Lemma first_comp pat c rest : first_of esc pat c rest <-> component fl pat = (c, rest) /\ c <> [].
  Proof.
    unfold component. split.
    - intros (-> & C0 & N & D). split; [|exact C0]. destruct D as [->|[(r & -> & P)|(Es & r & -> & P)]].
      + rewrite app_nil_r, <- (app_nil_r c) at 1. rewrite (to_slash_app c []) by (try apply surjective_pairing; exact N). cbn. rewrite app_nil_r. reflexivity.
      + rewrite to_slash_app by (try apply surjective_pairing; exact N). cbn [to_slash Z.eqb Pos.eqb fst snd]. rewrite app_nil_r. destruct (negb (f_noescape fl)); [|reflexivity].
        apply proj1 in P || idtac. specialize (P eq_refl). apply paired_iff in P. rewrite <- Nat.negb_even, P. reflexivity.
      + change (92 :: 47 :: r) with ([92] ++ 47 :: r). rewrite app_assoc, to_slash_app; [|apply surjective_pairing|rewrite in_app_iff; intros [X|[X|[]]]; [contradiction|discriminate]].
        cbn [to_slash Z.eqb Pos.eqb fst snd]. rewrite app_nil_r, Es, rev_app_distr. cbn [rev app run Z.eqb Pos.eqb]. apply paired_iff in P.
        rewrite Nat.odd_succ, P. cbn [andb]. rewrite removelast_last. reflexivity.
    - intros [E C0]. pose proof (to_slash_spec pat) as T. destruct (to_slash pat) as [a b]. destruct T as (-> & N & B). destruct B as [->|(r & ->)].
      + injection E as <- <-. split; [reflexivity|split; [exact C0|split; [exact N|left; reflexivity]]].
      + destruct (esc && Nat.odd (run (rev a))) eqn:O.
        * apply andb_prop in O. destruct O as [Es O]. injection E as <- <-.
          destruct (rev a) as [|x ra] eqn:R; [discriminate O|]. cbn [run] in O. destruct (x =? 92) eqn:X; [|discriminate O]. apply Z.eqb_eq in X. subst x.
          assert (a = rev ra ++ [92]) as ->. { rewrite <- (rev_involutive a), R. reflexivity. } rewrite removelast_last in *.
          split; [rewrite <- app_assoc; reflexivity|]. split; [exact C0|]. split; [intro I; apply N, in_or_app; left; exact I|]. right. right. split; [exact Es|]. exists r. split; [reflexivity|].
          apply paired_iff. rewrite rev_involutive. rewrite Nat.odd_succ in O. exact O.
        * injection E as <- <-. split; [reflexivity|split; [exact C0|split; [exact N|right; left; exists r; split; [reflexivity|]]]]. intro Es. rewrite Es in O. cbn [andb] in O.
          apply paired_iff. rewrite <- Nat.negb_odd, O. reflexivity.
  Qed.
  Lemma first_fun pat c rest c' rest' : first_of esc pat c rest -> first_of esc pat c' rest' -> c = c' /\ rest = rest'.
  Proof. intros A B. apply first_comp in A, B. destruct A as [A _], B as [B _]. rewrite A in B. injection B as -> ->. split; reflexivity. Qed.
  Lemma first_nil c rest : ~ first_of esc [] c rest.
  Proof. intros (E & C0 & _). destruct c; [congruence|discriminate E]. Qed.
  Lemma first_slash r c rest : ~ first_of esc (47 :: r) c rest.
  Proof. intros (E & C0 & N & _). destruct c as [|x c]; [congruence|]. injection E as E _. apply N. left. symmetry. exact E. Qed.
  Lemma first_quoted r c rest : esc = true -> ~ first_of esc (92 :: 47 :: r) c rest.
  Proof.
    intros Es F. apply first_comp in F. destruct F as [F C0]. unfold component in F. cbn [to_slash Z.eqb Pos.eqb] in F. rewrite Es in F. cbn in F. injection F as <- _. congruence.
  Qed.

  (* classification as one goes along *)
  Definition pre (t : list Z) (k : class) : class := match k with Plain u => Plain (t ++ u) | k => k end.
  Definition done_with (c0 t : list Z) (br : bool) : Prop := (forall r, classify esc false (c0 ++ r) = pre t (classify esc br r)) /\ ~ In 47 c0 /\ (esc = true -> paired c0).
  Lemma pre_pre t x k : pre t (match k with Plain u => Plain (x :: u) | k => k end) = pre (t ++ [x]) k.
  Proof. destruct k; cbn [pre]; rewrite <- ?app_assoc; reflexivity. Qed.
  Lemma done_nil : done_with [] [] false.
  Proof. split; [intro r; cbn [app]; destruct (classify esc false r); reflexivity|split; [intros []|]]. intros _. exists [], O. split; [reflexivity|]. intros [|]; discriminate. Qed.
  Lemma done_char c0 t (br : bool) x : done_with c0 t br -> x <> 42 -> x <> 63 -> (br = true -> x <> 93) -> x <> 47 -> (esc = true -> x <> 92) -> done_with (c0 ++ [x]) (t ++ [x]) (br || (x =? 91)).
  Proof.
    intros (D & N & P) A B C S0 Q. split; [|split].
    - intro r. rewrite <- app_assoc, D. cbn [app classify].
      replace ((x =? 42) || (x =? 63) || (br && (x =? 93))) with false by (destruct br; [specialize (C eq_refl)|]; lia).
      replace (esc && (x =? 92)) with false by (destruct esc; [specialize (Q eq_refl)|reflexivity]; lia). apply pre_pre.
    - rewrite in_app_iff. intros [I|[I|[]]]; [contradiction|congruence].
    - intro Es. specialize (Q Es). apply paired_iff. rewrite rev_app_distr. cbn [rev app run]. replace (x =? 92) with false by lia. reflexivity.
  Qed.
  Lemma done_quoted c0 t (br : bool) y : done_with c0 t br -> esc = true -> (br = true -> y <> 93) -> y <> 47 -> done_with (c0 ++ [92; y]) (t ++ [y]) br.
  Proof.
    intros (D & N & P) Es C S0. split; [|split].
    - intro r. rewrite <- app_assoc, D. cbn [app]. cbn [classify]. rewrite Es. replace ((92 =? 42) || (92 =? 63) || (br && (92 =? 93))) with false by (destruct br; reflexivity). cbn [andb Z.eqb Pos.eqb].
      replace (br && (y =? 93)) with false by (destruct br; [specialize (C eq_refl)|reflexivity]; lia). apply pre_pre.
    - rewrite in_app_iff. intros [I|[I|[I|[]]]]; [contradiction|discriminate|congruence].
    - intros _. specialize (P Es). apply paired_iff in P. apply paired_iff. rewrite rev_app_distr. cbn [rev app run]. destruct (y =? 92); [cbn [Nat.even]; exact P|reflexivity].
  Qed.

  Section Lit.
    Variable R : list Z -> list Z -> Prop.
    Variable B : Z.
    Hypothesis Rslash : forall p r, R p (47 :: r) <-> R (p ++ [47]) r.
    Hypothesis Rquoted : forall p r, esc = true -> R p (92 :: 47 :: r) <-> R (p ++ [47]) r.
    Hypothesis Rplain : forall p pat c rest t, first_of esc pat c rest -> classify esc false c = Plain t -> (R p pat <-> R (p ++ t) rest).
    Hypothesis Rdang : forall p pat c rest, first_of esc pat c rest -> classify esc false c = Dangling -> ~ R p pat.
    Hypothesis Rlen : forall p pat, R p pat -> len p <= B.
    Hypothesis Rmagic : forall p pat c rest c0 r t, first_of esc pat c rest -> classify esc false c = Magic -> c = c0 ++ r -> classify esc false (c0 ++ [93]) = Plain (t ++ [93]) -> R p pat -> len p + len t <= B.

    (* a component whose text so far is [t] has at least that many bytes *)
    Lemma too_long p c0 t cur : done_with c0 t false -> c0 <> [] -> R p (c0 ++ cur) -> len p + len t <= B.
    Proof.
      intros (D & N & P) C0 H. destruct (component fl (c0 ++ cur)) as [c rest] eqn:K.
      assert (exists r, c = c0 ++ r) as (r & Ec).
      { unfold component in K. rewrite to_slash_app in K by (try apply surjective_pairing; exact N). destruct (snd (to_slash cur)) as [|y b]; [injection K as <- <-; eexists; reflexivity|].
        destruct (esc && Nat.odd (run (rev (c0 ++ fst (to_slash cur))))) eqn:O; injection K as <- <-; [|eexists; reflexivity].
        destruct (fst (to_slash cur)) as [|z u] eqn:F using rev_ind.
        - apply andb_prop in O. destruct O as [Es O]. rewrite app_nil_r in O. specialize (P Es). apply paired_iff in P. rewrite <- Nat.negb_even, P in O. discriminate O.
        - exists u. rewrite app_assoc, removelast_last. reflexivity. }
      assert (F : first_of esc (c0 ++ cur) c rest). { apply first_comp. split; [exact K|]. rewrite Ec. destruct c0; [congruence|discriminate]. }
      destruct (classify esc false c) as [u| |] eqn:G.
      - rewrite (Rplain p _ c rest u F G) in H. apply Rlen in H. rewrite Ec, D in G. destruct (classify esc false r) as [w| |]; try discriminate G. injection G as <-. rewrite !len_app in H. pose proof (len_nonneg w). lia.
      - apply (Rmagic p _ c rest c0 r t F G Ec); [|exact H]. rewrite D. cbn. rewrite andb_false_r. reflexivity.
      - destruct (Rdang p _ c rest F G H).
    Qed.

    Definition lit_good (buf comp : list Z) (o : prefix) : Prop :=
      match o with
      | Nothing => R buf comp -> PATH_MAX <= B
      | Whole b => (R buf comp <-> R b []) /\ len b < PATH_MAX
      | At b m => (R buf comp <-> R b m) /\ len b < PATH_MAX /\ (length m <= length comp)%nat /\ ((b = buf /\ m = comp) \/ dirlike b) /\ exists c rest, first_of esc m c rest /\ classify esc false c = Magic
      end.
    Lemma lit_iff buf comp buf' comp' o : (R buf comp <-> R buf' comp') -> (length comp' <= length comp)%nat -> dirlike buf' -> lit_good buf' comp' o -> lit_good buf comp o.
    Proof. intros I L DL H. destruct o; cbn [lit_good] in *; [tauto|tauto|]. destruct H as (A & C & D & E & G). split; [tauto|]. split; [exact C|split; [lia|split; [|exact G]]]. destruct E as [[-> _]|E]; right; assumption. Qed.

    Lemma literal_ok n : forall cur comp buf lit (br over : bool) c0 t, (length cur <= n)%nat -> comp = c0 ++ cur -> done_with c0 t br -> (cur <> comp -> c0 <> []) ->
      len buf + len lit < PATH_MAX -> (if over then br = true /\ PATH_MAX <= len buf + len t else t = lit) ->
      lit_good buf comp (literal fl comp cur buf lit br over).
    Proof.
      induction n as [|n IH]; intros cur comp buf lit br over c0 t L E D C0 Lb O.
      { destruct cur; [|cbn in L; lia]. rewrite app_nil_r in E. subst comp. cbn [literal].
        destruct c0 as [|x c0].
        { destruct over; cbn [lit_good]; [intro H; apply Rlen in H|].
          - destruct O as [O1 O2]. destruct D as (D & _). specialize (D []). cbn in D. injection D as D. symmetry in D. apply app_eq_nil in D. destruct D as [-> _]. change (len []) with 0 in O2. lia.
          - subst lit. destruct D as (D & _). specialize (D []). cbn in D. injection D as D. symmetry in D. apply app_eq_nil in D. destruct D as [-> _]. rewrite app_nil_r. change (len []) with 0 in Lb. split; [tauto|lia]. }
        assert (F : first_of esc (x :: c0) (x :: c0) []). { split; [rewrite app_nil_r; reflexivity|]. split; [discriminate|]. split; [apply D|left; reflexivity]. }
        assert (G : classify esc false (x :: c0) = Plain t). { destruct D as (D & _). specialize (D []). rewrite app_nil_r in D. rewrite D. cbn. rewrite app_nil_r. reflexivity. }
        destruct over; cbn [lit_good].
        - intro H. apply (Rplain buf _ _ _ t F G) in H. apply Rlen in H. rewrite len_app in H. lia.
        - subst lit. rewrite len_app. split; [apply (Rplain buf _ _ _ t F G)|lia]. }
      destruct cur as [|x cur]; [apply (fun H1 => IH [] comp buf lit br over c0 t H1 E D C0 Lb O); cbn; lia|].
      cbn [literal]. cbn [length] in L.
      (* a special character *)
      assert (MAGIC : forall hd k, x :: cur = hd ++ k -> (forall z, classify esc br (hd ++ z) = Magic) -> ~ In 47 hd -> (exists h y, hd = h ++ [y] /\ y <> 92) -> lit_good buf comp (At buf comp)).
      { intros hd k Hk Hm N47 (h & y & -> & Hy). cbn [lit_good]. split; [tauto|]. pose proof (len_nonneg lit). split; [lia|]. split; [lia|]. split; [left; split; reflexivity|]. destruct (component fl comp) as [c rest] eqn:K. exists c, rest.
        assert (exists u, c = (c0 ++ h ++ [y]) ++ u) as (u & Ec).
        { assert (N2 : ~ In 47 (c0 ++ h ++ [y])) by (rewrite in_app_iff; intros [I|I]; [apply (proj1 (proj2 D) I)|apply N47, I]).
          subst comp. rewrite Hk, app_assoc in K. unfold component in K. rewrite to_slash_app in K by (try apply surjective_pairing; exact N2).
          destruct (snd (to_slash k)) as [|z b]; [injection K as <- <-; eexists; reflexivity|].
          match type of K with context [if ?b then _ else _] => destruct b eqn:OO end; injection K as <- <-; [|eexists; reflexivity].
          destruct (fst (to_slash k)) as [|z' u] eqn:FF using rev_ind.
          - rewrite app_nil_r in OO. exfalso. rewrite app_assoc, rev_app_distr in OO. cbn [rev app run] in OO. replace (y =? 92) with false in OO by lia. rewrite andb_false_r in OO. discriminate OO.
          - exists u. rewrite app_assoc, removelast_last. reflexivity. }
        split.
        - apply first_comp. split; [exact K|]. rewrite Ec. clear. destruct c0; [destruct h|]; discriminate.
        - rewrite Ec, <- app_assoc. rewrite (proj1 D), Hm. reflexivity. }
      (* a byte that is stored; [raw] is how it is written *)
      assert (STORE : forall raw d cur' (br' : bool), x :: cur = raw ++ cur' -> (length cur' <= n)%nat -> raw <> [] -> (d = 47 -> raw = [47] \/ (esc = true /\ raw = [92; 47])) ->
        (d <> 47 -> done_with (c0 ++ raw) (t ++ [d]) br') -> (br = true -> br' = true) ->
        lit_good buf comp
          (if d =? 47 then if over then Nothing else if len buf + len lit + 1 <? PATH_MAX then literal fl cur' cur' (buf ++ lit ++ [47]) [] false false else Nothing
           else if len buf + len lit + 1 <? PATH_MAX then literal fl comp cur' buf (lit ++ [d]) br' over else if br' then literal fl comp cur' buf lit br' true else Nothing)).
      { intros raw d cur' br' Hr Lc Rn D47 Dd Bb. destruct (d =? 47) eqn:X.
        - apply Z.eqb_eq in X. specialize (D47 X). clear Dd.
          assert (SL : forall p, R p (raw ++ cur') <-> R (p ++ [47]) cur') by (intro p; destruct D47 as [->|[Es ->]]; [apply Rslash|apply Rquoted; exact Es]).
          assert (ST : R buf comp <-> R ((buf ++ t) ++ [47]) cur').
          { subst comp. rewrite Hr. rewrite <- SL. destruct c0 as [|z c0].
            - assert (t = []) as ->. { destruct D as (D & _). specialize (D []). cbn in D. injection D as D. symmetry in D. apply app_eq_nil in D. apply D. } rewrite app_nil_r. reflexivity.
            - apply Rplain with (c := z :: c0).
              + split; [reflexivity|]. split; [discriminate|]. split; [apply D|]. right. destruct D47 as [->|[Es ->]]; [left; eexists; split; [reflexivity|apply D]|right; split; [exact Es|eexists; split; [reflexivity|apply D; exact Es]]].
              + destruct D as (D & _). specialize (D []). rewrite app_nil_r in D. rewrite D. cbn. rewrite app_nil_r. reflexivity. }
          destruct over.
          + cbn [lit_good]. rewrite ST. intro H. apply Rlen in H. rewrite !len_app in H. rewrite len_1 in H. lia.
          + subst t. destruct (len buf + len lit + 1 <? PATH_MAX) eqn:LL.
            * apply lit_iff with (buf' := buf ++ lit ++ [47]) (comp' := cur'); [rewrite app_assoc; exact ST| |right; exists (buf ++ lit); apply app_assoc|].
              -- subst comp. rewrite app_length, Hr, app_length. lia.
              -- apply IH with (c0 := []) (t := []); [exact Lc|reflexivity|exact done_nil|congruence| |reflexivity]. rewrite !len_app, len_1. change (len []) with 0. lia.
            * cbn [lit_good]. rewrite ST. intro H. apply Rlen in H. rewrite !len_app, len_1 in H. lia.
        - assert (d <> 47) by lia. specialize (Dd ltac:(lia)).
          assert (E2 : comp = (c0 ++ raw) ++ cur') by (rewrite <- app_assoc, <- Hr; exact E).
          assert (NN : c0 ++ raw <> []) by (intro Y; apply app_eq_nil in Y; tauto).
          destruct (len buf + len lit + 1 <? PATH_MAX) eqn:LL.
          + apply IH with (c0 := c0 ++ raw) (t := t ++ [d]); [exact Lc|exact E2|exact Dd|intros _; exact NN|rewrite len_app, len_1; lia|].
            destruct over; [destruct O as [O1 O2]; split; [apply Bb, O1|rewrite len_app, len_1; lia]|subst t; reflexivity].
          + destruct br'.
            * apply IH with (c0 := c0 ++ raw) (t := t ++ [d]); [exact Lc|exact E2|exact Dd|intros _; exact NN|exact Lb|]. split; [reflexivity|]. rewrite len_app, len_1. destruct over; [lia|subst t; lia].
            * cbn [lit_good]. rewrite E2. intro H1. apply (too_long buf (c0 ++ raw) (t ++ [d]) cur' Dd NN) in H1. rewrite len_app, len_1 in H1. destruct over; [destruct O as [O1 _]; specialize (Bb O1); discriminate|subst t; lia]. }
      destruct ((x =? 42) || (x =? 63) || (br && (x =? 93))) eqn:SP.
      { apply (MAGIC [x] cur); [reflexivity|intro z; cbn [app classify]; rewrite SP; reflexivity|intros [Y|[]]; subst x; destruct br; discriminate SP|exists [], x; split; [reflexivity|]; intro Y; subst x; destruct br; discriminate SP]. }
      assert (X1 : x <> 42) by (intro; subst x; discriminate SP). assert (X2 : x <> 63) by (intro; subst x; discriminate SP).
      assert (X3 : br = true -> x <> 93) by (intros -> ->; discriminate SP).
      destruct (x =? 91) eqn:X4.
      { apply Z.eqb_eq in X4. subst x. apply (STORE [91] 91 cur true); [reflexivity|lia|discriminate|discriminate| |reflexivity]. intros _. replace true with (br || (91 =? 91)) by apply orb_true_r. apply done_char; try assumption; try discriminate; intros; lia. }
      destruct ((x =? 92) && esc) eqn:X5.
      - apply andb_prop in X5. destruct X5 as [X5 Es]. apply Z.eqb_eq in X5. subst x. destruct cur as [|y cur].
        + cbn [lit_good]. intro H. exfalso. assert (F : first_of esc comp comp []). { split; [rewrite app_nil_r; reflexivity|]. split; [subst comp; destruct c0; discriminate|]. split; [subst comp; rewrite in_app_iff; intros [I|[I|[]]]; [apply (proj1 (proj2 D) I)|discriminate]|left; reflexivity]. }
          refine (Rdang buf comp comp [] F _ H). rewrite E. rewrite (proj1 D). cbn [classify]. rewrite Es, SP. reflexivity.
        + destruct (br && (y =? 93)) eqn:X6.
          * apply andb_prop in X6. destruct X6 as [-> X6]. apply Z.eqb_eq in X6. subst y. apply (MAGIC [92; 93] cur); [reflexivity|intro z; cbn [app classify]; rewrite Es; reflexivity|cbn; lia|exists [92], 93; split; [reflexivity|lia]].
          * apply (STORE [92; y] y cur br); [reflexivity|cbn in L; lia|discriminate|intros ->; right; split; [exact Es|reflexivity]| |tauto]. intro Y. apply done_quoted; [exact D|exact Es|intros -> ->; discriminate X6|exact Y].
      - apply (STORE [x] x cur br); [reflexivity|lia|discriminate|intros ->; left; reflexivity| |tauto]. intro Y. replace br with (br || (x =? 91)) by (rewrite X4; apply orb_false_r).
        apply done_char; try assumption. intros Es Y2. subst x. rewrite Es in X5. discriminate X5.
    Qed.
  End Lit.
End Comp.

(* ---------- the relations step by step ---------- *)
Section Steps.
  Variable sys : fs.
  Variable fl : flags.
  Variable fnm : bool -> bool -> list Z -> list Z -> bool.
  Hypothesis HON : honest fnm.
  Notation esc := (negb (f_noescape fl)).
  Notation ex := (expands sys fl fnm).
  Notation sc := (scans sys fl fnm).
  Lemma esc_f : esc = true -> f_noescape fl = false. Proof. destruct (f_noescape fl); [discriminate|reflexivity]. Qed.
  Lemma f_esc : f_noescape fl = false -> esc = true. Proof. intros ->. reflexivity. Qed.

  Lemma ex_ext p pat q : ex p pat q -> exists s, q = p ++ s.
  Proof. induction 1 as [|p r q _ (s & ->)|p r q _ _ (s & ->)|p pat c rest t q _ _ _ (s & ->)|p pat c rest n ty q _ _ _ _ _ (s & ->)]; rewrite <- ?app_assoc; [exists []; symmetry; apply app_nil_r|eexists; reflexivity..]. Qed.
  Lemma ex_len p pat q : ex p pat q -> len p <= len q.
  Proof. intro H. apply ex_ext in H. destruct H as (s & ->). rewrite len_app. pose proof (len_nonneg s). lia. Qed.
  Lemma ex_nil p q : ex p [] q <-> q = p.
  Proof. split; [intro H; inversion H; subst; try reflexivity; exfalso; eapply first_nil; eassumption|intros ->; constructor]. Qed.
  Lemma ex_slash_iff p r q : ex p (47 :: r) q <-> ex (p ++ [47]) r q.
  Proof. split; [intro H; inversion H; subst; try assumption; exfalso; eapply first_slash; eassumption|apply ex_slash]. Qed.
  Lemma ex_quoted_iff p r q : esc = true -> ex p (92 :: 47 :: r) q <-> ex (p ++ [47]) r q.
  Proof. intro Es. split; [intro H; inversion H; subst; try assumption; exfalso; eapply first_quoted; eassumption|apply ex_quoted, esc_f, Es]. Qed.
  Lemma ex_comp p pat c rest q : first_of esc pat c rest -> ex p pat q ->
    match classify esc false c with Plain t => ex (p ++ t) rest q | Magic => exists n ty, In (n, ty) (entries sys p) /\ named fl fnm c rest n /\ ex (p ++ n) rest q | Dangling => False end.
  Proof.
    intros F H. inversion H as [p0 E1 E2 E3|p0 r q0 H0 E1 E2 E3|p0 r q0 Ne H0 E1 E2 E3|p0 pat0 c' rest' t q0 F' G H0 E1 E2 E3|p0 pat0 c' rest' n ty q0 F' G I Nm H0 E1 E2 E3]; subst.
    - destruct (first_nil fl _ _ F). - destruct (first_slash fl _ _ _ F). - destruct (first_quoted fl _ _ _ (f_esc Ne) F).
    - destruct (first_fun fl _ _ _ _ _ F F') as [-> ->]. rewrite G. exact H0.
    - destruct (first_fun fl _ _ _ _ _ F F') as [-> ->]. rewrite G. exists n, ty. auto.
  Qed.
  Lemma named_len c rest n c0 r t : named fl fnm c rest n -> c = c0 ++ r -> classify esc false (c0 ++ [93]) = Plain (t ++ [93]) -> len t <= len n.
  Proof. intros [N _] -> G. exact (HON _ _ _ _ _ _ G N). Qed.

  Lemma sc_len p pat d : sc p pat d -> len p < PATH_MAX.
  Proof. induction 1; rewrite ?len_app in *; repeat match goal with |- context [len ?x] => lazymatch goal with H : 0 <= len x |- _ => fail | _ => pose proof (len_nonneg x) end | H : context [len ?x] |- _ => lazymatch goal with H : 0 <= len x |- _ => fail | _ => pose proof (len_nonneg x) end end; lia. Qed.
  Lemma sc_nil p d : ~ sc p [] d.
  Proof. intro H. inversion H; subst; eapply first_nil; eassumption. Qed.
  Lemma sc_slash_iff p r q : sc p (47 :: r) q <-> sc (p ++ [47]) r q.
  Proof. split; [intro H; inversion H; subst; try assumption; exfalso; eapply first_slash; eassumption|apply sc_slash]. Qed.
  Lemma sc_quoted_iff p r q : esc = true -> sc p (92 :: 47 :: r) q <-> sc (p ++ [47]) r q.
  Proof. intro Es. split; [intro H; inversion H; subst; try assumption; exfalso; eapply first_quoted; eassumption|apply sc_quoted, esc_f, Es]. Qed.
  Lemma sc_comp p pat c rest q : first_of esc pat c rest -> sc p pat q ->
    match classify esc false c with Plain t => sc (p ++ t) rest q | Magic => (q = p /\ len p + len c < PATH_MAX) \/ exists n ty, In (n, ty) (entries sys p) /\ named fl fnm c rest n /\ In ty [0; DT_DIR; DT_LNK] /\ sc (p ++ n) rest q | Dangling => False end.
  Proof.
    intros F H. inversion H as [p0 r q0 H0 E1 E2 E3|p0 r q0 Ne H0 E1 E2 E3|p0 pat0 c' rest' t q0 F' G H0 E1 E2 E3|p0 pat0 c' rest' F' G Lc E1 E2 E3|p0 pat0 c' rest' n ty q0 F' G I Nm Ty H0 E1 E2 E3]; subst.
    - destruct (first_slash fl _ _ _ F). - destruct (first_quoted fl _ _ _ (f_esc Ne) F).
    - destruct (first_fun fl _ _ _ _ _ F F') as [-> ->]. rewrite G. exact H0.
    - destruct (first_fun fl _ _ _ _ _ F F') as [-> ->]. rewrite G. left. auto.
    - destruct (first_fun fl _ _ _ _ _ F F') as [-> ->]. rewrite G. right. exists n, ty. auto.
  Qed.
  Lemma plain_short c : forall e o t, classify e o c = Plain t -> len t <= len c.
  Proof.
    assert (X : forall n c, (length c <= n)%nat -> forall e o t, classify e o c = Plain t -> len t <= len c).
    { clear. induction n as [|n IH]; intros c L e o t H; (destruct c as [|x c]; [injection H as <-; lia|]); [cbn in L; lia|]. cbn [classify] in H. cbn in L.
      destruct ((x =? 42) || (x =? 63) || (o && (x =? 93))); [discriminate|]. destruct (e && (x =? 92)).
      - destruct c as [|y c]; [discriminate|]. destruct (o && (y =? 93)); [discriminate|]. destruct (classify e o c) as [u| |] eqn:U; try discriminate. injection H as <-. apply IH in U; [|cbn in L; lia]. rewrite !len_cons. lia.
      - destruct (classify e (o || (x =? 91)) c) as [u| |] eqn:U; try discriminate. injection H as <-. apply IH in U; [|lia]. rewrite !len_cons. lia. }
    intros. eapply X; [apply Nat.le_refl|eassumption].
  Qed.

  Lemma lit_ex buf pat q : len buf < PATH_MAX -> lit_good fl (fun p r => ex p r q) (len q) buf pat (literal fl pat pat buf [] false false).
  Proof.
    intro L. apply literal_ok with (n := length pat) (c0 := []) (t := []); try reflexivity; try congruence; try lia.
    - intros. apply ex_slash_iff. - intros. apply ex_quoted_iff. assumption.
    - intros p pat' c rest t F G. split; [intro H; apply (ex_comp _ _ _ _ _ F) in H; rewrite G in H; exact H|apply ex_plain with (c := c); assumption].
    - intros p pat' c rest F G H. apply (ex_comp _ _ _ _ _ F) in H. rewrite G in H. exact H.
    - intros p pat'. apply ex_len.
    - intros p pat' c rest c0 r t F G Ec G2 H. apply (ex_comp _ _ _ _ _ F) in H. rewrite G in H. destruct H as (n & ty & _ & Nm & H). apply ex_len in H. rewrite len_app in H. pose proof (named_len _ _ _ _ _ _ Nm Ec G2). lia.
    - apply done_nil. - change (len []) with 0. lia.
  Qed.
  Lemma lit_sc buf pat q : len buf < PATH_MAX -> lit_good fl (fun p r => sc p r q) (PATH_MAX - 1) buf pat (literal fl pat pat buf [] false false).
  Proof.
    intro L. apply literal_ok with (n := length pat) (c0 := []) (t := []); try reflexivity; try congruence; try lia.
    - intros. apply sc_slash_iff. - intros. apply sc_quoted_iff. assumption.
    - intros p pat' c rest t F G. split; [intro H; apply (sc_comp _ _ _ _ _ F) in H; rewrite G in H; exact H|apply sc_plain with (c := c); assumption].
    - intros p pat' c rest F G H. apply (sc_comp _ _ _ _ _ F) in H. rewrite G in H. exact H.
    - intros p pat' H. apply sc_len in H. lia.
    - intros p pat' c rest c0 r t F G Ec G2 H. apply (sc_comp _ _ _ _ _ F) in H. rewrite G in H. destruct H as [[-> H]|(n & ty & _ & Nm & _ & H)].
      + subst c. rewrite len_app in H. apply plain_short in G2. rewrite !len_app, !len_1 in G2. pose proof (len_nonneg r). lia.
      + apply sc_len in H. rewrite len_app in H. pose proof (named_len _ _ _ _ _ _ Nm Ec G2). lia.
    - apply done_nil. - change (len []) with 0. lia.
  Qed.
  (* the slashes in front *)
  Lemma slashes_spec pat : forall buf, let '(b, r) := slashes buf pat in exists k, pat = repeat 47 k ++ r /\ b = buf ++ repeat 47 k /\ (len buf < PATH_MAX -> len b < PATH_MAX).
  Proof.
    induction pat as [|c pat IH]; intro buf; cbn [slashes]; [exists O; cbn [repeat app]; rewrite app_nil_r; auto|]. destruct ((len buf + 1 <? PATH_MAX) && (c =? 47)) eqn:E; [|exists O; cbn [repeat app]; rewrite app_nil_r; auto].
    apply andb_prop in E. destruct E as [E1 E2]. apply Z.eqb_eq in E2. subst c. specialize (IH (buf ++ [47])). destruct (slashes (buf ++ [47]) pat) as [b r]. destruct IH as (k & -> & -> & L). exists (S k).
    split; [reflexivity|]. split; [rewrite <- app_assoc; reflexivity|]. intros _. apply L. rewrite len_app, len_1. lia.
  Qed.
  Lemma ex_slashes k p r q : ex p (repeat 47 k ++ r) q <-> ex (p ++ repeat 47 k) r q.
  Proof. revert p. induction k as [|k IH]; intro p; cbn [repeat app]; [rewrite app_nil_r; tauto|]. rewrite ex_slash_iff, IH, <- app_assoc. reflexivity. Qed.
  Lemma sc_slashes k p r q : sc p (repeat 47 k ++ r) q <-> sc (p ++ repeat 47 k) r q.
  Proof. revert p. induction k as [|k IH]; intro p; cbn [repeat app]; [rewrite app_nil_r; tauto|]. rewrite sc_slash_iff, IH, <- app_assoc. reflexivity. Qed.
End Steps.

(* ---------- do_glob ---------- *)
Section Main.
  Variable sys : fs.
  Variable fl : flags.
  Variable fnm : bool -> bool -> list Z -> list Z -> bool.
  Variable errf : list Z -> Z -> bool.
  Hypothesis HON : honest fnm.
  Hypothesis COH : coherent sys.
  Hypothesis SOB : sober sys.
  Notation esc := (negb (f_noescape fl)).
  Notation ex := (expands sys fl fnm).
  Notation sc := (scans sys fl fnm).
  Definition tailed (pat : list Z) : Prop := pat = [] \/ (exists r, pat = 47 :: r) \/ (esc = true /\ exists r, pat = 92 :: 47 :: r).
  Definition found (q : list Z) : Prop := lstat sys q = 0 /\ len q < PATH_MAX.
  Definition silent (q : list Z) : Prop := lstat sys q = 0 \/ lstat sys q = ENOENT \/ no_directory sys q.
  Definition ended (e : Z) : Prop := e = 0 \/ (e = GLOB_ABORTED /\ exists path er, failure sys path er /\ (errf path er = true \/ f_err fl = true)).
  Definition good (buf pat : list Z) (e : Z) (l : list (list Z)) : Prop :=
    (forall x, In x l -> exists q, ex buf pat q /\ found q /\ x = marked sys fl q) /\
    (e = 0 -> forall q, ex buf pat q -> found q -> In (marked sys fl q) l) /\
    (e = 0 -> f_err fl = true -> (forall d, sc buf pat d -> exists es, listing sys (here d) = inr es) /\ (forall q, ex buf pat q -> len q < PATH_MAX -> silent q)) /\
    ended e /\
    (forall x, In x l -> exists s, x = buf ++ s /\ (tailed pat -> s = [] \/ exists s', s = 47 :: s')) /\
    (distinct sys -> NoDup l).

  Lemma marked_ext q : exists s, marked sys fl q = q ++ s /\ (s = [] \/ s = [47]).
  Proof. unfold marked. destruct (f_mark fl); [destruct (stat_dir sys q) as [[|]|]; [destruct (last q 0 =? 47)|..]|]; [exists []|exists [47]|exists []..]; rewrite ?app_nil_r; auto. Qed.
  Lemma stored_marked q (b : bool) : q <> [] -> stored q b = if b then if last q 0 =? 47 then q else q ++ [47] else q.
  Proof.
    intro Q. destruct b; [|reflexivity]. unfold stored. destruct q as [|x r _] using rev_ind; [congruence|]. rewrite rev_app_distr. cbn [rev app]. rewrite last_last. reflexivity.
  Qed.
  Lemma ex_tail p pat q : tailed pat -> ex p pat q -> exists s, q = p ++ s /\ (s = [] \/ exists s', s = 47 :: s') /\ (pat <> [] -> s <> []).
  Proof.
    intros [->|[(r & ->)|(Es & r & ->)]] H.
    - apply ex_nil in H. subst q. exists []. rewrite app_nil_r. split; [reflexivity|split; [left; reflexivity|congruence]].
    - apply ex_slash_iff, ex_ext in H. destruct H as (s & ->). exists (47 :: s). rewrite <- app_assoc. split; [reflexivity|split; [right; eexists; reflexivity|discriminate]].
    - apply ex_quoted_iff in H; [|exact Es]. apply ex_ext in H. destruct H as (s & ->). exists (47 :: s). rewrite <- app_assoc. split; [reflexivity|split; [right; eexists; reflexivity|discriminate]].
  Qed.

  Lemma finish_ok q ty : len q < PATH_MAX -> (ty <> 0 -> lstat sys q = 0) -> (f_mark fl = true -> (ty = DT_DIR -> stat_dir sys q = Some true) /\ (ty <> 0 -> ty <> DT_DIR -> ty <> DT_LNK -> stat_dir sys q = Some false)) ->
    let '(e, l) := finish sys fl errf q ty in
    ended e /\ ((lstat sys q = 0 /\ e = 0 /\ l = [marked sys fl q]) \/ (lstat sys q <> 0 /\ l = [] /\ (e = 0 -> f_err fl = true -> lstat sys q = ENOENT))).
  Proof.
    intros L T M. unfold finish. set (ty' := if f_mark fl && ((ty =? 0) || (ty =? DT_LNK)) then match stat_dir sys q with Some true => DT_DIR | Some false => DT_REG | None => ty end else ty).
    assert (T' : ty' <> 0 -> lstat sys q = 0). { unfold ty'. destruct (f_mark fl && ((ty =? 0) || (ty =? DT_LNK))); [|exact T]. destruct (stat_dir sys q) as [d|] eqn:S0; [intros _; exact (proj1 SOB q d S0)|exact T]. }
    destruct ((ty' =? 0) && negb (lstat sys q =? 0)) eqn:C.
    - apply andb_prop in C. destruct C as [_ C]. destruct (negb (lstat sys q =? ENOENT) && (errf q (lstat sys q) || f_err fl)) eqn:A; split.
      + apply andb_prop in A. destruct A as [A1 A2]. right. split; [reflexivity|]. exists q, (lstat sys q). split; [right; repeat split; lia|]. apply orb_prop in A2. tauto.
      + right. split; [lia|]. split; [reflexivity|]. discriminate.
      + left. reflexivity.
      + right. split; [lia|]. split; [reflexivity|]. intros _ F. rewrite F, orb_true_r, andb_true_r in A. lia.
    - assert (Z0 : lstat sys q = 0). { destruct (Z.eq_dec ty' 0) as [E|N]; [|exact (T' N)]. rewrite E in C. cbn [Z.eqb andb] in C. lia. }
      assert (Q : q <> []) by (intros ->; apply (proj2 SOB), Z0). split; [left; reflexivity|]. left. split; [exact Z0|]. split; [reflexivity|]. f_equal. rewrite (stored_marked q _ Q). unfold marked.
      destruct (f_mark fl) eqn:F; [|reflexivity]. cbn [andb]. unfold ty'. cbn [andb]. specialize (M eq_refl). destruct M as [M1 M2].
      destruct (Z.eq_dec ty DT_DIR) as [->|D]; [rewrite (M1 eq_refl); reflexivity|].
      destruct ((ty =? 0) || (ty =? DT_LNK)) eqn:Y.
      + destruct (stat_dir sys q) as [[|]|]; try reflexivity. replace (ty =? DT_DIR) with false by lia. reflexivity.
      + rewrite M2 by lia. replace (ty =? DT_DIR) with false by lia. reflexivity.
  Qed.

  Lemma dots_iff n : dots n = true <-> In n [[46]; [46; 46]].
  Proof.
    cbn [In]. destruct n as [|a [|b [|c n]]]; cbn [dots].
    - split; [discriminate|intros [X|[X|[]]]; discriminate].
    - rewrite Z.eqb_eq. split; [intros ->; left; reflexivity|intros [X|[X|[]]]; [injection X as <-; reflexivity|discriminate]].
    - rewrite andb_true_iff, !Z.eqb_eq. split; [intros [-> ->]; right; left; reflexivity|intros [X|[X|[]]]; [discriminate|injection X as <- <-; auto]].
    - split; [discriminate|intros [X|[X|[]]]; discriminate].
  Qed.
  Lemma cut_name n s n' s' : ~ In 47 n -> ~ In 47 n' -> (s = [] \/ exists t, s = 47 :: t) -> (s' = [] \/ exists t, s' = 47 :: t) -> n ++ s = n' ++ s' -> n = n'.
  Proof.
    intros N N' T T' E. apply (f_equal (fun l => fst (to_slash l))) in E. rewrite !to_slash_app in E by (try apply surjective_pairing; assumption). cbn [fst] in E.
    assert (X : forall u : list Z, u = [] \/ (exists t, u = 47 :: t) -> fst (to_slash u) = []) by (intros u [->|(t & ->)]; reflexivity). rewrite (X s T), (X s' T'), !app_nil_r in E. exact E.
  Qed.

  Definition good_es (buf comp rest : list Z) (es : list (list Z * Z)) (e : Z) (l : list (list Z)) : Prop :=
    (forall x, In x l -> exists n ty q, In (n, ty) es /\ named fl fnm comp rest n /\ ex (buf ++ n) rest q /\ found q /\ x = marked sys fl q) /\
    (e = 0 -> forall n ty q, In (n, ty) es -> named fl fnm comp rest n -> ex (buf ++ n) rest q -> found q -> In (marked sys fl q) l) /\
    (e = 0 -> f_err fl = true -> (forall n ty d, In (n, ty) es -> named fl fnm comp rest n -> In ty [0; DT_DIR; DT_LNK] -> sc (buf ++ n) rest d -> exists es, listing sys (here d) = inr es) /\
        (forall n ty q, In (n, ty) es -> named fl fnm comp rest n -> ex (buf ++ n) rest q -> len q < PATH_MAX -> silent q)) /\
    ended e /\
    (forall x, In x l -> exists n s, In n (map fst es) /\ x = buf ++ n ++ s /\ (s = [] \/ exists s', s = 47 :: s')) /\
    (distinct sys -> NoDup (map fst es) -> NoDup l).
  Lemma nodup_app (a b : list (list Z)) : NoDup a -> NoDup b -> (forall x, In x a -> ~ In x b) -> NoDup (a ++ b).
  Proof. induction a as [|x a IH]; cbn [app]; intros A B0 D; [exact B0|]. inversion A; subst. constructor; [rewrite in_app_iff; intros [I|I]; [contradiction|apply (D x); [left; reflexivity|exact I]]|apply IH; auto; intros y I; apply D; right; exact I]. Qed.

  Lemma each_ok sub buf comp rest : dirlike buf -> len buf < PATH_MAX -> tailed rest ->
    (forall n ty, In (n, ty) (entries sys buf) -> len (buf ++ n) < PATH_MAX -> exists e l, sub (buf ++ n) ty = Ok (e, l) /\ good (buf ++ n) rest e l) ->
    forall es, (forall n ty, In (n, ty) es -> In (n, ty) (entries sys buf)) -> exists e l, each fl fnm sub buf comp rest es = Ok (e, l) /\ good_es buf comp rest es e l.
  Proof.
    intros DL L T SUB. induction es as [|[n ty] es IH]; intro SUBS.
    { exists 0, []. split; [reflexivity|]. repeat split; try (intros; exfalso; assumption); try (left; reflexivity). }
    destruct IH as (e2 & l2 & E2 & G2); [intros; apply SUBS; right; assumption|]. destruct G2 as (P1 & P2 & P3 & P4 & P5 & P6).
    pose proof (SUBS n ty (or_introl eq_refl)) as IN. pose proof (COH buf n ty DL IN) as (CN & C47 & CL & CD & CF & CS & CT).
    cbn [each]. rewrite E2.
    (* the entry is skipped: it has no paths *)
    assert (SKIP : (named fl fnm comp rest n -> forall q, ex (buf ++ n) rest q -> ~ found q /\ (len q < PATH_MAX -> silent q)) -> (named fl fnm comp rest n -> In ty [0; DT_DIR; DT_LNK] -> forall d, ~ sc (buf ++ n) rest d) ->
      exists e l, Ok (e2, l2) = Ok (e, l) /\ good_es buf comp rest ((n, ty) :: es) e l).
    { intros K1 K2. exists e2, l2. split; [reflexivity|]. split; [|split; [|split; [|split; [|split]]]].
      - intros x I. destruct (P1 x I) as (n' & ty' & q & I' & R). exists n', ty', q. split; [right; exact I'|exact R].
      - intros E n' ty' q [I|I] Nm X F; [injection I as <- <-; destruct (proj1 (K1 Nm q X) F)|eauto].
      - intros E F. destruct (P3 E F) as [Q1 Q2]. split.
        + intros n' ty' d [I|I] Nm Ty X; [injection I as <- <-; destruct (K2 Nm Ty d X)|eauto].
        + intros n' ty' q [I|I] Nm X F'; [injection I as <- <-; apply (K1 Nm q X), F'|eauto].
      - exact P4.
      - intros x I. destruct (P5 x I) as (n' & s & I' & R). exists n', s. split; [right; exact I'|exact R].
      - intros D ND. inversion ND; subst. auto. }
    set (more := match rest with [] => false | _ => true end).
    assert (MORE : more = true <-> rest <> []) by (unfold more; destruct rest; split; congruence).
    destruct (more && negb (ty =? 0) && negb (ty =? DT_DIR) && negb (ty =? DT_LNK)) eqn:K1.
    { apply SKIP.
      - intros _ q X. apply (ex_tail _ _ _ T) in X. destruct X as (s & -> & SH & NE). apply andb_prop in K1. destruct K1 as [K1 K14]. apply andb_prop in K1. destruct K1 as [K1 K13]. apply andb_prop in K1. destruct K1 as [K11 K12].
        apply MORE in K11. destruct SH as [->|(s' & ->)]; [destruct (NE K11 eq_refl)|]. rewrite <- app_assoc. split.
        + intros [F _]. rewrite app_assoc in F. rewrite <- app_assoc in F. apply (CF ltac:(lia) ltac:(lia) ltac:(lia) s' F).
        + intros _. right. right. exists buf, n, ty, s'. split; [exact DL|]. split; [exact IN|]. split; [|reflexivity]. cbn [In]. lia.
      - intros _ Ty. cbn [In] in Ty. lia. }
    destruct (PATH_MAX - len buf <=? len n) eqn:K2.
    { assert (PATH_MAX <= len (buf ++ n)) by (rewrite len_app; lia). apply SKIP.
      - intros _ q X. apply ex_len in X. split; [intros [_ F]; lia|lia].
      - intros _ _ d X. apply sc_len in X. lia. }
    destruct (fnm (f_noescape fl) (negb (f_period fl)) comp n) eqn:K3; cbn [negb].
    2:{ apply SKIP; intros [N1 _]; congruence. }
    destruct (more && f_period fl && dots n && negb (fnm (f_noescape fl) true comp n)) eqn:K4.
    { apply andb_prop in K4. destruct K4 as [K4 K44]. apply andb_prop in K4. destruct K4 as [K4 K43]. apply andb_prop in K4. destruct K4 as [K41 K42]. apply MORE in K41. apply dots_iff in K43.
      apply SKIP; intros [_ N2]; rewrite (N2 K41 K42 K43) in K44; discriminate. }
    assert (NM : named fl fnm comp rest n).
    { split; [exact K3|]. intros R1 R2 R3. apply MORE in R1. apply dots_iff in R3. rewrite R1, R2, R3 in K4. cbn [andb] in K4. destruct (fnm (f_noescape fl) true comp n); [reflexivity|discriminate]. }
    destruct (SUB n ty IN) as (e1 & l1 & E1 & G1); [rewrite len_app; lia|]. rewrite E1. cbn [bind]. destruct G1 as (Q1 & Q2 & Q3 & Q4 & Q5 & Q6).
    assert (SH1 : forall x, In x l1 -> exists s, x = buf ++ n ++ s /\ (s = [] \/ exists s', s = 47 :: s')). { intros x I. destruct (Q5 x I) as (s & -> & SH). exists s. rewrite <- app_assoc. split; [reflexivity|exact (SH T)]. }
    destruct (negb (e1 =? 0)) eqn:N1.
    - exists e1, l1. split; [reflexivity|]. assert (NZ : e1 <> 0) by (clear - N1; lia). split; [|split; [intro; contradiction|split; [intro; contradiction|split; [exact Q4|split]]]].
      + intros x I. destruct (Q1 x I) as (q & R). exists n, ty, q. split; [left; reflexivity|]. split; [exact NM|exact R].
      + intros x I. destruct (SH1 x I) as (s & -> & SH). exists n, s. split; [left; reflexivity|]. auto.
      + intros D _. exact (Q6 D).
    - assert (Z1 : e1 = 0) by lia. exists e2, (l1 ++ l2). split; [reflexivity|]. split; [|split; [|split; [|split; [|split]]]].
      + intros x I. apply in_app_iff in I. destruct I as [I|I]; [destruct (Q1 x I) as (q & R); exists n, ty, q; split; [left; reflexivity|]; split; [exact NM|exact R]|].
        destruct (P1 x I) as (n' & ty' & q & I' & R). exists n', ty', q. split; [right; exact I'|exact R].
      + intros E n' ty' q [I|I] Nm X F; apply in_or_app; [injection I as <- <-; left; apply Q2; assumption|right; eapply P2; eassumption].
      + intros E F. destruct (P3 E F) as [A1 A2]. destruct (Q3 Z1 F) as [B1 B2]. split.
        * intros n' ty' d [I|I] Nm Ty X; [injection I as <- <-; auto|eauto].
        * intros n' ty' q [I|I] Nm X F'; [injection I as <- <-; auto|eauto].
      + exact P4.
      + intros x I. apply in_app_iff in I. destruct I as [I|I]; [destruct (SH1 x I) as (s & -> & SH); exists n, s; split; [left; reflexivity|auto]|]. destruct (P5 x I) as (n' & s & I' & R). exists n', s. split; [right; exact I'|exact R].
      + intros D ND. cbn [map fst] in ND. inversion ND as [|? ? NI ND']; subst. apply nodup_app; auto. intros x I1 I2. destruct (SH1 x I1) as (s & -> & SH). destruct (P5 _ I2) as (n' & s' & I' & E & SH').
        apply app_inv_head in E. apply NI. apply in_map_iff in I'. destruct I' as ([m tm] & <- & I'). cbn [fst] in *. assert (n = m). { apply (cut_name n s m s'); auto. apply (COH buf m tm DL). apply SUBS. right. exact I'. }
        subst m. apply in_map_iff. exists (n, tm). auto.
  Qed.

  Lemma first_tailed pat c rest : first_of esc pat c rest -> tailed rest.
  Proof. intros (_ & _ & _ & [->|[(r & -> & _)|(Es & r & -> & _)]]); [left; reflexivity|right; left; eauto|right; right; eauto]. Qed.
  Lemma shape_of buf pat q : ex buf pat q -> exists s, marked sys fl q = buf ++ s /\ (tailed pat -> s = [] \/ exists s', s = 47 :: s').
  Proof.
    intro X. destruct (marked_ext q) as (m & -> & M). destruct (ex_ext _ _ _ _ _ _ X) as (s & ->). exists (s ++ m). rewrite <- app_assoc. split; [reflexivity|]. intro T.
    destruct (ex_tail _ _ _ T X) as (s1 & E & SH & _). apply app_inv_head in E. subst s1. destruct SH as [->|(s' & ->)]; [|right; eexists; reflexivity]. destruct M as [->| ->]; [left; reflexivity|right; eexists; reflexivity].
  Qed.
  Lemma good_intro buf pat e l : (forall x, In x l -> exists q, ex buf pat q /\ found q /\ x = marked sys fl q) ->
    (e = 0 -> forall q, ex buf pat q -> found q -> In (marked sys fl q) l) ->
    (e = 0 -> f_err fl = true -> (forall d, sc buf pat d -> exists es, listing sys (here d) = inr es) /\ (forall q, ex buf pat q -> len q < PATH_MAX -> silent q)) ->
    ended e -> (distinct sys -> NoDup l) -> good buf pat e l.
  Proof. intros A B C D E. split; [exact A|split; [exact B|split; [exact C|split; [exact D|split; [|exact E]]]]]. intros x I. destruct (A x I) as (q & X & _ & ->). apply shape_of, X. Qed.

  Definition typed (buf : list Z) (ty : Z) (pat : list Z) : Prop := (pat <> [] /\ ty = 0) \/ (exists p n, dirlike p /\ In (n, ty) (entries sys p) /\ buf = p ++ n /\ tailed pat).

  Lemma do_glob_ok : forall fuel buf ty pat, (length pat < fuel)%nat -> len buf < PATH_MAX -> typed buf ty pat -> dirlike buf \/ tailed pat ->
    exists e l, do_glob sys fl fnm errf fuel buf ty pat = Ok (e, l) /\ good buf pat e l.
  Proof.
    induction fuel as [|fuel IH]; intros buf ty pat LF LB TY RD; [lia|]. cbn [do_glob].
    set (ty1 := if (ty =? 0) && negb (f_mark fl) then DT_REG else ty). set (ty2 := match pat with [] => ty1 | _ => if ty1 =? DT_DIR then ty1 else 0 end).
    pose proof (slashes_spec pat buf) as SL. destruct (slashes buf pat) as [b r]. destruct SL as (k & EP & EB & LB2). specialize (LB2 LB).
    (* what is known if nothing but slashes was left *)
    assert (KNOWN : r = [] -> (ty2 <> 0 -> lstat sys b = 0) /\ (f_mark fl = true -> (ty2 = DT_DIR -> stat_dir sys b = Some true) /\ (ty2 <> 0 -> ty2 <> DT_DIR -> ty2 <> DT_LNK -> stat_dir sys b = Some false))).
    { intros ->. rewrite app_nil_r in EP. subst b. destruct TY as [[NE ->]|(p & n & DP & I & -> & _)].
      - assert (ty2 = 0) as ->. { unfold ty2, ty1. destruct pat; [congruence|]. destruct (f_mark fl); reflexivity. } split; [congruence|]. intros _. split; [discriminate|congruence].
      - destruct (COH p n ty DP I) as (CN & C47 & CL & CD & CF & CS & CT). rewrite <- app_assoc. subst pat. destruct k as [|k]; cbn [repeat] in *; unfold ty2.
        + rewrite app_nil_r. split; [intros _; exact CL|]. intro M. unfold ty1. rewrite M, andb_false_r. split; [intro D; specialize (CS D O); cbn [repeat] in CS; rewrite app_nil_r in CS; exact CS|exact CT].
        + destruct (ty1 =? DT_DIR) eqn:D; [|split; [congruence|intros _; split; [discriminate|congruence]]]. apply Z.eqb_eq in D.
          assert (ty = DT_DIR). { revert D. unfold ty1. destruct ((ty =? 0) && negb (f_mark fl)); [discriminate|auto]. }
          split; [intros _; apply (CD ltac:(assumption) (S k))|]. intros _. split; [intros _; apply (CS ltac:(assumption) (S k))|intros; congruence]. }
    assert (EXI : forall q, ex buf pat q <-> ex b r q) by (intro q; rewrite EP, EB; apply ex_slashes).
    assert (SCI : forall q, sc buf pat q <-> sc b r q) by (intro q; rewrite EP, EB; apply sc_slashes).
    assert (LR : (length r <= length pat)%nat) by (rewrite EP, app_length; lia).
    pose proof (lit_ex sys fl fnm HON b r) as LE. pose proof (lit_sc sys fl fnm HON b r) as LS.
    destruct (literal fl r r b [] false false) as [|w|b2 m] eqn:LT; cbn [lit_good] in LE, LS.
    - (* too long, or a dangling backslash *)
      exists 0, []. split; [reflexivity|]. split; [intros x []|]. split; [|split; [|split; [left; reflexivity|split; [intros x []|intros; constructor]]]].
      + intros _ q X [_ F]. apply EXI in X. specialize (LE q LB2 X). lia.
      + intros _ _. split; [intros d X; apply SCI in X; specialize (LS d LB2 X); lia|]. intros q X F. apply EXI in X. specialize (LE q LB2 X). lia.
    - assert (LW : len w < PATH_MAX) by (apply (LE [] LB2)).
      assert (W : forall q, ex buf pat q <-> q = w). { intro q. rewrite EXI. rewrite (proj1 (LE q LB2)). apply ex_nil. }
      assert (WS : forall d, ~ sc buf pat d). { intros d X. apply SCI in X. apply (proj1 (LS d LB2)) in X. destruct (sc_nil _ _ _ _ _ X). }
      assert (FW : r = [] -> w = b). { intros ->. cbn [literal] in LT. injection LT as <-. apply app_nil_r. }
      set (ty3 := match r with [] => ty2 | _ => 0 end).
      assert (FK : (ty3 <> 0 -> lstat sys w = 0) /\ (f_mark fl = true -> (ty3 = DT_DIR -> stat_dir sys w = Some true) /\ (ty3 <> 0 -> ty3 <> DT_DIR -> ty3 <> DT_LNK -> stat_dir sys w = Some false))).
      { unfold ty3. destruct r as [|x r]; [rewrite (FW eq_refl); apply KNOWN; reflexivity|]. split; [congruence|]. intros _. split; [discriminate|congruence]. }
      pose proof (finish_ok w ty3 LW (proj1 FK) (proj2 FK)) as FO. destruct (finish sys fl errf w ty3) as [e l]. exists e, l. split; [reflexivity|].
      destruct FO as [EN [(Z0 & -> & ->)|(Z0 & -> & Z1)]]; apply good_intro; try exact EN.
      + intros x [<-|[]]. exists w. split; [apply W; reflexivity|]. split; [split; assumption|reflexivity].
      + intros _ q X _. apply W in X. subst q. left. reflexivity.
      + intros _ _. split; [intros d X; destruct (WS d X)|]. intros q X _. apply W in X. subst q. left. exact Z0.
      + intros _. constructor; [intros []|constructor].
      + intros x [].
      + intros _ q X [F _]. apply W in X. subst q. contradiction.
      + intros Z2 F. split; [intros d X; destruct (WS d X)|]. intros q X _. apply W in X. subst q. right. left. auto.
      + intros _. constructor.
    - assert (LW : len b2 < PATH_MAX /\ (length m <= length r)%nat /\ ((b2 = b /\ m = r) \/ dirlike b2) /\ exists c rest, first_of esc m c rest /\ classify esc false c = Magic) by apply (LE [] LB2).
      destruct LW as (LW & LM & RB & c & rest & F & MG). assert (FC := F). apply first_comp in FC. destruct FC as [FC CN]. rewrite FC.
      assert (DB : dirlike b2).
      { destruct RB as [[-> ->]|RB]; [|exact RB]. destruct k as [|k]; cbn [repeat app] in EP, EB.
        - rewrite app_nil_r in EB. subst b r. destruct RD as [RD|[->|[(r' & ->)|(Es & r' & ->)]]]; [exact RD|destruct (first_nil fl _ _ F)|destruct (first_slash fl _ _ _ F)|destruct (first_quoted fl _ _ _ Es F)].
        - right. exists (buf ++ repeat 47 k). rewrite EB, <- app_assoc. f_equal. change (47 :: repeat 47 k) with (repeat 47 (S k)). rewrite <- (Nat.add_1_r k), repeat_app. reflexivity. }
      assert (EX2 : forall q, ex buf pat q <-> exists n ty, In (n, ty) (entries sys b2) /\ named fl fnm c rest n /\ ex (b2 ++ n) rest q).
      { intro q. rewrite EXI, (proj1 (LE q LB2)). split; [intro X; apply (ex_comp _ _ _ _ _ _ _ _ F) in X; rewrite MG in X; exact X|]. intros (n & ty' & I & Nm & X). exact (ex_magic _ _ _ _ _ _ _ _ _ _ F MG I Nm X). }
      assert (SC2 : forall d, sc buf pat d -> d = b2 \/ exists n ty, In (n, ty) (entries sys b2) /\ named fl fnm c rest n /\ In ty [0; DT_DIR; DT_LNK] /\ sc (b2 ++ n) rest d).
      { intros d X. apply SCI in X. apply (proj1 (LS d LB2)) in X. apply (sc_comp _ _ _ _ _ _ _ _ F) in X. rewrite MG in X. destruct X as [[X _]|X]; auto. }
      change (match b2 with [] => [46] | _ :: _ => b2 end) with (here b2). destruct (listing sys (here b2)) as [er|es] eqn:LI.
      + assert (NO : entries sys b2 = []) by (unfold entries; rewrite LI; reflexivity). rewrite NO in *.
        destruct (errf b2 er || f_err fl) eqn:A.
        * exists GLOB_ABORTED, []. split; [reflexivity|]. apply good_intro; try discriminate; [intros x []| |intros; constructor]. right. split; [reflexivity|]. exists b2, er. split; [left; exact LI|]. apply orb_prop. exact A.
        * exists 0, []. split; [reflexivity|]. apply good_intro; [intros x []| | |left; reflexivity|intros; constructor].
          -- intros _ q X. apply EX2 in X. destruct X as (n & ty' & [] & _).
          -- intros _ FE. rewrite FE, orb_true_r in A. discriminate A.
      + assert (YES : entries sys b2 = es) by (unfold entries; rewrite LI; reflexivity).
        assert (LRest : (length rest < fuel)%nat). { destruct F as (-> & _). rewrite app_length in LM. destruct c; [congruence|]. cbn [length] in LM. lia. }
        destruct (each_ok (fun buf ty => do_glob sys fl fnm errf fuel buf ty rest) b2 c rest DB LW (first_tailed _ _ _ F)) with (es := es) as (e & l & E & P1 & P2 & P3 & P4 & P5 & P6).
        { intros n ty' I LN. apply IH; [exact LRest|exact LN| |right; exact (first_tailed _ _ _ F)]. right. exists b2, n. split; [exact DB|]. split; [exact I|]. split; [reflexivity|exact (first_tailed _ _ _ F)]. }
        { intros n ty' I. rewrite YES. exact I. }
        exists e, l. split; [exact E|]. rewrite YES in *. apply good_intro.
        * intros x I. destruct (P1 x I) as (n & ty' & q & I' & Nm & X & R). exists q. split; [apply EX2; eauto|exact R].
        * intros Z0 q X. apply EX2 in X. destruct X as (n & ty' & I & Nm & X). eauto.
        * intros Z0 FE. destruct (P3 Z0 FE) as [Q1 Q2]. split.
          -- intros d X. destruct (SC2 d X) as [->|(n & ty' & I & Nm & Ty & Y)]; eauto.
          -- intros q X. apply EX2 in X. destruct X as (n & ty' & I & Nm & X). eauto.
        * exact P4.
        * intro D. apply (P6 D). specialize (D b2 DB). rewrite YES in D. exact D.
  Qed.
End Main.

(* ---------- sorting ---------- *)
Lemma leb_total a : forall b, leb a b = false -> leb b a = true.
Proof.
  induction a as [|x a IH]; intros [|y b]; cbn [leb]; try discriminate; try reflexivity. destruct (x =? y) eqn:E.
  - rewrite Z.eqb_sym, E. apply IH. - rewrite Z.eqb_sym, E. lia.
Qed.
Lemma leb_trans a : forall b c, leb a b = true -> leb b c = true -> leb a c = true.
Proof.
  induction a as [|x a IH]; intros b c; cbn [leb]; [reflexivity|]. destruct b as [|y b]; [discriminate|]. destruct c as [|z c]; [destruct (x =? y); discriminate|]. cbn [leb].
  destruct (Z.eqb_spec x y) as [->|XY]; destruct (Z.eqb_spec y z) as [->|YZ]; intros A B.
  - eapply IH; eassumption. - exact B. - replace (x =? z) with false by lia. exact A. - replace (x =? z) with false by lia. lia.
Qed.
Lemma insert_perm x l : Permutation (insert x l) (x :: l).
Proof. induction l as [|y l IH]; cbn [insert]; [reflexivity|]. destruct (leb x y); [reflexivity|]. rewrite IH. apply perm_swap. Qed.
Lemma sort_perm l : Permutation (sort l) l.
Proof. induction l as [|x l IH]; cbn [sort]; [reflexivity|]. rewrite insert_perm, IH. reflexivity. Qed.
Definition leq (a b : list Z) : Prop := leb a b = true.
Lemma insert_sorted x l : StronglySorted leq l -> StronglySorted leq (insert x l).
Proof.
  induction 1 as [|y l S0 IH F]; cbn [insert]; [repeat constructor|]. destruct (leb x y) eqn:E.
  - constructor; [constructor; assumption|]. constructor; [exact E|]. eapply Forall_impl; [|exact F]. intros z Z0. exact (leb_trans _ _ _ E Z0).
  - constructor; [exact IH|]. apply Forall_forall. intros z I. apply (Permutation_in _ (insert_perm x l)) in I. destruct I as [<-|I]; [apply leb_total, E|]. rewrite Forall_forall in F. exact (F z I).
Qed.
Lemma leb_before a : forall b, leb a b = true -> before a b.
Proof.
  induction a as [|x a IH]; intros [|y b] H; cbn [leb] in H; try discriminate H; [left; exists []; reflexivity|left; exists (y :: b); reflexivity|].
  destruct (x =? y) eqn:E.
  - apply Z.eqb_eq in E. subst y. destruct (IH _ H) as [(r & ->)|(p & u & v & r & s & -> & -> & L)]; [left; exists r; reflexivity|]. right. exists (x :: p), u, v, r, s. auto.
  - right. exists [], x, y, a, b. repeat split. apply Z.ltb_lt, H.
Qed.
Lemma sort_sorted l : StronglySorted before (sort l).
Proof.
  assert (S0 : StronglySorted leq (sort l)) by (induction l; cbn [sort]; [constructor|apply insert_sorted; assumption]).
  induction S0 as [|x m S0 IH F]; constructor; [exact IH|]. eapply Forall_impl; [|exact F]. intros z Z0. exact (leb_before _ _ Z0).
Qed.

(* ---------- glob ---------- *)
Section Top.
  Variable sys : fs.
  Variable fl : flags.
  Variable fnm : bool -> bool -> list Z -> list Z -> bool.
  Variable errf : list Z -> Z -> bool.
  Hypothesis HON : honest fnm.
  Hypothesis COH : coherent sys.
  Hypothesis SOB : sober sys.
  Hypothesis DIS : distinct sys.
  Lemma search_ok fuel p pat : pat <> [] -> dirlike p -> len p < PATH_MAX -> (length pat < fuel)%nat ->
    exists e l, do_glob sys fl fnm errf fuel p 0 pat = Ok (e, l) /\ searched sys fl fnm errf p pat e l.
  Proof.
    intros NE DL L F. destruct (do_glob_ok sys fl fnm errf HON COH SOB fuel p 0 pat F L) as (e & l & E & P1 & P2 & P3 & P4 & P5 & P6); [left; auto|left; exact DL|]. exists e, l. split; [exact E|]. split; [|split; [|split]].
    - split; [exact (P6 DIS)|]. intros x I. destruct (P1 x I) as (q & X & [F1 F2] & ->). exists q. auto.
    - intros Z0. split; [exact (P6 DIS)|]. intro x. split; [intro I; destruct (P1 x I) as (q & X & [F1 F2] & ->); exists q; auto|]. intros (q & X & F1 & F2 & ->). apply P2; [exact Z0|exact X|split; assumption].
    - exact P3.
    - intro N. destruct P4 as [P4|P4]; [contradiction|]. exact P4.
  Qed.
End Top.
Lemma searched_perm sys fl fnm errf p pat e l l' : Permutation l l' -> searched sys fl fnm errf p pat e l -> searched sys fl fnm errf p pat e l'.
Proof.
  intros PM (A & B & C & D). split; [|split; [|split; assumption]].
  - destruct A as [A1 A2]. split; [exact (Permutation_NoDup PM A1)|]. intros x I. apply A2. exact (Permutation_in _ (Permutation_sym PM) I).
  - intro Z0. destruct (B Z0) as [B1 B2]. split; [exact (Permutation_NoDup PM B1)|]. intro x. rewrite <- B2. split; apply Permutation_in; [apply Permutation_sym|]; exact PM.
Qed.

Lemma glob_fresh sys fl fnm home errfunc pat g e l : f_append fl = false ->
  (match pat with
    | [] => Ok (0, [])
    | c :: p =>
        if f_tilde fl && (c =? 126) then
          match expand_tilde home p with
          | inl e => Ok (e, [])
          | inr (buf, s) => do_glob sys fl fnm (told errfunc) (S (length pat)) buf 0 s
          end
        else do_glob sys fl fnm (told errfunc) (S (length pat)) [] 0 pat
    end) = Ok (e, l) ->
  glob sys fnm home errfunc pat fl g = Ok (outcome pat fl (offsets fl g) e (if f_nosort fl then l else sort l)).
Proof.
  intros A H. unfold glob. cbv zeta. rewrite A. fold (offsets fl g). fold (told errfunc). rewrite H. cbn [bind]. unfold outcome.
  assert (SN : sort l = [] <-> l = []). { split; [intro X; pose proof (sort_perm l) as P; rewrite X in P; apply Permutation_nil in P; exact P|intros ->; reflexivity]. }
  destruct l as [|x l]; [destruct (f_nocheck fl), (f_nosort fl); reflexivity|].
  assert (K : forall m : list (list Z), m <> [] -> m = (if f_nosort fl then x :: l else sort (x :: l)) -> match m, f_nocheck fl with [], false => (GLOB_NOMATCH, Globt 0 None (offsets fl g)) | [], true => (e, holding (offsets fl g) [pat]) | _ :: _, _ => (e, holding (offsets fl g) m) end = (e, Globt (length m) (Some (repeat None (offsets fl g) ++ map Some m ++ [None])) (offsets fl g))).
  { intros [|y m] N _; [congruence|]. reflexivity. }
  cbv zeta. rewrite <- (K (if f_nosort fl then x :: l else sort (x :: l))); [|destruct (f_nosort fl); [discriminate|intro X; apply SN in X; discriminate]|reflexivity]. reflexivity.
Qed.

Definition search sys fl fnm home errfunc pat : res (Z * list (list Z)) :=
  match pat with
  | [] => Ok (0, [])
  | c :: p =>
      if f_tilde fl && (c =? 126) then
        match expand_tilde home p with
        | inl e => Ok (e, [])
        | inr (buf, s) => do_glob sys fl fnm (told errfunc) (S (length pat)) buf 0 s
        end
      else do_glob sys fl fnm (told errfunc) (S (length pat)) [] 0 pat
  end.
Lemma glob_append sys fl fnm home errfunc pat o names : f_append fl = false -> (f_dooffs fl = true \/ o = O) ->
  (forall e new, glob sys fnm home errfunc pat fl (holding o names) = Ok (e, holding o new) -> glob sys fnm home errfunc pat (appending fl) (holding o names) = Ok (e, holding o (names ++ new))) /\
  (forall e, glob sys fnm home errfunc pat fl (holding o names) = Ok (e, Globt 0 None o) -> glob sys fnm home errfunc pat (appending fl) (holding o names) = Ok (e, holding o names)).
Proof.
  intros A OO.
  assert (DG : forall errf fuel buf ty p, do_glob sys (appending fl) fnm errf fuel buf ty p = do_glob sys fl fnm errf fuel buf ty p).
  { intros errf. destruct fl as [f1 f2 f3 f4 f5 f6 f7 f8 f9]. cbn in A. subst f1. unfold appending. cbn [f_dooffs f_err f_mark f_nocheck f_noescape f_nosort f_period f_tilde].
    assert (LT : forall n cur comp buf lit br over, (length cur <= n)%nat -> literal (Flags true f2 f3 f4 f5 f6 f7 f8 f9) comp cur buf lit br over = literal (Flags false f2 f3 f4 f5 f6 f7 f8 f9) comp cur buf lit br over).
    { induction n as [|n IH]; intros cur comp buf lit br over L; (destruct cur as [|x cur]; [reflexivity|]); cbn [length] in L; [lia|]. cbn [literal f_noescape].
      assert (IH1 : forall comp buf lit br over, literal (Flags true f2 f3 f4 f5 f6 f7 f8 f9) comp cur buf lit br over = literal (Flags false f2 f3 f4 f5 f6 f7 f8 f9) comp cur buf lit br over) by (intros; apply IH; lia).
      rewrite !IH1. destruct cur as [|y cur]; [reflexivity|]. cbn [length] in L.
      assert (IH2 : forall comp buf lit br over, literal (Flags true f2 f3 f4 f5 f6 f7 f8 f9) comp cur buf lit br over = literal (Flags false f2 f3 f4 f5 f6 f7 f8 f9) comp cur buf lit br over) by (intros; apply IH; lia).
      rewrite !IH2. reflexivity. }
    assert (EC : forall sub sub' buf c r es, (forall b t, sub b t = sub' b t) -> each (Flags true f2 f3 f4 f5 f6 f7 f8 f9) fnm sub buf c r es = each (Flags false f2 f3 f4 f5 f6 f7 f8 f9) fnm sub' buf c r es).
    { intros sub sub' buf c r es E. induction es as [|[n ty] es IH]; [reflexivity|]. cbn [each f_noescape f_period]. rewrite IH, E. reflexivity. }
    induction fuel as [|fuel IH]; intros buf ty p; [reflexivity|]. cbn [do_glob f_mark]. destruct (slashes buf p) as [b r]. rewrite (LT (length r)) by lia. destruct (literal _ r r b [] false false); [reflexivity|reflexivity|].
    change (component (Flags true f2 f3 f4 f5 f6 f7 f8 f9) comp) with (component (Flags false f2 f3 f4 f5 f6 f7 f8 f9) comp). destruct (component _ comp) as [c rest]. destruct (listing sys _); [reflexivity|]. apply EC. intros. apply IH. }
  assert (ES : search sys (appending fl) fnm home errfunc pat = search sys fl fnm home errfunc pat).
  { unfold search. destruct pat as [|c p]; [reflexivity|]. cbn [appending f_tilde]. rewrite DG. destruct (expand_tilde home p) as [|[buf s]]; [reflexivity|]. rewrite DG. reflexivity. }
  unfold glob. cbv zeta. fold (told errfunc). fold (search sys fl fnm home errfunc pat). fold (search sys (appending fl) fnm home errfunc pat). rewrite ES, A. clear DG ES. cbn [appending f_append f_dooffs f_nocheck f_nosort gl_pathc gl_pathv gl_offs holding].
  destruct (search sys fl fnm home errfunc pat) as [[e0 l]| | |]; cbn [bind]; [|split; intros; discriminate..].
  assert (OF : (if f_dooffs fl then o else O) = o) by (destruct OO as [->| ->]; [reflexivity|destruct (f_dooffs fl); reflexivity]).
  assert (FN : firstn (o + length names) (repeat None o ++ map Some names ++ [None]) = repeat None o ++ map Some names).
  { rewrite firstn_app, repeat_length. replace (o + length names - o)%nat with (length names) by lia. rewrite firstn_all2 by (rewrite repeat_length; lia). f_equal. rewrite firstn_app, map_length, Nat.sub_diag, firstn_all2 by (rewrite map_length; lia). apply app_nil_r. }
  assert (LB : Nat.leb (o + length names) (length (repeat (@None (list Z)) o ++ map Some names ++ [None])) = true). { apply Nat.leb_le. rewrite !app_length, repeat_length, map_length. lia. }
  assert (VI : forall N new, Globt (length N) (Some (repeat None o ++ map Some N ++ [None])) o = holding o new -> N = new).
  { intros N new H. injection H as _ H. apply app_inv_head in H. apply app_inv_tail in H. clear - H. revert new H. induction N as [|y N IH]; intros [|z new] H; try discriminate; [reflexivity|]. injection H as -> H. f_equal. apply IH, H. }
  assert (K : forall N, (forall e new, Ok (e0, Globt (length N) (Some (repeat None o ++ map Some N ++ [None])) o) = Ok (e, holding o new) ->
      Ok (e0, Globt (length names + length N) (Some ((repeat None o ++ map Some names) ++ map Some N ++ [None])) o) = Ok (e, holding o (names ++ new))) /\
      (forall e, Ok (e0, Globt (length N) (Some (repeat None o ++ map Some N ++ [None])) o) = Ok (e, Globt 0 None o) -> Ok (e0, Globt (length names + length N) (Some ((repeat None o ++ map Some names) ++ map Some N ++ [None])) o) = Ok (e, holding o names))).
  { intro N. split; [|discriminate]. intros e new H. assert (H0 : (e0, Globt (length N) (Some (repeat None o ++ map Some N ++ [None])) o) = (e, holding o new)) by congruence. apply (f_equal snd) in H0 as H1. apply (f_equal fst) in H0. cbn [fst snd] in *. apply VI in H1. subst. unfold holding. rewrite app_length, map_app, <- !app_assoc. reflexivity. }
  destruct l as [|x l], (f_nocheck fl); rewrite ?OF, ?FN, ?LB; try apply K. split; [discriminate|]. intros e H. injection H as <-. reflexivity.
Qed.
Lemma free_ok o names : globfree (holding o names) = Ok (names, Globt 0 None o).
Proof.
  unfold globfree, holding. cbn [gl_pathv gl_pathc gl_offs]. rewrite skipn_app, repeat_length, Nat.sub_diag, skipn_all2 by (rewrite repeat_length; lia). cbn [app skipn].
  assert (X : forall r, (fix go (k : nat) (l : list (option (list Z))) : res (list (list Z)) := match k with O => Ok [] | S k => match l with Some s :: l => r <- go k l ;; Ok (s :: r) | _ => UB end end) (length names) (map Some names ++ r) = Ok names).
  { intro r. induction names as [|x names IH]; [reflexivity|]. cbn [length map app]. rewrite IH. reflexivity. }
  rewrite X. reflexivity.
Qed.
Section Quote.
  Variable sys : fs.
  Variable fl : flags.
  Variable fnm : bool -> bool -> list Z -> list Z -> bool.
  Hypothesis ESC : f_noescape fl = false.
  Lemma quote_done s : ~ In 47 s -> done_with fl (quote s) s false.
  Proof.
    induction s as [|x s IH] using rev_ind; intro N; [apply done_nil|]. unfold quote. rewrite flat_map_app. cbn [flat_map app]. apply done_quoted; [apply IH; intro I; apply N, in_or_app; left; exact I|rewrite ESC; reflexivity|discriminate|].
    intros ->. apply N, in_or_app. right. left. reflexivity.
  Qed.
  Lemma quote_ex : forall n s p q, (length s <= n)%nat -> expands sys fl fnm p (quote s) q <-> q = p ++ s.
  Proof.
    assert (Es : negb (f_noescape fl) = true) by (rewrite ESC; reflexivity).
    induction n as [|n IH]; intros s p q L; (destruct s as [|x s]; [cbn [quote flat_map]; rewrite app_nil_r; apply ex_nil|]); cbn [length] in L; [lia|].
    destruct (Z.eq_dec x 47) as [->|X47].
    - change (quote (47 :: s)) with (92 :: 47 :: quote s). rewrite ex_quoted_iff by exact Es. rewrite IH by lia. rewrite <- app_assoc. reflexivity.
    - pose proof (to_slash_spec (x :: s)) as T. destruct (to_slash (x :: s)) as [a b] eqn:TS. destruct T as (E & N & B).
      assert (a <> []). { cbn [to_slash] in TS. replace (x =? 47) with false in TS by lia. destruct (to_slash s). injection TS as <- _. discriminate. }
      assert (F : first_of (negb (f_noescape fl)) (quote (x :: s)) (quote a) (quote b)).
      { split; [rewrite E; unfold quote; apply flat_map_app|]. split; [destruct a; [congruence|discriminate]|]. split; [apply (quote_done a N)|]. destruct B as [->|(r & ->)]; [left; reflexivity|]. right. right. split; [exact Es|]. exists (quote r). split; [reflexivity|apply (quote_done a N), Es]. }
      assert (G : classify (negb (f_noescape fl)) false (quote a) = Plain a). { pose proof (proj1 (quote_done a N) []) as D. rewrite app_nil_r in D. rewrite D. cbn. rewrite app_nil_r. reflexivity. }
      assert (LL : (length b <= n)%nat). { assert (LE : length (x :: s) = length (a ++ b)) by (rewrite E; reflexivity). rewrite app_length in LE. destruct a; [congruence|]. cbn [length] in LE. lia. }
      rewrite E. rewrite app_assoc. rewrite <- (IH b (p ++ a) q LL). rewrite <- E. split; [intro H1; apply (ex_comp _ _ _ _ _ _ _ _ F) in H1; rewrite G in H1; exact H1|apply ex_plain with (c := quote a); assumption].
  Qed.
End Quote.
