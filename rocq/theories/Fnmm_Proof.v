(** The matching algorithm of fnmatch: the part before the first asterisk, the part after the last
    one, and the leftmost matching of the parts between. *)
From Verif Require Import Base Mem_Proof Utf8_Model Utf8_Spec Utf8_Proof Utf8Conv_Proof Fnm_Model Fnm_Spec Fnm_Proof Fnmb_Proof.
Open Scope Z_scope.

Local Notation len l := (Z.of_nat (length l)).

(** ** Facts about the specification *)
Section Glob.
Context (f : flags) (lc : locale).

Definition nostar (ps : list elem) : Prop := Forall (fun e => e <> Star) ps.

Lemma glob_star_iff : forall ps w, glob f lc (Star :: ps) w <-> exists u v, w = u ++ v /\ glob f lc ps v.
Proof.
  intros ps w. split.
  - intros H. inversion H as [|? ? ? ? X1 X2|? u v X1]; subst; [destruct X1|eauto].
  - intros (u & v & -> & H). constructor. exact H.
Qed.

Lemma glob_app : forall a b w, glob f lc (a ++ b) w <-> exists u v, w = u ++ v /\ glob f lc a u /\ glob f lc b v.
Proof.
  induction a as [|e a IH]; intros b w; cbn [app].
  - split.
    + intros H. exists [], w. repeat split; [constructor|exact H].
    + intros (u & v & -> & H1 & H2). inversion H1; subst. exact H2.
  - split.
    + intros H. inversion H as [|? ? k w' X1 X2|? u w' X1]; subst.
      * apply IH in X2 as (u & v & -> & H5 & H6). exists (k :: u), v. repeat split; [constructor; assumption|assumption].
      * apply IH in X1 as (x & v & -> & H5 & H6). exists (u ++ x), v. rewrite app_assoc.
        repeat split; [constructor; assumption|assumption].
    + intros (u & v & -> & H1 & H2). inversion H1; subst; cbn [app].
      * constructor; [assumption|]. apply IH. eauto.
      * rewrite <- app_assoc. constructor. apply IH. eauto.
Qed.

Fixpoint run1 (ps : list elem) (w : list Z) : bool :=
  match ps, w with
  | [], [] => true
  | e :: ps, k :: w => ehit f lc e k && run1 ps w
  | _, _ => false
  end.

Lemma run1_spec : forall ps w, nostar ps -> run1 ps w = true <-> glob f lc ps w.
Proof.
  induction ps as [|e ps IH]; intros w N.
  - destruct w; cbn; split; intros H; try constructor; try discriminate. inversion H.
  - inversion N; subst. destruct w as [|k w]; cbn.
    + split; [discriminate|]. intros H. inversion H; subst. congruence.
    + rewrite andb_true_iff, ehit_spec, IH by assumption. split.
      * intros [A B]. constructor; assumption.
      * intros H. inversion H; subst; [auto|congruence].
Qed.

Lemma run1_len : forall ps w, run1 ps w = true -> length ps = length w.
Proof.
  induction ps as [|e ps IH]; intros [|k w] H; cbn in *; try discriminate; [reflexivity|].
  apply andb_true_iff in H as [_ H]. f_equal. auto.
Qed.

Lemma glob_len : forall ps w, nostar ps -> glob f lc ps w -> length ps = length w.
Proof. intros ps w N H. apply run1_len. apply run1_spec; assumption. Qed.

(** a text after an asterisk may be extended at the front *)
Lemma glob_more : forall ps u w, glob f lc (Star :: ps) w -> glob f lc (Star :: ps) (u ++ w).
Proof.
  intros ps u w H. apply glob_star_iff in H as (x & v & -> & H). rewrite app_assoc. constructor. exact H.
Qed.

(** the leftmost match of a part between asterisks is good enough *)
Lemma leftmost : forall c r u w, nostar c -> glob f lc c u ->
  glob f lc (Star :: c ++ Star :: r) (u ++ w) <-> glob f lc (Star :: r) w.
Proof.
  intros c r u w N H. split.
  - intros G. apply glob_star_iff in G as (x & v & E & G). apply glob_app in G as (u' & y & -> & G1 & G2).
    pose proof (glob_len _ _ N H) as L1. pose proof (glob_len _ _ N G1) as L2.
    rewrite app_assoc in E.
    assert (exists z, w = z ++ y) as [z ->].
    { assert (S : skipn (length u) (u ++ w) = skipn (length u) ((x ++ u') ++ y)) by (rewrite E; reflexivity).
      rewrite skipn_app, Nat.sub_diag, skipn_all in S. cbn [app skipn] in S.
      rewrite skipn_app in S. replace (length u - length (x ++ u'))%nat with 0%nat in S by (rewrite app_length; lia).
      cbn [skipn] in S. eauto. }
    apply glob_more. exact G2.
  - intros G. apply glob_star_iff. exists [], (u ++ w). split; [reflexivity|]. apply glob_app. eauto.
Qed.

Lemma shift : forall ps k w, ~ glob f lc ps (k :: w) ->
  glob f lc (Star :: ps) (k :: w) <-> glob f lc (Star :: ps) w.
Proof.
  intros ps k w N. split.
  - intros G. apply glob_star_iff in G as (u & v & E & G). destruct u as [|x u]; cbn in E.
    + subst. contradiction.
    + injection E as -> ->. constructor. exact G.
  - apply (glob_more ps [k]).
Qed.

End Glob.

(** ** Texts in memory *)
Definition txt (w : list Z) : list Z := concat (map utf8 w).

(** [l] is stored at [p], a byte follows it that may be read, and the limit [n] ends the text at
    [l], or the byte is NUL *)
Definition reg (m : mem) (p n : Z) (l : list Z) : Prop :=
  bytes_at m p l /\ n < 2 ^ 64 /\
  exists b, m (p + len l) = Some b /\ (n = len l \/ (b = 0 /\ len l < n)).

Lemma reg_app : forall m p n a l, reg m p n (a ++ l) -> reg m (p + len a) (usz (n - len a)) l.
Proof.
  intros m p n a l (H1 & H2 & b & H3 & H4). rewrite app_length in *.
  unfold reg, usz. rewrite Z.mod_small by lia. apply bytes_at_app in H1 as [_ H1].
  split; [exact H1|]. split; [lia|]. exists b. split; [|destruct H4; [left; lia|right; lia]].
  rewrite <- H3. f_equal. lia.
Qed.

Lemma reg_tail : forall m p n a l, reg m p n (a ++ l) -> exists b r, bytes_at m p (a ++ b :: r).
Proof.
  intros m p n a l (H1 & H2 & b & H3 & H4). destruct l as [|c l].
  - rewrite app_nil_r in *. exists b, []. apply bytes_at_app. split; [exact H1|].
    apply bytes_at_cons. split; [exact H3|]. intros i Hi. cbn in Hi. lia.
  - exists c, l. exact H1.
Qed.

Lemma reg_len : forall m p n l, reg m p n l -> len l <= n.
Proof. intros m p n l (_ & _ & b & _ & [H|H]); lia. Qed.

Lemma reg_exact : forall m p n l, reg m p n l -> reg m p (len l) l.
Proof.
  intros m p n l (H1 & H2 & b & H3 & H4). split; [exact H1|]. split; [lia|]. exists b. auto.
Qed.

Lemma reg_cut : forall m p n a l, reg m p n (a ++ l) -> reg m p (len a) a.
Proof.
  intros m p n a l H. pose proof (reg_len _ _ _ _ H). destruct (reg_tail _ _ _ _ _ H) as (b & r & B).
  destruct H as (H1 & H2 & _). rewrite app_length in *. apply bytes_at_app in B as [B1 B2]. apply bytes_at_cons in B2 as [B2 _].
  split; [exact B1|]. split; [lia|]. exists b. auto.
Qed.

Lemma app_cut : forall (u u' t t' : list Z), length u = length u' -> u ++ t = u' ++ t' -> u = u' /\ t = t'.
Proof.
  induction u as [|x u IH]; intros [|y u'] t t' L E; cbn in *; try discriminate; [auto|].
  injection L as L. injection E as -> E. destruct (IH _ _ _ L E) as [-> ->]. auto.
Qed.

Ltac conj := repeat match goal with |- _ /\ _ => split end.

Section Match.
Context (f : flags) (lc : locale) (m : mem).
Hypothesis LC : ok_locale lc.

Lemma show_cons : forall e ps, show (e :: ps) = show_elem e ++ show ps.
Proof. reflexivity. Qed.

Lemma txt_cons : forall k w, txt (k :: w) = utf8 k ++ txt w.
Proof. reflexivity. Qed.

Lemma show_app : forall a b, show (a ++ b) = show a ++ show b.
Proof. intros a b. unfold show. rewrite map_app, concat_app. reflexivity. Qed.

Lemma txt_app : forall a b, txt (a ++ b) = txt a ++ txt b.
Proof. intros a b. unfold txt. rewrite map_app, concat_app. reflexivity. Qed.

Lemma txt_len : forall w, (length w <= length (txt w))%nat.
Proof.
  induction w as [|k w IH]; [reflexivity|]. rewrite txt_cons, app_length. pose proof (utf8_len k). cbn [length]. lia.
Qed.

Lemma show_len : forall ps, Forall (ok_elem f) ps -> (length ps <= length (show ps))%nat.
Proof.
  induction ps as [|e ps IH]; intros H; [reflexivity|]. inversion H; subst. rewrite show_cons, app_length.
  pose proof (show_pos _ _ H2). specialize (IH H3). cbn [length]. lia.
Qed.

Lemma pat_end : forall fuel p n, reg m p n [] -> pat_next fuel f m p n = Ok (END, 0).
Proof.
  intros fuel p n (_ & _ & b & H1 & H2). unfold pat_next. cbn [length] in *. destruct H2 as [->|[-> H2]]; [reflexivity|].
  destruct (Z.eqb_spec n 0); [reflexivity|]. rewrite Z.add_0_r in H1. rewrite (load_some _ _ _ H1). reflexivity.
Qed.

Lemma pat_step : forall fuel p n e ps, ok_elem f e -> reg m p n (show (e :: ps)) -> (length (show_elem e) < fuel)%nat ->
  pat_next fuel f m p n = Ok (code e, len (show_elem e)).
Proof.
  intros fuel p n e ps H R G. rewrite show_cons in R. pose proof (reg_len _ _ _ _ R). rewrite app_length in *.
  destruct (reg_tail _ _ _ _ _ R) as (b & r & B). apply (next_elem fuel f m p n e b r); auto. lia.
Qed.

Lemma acc_step : forall fuel p n e ps k, ok_elem f e -> e <> Star -> char k -> reg m p n (show (e :: ps)) ->
  (length (show_elem e) < fuel)%nat -> accepts fuel f lc m (code e) p k = Ok (ehit f lc e k).
Proof.
  intros fuel p n e ps k H N K R G. rewrite show_cons in R.
  destruct (reg_tail _ _ _ _ _ R) as (b & r & B). apply (accept_elem fuel f lc m p k e b r); auto.
Qed.

Lemma str_end : forall p n, reg m p n [] -> exists x, str_next m p n = Ok (0, x).
Proof.
  intros p n (_ & _ & b & H1 & H2). unfold str_next. cbn [length] in *. destruct H2 as [->|[-> H2]]; [eexists; reflexivity|].
  destruct (Z.eqb_spec n 0); [eexists; reflexivity|]. rewrite Z.add_0_r in H1. rewrite (load_some _ _ _ H1). eexists; reflexivity.
Qed.

Lemma str_step : forall p n k w, char k -> reg m p n (txt (k :: w)) -> str_next m p n = Ok (k, len (utf8 k)).
Proof.
  intros p n k w K R. rewrite txt_cons in R. pose proof (reg_len _ _ _ _ R). rewrite app_length in *.
  destruct R as (R & _). apply bytes_at_app in R as [R _]. apply str_next_char; auto. lia.
Qed.

Lemma code_star : forall e, ok_elem f e -> (code e =? STAR) = true <-> e = Star.
Proof.
  intros [c|c| | |neg l] H; cbn [code].
  - destruct H as [H _]. apply char_pos in H. rewrite Z.eqb_eq. unfold STAR. split; [lia|discriminate].
  - destruct H as [H _]. apply char_pos in H. rewrite Z.eqb_eq. unfold STAR. split; [lia|discriminate].
  - split; discriminate.
  - split; reflexivity.
  - split; discriminate.
Qed.

Lemma code_nz : forall e, ok_elem f e -> (code e =? UNMATCHABLE) = false /\ (code e =? END) = false.
Proof.
  intros [c|c| | |neg l] H; cbn [code]; try (split; reflexivity).
  - destruct H as [H _]. apply char_pos in H. unfold UNMATCHABLE, END. lia.
  - destruct H as [H _]. apply char_pos in H. unfold UNMATCHABLE, END. lia.
Qed.

Definition eq_star (e : elem) : {e = Star} + {e <> Star}.
Proof. destruct e; [right|right|right|left|right]; congruence. Defined.

Lemma acc_end : forall fuel p c, char c -> accepts fuel f lc m END p c = Ok false.
Proof.
  intros fuel p c H. unfold accepts. change (END =? BRACKET) with false. change (END =? QUESTION) with false.
  assert (O1 : char (if f_fold f then casefold lc c else c)).
  { destruct (f_fold f); [apply LC; assumption|assumption]. }
  apply char_pos in O1. apply char_pos in H. unfold END. cbn [orb].
  destruct (Z.eqb_spec c 0); [lia|]. destruct (Z.eqb_spec (if f_fold f then casefold lc c else c) 0); [lia|]. reflexivity.
Qed.

(** ** Before the first asterisk *)
Lemma head_spec : forall ps fuel p n s k w, Forall (ok_elem f) ps -> Forall char w ->
  reg m p n (show ps) -> reg m s k (txt w) -> (length (show ps) < fuel)%nat ->
  exists r, head fuel f lc m p n s k = Ok r /\
  match r with
  | Return x => (x = 0 \/ x = 1) /\ (x = 0 <-> glob f lc ps w)
  | Go (p', n', s', k') => exists ps' w', (glob f lc ps w <-> glob f lc (Star :: ps') w') /\
      Forall (ok_elem f) ps' /\ Forall char w' /\ reg m p' n' (show ps') /\ reg m s' k' (txt w') /\
      (length (show ps') < length (show ps))%nat /\ (length (txt w') <= length (txt w))%nat
  end.
Proof.
  induction ps as [|e ps IH]; intros fuel p n s k w OK CW RP RS G; (destruct fuel as [|g]; [lia|]).
  - cbn [head]. rewrite (pat_end _ _ _ RP). cbn [bind]. change (END =? UNMATCHABLE) with false. change (END =? STAR) with false. cbv iota.
    destruct w as [|c w].
    + destruct (str_end _ _ RS) as [x ->]. cbn [bind]. cbn [Z.leb Z.compare].
      eexists. split; [reflexivity|]. split; [auto|]. split; [constructor|reflexivity].
    + inversion CW; subst. rewrite (str_step _ _ _ _ H1 RS). cbn [bind]. pose proof (char_pos _ H1).
      destruct (Z.leb_spec c 0); [lia|]. rewrite acc_end by assumption. cbn [bind]. eexists. split; [reflexivity|]. split; [auto|]. split; [discriminate|]. intros X. inversion X.
  - inversion OK; subst. pose proof (show_pos _ _ H1) as SP. pose proof RP as RP0.
    rewrite show_cons, app_length in G.
    remember g as g1 eqn:EG.
    cbn [head]. rewrite (pat_step _ _ _ _ _ H1 RP) by lia. cbn [bind].
    destruct (code_nz _ H1) as [-> NE].
    destruct (eq_star e) as [->|NS].
    + cbn [code Z.eqb STAR Pos.eqb]. eexists. split; [reflexivity|].
      rewrite show_cons in RP. apply reg_app in RP. cbn in RP.
      exists ps, w. split; [reflexivity|]. conj; auto.
    + destruct (code e =? STAR) eqn:E; [apply code_star in E; [congruence|assumption]|].
      destruct w as [|c w].
      * destruct (str_end _ _ RS) as [x ->]. cbn [bind]. cbn [Z.leb Z.compare]. rewrite NE.
        eexists. split; [reflexivity|]. split; [auto|]. split; [discriminate|]. intros X. inversion X; subst. congruence.
      * inversion CW; subst. rewrite (str_step _ _ _ _ H3 RS). cbn [bind]. pose proof (char_pos _ H3).
        destruct (Z.leb_spec c 0); [lia|].
        rewrite (acc_step _ _ _ _ _ _ H1 NS H3 RP) by lia. cbn [bind].
        destruct (ehit f lc e c) eqn:EH.
        -- rewrite show_cons in RP. apply reg_app in RP. rewrite txt_cons in RS. apply reg_app in RS.
           destruct (IH g _ _ _ _ _ H2 H4 RP RS ltac:(lia)) as (r & R1 & R2).
           exists r. split; [exact R1|]. apply ehit_spec in EH.
           assert (Q : glob f lc (e :: ps) (c :: w) <-> glob f lc ps w).
           { split; intros X; [inversion X; subst; [assumption|congruence]|constructor; assumption]. }
           destruct r as [x|[[[p' n'] s'] k']].
           ++ rewrite Q. exact R2.
           ++ destruct R2 as (ps' & w' & A1 & A2 & A3 & A4 & A5 & A6 & A7). exists ps', w'.
              rewrite Q. conj; auto; rewrite ?show_cons, ?txt_cons, ?app_length; lia.
        -- eexists. split; [reflexivity|]. split; [auto|]. split; [discriminate|].
           intros X. inversion X; subst; [|congruence]. apply ehit_spec in H8. congruence.
Qed.

(** ** The ends *)
Lemma utf8_txt_nz : forall w, Forall char w -> Forall (fun b => b <> 0) (txt w).
Proof.
  induction w as [|k w IH]; intros H; [constructor|]. inversion H; subst. rewrite txt_cons. apply Forall_app. split; [|auto].
  eapply Forall_impl; [|exact (utf8_nz _ H2)]. cbn. lia.
Qed.

Lemma item_nz : forall f0 first i rest, ok_item f0 first i rest -> Forall (fun b => b <> 0) (show_item i).
Proof.
  intros f0 first [c|a b|name] rest H; cbn in *; unfold ok_one in *.
  - eapply Forall_impl; [|apply utf8_nz; tauto]. cbn. lia.
  - apply Forall_app. split; [|constructor; [lia|]]; (eapply Forall_impl; [|apply utf8_nz; tauto]); cbn; lia.
  - repeat constructor; try lia. apply Forall_app. split; [|repeat constructor; lia].
    eapply Forall_impl; [|apply H]. cbn. lia.
Qed.

Lemma items_nz : forall f0 l first, ok_items f0 first l -> Forall (fun b => b <> 0) (show_items l).
Proof.
  intros f0. induction l as [|i l IH]; intros first H; [constructor|]. destruct H as [H1 H2].
  unfold show_items. cbn [map concat]. apply Forall_app. split; [exact (item_nz _ _ _ _ H1)|exact (IH _ H2)].
Qed.

Lemma elem_nz : forall e, ok_elem f e -> Forall (fun b => b <> 0) (show_elem e).
Proof.
  intros [c|c| | |neg l] H.
  - eapply Forall_impl; [|apply utf8_nz; apply H]. cbn. lia.
  - cbn. constructor; [lia|]. eapply Forall_impl; [|apply utf8_nz; apply H]. cbn. lia.
  - repeat constructor. lia.
  - repeat constructor. lia.
  - rewrite show_brk. destruct H as (_ & H & N). constructor; [lia|]. apply Forall_app. split.
    + destruct neg; repeat constructor. lia.
    + apply Forall_app. split; [exact (items_nz _ _ _ H)|repeat constructor; lia].
Qed.

Lemma show_nz : forall ps, Forall (ok_elem f) ps -> Forall (fun b => b <> 0) (show ps).
Proof.
  induction ps as [|e ps IH]; intros H; [constructor|]. inversion H; subst. rewrite show_cons. apply Forall_app.
  split; [exact (elem_nz _ H2)|auto].
Qed.

Lemma strnlen_spec : forall l fuel p n i, Forall (fun b => b <> 0) l -> 0 <= i -> reg m (p + i) (n - i) l ->
  (length l < fuel)%nat -> strnlen fuel m p n i = Ok (i + len l).
Proof.
  induction l as [|c l IH]; intros fuel p n i F I R G; (destruct fuel as [|g]; [cbn in G; lia|]); cbn [strnlen].
  - destruct R as (_ & _ & b & R1 & R2). cbn [length] in *. rewrite Z.add_0_r in *.
    destruct (Z.ltb_spec i n); [|f_equal; lia]. destruct R2 as [R2|[-> R2]]; [lia|].
    rewrite (load_some _ _ _ R1). reflexivity.
  - pose proof (reg_len _ _ _ _ R). cbn [length] in *. destruct (Z.ltb_spec i n); [|lia]. inversion F; subst.
    pose proof R as (R1 & RN & _). apply bytes_at_cons in R1 as [R1 _]. rewrite (load_some _ _ _ R1). cbn [bind].
    destruct (Z.eqb_spec c 0); [congruence|].
    rewrite (IH g p n (i + 1)); auto; try lia; [f_equal; lia|].
    change (c :: l) with ([c] ++ l) in R. apply reg_app in R. cbn [length] in R. change (Z.of_nat 1) with 1 in R.
    destruct R as (R2 & R3 & R4). unfold usz in *. destruct R4 as (b & R4 & R5).
    rewrite Z.mod_small in R3, R5 by lia.
    rewrite Z.add_assoc. replace (n - (i + 1)) with (n - i - 1) by lia. split; [exact R2|]. split; [exact R3|]. eauto.
Qed.

Lemma last_star_spec : forall ps fuel p pt cnt, Forall (ok_elem f) ps -> reg m p (len (show ps)) (show ps) ->
  (length (show ps) < fuel)%nat ->
  exists r, last_star fuel f m p (p + len (show ps)) pt cnt = Ok (Go r) /\
  ((nostar ps /\ r = (pt, cnt + len ps)) \/
   (exists a b, ps = a ++ Star :: b /\ nostar b /\ r = (p + len (show a) + 1, len b))).
Proof.
  induction ps as [|e ps IH]; intros fuel p pt cnt OK R G; (destruct fuel as [|g]; [cbn in G; lia|]).
  - cbn [last_star show concat map length]. rewrite Z.add_0_r. destruct (Z.ltb_spec p p); [lia|].
    eexists. split; [reflexivity|]. left. split; [constructor|]. f_equal. cbn. lia.
  - inversion OK; subst. pose proof (show_pos _ _ H1) as SP. pose proof R as R0.
    rewrite show_cons in R0. apply reg_app in R0. rewrite show_cons, app_length in G.
    assert (EQ : p + len (show (e :: ps)) = p + len (show_elem e) + len (show ps)) by (rewrite show_cons, app_length; lia).
    remember g as g1 eqn:EG. cbn [last_star].
    destruct (Z.ltb_spec p (p + len (show (e :: ps)))); [|lia].
    rewrite (pat_step (S g1) p (p + len (show (e :: ps)) - p) e ps); auto; try lia.
    2:{ replace (p + len (show (e :: ps)) - p) with (len (show (e :: ps))) by lia. exact R. }
    cbn [bind]. destruct (code_nz _ H1) as [-> NE]. rewrite EQ.
    apply reg_exact in R0.
    destruct (eq_star e) as [->|NS].
    + cbn [code Z.eqb STAR Pos.eqb].
      destruct (IH g (p + len (show_elem Star)) (p + 1) 0 H2 R0 ltac:(lia)) as (r & R1 & R2).
      exists r. split; [subst g1; exact R1|]. right. destruct R2 as [[R2 ->]|(a & b & -> & R2 & ->)].
      * exists [], ps. repeat split; auto. f_equal. cbn. lia.
      * exists (Star :: a), b. repeat split; auto. f_equal. rewrite (show_cons Star a), app_length. cbn [length]. lia.
    + destruct (code e =? STAR) eqn:E; [apply code_star in E; [congruence|assumption]|].
      destruct (IH g (p + len (show_elem e)) pt (cnt + 1) H2 R0 ltac:(lia)) as (r & R1 & R2).
      exists r. split; [subst g1; exact R1|]. destruct R2 as [[R2 ->]|(a & b & -> & R2 & ->)].
      * left. split; [constructor; assumption|]. f_equal. cbn [length]. lia.
      * right. exists (e :: a), b. repeat split; auto. f_equal. rewrite (show_cons e a), app_length. lia.
Qed.

(** ** From the end of the string *)
Lemma back_char_run : forall r fuel s q, Forall (fun b => 128 <= b < 192) r -> s < q ->
  bytes_at m q r -> (length r < fuel)%nat ->
  back_char fuel m s (q + len r) = back_char (fuel - length r) m s q.
Proof.
  intros r. induction r as [|b r IH] using rev_ind; intros fuel s q F SQ B G.
  - cbn. rewrite Z.add_0_r, Nat.sub_0_r. reflexivity.
  - apply Forall_app in F as [F1 F2]. inversion F2; subst. apply bytes_at_app in B as [B1 B2].
    apply bytes_at_cons in B2 as [B2 _]. rewrite app_length in *. cbn [length] in *.
    destruct fuel as [|g]; [lia|]. cbn [back_char].
    replace (q + Z.of_nat (length r + 1) - 1) with (q + len r) by lia.
    rewrite (load_some _ _ _ B2). cbn [bind]. rewrite Z.mod_small by lia.
    destruct (Z.ltb_spec (b - 128) 64); [|lia]. destruct (Z.ltb_spec s (q + len r)); [|lia]. cbn [andb].
    rewrite IH; auto; try lia. f_equal. lia.
Qed.

Lemma back_char_spec : forall k fuel s q, char k -> 128 <= k -> s <= q -> bytes_at m q (utf8 k) ->
  (length (utf8 k) <= fuel)%nat -> back_char fuel m s (q + len (utf8 k)) = Ok q.
Proof.
  intros k fuel s q K H SQ B G. destruct (utf8_shape _ K H) as (a & r & E & A1 & A2 & A3). rewrite E in *.
  apply bytes_at_cons in B as [B1 B2]. cbn [length] in *.
  replace (q + Z.of_nat (S (length r))) with (q + 1 + len r) by lia.
  rewrite back_char_run; auto; try lia. destruct (fuel - length r)%nat as [|g] eqn:EG; [lia|]. cbn [back_char].
  replace (q + 1 - 1) with q by lia. rewrite (load_some _ _ _ B1). cbn [bind]. rewrite Z.mod_small by lia.
  destruct (Z.ltb_spec (a - 128) 64); [lia|]. reflexivity.
Qed.

Lemma back_spec : forall w fuel s cnt, Forall char w -> bytes_at m s (txt w) -> 0 <= cnt ->
  (length (txt w) < fuel)%nat ->
  (exists u v, w = u ++ v /\ len v = cnt /\ back fuel m s (s + len (txt w)) cnt = Ok (s + len (txt u), 0)) \/
  (len w < cnt /\ back fuel m s (s + len (txt w)) cnt = Ok (s, cnt - len w)).
Proof.
  induction w as [|k w IH] using rev_ind; intros fuel s cnt CW B C G.
  - destruct fuel as [|g]; [lia|]. cbn [txt map concat length back]. rewrite Z.add_0_r. rewrite Z.ltb_irrefl. cbn [andb].
    destruct (Z.eq_dec cnt 0) as [->|N].
    + left. exists [], []. repeat split. f_equal. f_equal. cbn. lia.
    + right. split; [cbn; lia|]. f_equal. f_equal. cbn. lia.
  - apply Forall_app in CW as [C1 C2]. inversion C2; subst. pose proof (char_pos _ H1).
    rewrite txt_app in *. cbn [txt map concat] in B, G |- *. fold (txt w) in B, G |- *. rewrite app_nil_r in *.
    rewrite app_length in *. pose proof (utf8_len k) as UL. apply bytes_at_app in B as [B1 B2].
    destruct fuel as [|g]; [lia|].
    destruct (Z.eq_dec cnt 0) as [->|N].
    + left. exists (w ++ [k]), []. rewrite app_nil_r. repeat split. cbn [back]. rewrite andb_false_r.
      rewrite txt_app, app_length. cbn [txt map concat]. rewrite app_nil_r. reflexivity.
    + assert (STEP : back (S g) m s (s + Z.of_nat (length (txt w) + length (utf8 k))) cnt = back g m s (s + len (txt w)) (cnt - 1)).
      { remember g as g1 eqn:EG. cbn [back]. destruct (Z.ltb_spec s (s + Z.of_nat (length (txt w) + length (utf8 k)))); [|lia].
        destruct (Z.eqb_spec cnt 0); [lia|]. cbn [negb andb].
        destruct (Z.ltb_spec k 128).
        - rewrite utf8_ascii in * by assumption. cbn [length] in *. apply bytes_at_cons in B2 as [B2 _].
          replace (s + Z.of_nat (length (txt w) + 1) - 1) with (s + len (txt w)) by lia.
          rewrite (load_some _ _ _ B2). cbn [bind]. destruct (Z.ltb_spec k 128); [reflexivity|lia].
        - assert (exists b, m (s + Z.of_nat (length (txt w) + length (utf8 k)) - 1) = Some b /\ 128 <= b) as (b & M1 & M2).
          { destruct (utf8_shape _ H1 ltac:(lia)) as (a & r & E & A1 & A2 & A3). rewrite E in *.
            destruct (exists_last A2) as (r' & b & ->). apply Forall_app in A3 as [_ A3]. inversion A3; subst.
            exists b. split; [|lia]. apply bytes_at_cons in B2 as [_ B2]. apply bytes_at_app in B2 as [_ B2].
            apply bytes_at_cons in B2 as [B2 _]. rewrite <- B2. f_equal. cbn [length]. rewrite app_length. cbn [length]. lia. }
          rewrite (load_some _ _ _ M1). cbn [bind]. destruct (Z.ltb_spec b 128); [lia|].
          replace (s + Z.of_nat (length (txt w) + length (utf8 k))) with (s + len (txt w) + len (utf8 k)) by lia.
          rewrite back_char_spec; auto; try lia. }
      rewrite STEP.
      destruct (IH g s (cnt - 1) C1 B1 ltac:(lia) ltac:(lia)) as [(u & v & -> & E1 & E2)|[E1 E2]].
      * left. exists u, (v ++ [k]). rewrite app_assoc. repeat split; [rewrite app_length; cbn [length]; lia|exact E2].
      * right. rewrite app_length. cbn [length]. split; [lia|]. rewrite E2. f_equal. f_equal. lia.
Qed.

Lemma tails_spec : forall ps fuel p s w, nostar ps -> Forall (ok_elem f) ps -> Forall char w ->
  reg m p (len (show ps)) (show ps) -> reg m s (len (txt w)) (txt w) -> (length (show ps) < fuel)%nat ->
  tails fuel f lc m p (p + len (show ps)) s (s + len (txt w)) = Ok (run1 f lc ps w).
Proof.
  assert (U : forall x l p n, reg m p n l -> usz (x + len l - x) = len l).
  { intros x l p n H. pose proof (reg_len _ _ _ _ H). destruct H as (_ & H & _). unfold usz.
    replace (x + len l - x) with (len l) by lia. apply Z.mod_small. lia. }
  induction ps as [|e ps IH]; intros fuel p s w N OK CW RP RS G; (destruct fuel as [|g]; [cbn in G; lia|]); remember g as g1 eqn:EG; cbn [tails];
    rewrite (U _ _ _ _ RP), (U _ _ _ _ RS).
  - rewrite (pat_end (S g1) p _ RP). cbn [bind]. destruct w as [|c w].
    + destruct (str_end _ _ RS) as [x ->]. reflexivity.
    + inversion CW; subst. rewrite (str_step _ _ _ _ H1 RS). cbn [bind]. pose proof (char_pos _ H1).
      destruct (Z.leb_spec c 0); [lia|]. rewrite acc_end by assumption. reflexivity.
  - inversion OK; subst. inversion N; subst. pose proof (show_pos _ _ H1) as SP.
    assert (EQ : p + len (show (e :: ps)) = p + len (show_elem e) + len (show ps)) by (rewrite show_cons, app_length; lia).
    pose proof G as G'. rewrite show_cons, app_length in G'.
    rewrite (pat_step _ _ _ _ _ H1 RP) by lia. cbn [bind]. destruct (code_nz _ H1) as [_ NE].
    destruct w as [|c w].
    + destruct (str_end _ _ RS) as [x ->]. cbn [bind Z.leb Z.compare]. rewrite NE. reflexivity.
    + inversion CW; subst. rewrite (str_step _ _ _ _ H5 RS). cbn [bind]. pose proof (char_pos _ H5).
      destruct (Z.leb_spec c 0); [lia|].
      rewrite (acc_step _ _ _ _ _ _ H1 H3 H5 RP) by lia. cbn [bind run1].
      destruct (ehit f lc e c); [|reflexivity]. cbn [andb].
      rewrite show_cons in RP. apply reg_app in RP. apply reg_exact in RP.
      assert (EQ2 : s + len (txt (c :: w)) = s + len (utf8 c) + len (txt w)) by (rewrite txt_cons, app_length; lia).
      rewrite txt_cons in RS. apply reg_app in RS. apply reg_exact in RS.
      rewrite EQ, EQ2. apply IH; auto. lia.
Qed.

(** ** Between the first and the last asterisk *)
Lemma component_spec : forall c fuel p s r w ep es, nostar c -> Forall (ok_elem f) c -> Forall char w ->
  ep = p + len (show (c ++ Star :: r)) -> es = s + len (txt w) ->
  reg m p (len (show (c ++ Star :: r))) (show (c ++ Star :: r)) -> reg m s (len (txt w)) (txt w) ->
  (length (show c) + 1 < fuel)%nat ->
  exists x, component fuel f lc m p ep s es = Ok x /\
  match x with
  | Return y => y = NOMATCH /\ (length w < length c)%nat
  | Go (Some (p', s')) => exists u v, w = u ++ v /\ run1 f lc c u = true /\
      p' = p + len (show c) + 1 /\ s' = s + len (txt u)
  | Go None => w <> [] /\ forall u v, w = u ++ v -> run1 f lc c u = false
  end.
Proof.
  assert (U : forall x l p n, reg m p n l -> usz (x + len l - x) = len l).
  { intros x l p n H. pose proof (reg_len _ _ _ _ H). destruct H as (_ & H & _). unfold usz.
    replace (x + len l - x) with (len l) by lia. apply Z.mod_small. lia. }
  induction c as [|e c IH]; intros fuel p s r w ep es N OK CW -> -> RP RS G; (destruct fuel as [|g]; [lia|]); remember g as g1 eqn:EG; cbn [component];
    rewrite (U _ _ _ _ RP), (U _ _ _ _ RS); cbn [app] in *.
  - rewrite (pat_step (S g1) p _ Star r I RP) by (cbn in *; lia).
    cbn [bind code Z.eqb STAR Pos.eqb]. eexists. split; [reflexivity|]. exists [], w. repeat split; cbn; lia.
  - inversion OK; subst. inversion N; subst. pose proof (show_pos _ _ H1) as SP.
    rewrite show_cons, app_length in G.
    assert (EQ : p + len (show (e :: c ++ Star :: r)) = p + len (show_elem e) + len (show (c ++ Star :: r))) by (rewrite show_cons, app_length; lia).
    rewrite (pat_step _ _ _ _ _ H1 RP) by lia. cbn [bind].
    destruct (code e =? STAR) eqn:E; [apply code_star in E; [congruence|assumption]|].
    destruct w as [|k w].
    + destruct (str_end _ _ RS) as [x ->]. cbn [bind Z.eqb]. eexists. split; [reflexivity|]. split; [reflexivity|cbn; lia].
    + inversion CW; subst. rewrite (str_step _ _ _ _ H5 RS). cbn [bind]. pose proof (char_pos _ H5).
      destruct (Z.eqb_spec k 0); [lia|].
      rewrite (acc_step _ _ _ _ _ _ H1 H3 H5 RP) by lia. cbn [bind].
      destruct (ehit f lc e k) eqn:EH.
      * rewrite show_cons in RP. apply reg_app in RP. apply reg_exact in RP.
        assert (EQ2 : s + len (txt (k :: w)) = s + len (utf8 k) + len (txt w)) by (rewrite txt_cons, app_length; lia).
        rewrite txt_cons in RS. apply reg_app in RS. apply reg_exact in RS.
        destruct (IH g (p + len (show_elem e)) (s + len (utf8 k)) r w _ _ H4 H2 H6 EQ EQ2 RP RS ltac:(lia)) as (x & X1 & X2).
        exists x. split; [exact X1|]. destruct x as [y|[[p' s']|]].
        -- destruct X2 as [-> X2]. split; [reflexivity|]. cbn [length]. lia.
        -- destruct X2 as (u & v & -> & Y1 & -> & ->). exists (k :: u), v. repeat split.
           ++ cbn [run1]. rewrite EH. exact Y1.
           ++ rewrite (show_cons e c), app_length. lia.
           ++ rewrite (txt_cons k u), app_length. lia.
        -- destruct X2 as [X2 X3]. split; [discriminate|]. intros [|x u] v Ev; [reflexivity|]. cbn in Ev. injection Ev as <- Ev.
           cbn [run1]. rewrite (X3 u v Ev). apply andb_false_r.
      * eexists. split; [reflexivity|]. split; [discriminate|]. intros [|x u] v Ev; [reflexivity|]. cbn in Ev. injection Ev as <- Ev.
        cbn [run1]. rewrite EH. reflexivity.
Qed.

(** the part between the first and the last asterisk is empty or ends with an asterisk *)
Lemma split_star : forall a, nostar a \/ exists c r, a = c ++ Star :: r /\ nostar c.
Proof.
  induction a as [|e a IH]; [left; constructor|]. destruct (eq_star e) as [->|N].
  - right. exists [], a. split; [reflexivity|constructor].
  - destruct IH as [IH|(c & r & -> & IH)]; [left; constructor; assumption|].
    right. exists (e :: c), r. split; [reflexivity|constructor; assumption].
Qed.

Definition closed (a : list elem) : Prop := a = [] \/ exists b, a = b ++ [Star].

Lemma closed_split : forall a, closed a -> a = [] \/ exists c r, a = c ++ Star :: r /\ nostar c /\ closed r.
Proof.
  intros a [->|(b & ->)]; [left; reflexivity|]. right.
  destruct (split_star b) as [N|(c & r & -> & N)].
  - exists b, []. repeat split; auto. left. reflexivity.
  - exists c, (r ++ [Star]). rewrite <- app_assoc. repeat split; auto. right. exists r. reflexivity.
Qed.

Lemma sea_spec : forall fuel a p s w, closed a -> Forall (ok_elem f) a -> Forall char w ->
  reg m p (len (show a)) (show a) -> reg m s (len (txt w)) (txt w) ->
  (length (show a) + length (txt w) < fuel)%nat ->
  exists x, sea fuel f lc m p (p + len (show a)) s (s + len (txt w)) = Ok x /\ (x = 0 \/ x = 1) /\ (x = 0 <-> glob f lc (Star :: a) w).
Proof.
  assert (U : forall x l p n, reg m p n l -> usz (x + len l - x) = len l).
  { intros x l p n H. pose proof (reg_len _ _ _ _ H). destruct H as (_ & H & _). unfold usz.
    replace (x + len l - x) with (len l) by lia. apply Z.mod_small. lia. }
  induction fuel as [|g IH]; intros a p s w CL OK CW RP RS G; [lia|].
  cbn [sea]. destruct (closed_split _ CL) as [->|(c & r & -> & N & CR)].
  - cbn [show map concat length]. rewrite Z.add_0_r, Z.ltb_irrefl. exists 0. split; [reflexivity|]. split; [auto|].
    split; [|reflexivity]. intros _. apply glob_star_iff. exists w, []. rewrite app_nil_r. split; [reflexivity|constructor].
  - apply Forall_app in OK as [OK1 OK2]. inversion OK2; subst.
    assert (LA : length (show (c ++ Star :: r)) = (length (show c) + 1 + length (show r))%nat).
    { rewrite show_app, show_cons, !app_length. cbn [show_elem length]. lia. }
    destruct (Z.ltb_spec p (p + len (show (c ++ Star :: r)))); [|lia].
    destruct (component_spec c (S g) p s r w _ _ N OK1 CW eq_refl eq_refl RP RS ltac:(lia)) as (x & X1 & X2).
    rewrite X1. cbn [bind]. destruct x as [y|[[p' s']|]].
    + destruct X2 as [-> X2]. exists NOMATCH. split; [reflexivity|]. split; [right; reflexivity|]. split; [discriminate|].
      intros GL. exfalso. apply glob_star_iff in GL as (u & v & -> & GL). apply glob_app in GL as (u' & v' & -> & G1 & _).
      apply glob_len in G1; [|assumption]. rewrite !app_length in X2. lia.
    + destruct X2 as (u & v & -> & Y1 & -> & ->). apply run1_spec in Y1; [|assumption].
      apply Forall_app in CW as [CU CV].
      rewrite show_app in RP. apply reg_app in RP. rewrite show_cons in RP. apply reg_app in RP. cbn [show_elem length] in RP.
      apply reg_exact in RP. change (Z.of_nat 1) with 1 in RP.
      pose proof RS as RS'. rewrite txt_app in RS'. apply reg_app in RS'. apply reg_exact in RS'.
      rewrite txt_app, app_length in *.
      destruct (IH r (p + len (show c) + 1) (s + len (txt u)) v CR H2 CV RP RS' ltac:(lia)) as (x & Z1 & Z2 & Z3).
      exists x. split.
      { rewrite LA. replace (p + Z.of_nat (length (show c) + 1 + length (show r))) with (p + len (show c) + 1 + len (show r)) by lia.
        replace (s + Z.of_nat (length (txt u) + length (txt v))) with (s + len (txt u) + len (txt v)) by lia. exact Z1. }
      split; [exact Z2|]. rewrite Z3. symmetry. apply leftmost; assumption.
    + destruct X2 as [X2 X3]. destruct w as [|k w]; [congruence|]. inversion CW; subst.
      rewrite (U _ _ _ _ RS). rewrite (str_step _ _ _ _ H4 RS). cbn [bind]. pose proof (char_pos _ H4).
      destruct (Z.ltb_spec 0 k); [|lia].
      pose proof RS as RS'. rewrite txt_cons in RS'. apply reg_app in RS'. apply reg_exact in RS'.
      pose proof (utf8_len k) as UL. assert (EQ2 : s + len (txt (k :: w)) = s + len (utf8 k) + len (txt w)) by (rewrite txt_cons, app_length; lia).
      rewrite txt_cons, app_length in G.
      destruct (IH (c ++ Star :: r) p (s + len (utf8 k)) w CL) as (x & Z1 & Z2 & Z3); auto; try lia.
      { apply Forall_app. split; [assumption|constructor; assumption]. }
      exists x. split; [rewrite EQ2; exact Z1|]. split; [exact Z2|]. rewrite Z3. symmetry. apply shift.
      intros GL. apply glob_app in GL as (u & v & E & G1 & _). apply run1_spec in G1; [|assumption].
      rewrite (X3 u v E) in G1. discriminate.
Qed.

(** ** One component *)
Lemma head46 : forall e ps b, ok_elem f e -> show_elem e ++ ps = 46 :: b -> e = Chr 46.
Proof.
  intros [c|c| | |neg l] b ps H E; try discriminate.
  - cbn in E. destruct H as [H _]. destruct (utf8_hd _ H) as (x & t & E2 & P & Lo & Hi). rewrite E2 in E. cbn in E.
    injection E as -> _. destruct (Lo ltac:(lia)) as [-> _]. reflexivity.
  - rewrite show_brk in E. discriminate.
Qed.

Lemma first46 : forall k w b, char k -> utf8 k ++ w = 46 :: b -> k = 46.
Proof.
  intros k w b H E. destruct (utf8_hd _ H) as (x & t & E2 & P & Lo & Hi). rewrite E2 in E. cbn in E.
  injection E as -> _. destruct (Lo ltac:(lia)) as [-> _]. reflexivity.
Qed.

Lemma internal_spec : forall fuel p n s k ps w, Forall (ok_elem f) ps -> Forall char w ->
  reg m p n (show ps) -> reg m s k (txt w) ->
  m (p + len (show ps)) <> Some 46 -> m (s + len (txt w)) <> Some 46 ->
  (f_period f = true -> hd_error ps <> Some (Esc 46)) ->
  (length (show ps) + length (txt w) < fuel)%nat ->
  exists x, internal fuel f lc m p n s k = Ok x /\ (x = 0 \/ x = 1) /\ (x = 0 <-> matches1 f lc ps w).
Proof.
  intros fuel p n s k ps w OK CW RP RS EP ES PE G. unfold internal.
  assert (exists p0, m p = Some p0 /\ (p0 = 46 <-> hd_error ps = Some (Chr 46))) as (p0 & P0 & P1).
  { destruct ps as [|e ps].
    - destruct RP as (_ & _ & b & B & _). cbn [show map concat length] in *. rewrite Z.add_0_r in *. exists b.
      split; [exact B|]. split; [intros ->; congruence|discriminate].
    - inversion OK; subst. destruct (show (e :: ps)) as [|b t] eqn:E.
      { rewrite show_cons in E. pose proof (show_pos _ _ H1). destruct (show_elem e); [cbn in *; lia|discriminate]. }
      exists b. destruct RP as (RP & _). apply bytes_at_cons in RP as [RP _]. split; [exact RP|].
      rewrite show_cons in E. split.
      + intros ->. apply head46 in E; [subst; reflexivity|assumption].
      + cbn. intros [= ->]. cbn in E. congruence. }
  assert (exists s0, m s = Some s0 /\ (s0 = 46 <-> hd_error w = Some 46)) as (s0 & S0 & S1).
  { destruct w as [|c w].
    - destruct RS as (_ & _ & b & B & _). cbn [txt map concat length] in *. rewrite Z.add_0_r in *. exists b.
      split; [exact B|]. split; [intros ->; congruence|discriminate].
    - inversion CW; subst. destruct (txt (c :: w)) as [|b t] eqn:E.
      { rewrite txt_cons in E. pose proof (utf8_len c). destruct (utf8 c); [cbn in *; lia|discriminate]. }
      exists b. destruct RS as (RS & _). apply bytes_at_cons in RS as [RS _]. split; [exact RS|].
      rewrite txt_cons in E. split.
      + intros ->. apply first46 in E; [subst; reflexivity|assumption].
      + cbn. intros [= ->]. cbn in E. congruence. }
  assert (HID : (if f_period f then s0 <- load m s ;; p0 <- load m p ;; Ok ((s0 =? 46) && negb (p0 =? 46)) else Ok false)
    = Ok (f_period f && (s0 =? 46) && negb (p0 =? 46))).
  { rewrite (load_some _ _ _ S0), (load_some _ _ _ P0). destruct (f_period f); reflexivity. }
  rewrite HID. cbn [bind]. clear HID.
  destruct (f_period f && (s0 =? 46) && negb (p0 =? 46)) eqn:HID.
  { exists NOMATCH. split; [reflexivity|]. split; [right; reflexivity|]. split; [discriminate|]. intros [PL _]. exfalso.
    apply andb_true_iff in HID as [HID H3]. apply andb_true_iff in HID as [H1 H2]. apply Z.eqb_eq in H2.
    apply S1 in H2. destruct (PL H1 H2) as [X|X]; [apply P1 in X; subst p0; discriminate|exact (PE H1 X)]. }
  assert (PL : plain f ps w).
  { intros H1 H2. apply S1 in H2. subst s0. rewrite H1 in HID. cbn in HID.
    left. apply P1. destruct (Z.eqb_spec p0 46); [assumption|discriminate]. }
  assert (MM : matches1 f lc ps w <-> glob f lc ps w) by (unfold matches1; tauto). setoid_rewrite MM. clear MM PL HID S1 S0 P1 P0 EP ES PE.
  destruct (head_spec ps fuel p n s k w OK CW RP RS ltac:(lia)) as (r & R1 & R2). rewrite R1. cbn [bind].
  destruct r as [x|[[[p' n'] s'] k']].
  { exists x. split; [reflexivity|exact R2]. }
  destruct R2 as (qs & v & EQ & OK' & CV & RP' & RS' & L1 & L2). setoid_rewrite EQ. clear EQ RP RS R1.
  pose proof (strnlen_spec (show qs) fuel p' n' 0 (show_nz _ OK') ltac:(lia)) as SN.
  rewrite Z.add_0_r, Z.sub_0_r in SN. rewrite (SN RP' ltac:(lia)). clear SN. cbn [bind]. rewrite Z.add_0_l.
  pose proof (reg_exact _ _ _ _ RP') as RX.
  destruct (last_star_spec qs fuel p' p' 0 OK' RX ltac:(lia)) as (x & X1 & X2). rewrite X1. cbn [bind].
  assert (exists a b, qs = a ++ b /\ closed a /\ nostar b /\ x = (p' + len (show a), len b)) as (a & b & -> & CL & NB & ->).
  { destruct X2 as [[N ->]|(a & b & -> & N & ->)].
    - exists [], qs. repeat split; auto; [left; reflexivity|]. f_equal. cbn. lia.
    - exists (a ++ [Star]), b. rewrite <- app_assoc. repeat split; auto; [right; eauto|]. f_equal.
      rewrite show_app, app_length. cbn. lia. }
  clear X1 X2.
  pose proof (strnlen_spec (txt v) fuel s' k' 0 (utf8_txt_nz _ CV) ltac:(lia)) as SN.
  rewrite Z.add_0_r, Z.sub_0_r in SN. rewrite (SN RS' ltac:(lia)). clear SN. cbn [bind]. rewrite Z.add_0_l.
  apply Forall_app in OK' as [OKa OKb].
  assert (SPL : forall w0, glob f lc (Star :: a ++ b) w0 <-> exists u t, w0 = u ++ t /\ glob f lc (Star :: a) u /\ glob f lc b t)
    by (intros w0; exact (glob_app f lc (Star :: a) b w0)).
  assert (NO : (length v < length b)%nat -> ~ glob f lc (Star :: a ++ b) v).
  { intros L GL. apply SPL in GL as (u & t & -> & _ & GL). apply glob_len in GL; [|assumption]. rewrite app_length in L. lia. }
  pose proof (txt_len v) as TL.
  destruct (Z.ltb_spec (len (txt v)) (len b)).
  { exists NOMATCH. split; [reflexivity|]. split; [right; reflexivity|]. split; [discriminate|]. intros GL. exfalso. apply NO in GL; [assumption|lia]. }
  pose proof (reg_exact _ _ _ _ RS') as SX. pose proof SX as (SB & _).
  destruct (back_spec v fuel s' (len b) CV SB ltac:(lia) ltac:(lia)) as [(u & t & -> & E1 & E2)|[E1 E2]].
  2:{ rewrite E2. cbn [bind]. destruct (Z.eqb_spec (len b - len v) 0); [lia|]. cbn [negb].
      exists NOMATCH. split; [reflexivity|]. split; [right; reflexivity|]. split; [discriminate|]. intros GL. exfalso. apply NO in GL; [assumption|lia]. }
  rewrite E2. cbn [bind Z.eqb negb]. apply Forall_app in CV as [CU CT].
  rewrite txt_app, show_app in *.
  pose proof (reg_app _ _ _ _ _ RX) as RB. apply reg_exact in RB. pose proof (reg_cut _ _ _ _ _ RX) as RA.
  pose proof (reg_app _ _ _ _ _ SX) as ST. apply reg_exact in ST. pose proof (reg_cut _ _ _ _ _ SX) as SU.
  rewrite !app_length in *.
  replace (p' + Z.of_nat (length (show a) + length (show b))) with (p' + len (show a) + len (show b)) by lia.
  replace (s' + Z.of_nat (length (txt u) + length (txt t))) with (s' + len (txt u) + len (txt t)) by lia.
  rewrite (tails_spec b fuel _ _ t NB OKb CT RB ST) by lia. cbn [bind].
  assert (FIN : glob f lc (Star :: a ++ b) (u ++ t) <-> glob f lc (Star :: a) u /\ run1 f lc b t = true).
  { rewrite SPL, run1_spec by assumption. split.
    - intros (u' & t' & E & G1 & G2). pose proof (glob_len _ _ _ _ NB G2) as LL.
      assert (length u = length u').
      { apply (f_equal (@length Z)) in E. rewrite !app_length in E. lia. }
      assert (u = u' /\ t = t') as [-> ->].
      { apply app_cut; assumption. }
      auto.
    - intros [G1 G2]. eauto. }
  setoid_rewrite FIN. destruct (run1 f lc b t).
  - destruct (sea_spec fuel a p' s' u CL OKa CU RA SU ltac:(lia)) as (x & X1 & X2 & X3).
    exists x. split; [exact X1|]. split; [exact X2|]. tauto.
  - exists NOMATCH. split; [reflexivity|]. split; [right; reflexivity|]. split; [discriminate|]. intros [_ X]. discriminate.
Qed.

End Match.
