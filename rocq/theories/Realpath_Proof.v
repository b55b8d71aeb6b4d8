From Verif Require Import Base Realpath_Model Realpath_Spec.
Open Scope Z_scope.

Section RP.
Variable fs : list Z -> node.

(** resolutions with their height *)
Inductive rk : nat -> list (list Z) -> list (list Z) -> list (list Z) + Z -> Prop :=
| k_done base : rk 0 base [] (inl base)
| k_dot k base s rest o :
    s = [] \/ s = [46] -> is_dir fs base -> rk k base rest o -> rk (S k) base (s :: rest) o
| k_up k base rest o :
    is_dir fs base -> rk k (removelast base) rest o -> rk (S k) base ([46; 46] :: rest) o
| k_file k base n rest o :
    name n -> fs (render (base ++ [n])) = Dir \/ fs (render (base ++ [n])) = Other ->
    rk k (base ++ [n]) rest o -> rk (S k) base (n :: rest) o
| k_err base n rest e :
    name n -> fs (render (base ++ [n])) = Err e -> rk 0 base (n :: rest) (inr e)
| k_link k base n rest t o :
    name n -> fs (render (base ++ [n])) = Link t ->
    rk k (start base t) (split t ++ rest) o -> rk (S k) base (n :: rest) o.

Lemma resolve_rk base segs o : resolve fs base segs o -> exists k, rk k base segs o.
Proof.
  induction 1 as [base|base s rest o Hs Hd _ [k IH]|base rest o Hd _ [k IH]|base n rest o Hn Hf _ [k IH]
                 |base n rest e Hn Hf|base n rest t o Hn Hf _ [k IH]].
  - exists 0%nat. constructor.
  - exists (S k). now apply k_dot.
  - exists (S k). now apply k_up.
  - exists (S k). now apply k_file.
  - exists 0%nat. now apply k_err.
  - exists (S k). now apply k_link with (t := t).
Qed.

(** strings *)
Lemma str_eqb_iff a b : str_eqb a b = true <-> a = b.
Proof. unfold str_eqb. destruct (list_eq_dec Z.eq_dec a b); split; congruence. Qed.

Lemma str_eqb_no a b : a <> b -> str_eqb a b = false.
Proof. unfold str_eqb. destruct (list_eq_dec Z.eq_dec a b); congruence. Qed.

Lemma render_app a b : render (a ++ b) = render a ++ render b.
Proof. unfold render. now rewrite map_app, concat_app. Qed.

Lemma render_one n : render [n] = 47 :: n.
Proof. unfold render. cbn. now rewrite app_nil_r. Qed.

Lemma chop_none s : ~ In 47 s -> chop s = None.
Proof.
  induction s as [|c s IH]; intros H; cbn [chop]; [reflexivity|].
  rewrite IH by (intros K; apply H; now right).
  destruct (Z.eqb_spec c 47) as [->|]; [exfalso; apply H; now left|reflexivity].
Qed.

Lemma chop_app a s : ~ In 47 s -> chop (a ++ 47 :: s) = Some a.
Proof.
  intros H. induction a as [|c a IH]; cbn [chop app].
  - now rewrite chop_none by assumption.
  - now rewrite IH.
Qed.

Lemma chop_render base : Forall name base -> base <> [] -> chop (render base) = Some (render (removelast base)).
Proof.
  intros H N. destruct (exists_last N) as (b & n & ->).
  rewrite removelast_last, render_app, render_one. apply chop_app.
  apply Forall_app in H. destruct H as [_ H]. inversion H. subst. unfold name in *. tauto.
Qed.

Lemma render_nil base : render base = [] -> base = [].
Proof. destruct base; [reflexivity|]. unfold render. cbn. discriminate. Qed.

Lemma name_removelast base : Forall name base -> Forall name (removelast base).
Proof.
  intros H. destruct base as [|x l]; [constructor|].
  destruct (@exists_last _ (x :: l)) as (b & n & E); [discriminate|]. rewrite E in *. rewrite removelast_last.
  apply Forall_app in H. tauto.
Qed.

(** drop_slashes *)
Lemma drop_slashes_rep k c r : c <> 47 -> drop_slashes (repeat 47 k ++ c :: r) = c :: r.
Proof.
  intros Hc. induction k as [|k IH]; cbn [repeat app drop_slashes].
  - destruct (Z.eqb_spec c 47); [contradiction|]. destruct r; reflexivity.
  - rewrite IH. destruct (repeat 47 k ++ c :: r) eqn:E; [|reflexivity]. destruct k; discriminate.
Qed.

Lemma rev_repeat (x : Z) k : rev (repeat x k) = repeat x k.
Proof.
  induction k as [|k IH]; [reflexivity|]. cbn [repeat rev]. rewrite IH. clear.
  induction k as [|k IH]; [reflexivity|]. cbn [repeat app]. now rewrite IH.
Qed.

Lemma trim_render cs k : cs <> [] -> Forall name cs -> trim (render cs ++ repeat 47 k) = render cs.
Proof.
  intros N H. destruct (exists_last N) as (b & n & ->).
  apply Forall_app in H. destruct H as [_ H]. inversion H as [|x y Hn _]. subst.
  destruct Hn as (Hne & _ & _ & Hs & _).
  destruct (exists_last Hne) as (m & c & ->).
  unfold trim. rewrite rev_app_distr, rev_repeat.
  rewrite render_app, render_one. change (47 :: m ++ [c]) with ((47 :: m) ++ [c]). rewrite app_assoc.
  rewrite (rev_app_distr _ [c]). cbn [rev app].
  rewrite drop_slashes_rep.
  - cbn [rev]. now rewrite rev_involutive.
  - intros ->. apply Hs. apply in_or_app. right. now left.
Qed.

(** split *)
Lemma split_cons c s : exists x xs, split s = x :: xs /\ split (c :: s) = (if c =? 47 then [] :: x :: xs else (c :: x) :: xs).
Proof.
  assert (N : split s <> []).
  { induction s as [|d s IH]; cbn [split]; [discriminate|]. destruct (d =? 47); [discriminate|].
    destruct (split s); discriminate. }
  destruct (split s) as [|x xs] eqn:E; [contradiction|]. exists x, xs. split; [reflexivity|].
  cbn [split]. now rewrite E.
Qed.

Lemma split_noslash s : ~ In 47 s -> split s = [s].
Proof.
  induction s as [|c s IH]; intros H; [reflexivity|]. cbn [split].
  destruct (Z.eqb_spec c 47) as [->|]; [exfalso; apply H; now left|].
  now rewrite IH by (intros K; apply H; now right).
Qed.

Lemma split_slash v s : ~ In 47 v -> split (v ++ 47 :: s) = v :: split s.
Proof.
  induction v as [|c v IH]; intros H; [reflexivity|]. cbn [app split].
  destruct (Z.eqb_spec c 47) as [->|]; [exfalso; apply H; now left|].
  now rewrite IH by (intros K; apply H; now right).
Qed.

Lemma split_repeat k : split (repeat 47 k) = repeat [] (S k).
Proof. induction k as [|k IH]; [reflexivity|]. cbn [repeat split]. now rewrite IH. Qed.

Lemma split_render cs k : Forall name cs -> cs <> [] -> split (render cs ++ repeat 47 k) = [] :: cs ++ repeat [] k.
Proof.
  intros H N.
  assert (G : forall n cs, Forall name (n :: cs) -> split (n ++ render cs ++ repeat 47 k) = n :: cs ++ repeat [] k).
  { clear. intros n cs. revert n. induction cs as [|m cs IH]; intros n H.
    - cbn [render map concat app]. inversion H as [|x y Hn _]. subst. unfold name in Hn.
      destruct k as [|k].
      + cbn [repeat]. rewrite !app_nil_r. apply split_noslash. tauto.
      + cbn [repeat]. rewrite split_slash by tauto. rewrite split_repeat. reflexivity.
    - inversion H as [|x y Hn Hr]. subst.
      change (render (m :: cs)) with (47 :: m ++ render cs). cbn [app]. unfold name in Hn.
      rewrite split_slash by tauto. rewrite <- app_assoc, IH by assumption. reflexivity. }
  destruct cs as [|n cs]; [contradiction|].
  change (render (n :: cs)) with (47 :: n ++ render cs). cbn [app split]. change (47 =? 47) with true. cbn match.
  rewrite <- app_assoc, G by assumption. reflexivity.
Qed.

(** cutting at a slash *)
Lemma upto_split c s : (In c s /\ exists r, s = upto c s ++ c :: r /\ ~ In c (upto c s)) \/ (~ In c s /\ upto c s = s).
Proof.
  induction s as [|b s IH]; cbn [upto].
  - right. split; [intros []|reflexivity].
  - destruct (Z.eqb_spec b c) as [->|Hb].
    + left. split; [now left|]. exists s. split; [reflexivity|intros []].
    + destruct IH as [(I & r & E & Nn)|(Nn & E)].
      * left. split; [now right|]. exists r. split; [cbn; now rewrite <- E|]. intros [K|K]; [congruence|tauto].
      * right. split; [intros [K|K]; [congruence|tauto]|]. now rewrite E.
Qed.

Lemma upto_app c a r : ~ In c a -> upto c (a ++ c :: r) = a.
Proof.
  induction a as [|b a IH]; intros H; cbn [upto app].
  - now rewrite Z.eqb_refl.
  - destruct (Z.eqb_spec b c) as [->|]; [exfalso; apply H; now left|].
    now rewrite IH by (intros K; apply H; now right).
Qed.

Lemma slash0_spec p : slash0 p = true <-> absolute p.
Proof.
  unfold absolute. destruct p as [|c p]; cbn; [split; [discriminate|intros [q Hq]; discriminate]|].
  split; [intros H; apply Z.eqb_eq in H; subst; now exists p|intros [q Hq]; injection Hq as -> _; reflexivity].
Qed.

Lemma start_slash0 base p : start base p = if slash0 p then [] else base.
Proof. destruct p; reflexivity. Qed.

(** walking through files that exist, in a resolution *)
Lemma name_not_dot n : name n -> n <> [] /\ n <> [46] /\ n <> [46; 46].
Proof. unfold name. tauto. Qed.

Lemma rk_files cs : forall k base rest o,
  Forall name cs ->
  (forall pre post, cs = pre ++ post -> pre <> [] -> fs (render (base ++ pre)) = Dir \/ fs (render (base ++ pre)) = Other) ->
  rk k base (cs ++ rest) o -> exists j, (j <= k)%nat /\ rk j (base ++ cs) rest o.
Proof.
  induction cs as [|n cs IH]; intros k base rest o Hn Hf H.
  - rewrite app_nil_r. exists k. split; [lia|exact H].
  - inversion Hn as [|x y Hn1 Hn2]. subst.
    pose proof (Hf [n] cs eq_refl ltac:(discriminate)) as F1.
    destruct (name_not_dot _ Hn1) as (D1 & D2 & D3).
    cbn [app] in H. inversion H; subst; try tauto; try congruence.
    + destruct (IH k0 (base ++ [n]) rest o Hn2) as (j & Hj & K); [|assumption|].
      * intros pre post E Np. rewrite <- app_assoc. apply (Hf (n :: pre) post); [now rewrite E|discriminate].
      * exists j. split; [lia|]. now rewrite <- app_assoc in K.
    + destruct F1; congruence.
    + destruct F1; congruence.
Qed.

Lemma rk_empties m : forall k base rest o,
  rk k base (repeat [] m ++ rest) o -> exists j, (j <= k)%nat /\ rk j base rest o.
Proof.
  induction m as [|m IH]; intros k base rest o H; [exists k; split; [lia|exact H]|].
  cbn [repeat app] in H. inversion H; subst.
  - destruct (IH _ _ _ _ H7) as (j & Hj & K). exists j. split; [lia|exact K].
  - unfold name in *. tauto.
  - unfold name in *. tauto.
  - unfold name in *. tauto.
Qed.

Lemma rk_inv k base v rest o : rk k base (v :: rest) o ->
  ((v = [] \/ v = [46]) /\ exists j, k = S j /\ rk j base rest o) \/
  (v = [46; 46] /\ exists j, k = S j /\ rk j (removelast base) rest o) \/
  (name v /\ ((exists e, fs (render (base ++ [v])) = Err e /\ o = inr e) \/
              exists j, k = S j /\
               (((fs (render (base ++ [v])) = Dir \/ fs (render (base ++ [v])) = Other) /\ rk j (base ++ [v]) rest o) \/
                exists t, fs (render (base ++ [v])) = Link t /\ rk j (start base t) (split t ++ rest) o))).
Proof.
  intros H. inversion H; subst.
  - left. split; [assumption|]. eauto.
  - right. left. split; [reflexivity|]. eauto.
  - right. right. split; [assumption|]. right. eauto.
  - right. right. split; [assumption|]. left. eauto.
  - right. right. split; [assumption|]. right. eauto 8.
Qed.

Hypothesis Ht : tame fs.

(** one component, in a resolution and in process_segment *)
Lemma segment_step k base v rest o lk l :
  Forall name base -> rk k base (v :: rest) o ->
  let st := {| resolv := render base; lnk := lk; ls := l |} in
  (exists e, o = inr e /\ segment fs st v = Ok (Some e, st)) \/
  (exists b j, (j < k)%nat /\ segment fs st v = Ok (None, {| resolv := render b; lnk := lk; ls := l |}) /\
     rk j b rest o /\ Forall name b /\ (forall L x, walk fs b L x -> walk fs base (v :: L) x)) \/
  (exists t j, (j < k)%nat /\
     segment fs st v = Ok (None, {| resolv := render base; lnk := t ++ skipn l lk ++ [0]; ls := 0 |}) /\
     rk j base (split t ++ rest) o /\ relative_link fs base v /\ ~ In 0 t /\
     (forall pre m post b, split t = pre ++ m :: post -> post <> [] -> walk fs base pre b -> ~ relative_link fs b m)).
Proof.
  intros HB H st.
  assert (SN : forall n, name n -> segment fs st n =
     match fs (render (base ++ [n])) with
     | Err e => Ok (Some e, st)
     | Dir | Other => Ok (None, {| resolv := render (base ++ [n]); lnk := lk; ls := l |})
     | Link t => if slash0 (firstn 512 t)
                 then Ok (None, {| resolv := trim (firstn 512 t); lnk := lk; ls := l |})
                 else Ok (None, {| resolv := render base; lnk := firstn 512 t ++ skipn l lk ++ [0]; ls := 0 |})
     end).
  { intros n Hn. destruct (name_not_dot _ Hn) as (D1 & D2 & D3). unfold segment.
    rewrite !str_eqb_no by assumption. cbn [orb]. cbn [resolv lnk ls st].
    rewrite render_app, render_one. reflexivity. }
  destruct (rk_inv _ _ _ _ _ H) as [(Hd & k0 & -> & K)|[(-> & k0 & -> & K)|(Hn & [(e & F & ->)|(k0 & -> & [(F & K)|(t & F & K)])])]].
  - right. left. exists base, k0. split; [lia|]. split.
    { unfold segment. destruct Hd as [->| ->]; reflexivity. }
    split; [assumption|]. split; [assumption|]. intros L x W. now apply w_dot.
  - right. left. exists (removelast base), k0. split; [lia|]. split.
    { unfold segment. change (str_eqb [46; 46] []) with false. change (str_eqb [46; 46] [46]) with false.
      change (str_eqb [46; 46] [46; 46]) with true. cbn [orb]. cbn [resolv lnk ls st].
      destruct (render base) as [|c r] eqn:E.
      - apply render_nil in E. subst. reflexivity.
      - rewrite <- E. rewrite chop_render; [reflexivity|assumption|]. intros ->. discriminate. }
    split; [assumption|]. split; [now apply name_removelast|]. intros L x W. now apply w_up.
  - left. exists e. split; [reflexivity|]. rewrite SN by assumption. now rewrite F.
  - right. left. exists (base ++ [v]), k0. split; [lia|]. split.
    { rewrite SN by assumption. destruct F as [E|E]; rewrite E; reflexivity. }
    split; [assumption|]. split; [apply Forall_app; split; [assumption|apply Forall_cons; [assumption|apply Forall_nil]]|].
    intros L x W. now apply w_file.
  - destruct (Ht base v t HB Hn F) as (T1 & T2 & T3 & TA & TR).
    assert (F512 : firstn 512 t = t) by (apply firstn_all2; exact T2).
    rewrite start_slash0 in K. destruct (slash0 t) eqn:ES.
    + apply slash0_spec in ES as EA. destruct (TA EA) as (cs & m & Nc & E & HC & HP).
      right. left. subst t. rewrite split_render in K by assumption.
      cbn [app] in K. rewrite <- app_assoc in K.
      change ([] :: cs ++ repeat [] m ++ rest) with (repeat (@nil Z) 1 ++ cs ++ repeat [] m ++ rest) in K.
      destruct (rk_empties _ _ _ _ _ K) as (j0 & Hj0 & K0).
      destruct (rk_files cs _ [] _ _ HC HP K0) as (j & Hj & K1). cbn [app] in K1.
      destruct (rk_empties _ _ _ _ _ K1) as (j' & Hj' & K').
      exists cs, j'. split; [lia|]. split.
      { rewrite SN by assumption. rewrite F, F512, ES. now rewrite trim_render. }
      split; [exact K'|]. split; [exact HC|]. intros L x W. now apply w_link with (cs := cs) (k := m).
    + right. right. exists t, k0. split; [lia|].
      assert (NA : ~ absolute t) by (intros Q; apply slash0_spec in Q; congruence).
      split. { rewrite SN by assumption. now rewrite F, F512, ES. }
      split; [assumption|]. split; [exists t; tauto|]. split; [assumption|]. now apply TR.
Qed.

(** what is left of lnk, and of the path *)
Definition lrep (lk : list Z) (l : nat) (L : list (list Z)) : Prop :=
  (L = [] /\ (length lk <= l)%nat) \/
  exists X y, lk = X ++ y ++ [0] /\ l = length X /\ split y = L /\ ~ In 0 X /\ ~ In 0 y.

Definition orep (p : list Z) (O : list (list Z)) : Prop :=
  (p = [] /\ (O = [] \/ O = [[]])) \/ (p <> [] /\ O = split p).

Definition Inv (base : list (list Z)) (L : list (list Z)) : Prop :=
  forall pre m post b, L = pre ++ m :: post -> post <> [] -> walk fs base pre b -> ~ relative_link fs b m.

Lemma split_nonnil s : split s <> [].
Proof. destruct (split_cons 47 s) as (x & xs & E & _). rewrite E. discriminate. Qed.

Lemma Inv_nil base : Inv base [].
Proof. intros pre m post b E. destruct pre; discriminate. Qed.

(** one turn of the inner loop *)
Lemma inner_step lk l v L :
  lrep lk l (v :: L) ->
  exists l', lrep lk l' L /\ (L = [] -> (length lk <= l')%nat) /\
    forall g r, inner (S g) fs {| resolv := r; lnk := lk; ls := l |} =
    bind (segment fs {| resolv := r; lnk := lk; ls := l' |} v)
      (fun '(e, st) => match e with Some e => Ok (Some e, st) | None => inner g fs st end).
Proof.
  intros [[E _]|(X & y & -> & -> & E & NX & Ny)]; [discriminate|].
  exists (length X + length v + 1)%nat.
  cut (lrep (X ++ y ++ [0]) (length X + length v + 1) L /\
       forall g r, inner (S g) fs {| resolv := r; lnk := X ++ y ++ [0]; ls := length X |} =
       bind (segment fs {| resolv := r; lnk := X ++ y ++ [0]; ls := length X + length v + 1 |} v)
         (fun '(e, st) => match e with Some e => Ok (Some e, st) | None => inner g fs st end)).
  { intros [A B]. split; [exact A|]. split; [|exact B]. intros ->.
    destruct A as [[_ A]|(X' & y' & _ & _ & E' & _)]; [exact A|]. exfalso. exact (split_nonnil _ E'). }
  assert (E1 : Nat.leb (length (X ++ y ++ [0])) (length X) = false).
  { apply Nat.leb_gt. rewrite !app_length. cbn. lia. }
  assert (E2 : skipn (length X) (X ++ y ++ [0]) = y ++ [0]).
  { rewrite skipn_app, skipn_all, Nat.sub_diag. reflexivity. }
  destruct (upto_split 47 y) as [(I & r' & Ey & Nv)|(Nv & Ey)].
  - rewrite Ey in E. rewrite split_slash in E by assumption. injection E as Ev EL. rewrite Ev in *.
    split.
    + right. exists (X ++ v ++ [47]), r'.
      split; [rewrite Ey at 1; rewrite <- !app_assoc; reflexivity|].
      split; [rewrite !app_length; cbn; lia|]. split; [exact EL|].
      rewrite Ey in Ny. split; intros K.
      * apply in_app_or in K. destruct K as [K|K]; [tauto|]. apply in_app_or in K. destruct K as [K|[K|[]]]; [|discriminate].
        apply Ny. apply in_or_app. now left.
      * apply Ny. apply in_or_app. right. now right.
    + intros g r. cbn [inner resolv lnk ls]. rewrite E1, E2, upto_app by assumption.
      rewrite (proj2 (existsb_exists _ _)) by (exists 47; split; [exact I|reflexivity]).
      cbn [bind]. rewrite Ev. reflexivity.
  - assert (EX : existsb (Z.eqb 47) y = false).
    { destruct (existsb (Z.eqb 47) y) eqn:K; [|reflexivity]. apply existsb_exists in K. destruct K as (z & Hz & K).
      apply Z.eqb_eq in K. subst. contradiction. }
    rewrite split_noslash in E by assumption. injection E as -> <-.
    split; [left; split; [reflexivity|]; rewrite !app_length; cbn; lia|].
    intros g r. cbn [inner resolv lnk ls]. rewrite E1, E2, upto_app by assumption. rewrite EX.
    assert (E3 : upto 0 (X ++ v ++ [0]) = X ++ v).
    { rewrite app_assoc. apply upto_app. intros K. apply in_app_or in K. tauto. }
    rewrite E3.
    assert (E4 : (length (X ++ v) <? length X)%nat = false) by (apply Nat.ltb_ge; rewrite app_length; lia).
    rewrite E4. replace (length (X ++ v) - length X)%nat with (length v) by (rewrite app_length; lia).
    rewrite firstn_app, firstn_all, Nat.sub_diag. cbn [firstn bind]. rewrite app_nil_r. reflexivity.
Qed.

Lemma inner_end g r lk l : lrep lk l [] -> inner (S g) fs {| resolv := r; lnk := lk; ls := l |} =
  Ok (None, {| resolv := r; lnk := []; ls := 0 |}).
Proof.
  intros [[_ H]|(X & y & _ & _ & E & _)]; [|exfalso; exact (split_nonnil _ E)].
  cbn [inner resolv lnk ls]. now rewrite (proj2 (Nat.leb_le _ _) H).
Qed.

(** one turn of the outer loop *)
Definition run (f1 f2 : nat) (st : rstate) (p : list Z) : res (option Z * rstate) :=
  bind (inner f1 fs st) (fun '(e, st) => match e with Some e => Ok (Some e, st) | None => outer f2 fs st p end).

Lemma outer_step p O : orep p O -> p <> [] ->
  exists v p' O', O = v :: O' /\ orep p' O' /\
    forall g st, outer (S g) fs st p =
    bind (segment fs st v)
      (fun '(e, st) => match e with Some e => Ok (Some e, st) | None => run g g st p' end).
Proof.
  intros [[E _]|[_ ->]] N; [contradiction|].
  assert (OE : forall g st, outer (S g) fs st p =
    bind (segment fs st (upto 47 p))
      (fun '(e, st) => match e with Some e => Ok (Some e, st)
                       | None => run g g st (skipn (length (upto 47 p) + 1) p) end)).
  { intros g st. destruct p as [|c q]; [contradiction|reflexivity]. }
  exists (upto 47 p), (skipn (length (upto 47 p) + 1) p).
  destruct (upto_split 47 p) as [(I & r' & Ey & Nv)|(Nv & Ey)].
  - exists (split r'). split; [rewrite Ey at 1; now apply split_slash|]. split; [|exact OE].
    assert (E2 : skipn (length (upto 47 p) + 1) p = r').
    { rewrite Ey at 2. rewrite skipn_app. rewrite skipn_all2 by lia.
      replace (length (upto 47 p) + 1 - length (upto 47 p))%nat with 1%nat by lia. reflexivity. }
    rewrite E2. destruct r' as [|d r']; [left; cbn; tauto|right; split; [discriminate|reflexivity]].
  - exists []. split; [rewrite Ey; now apply split_noslash|]. split; [|exact OE].
    left. split; [rewrite Ey; apply skipn_all2; lia|now left].
Qed.

Definition agrees (o : list (list Z) + Z) (r : res (option Z * rstate)) : Prop :=
  match o with
  | inl cs => Forall name cs /\ exists st, r = Ok (None, st) /\ resolv st = render cs
  | inr e => exists st, r = Ok (Some e, st)
  end.

Lemma lrep_link t : ~ In 0 t -> lrep (t ++ [0]) 0 (split t).
Proof. intros H. right. exists [], t. cbn. tauto. Qed.

Lemma run_resolves k : forall base L O lk l p o,
  rk k base (L ++ O) o -> Forall name base -> lrep lk l L -> orep p O -> Inv base L ->
  exists f0, forall f1 f2, (f0 <= f1)%nat -> (f0 <= f2)%nat ->
    agrees o (run f1 f2 {| resolv := render base; lnk := lk; ls := l |} p).
Proof.
  induction k as [k IH] using lt_wf_ind. intros base L O lk l p o H HB HL HO HI.
  destruct L as [|v L].
  - (* the link is used up *)
    cbn [app] in H.
    assert (E0 : forall f1 f2, run (S f1) f2 {| resolv := render base; lnk := lk; ls := l |} p =
                               outer f2 fs {| resolv := render base; lnk := []; ls := 0 |} p).
    { intros f1 f2. unfold run. now rewrite inner_end by exact HL. }
    destruct (list_eq_dec Z.eq_dec p []) as [->|Np].
    + exists 1%nat. intros [|f1] [|f2] F1 F2; try lia. rewrite E0.
      assert (o = inl base) as ->.
      { destruct HO as [[_ [-> | ->]]|[N _]]; [| |contradiction].
        - inversion H; subst; reflexivity.
        - change [[]] with (repeat (@nil Z) 1 ++ []) in H. destruct (rk_empties _ _ _ _ _ H) as (j & _ & K).
          inversion K; subst; reflexivity. }
      cbn [outer agrees]. split; [exact HB|]. eexists. split; [reflexivity|]. reflexivity.
    + destruct (outer_step p O HO Np) as (v & p' & O' & -> & HO' & OS).
      destruct (segment_step k base v O' o [] 0 HB H) as [(e & -> & E)|[(b & j & Hj & E & K & HBb & _)|(t & j & Hj & E & K & _ & Nt & TR)]].
      * exists 1%nat. intros [|f1] [|f2] F1 F2; try lia. rewrite E0, OS, E. cbn [bind agrees]. eauto.
      * destruct (IH j Hj b [] O' [] 0%nat p' o K HBb) as (f0 & Hf).
        { left. split; [reflexivity|cbn; lia]. } { exact HO'. } { apply Inv_nil. }
        exists (S f0). intros [|f1] [|f2] F1 F2; try lia. rewrite E0, OS, E. cbn [bind]. apply Hf; lia.
      * destruct (IH j Hj base (split t) O' (t ++ [0]) 0%nat p' o K HB (lrep_link t Nt) HO' TR) as (f0 & Hf).
        exists (S f0). intros [|f1] [|f2] F1 F2; try lia. rewrite E0, OS, E. cbn [bind skipn app]. apply Hf; lia.
  - destruct (inner_step lk l v L HL) as (l' & HL' & HE & IS).
    cbn [app] in H.
    assert (RS : forall f1 f2, run (S f1) f2 {| resolv := render base; lnk := lk; ls := l |} p =
      bind (segment fs {| resolv := render base; lnk := lk; ls := l' |} v)
        (fun '(e, st) => match e with Some e => Ok (Some e, st) | None => run f1 f2 st p end)).
    { intros f1 f2. unfold run. rewrite IS.
      destruct (segment fs _ v) as [[[e|] st]| | |]; reflexivity. }
    destruct (segment_step k base v (L ++ O) o lk l' HB H) as [(e & -> & E)|[(b & j & Hj & E & K & HBb & W)|(t & j & Hj & E & K & RL & Nt & TR)]].
    + exists 1%nat. intros [|f1] f2 F1 F2; [lia|]. rewrite RS, E. cbn [bind agrees]. eauto.
    + destruct (IH j Hj b L O lk l' p o K HBb HL' HO) as (f0 & Hf).
      { intros pre m post x EL Np Wk. apply (HI (v :: pre) m post x); [now rewrite EL|exact Np|]. now apply W. }
      exists (S f0). intros [|f1] f2 F1 F2; [lia|]. rewrite RS, E. cbn [bind]. apply Hf; lia.
    + assert (L = []) as ->.
      { destruct L as [|w L]; [reflexivity|]. exfalso.
        refine (HI [] v (w :: L) base eq_refl _ _ RL); [discriminate|apply w_done]. }
      rewrite skipn_all2 in E by (apply HE; reflexivity). cbn [app] in E, K.
      destruct (IH j Hj base (split t) O (t ++ [0]) 0%nat p o K HB (lrep_link t Nt) HO TR) as (f0 & Hf).
      exists (S f0). intros [|f1] f2 F1 F2; [lia|]. rewrite RS, E. cbn [bind]. apply Hf; lia.
Qed.

Lemma pathname_render cs : pathname cs = match render cs with [] => [47] | r => r end.
Proof. destruct cs as [|n cs]; [reflexivity|]. cbn [pathname]. unfold render at 2. cbn. reflexivity. Qed.

Lemma cwd_start cwd : Forall name cwd -> (if str_eqb (pathname cwd) [47] then [] else pathname cwd) = render cwd.
Proof.
  intros H. destruct cwd as [|n c]; [reflexivity|]. rewrite str_eqb_no; [reflexivity|].
  inversion H as [|x y Hn _]. subst. destruct Hn as (Nn & _). destruct n; [contradiction|]. discriminate.
Qed.

Theorem realpath_resolves cwd path o :
  Forall name cwd -> path <> [] ->
  resolve fs (start cwd path) (split path) o ->
  exists f0, forall fuel, (f0 <= fuel)%nat -> realpath fuel fs (pathname cwd) path = Ok (limited o).
Proof.
  intros HC Np H. apply resolve_rk in H. destruct H as [k H].
  assert (G : exists p O j, orep p O /\ rk j (start cwd path) O o /\
     forall fuel, realpath fuel fs (pathname cwd) path =
       bind (outer fuel fs {| resolv := render (start cwd path); lnk := []; ls := 0 |} p) (fun '(e, st) =>
         match e with
         | Some e => Ok (inr e)
         | None =>
             let r := match resolv st with [] => [47] | r => r end in
             if path_max <? Z.of_nat (length r) + 1 then Ok (inr e_nametoolong) else Ok (inl r)
         end)).
  { rewrite start_slash0 in *. destruct (slash0 path) eqn:ES.
    - destruct path as [|c p]; [discriminate|]. cbn [slash0] in ES. apply Z.eqb_eq in ES. subst c.
      change (split (47 :: p)) with (repeat (@nil Z) 1 ++ split p) in H.
      destruct (rk_empties _ _ _ _ _ H) as (j & _ & K).
      exists p, (split p), j. split.
      { destruct p; [left; cbn; tauto|right; split; [discriminate|reflexivity]]. }
      split; [exact K|]. intros fuel. reflexivity.
    - exists path, (split path), k. split; [right; tauto|]. split; [exact H|].
      intros fuel. unfold realpath. rewrite ES, cwd_start by assumption. reflexivity. }
  destruct G as (p & O & j & HO & K & E).
  assert (HB : Forall name (start cwd path)) by (rewrite start_slash0; destruct (slash0 path); [apply Forall_nil|exact HC]).
  destruct (run_resolves j _ [] O [] 0%nat p o K HB) as (f0 & Hf).
  { left. split; [reflexivity|cbn; lia]. } { exact HO. } { apply Inv_nil. }
  exists f0. intros fuel F. rewrite E. specialize (Hf (S fuel) fuel ltac:(lia) F).
  unfold run in Hf. rewrite inner_end in Hf by (left; split; [reflexivity|cbn; lia]). cbn [bind] in Hf.
  destruct o as [cs|e]; cbn [agrees limited] in *.
  - destruct Hf as (_ & st & -> & ES). cbn [bind]. rewrite ES, <- pathname_render. unfold path_max, e_nametoolong. cbv zeta.
    destruct (Z.ltb_spec 4096 (Z.of_nat (length (pathname cs)) + 1)) as [A|A];
      destruct (Z.ltb_spec (Z.of_nat (length (pathname cs))) 4096) as [B|B]; try reflexivity; exfalso; lia.
  - destruct Hf as (st & ->). reflexivity.
Qed.

End RP.

(** what a resolution finds is canonical *)
Lemma canonical_nil fs : canonical fs [].
Proof. split; [constructor|]. intros pre post E N. destruct pre; [contradiction|discriminate]. Qed.

Lemma canonical_removelast fs base : canonical fs base -> canonical fs (removelast base).
Proof.
  intros [H1 H2]. split; [now apply name_removelast|]. intros pre post E N.
  destruct base as [|x l]; [destruct pre; [contradiction|discriminate]|].
  destruct (@exists_last _ (x :: l)) as (b & n & E2); [discriminate|]. rewrite E2 in *. rewrite removelast_last in E.
  apply (H2 pre (post ++ [n])); [now rewrite E, app_assoc|exact N].
Qed.

Lemma canonical_snoc fs base n :
  canonical fs base -> name n -> fs (render (base ++ [n])) = Dir \/ fs (render (base ++ [n])) = Other ->
  canonical fs (base ++ [n]).
Proof.
  intros [H1 H2] Hn F. split; [apply Forall_app; split; [exact H1|apply Forall_cons; [exact Hn|apply Forall_nil]]|].
  intros pre post E N. destruct post as [|y l] using rev_ind.
  - rewrite app_nil_r in E. now rewrite <- E.
  - clear IHl. rewrite app_assoc in E. apply app_inj_tail in E. destruct E as [E _]. now apply (H2 pre l).
Qed.

Lemma resolve_canonical fs base segs o : resolve fs base segs o -> canonical fs base ->
  forall cs, o = inl cs -> canonical fs cs.
Proof.
  induction 1; intros HC cs E; subst.
  - injection E as <-. exact HC.
  - now apply IHresolve.
  - apply IHresolve; [now apply canonical_removelast|reflexivity].
  - apply IHresolve; [now apply canonical_snoc|reflexivity].
  - discriminate.
  - apply IHresolve; [|reflexivity]. rewrite start_slash0. destruct (slash0 t); [apply canonical_nil|exact HC].
Qed.

Lemma resolve_files fs cs : forall base,
  Forall name cs ->
  (forall pre post, cs = pre ++ post -> pre <> [] -> fs (render (base ++ pre)) = Dir \/ fs (render (base ++ pre)) = Other) ->
  resolve fs base cs (inl (base ++ cs)).
Proof.
  induction cs as [|n cs IH]; intros base Hn Hf.
  - rewrite app_nil_r. apply r_done.
  - inversion Hn as [|x y Hn1 Hn2]. subst. apply r_file; [exact Hn1|exact (Hf [n] cs eq_refl ltac:(discriminate))|].
    replace (base ++ n :: cs) with ((base ++ [n]) ++ cs) by (rewrite <- app_assoc; reflexivity).
    apply IH; [exact Hn2|]. intros pre post E N. rewrite <- app_assoc. apply (Hf (n :: pre) post); [now rewrite E|discriminate].
Qed.

Lemma resolve_pathname fs cwd cs : canonical fs cs -> resolve fs (start cwd (pathname cs)) (split (pathname cs)) (inl cs).
Proof.
  intros [H1 H2]. destruct cs as [|n cs].
  - cbn. apply r_dot; [now left|now left|]. apply r_dot; [now left|now left|]. apply r_done.
  - cbn [pathname]. replace (render (n :: cs)) with (render (n :: cs) ++ repeat 47 0) by (cbn [repeat]; apply app_nil_r).
    rewrite split_render by (assumption || discriminate). cbn [repeat]. rewrite app_nil_r.
    cbn [render map concat app start]. change (47 =? 47) with true. cbn match.
    apply r_dot; [now left|now left|]. rewrite ?app_nil_r. apply (resolve_files fs (n :: cs) []); assumption.
Qed.

Theorem realpath_canonical fs cwd path cs :
  tame fs -> canonical fs cwd -> path <> [] -> resolve fs (start cwd path) (split path) (inl cs) ->
  (length (pathname cs) < Z.to_nat 4096)%nat ->
  canonical fs cs /\
  exists f0, forall fuel, (f0 <= fuel)%nat ->
    realpath fuel fs (pathname cwd) path = Ok (inl (pathname cs)) /\
    realpath fuel fs (pathname cwd) (pathname cs) = Ok (inl (pathname cs)).
Proof.
  intros HT HC Np H HL.
  assert (CC : canonical fs cs).
  { apply (resolve_canonical _ _ _ _ H); [|reflexivity]. rewrite start_slash0. destruct (slash0 path); [apply canonical_nil|exact HC]. }
  split; [exact CC|].
  destruct (realpath_resolves fs HT cwd path _ (proj1 HC) Np H) as (f1 & H1).
  destruct (realpath_resolves fs HT cwd (pathname cs) (inl cs) (proj1 HC)) as (f2 & H2).
  { destruct cs as [|n cs]; [discriminate|]. cbn. discriminate. }
  { now apply resolve_pathname. }
  exists (Nat.max f1 f2). intros fuel F. rewrite H1, H2 by lia. unfold limited.
  assert (E : (Z.of_nat (length (pathname cs)) <? 4096) = true) by (apply Z.ltb_lt; lia).
  rewrite E. split; reflexivity.
Qed.

(** without links, realpath ends *)
Lemma chop_rooted s : exists x, chop (47 :: s) = Some x /\ (x = [] \/ absolute x).
Proof.
  cbn [chop]. destruct (chop s) as [x|].
  - exists (47 :: x). split; [reflexivity|]. right. now exists x.
  - exists []. split; [reflexivity|]. now left.
Qed.

Lemma segment_total fs st s :
  (forall p t, fs p <> Link t) -> resolv st = [] \/ absolute (resolv st) -> lnk st = [] -> ls st = 0%nat ->
  (exists e, segment fs st s = Ok (Some e, st)) \/
  exists r, segment fs st s = Ok (None, {| resolv := r; lnk := []; ls := 0 |}) /\ (r = [] \/ absolute r).
Proof.
  destruct st as [r lk l]. cbn [resolv lnk ls]. intros HL HR -> ->. unfold segment. cbn [resolv lnk ls].
  destruct (str_eqb s [] || str_eqb s [46]); [right; exists r; split; [reflexivity|exact HR]|].
  destruct (str_eqb s [46; 46]).
  - right. destruct r as [|c r]; [exists []; split; [reflexivity|now left]|].
    destruct HR as [HR|[q HR]]; [discriminate|]. injection HR as -> ->.
    destruct (chop_rooted q) as (x & E & Hx). rewrite E. exists x. split; [reflexivity|exact Hx].
  - assert (AB : absolute (r ++ 47 :: s)).
    { destruct HR as [->|[q ->]]; cbn; eexists; reflexivity. }
    destruct (fs (r ++ 47 :: s)) as [| |t|e] eqn:E.
    + right. eexists. split; [reflexivity|]. now right.
    + right. eexists. split; [reflexivity|]. now right.
    + exfalso. exact (HL _ _ E).
    + left. exists e. reflexivity.
Qed.

Lemma outer_total fs (HL : forall p t, fs p <> Link t) : forall n p r, (length p < n)%nat -> r = [] \/ absolute r ->
  exists e st, forall fuel, (n < fuel)%nat -> outer fuel fs {| resolv := r; lnk := []; ls := 0 |} p = Ok (e, st).
Proof.
  induction n as [|n IH]; intros p r Hp HR; [lia|].
  destruct p as [|c q].
  - do 2 eexists. intros [|f] F; [lia|]. reflexivity.
  - set (v := upto 47 (c :: q)).
    destruct (segment_total fs {| resolv := r; lnk := []; ls := 0 |} v HL HR eq_refl eq_refl) as [(e & E)|(r' & E & HR')].
    + exists (Some e). eexists. intros [|f] F; [lia|]. cbn [outer]. fold v. rewrite E. reflexivity.
    + destruct (IH (skipn (length v + 1) (c :: q)) r') as (e & st & K); [|exact HR'|].
      { rewrite skipn_length. clear - Hp. cbn [length] in *. lia. }
      exists e, st. intros [|[|f]] F; try lia.
      change (outer (S (S f)) fs {| resolv := r; lnk := []; ls := 0 |} (c :: q)) with
        (bind (segment fs {| resolv := r; lnk := []; ls := 0 |} v) (fun '(e, st) => match e with
           | Some e => Ok (Some e, st)
           | None => bind (inner (S f) fs st) (fun '(e, st) =>
               match e with Some e => Ok (Some e, st) | None => outer (S f) fs st (skipn (length v + 1) (c :: q)) end)
           end)).
      rewrite E. cbn [bind inner lnk ls length resolv]. change (0 <=? 0)%nat with true. cbn match. cbn [bind].
      apply K. lia.
Qed.

Theorem realpath_total fs cwd path :
  (forall p t, fs p <> Link t) -> absolute cwd ->
  exists r, forall fuel, (length path + 2 < fuel)%nat -> realpath fuel fs cwd path = Ok r.
Proof.
  intros HL HC.
  assert (G : forall r p, (length p <= length path)%nat -> r = [] \/ absolute r ->
    exists x, forall fuel, (length path + 2 < fuel)%nat ->
      bind (outer fuel fs {| resolv := r; lnk := []; ls := 0 |} p) (fun '(e, st) =>
         match e with
         | Some e => Ok (inr e)
         | None =>
             let r := match resolv st with [] => [47] | r => r end in
             if path_max <? Z.of_nat (length r) + 1 then Ok (inr e_nametoolong) else Ok (inl r)
         end) = Ok x).
  { intros r p Hp HR. destruct (outer_total fs HL (S (length path)) p r ltac:(lia) HR) as (e & st & K).
    destruct e as [e|].
    - exists (inr e). intros fuel F. rewrite K by lia. reflexivity.
    - eexists. intros fuel F. rewrite K by lia. cbn [bind]. cbv zeta.
      match goal with |- (if ?b then Ok ?x else Ok ?y) = Ok _ => instantiate (1 := if b then x else y); destruct b; reflexivity end. }
  unfold realpath. destruct (slash0 path).
  - apply G; [destruct path; cbn; lia|now left].
  - apply G; [lia|]. destruct (str_eqb cwd [47]); [now left|now right].
Qed.

(** a link to itself *)
Definition loop_fs (p : list Z) : node := if str_eqb p [47; 108] then Link [108] else Err 2.

Lemma inner_loops fuel : inner fuel loop_fs {| resolv := []; lnk := [108; 0]; ls := 0 |} = Fuel.
Proof. induction fuel as [|f IH]; [reflexivity|]. exact IH. Qed.

Lemma loop_never_ends fuel : realpath fuel loop_fs [47] [47; 108] = Fuel.
Proof.
  destruct fuel as [|f]; [reflexivity|].
  change (realpath (S f) loop_fs [47] [47; 108]) with
    (bind (bind (inner f loop_fs {| resolv := []; lnk := [108; 0]; ls := 0 |}) (fun '(e, st) =>
               match e with Some e => Ok (Some e, st) | None => outer f loop_fs st [] end))
      (fun '(e, st) => match e with
         | Some e => Ok (inr e)
         | None =>
             let r := match resolv st with [] => [47] | r => r end in
             if path_max <? Z.of_nat (length r) + 1 then Ok (inr e_nametoolong) else Ok (inl r)
         end)).
  now rewrite inner_loops.
Qed.
