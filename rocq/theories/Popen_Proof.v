From Verif Require Import Base Popen_Model Popen_Spec.
Open Scope Z_scope.

Lemma contains_in s c : contains s c = true <-> In c s.
Proof. unfold contains. rewrite existsb_exists. split; [intros (y & H & E); apply Z.eqb_eq in E; now subst|intros H; exists c; split; auto; apply Z.eqb_refl]. Qed.
Lemma contains_not s c : contains s c = false <-> ~ In c s.
Proof. rewrite <- contains_in. destruct (contains s c); split; congruence. Qed.
Ltac eqs := repeat match goal with |- context [?x =? ?y] => destruct (Z.eqb_spec x y); subst end.
Lemma upd_same {A} (f : Z -> A) k v : upd f k v k = v.
Proof. unfold upd. now rewrite Z.eqb_refl. Qed.
Lemma upd_other {A} (f : Z -> A) k v j : j <> k -> upd f k v j = f j.
Proof. intros N. unfold upd. destruct (Z.eqb_spec j k); congruence. Qed.

Section A.
  Variables (old : proc) (type : list Z) (id rd wr : Z).
  Hypothesis NEW : new_pipe old rd wr.
  Let p := shield (pipe old id rd wr).
  Definition cend (writing : bool) := if writing then rd else wr.
  Definition pend (writing : bool) := if writing then wr else rd.

  Lemma fds_p k : fds p k = if k =? wr then Some (PipeEnd id true, false) else if k =? rd then Some (PipeEnd id false, false) else fds old k.
  Proof. reflexivity. Qed.
  Lemma child_ok writing t : cend writing <> t -> exists c, in_child old p (pend writing) (cend writing) t = Ok c /\ same_signals c old /\
    fds c t = Some (PipeEnd id (negb writing), false) /\ (forall j, j <> t -> fds c j = fds old j).
  Proof.
    destruct NEW as (NR & NW & D). intros N. unfold in_child, dup2. cbn [fds close set_fds restore setmask sig_quit sig_int].
    assert (F : upd (fds p) (pend writing) None (cend writing) = Some (PipeEnd id (negb writing), false)).
    { rewrite upd_other by (destruct writing; cbn; congruence). rewrite fds_p. destruct writing; cbn [cend negb]; eqs; congruence. }
    rewrite F. destruct (Z.eqb_spec (cend writing) t); [congruence|]. eexists. split; [reflexivity|]. cbn [fds set_fds close]. split; [repeat split|]. split.
    - rewrite upd_other by congruence. now rewrite upd_same.
    - intros j J. unfold upd. rewrite fds_p. destruct writing; cbn [cend pend]; eqs; try congruence.
  Qed.
  Lemma child_clash writing : exists c, in_child old p (pend writing) (cend writing) (cend writing) = Ok c /\ fds c (cend writing) = None.
  Proof.
    destruct NEW as (NR & NW & D). unfold in_child, dup2. cbn [fds close set_fds restore setmask sig_quit sig_int].
    assert (F : upd (fds p) (pend writing) None (cend writing) = Some (PipeEnd id (negb writing), false)).
    { rewrite upd_other by (destruct writing; cbn; congruence). rewrite fds_p. destruct writing; cbn [cend negb]; eqs; congruence. }
    rewrite F, Z.eqb_refl. eexists. split; [reflexivity|]. cbn [fds close set_fds]. apply upd_same.
  Qed.
  Lemma parent_ok writing (x : bool) : same_signals (restore old (if x then cloexec (close p (cend writing)) (pend writing) else close p (cend writing))) old /\
    with_fd old (pend writing) (PipeEnd id writing, x) (restore old (if x then cloexec (close p (cend writing)) (pend writing) else close p (cend writing))).
  Proof.
    destruct NEW as (NR & NW & D). split; [destruct x; repeat split|].
    assert (F : fds (close p (cend writing)) (pend writing) = Some (PipeEnd id writing, false)).
    { cbn [fds close set_fds]. rewrite upd_other by (destruct writing; cbn; congruence). rewrite fds_p. destruct writing; cbn [pend]; eqs; congruence. }
    assert (O : forall j, j <> pend writing -> fds (close p (cend writing)) j = fds old j).
    { intros j J. cbn [fds close set_fds]. unfold upd. rewrite fds_p. destruct writing; cbn [cend pend] in *; eqs; congruence. }
    destruct x; split.
    - unfold restore, setmask, sig_quit, sig_int, cloexec. rewrite F. cbn [fds set_fds]. apply upd_same.
    - intros j J. unfold restore, setmask, sig_quit, sig_int, cloexec. rewrite F. cbn [fds set_fds]. rewrite upd_other by auto. now apply O.
    - exact F.
    - exact O.
  Qed.
  Lemma failed_ok : same (restore old (close (close p rd) wr)) old.
  Proof. destruct NEW as (NR & NW & D). split; [repeat split|]. intros j. cbn [fds restore setmask sig_quit sig_int close set_fds]. unfold upd. rewrite fds_p. eqs; congruence. Qed.
End A.

Lemma popen_invalid old type pip id rd wr f : ~ In r type -> ~ In w type -> popen old type pip id rd wr f = Ok (res_ None 22 old None).
Proof. unfold r, w. intros R W. apply contains_not in R, W. unfold popen. now rewrite R, W. Qed.
Lemma popen_type type : In r type \/ In w type -> negb (contains type 119) && negb (contains type 114) = false.
Proof. intros H. destruct (contains type 119) eqn:W, (contains type 114) eqn:R; auto. apply contains_not in W, R. unfold r, w in H. tauto. Qed.
Lemma popen_ok old type id rd wr pid writing : new_pipe old rd wr -> (writing = true /\ In w type) \/ (writing = false /\ In r type /\ ~ In w type) ->
  (if writing then rd else wr) <> (if writing then 0 else 1) ->
  exists q c x, popen old type 0 id rd wr (Child pid) = Ok (res_ (Some (if writing then wr else rd, pid)) 0 q (Some c)) /\
    (x = true <-> In e type) /\ same_signals q old /\ with_fd old (if writing then wr else rd) (PipeEnd id writing, x) q /\
    same_signals c old /\ with_fd old (if writing then 0 else 1) (PipeEnd id (negb writing), false) c.
Proof.
  intros NEW W N. unfold popen. rewrite popen_type by tauto. assert (WR : contains type 119 = writing).
  { destruct W as [[-> H]|(-> & _ & H)]; [now apply contains_in|now apply contains_not]. }
  rewrite WR. change (negb (0 =? 0)) with false. cbn iota. destruct (child_ok old id rd wr NEW writing (if writing then 0 else 1) N) as (c & E & S1 & F1 & F2).
  unfold pend, cend in *. rewrite E. cbn [bind]. pose proof (parent_ok old id rd wr NEW writing (contains type 101)) as [P1 P2]. unfold pend, cend in *.
  eexists _, c, (contains type 101). split; [reflexivity|]. split; [apply contains_in|]. split; [exact P1|]. split; [exact P2|]. split; [exact S1|]. split; auto.
Qed.
Lemma popen_failed old type id rd wr er : new_pipe old rd wr -> In r type \/ In w type -> exists q, popen old type 0 id rd wr (Failed er) = Ok (res_ None er q None) /\ same q old.
Proof. intros NEW T. unfold popen. rewrite popen_type by auto. change (negb (0 =? 0)) with false. cbn iota. eexists. split; [reflexivity|]. now apply failed_ok. Qed.
Lemma popen_pipe old type pip id rd wr f : pip <> 0 -> In r type \/ In w type -> popen old type pip id rd wr f = Ok (res_ None pip old None).
Proof. intros P T. unfold popen. rewrite popen_type by auto. destruct (Z.eqb_spec pip 0); [lia|reflexivity]. Qed.
Lemma popen_clash old type id rd wr pid writing : new_pipe old rd wr -> (writing = true /\ In w type) \/ (writing = false /\ In r type /\ ~ In w type) ->
  (if writing then rd else wr) = (if writing then 0 else 1) ->
  exists s q c, popen old type 0 id rd wr (Child pid) = Ok (res_ s 0 q (Some c)) /\ fds c (if writing then 0 else 1) = None.
Proof.
  intros NEW W N. unfold popen. rewrite popen_type by tauto. assert (WR : contains type 119 = writing).
  { destruct W as [[-> H]|(-> & _ & H)]; [now apply contains_in|now apply contains_not]. }
  rewrite WR. change (negb (0 =? 0)) with false. cbn iota. destruct (child_clash old id rd wr NEW writing) as (c & E & F). unfold pend, cend in *. rewrite N in E, F. rewrite N, E. cbn [bind]. do 3 eexists. split; [reflexivity|exact F].
Qed.
