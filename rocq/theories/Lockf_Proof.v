From Verif Require Import Base Lockf_Model Lockf_Spec.
Open Scope Z_scope.

Lemma range_ok s ty size p : good_section s size ->
  exists f t, range s (mkfl ty 0 size p) = inl (f, t) /\ f <= t /\ forall b, in_section s size b <-> f <= b <= t.
Proof.
  intros [P [A B]]. unfold range, in_section. cbn [l_start l_len]. rewrite Z.add_0_r.
  destruct (Z.ltb_spec (pos s) 0); [lia|]. destruct (Z.ltb_spec off_max (pos s)); [lia|].
  destruct (Z.ltb_spec 0 size).
  - destruct (Z.ltb_spec (off_max - pos s) (size - 1)); [lia|]. exists (pos s), (pos s + size - 1). split; [reflexivity|]. split; [lia|]. intros b. lia.
  - destruct (Z.ltb_spec size 0).
    + destruct (Z.ltb_spec (pos s + size) 0); [lia|]. exists (pos s + size), (pos s - 1). split; [reflexivity|]. split; [lia|]. intros b. lia.
    + exists (pos s), off_max. split; [reflexivity|]. split; [lia|]. intros b. lia.
Qed.

(** the answer of range whatever the section *)
Lemma range_le s l f t : range s l = inl (f, t) -> f <= t.
Proof.
  unfold range. destruct (Z.ltb_spec (pos s + l_start l) 0); [discriminate|]. destruct (Z.ltb_spec off_max (pos s + l_start l)); [discriminate|].
  destruct (Z.ltb_spec 0 (l_len l)).
  - destruct (_ <? _); [discriminate|]. intros E. injection E as <- <-. lia.
  - destruct (Z.ltb_spec (l_len l) 0).
    + destruct (_ <? _); [discriminate|]. intros E. injection E as <- <-. lia.
    + intros E. injection E as <- <-. lia.
Qed.

Lemma conflicts_ok s w f t k : conflicts s w f t k = true <-> owner k <> me s /\ (w = true \/ write k = true) /\ first k <= t /\ f <= last k.
Proof.
  unfold conflicts. rewrite !andb_true_iff, orb_true_iff, negb_true_iff, Z.eqb_neq, !Z.leb_le. tauto.
Qed.

Lemma exists_ok s w f t size : regular s -> f <= t -> (forall b, in_section s size b <-> f <= b <= t) ->
  (existsb (conflicts s w f t) (locks s) = true <-> taken s size true \/ (w = true /\ taken s size false)).
Proof.
  intros R FT S. rewrite existsb_exists. split.
  - intros [k [I C]]. apply conflicts_ok in C. destruct C as [O [W [A B]]]. specialize (R _ I).
    assert (X : forall w', write k = w' -> taken s size w').
    { intros w' E. exists (owner k), (Z.max (first k) f). split; [exact O|]. split; [apply S; lia|]. exists k. repeat split; auto; lia. }
    destruct (write k) eqn:E; [left; now apply X|]. destruct W as [W|W]; [|discriminate]. right. split; [exact W|now apply X].
  - intros H. assert (X : exists w', (w = true \/ w' = true) /\ taken s size w'). { destruct H as [H|[H1 H2]]; eauto. }
    destruct X as [w' [W [p [b [P [I [k [Ik [Ok [Wk Bk]]]]]]]]]]. exists k. split; [exact Ik|]. apply conflicts_ok. apply S in I. subst. split; [exact P|]. split; [exact W|]. lia.
Qed.

Lemma without_ok f t k b : f <= t ->
  (forall j, In j (without f t k) -> owner j = owner k /\ write j = write k /\ first j <= last j) /\
  ((exists j, In j (without f t k) /\ first j <= b <= last j) <-> first k <= b <= last k /\ ~ f <= b <= t).
Proof.
  intros FT. unfold without. split.
  - intros j I. apply in_app_or in I. destruct I as [I|I].
    + destruct (Z.leb_spec (first k) (Z.min (last k) (f - 1))); [|destruct I]. destruct I as [<-|[]]. cbn [owner write first last]. auto.
    + destruct (Z.leb_spec (Z.max (first k) (t + 1)) (last k)); [|destruct I]. destruct I as [<-|[]]. cbn [owner write first last]. auto.
  - split.
    + intros [j [I B]]. apply in_app_or in I. destruct I as [I|I].
      * destruct (Z.leb_spec (first k) (Z.min (last k) (f - 1))); [|destruct I]. destruct I as [<-|[]]. cbn [first last] in B. lia.
      * destruct (Z.leb_spec (Z.max (first k) (t + 1)) (last k)); [|destruct I]. destruct I as [<-|[]]. cbn [first last] in B. lia.
    + intros [B N]. destruct (Z.ltb_spec b f).
      * exists (mklk (owner k) (write k) (first k) (Z.min (last k) (f - 1))). cbn [first last]. split; [|lia]. apply in_or_app. left.
        destruct (Z.leb_spec (first k) (Z.min (last k) (f - 1))); [now left|lia].
      * exists (mklk (owner k) (write k) (Z.max (first k) (t + 1)) (last k)). cbn [first last]. split; [|lia]. apply in_or_app. right.
        destruct (Z.leb_spec (Z.max (first k) (t + 1)) (last k)); [now left|lia].
Qed.

Lemma release_ok s f t p w b : f <= t ->
  (holds (set_locks s (release s f t)) p w b <-> holds s p w b /\ (p <> me s \/ ~ f <= b <= t)).
Proof.
  intros FT. unfold holds. cbn [locks set_locks]. unfold release. split.
  - intros [k [I [O [W B]]]]. apply in_flat_map in I. destruct I as [j [J I]]. destruct (Z.eqb_spec (owner j) (me s)) as [E|E].
    + destruct (without_ok f t j b FT) as [H1 H2]. destruct (H1 _ I) as [A1 [A2 A3]].
      assert (X : first j <= b <= last j /\ ~ f <= b <= t) by (apply H2; eauto). destruct X as [X Y]. split; [exists j; repeat split; congruence || lia|right; exact Y].
    + destruct I as [<-|[]]. split; [exists j; auto|]. left. congruence.
  - intros [[k [I [O [W B]]]] N]. destruct (Z.eqb_spec (owner k) (me s)) as [E|E].
    + destruct N as [N|N]; [congruence|]. destruct (without_ok f t k b FT) as [H1 H2]. destruct (proj2 H2 (conj B N)) as [j [J1 J2]].
      destruct (H1 _ J1) as [A1 [A2 A3]]. exists j. split; [|repeat split; congruence || lia]. apply in_flat_map. exists k. split; [exact I|]. now rewrite (proj2 (Z.eqb_eq _ _) E).
    + exists k. split; [|auto]. apply in_flat_map. exists k. split; [exact I|]. rewrite (proj2 (Z.eqb_neq _ _) E). now left.
Qed.

Lemma release_regular s f t : f <= t -> regular s -> regular (set_locks s (release s f t)).
Proof.
  intros FT R k I. cbn [locks set_locks] in I. unfold release in I. apply in_flat_map in I. destruct I as [j [J I]]. destruct (owner j =? me s).
  - destruct (without_ok f t j 0 FT) as [H1 _]. now destruct (H1 _ I) as [_ [_ A3]].
  - destruct I as [<-|[]]. now apply R.
Qed.

Definition added (s : st) (w : bool) (f t : Z) : st := set_locks s (mklk (me s) w f t :: release s f t).
Lemma added_ok s v f t p w b : f <= t ->
  (holds (added s v f t) p w b <-> (p = me s /\ w = v /\ f <= b <= t) \/ (holds s p w b /\ (p <> me s \/ ~ f <= b <= t))).
Proof.
  intros FT. rewrite <- (release_ok s f t p w b FT). unfold holds, added. cbn [locks set_locks]. split.
  - intros [k [[<-|I] [O [W B]]]]; [left; cbn [owner write first last] in *; auto|right; exists k; auto].
  - intros [[P [W B]]|[k [I R]]]; [exists (mklk (me s) v f t); cbn [owner write first last]; split; [now left|auto]|exists k; split; [now right|exact R]].
Qed.
Lemma added_regular s w f t : f <= t -> regular s -> regular (added s w f t).
Proof. intros FT R k [<-|I]; [exact FT|]. exact (release_regular s f t FT R k I). Qed.

Lemma ulock_ok s size : good_section s size -> regular s -> exists s', lockf s F_ULOCK size = Ret 0 0 s' /\ same_file s s' /\ regular s' /\ same_elsewhere s s' size /\
  forall w b, in_section s size b -> ~ holds s' (me s) w b.
Proof.
  intros G R. destruct (range_ok s UNLCK size 0 G) as [f [t [E [FT S]]]]. exists (set_locks s (release s f t)).
  split. { unfold lockf. change (F_ULOCK =? F_TEST) with false. change (F_ULOCK =? F_ULOCK) with true. cbv iota. unfold fcntl. rewrite E. reflexivity. }
  split; [repeat split|]. split; [now apply release_regular|]. split.
  - intros p w b N. rewrite release_ok by exact FT. rewrite S in N. tauto.
  - intros w b I H. apply release_ok in H; [|exact FT]. apply S in I. tauto.
Qed.

Lemma setlk_ok s size c : c <> GETLK -> good_section s size -> regular s -> writable s = true ->
  ((exists w, taken s size w) -> fst (fcntl s c (mkfl WRLCK 0 size 0)) = match c with SETLKW => Waits | _ => Ret (-1) EAGAIN s end) /\
  (~ (exists w, taken s size w) -> locked s size (fst (fcntl s c (mkfl WRLCK 0 size 0)))).
Proof.
  intros C G R W. destruct (range_ok s WRLCK size 0 G) as [f [t [E [FT S]]]]. pose proof (exists_ok s true f t size R FT S) as X.
  assert (F : fst (fcntl s c (mkfl WRLCK 0 size 0)) = if existsb (conflicts s true f t) (locks s) then match c with SETLKW => Waits | _ => Ret (-1) EAGAIN s end else Ret 0 0 (added s true f t)).
  { unfold fcntl. rewrite E. cbn [l_type]. rewrite W. cbn [negb andb]. destruct c; [congruence| |]; destruct (existsb _ _); reflexivity. }
  rewrite F. split.
  - intros [w T]. rewrite (proj2 X); [reflexivity|]. destruct w; tauto.
  - intros N. destruct (existsb _ _) eqn:D; [exfalso; apply N; destruct (proj1 X eq_refl) as [T|[_ T]]; eauto|].
    exists (added s true f t). split; [reflexivity|]. split; [repeat split|]. split; [now apply added_regular|]. split.
    + intros p w b Q. rewrite added_ok by exact FT. rewrite S in Q. tauto.
    + intros b I. apply S in I. split; [apply added_ok; auto|]. intros H. apply added_ok in H; [|exact FT]. destruct H as [[_ [H _]]|[_ H]]; [discriminate|tauto].
Qed.
Lemma tlock_ok s size : good_section s size -> regular s -> writable s = true ->
  ((exists w, taken s size w) -> lockf s F_TLOCK size = Ret (-1) EAGAIN s) /\ (~ (exists w, taken s size w) -> locked s size (lockf s F_TLOCK size)).
Proof. intros. apply (setlk_ok s size SETLK); [discriminate|assumption..]. Qed.
Lemma lock_ok s size : good_section s size -> regular s -> writable s = true ->
  ((exists w, taken s size w) -> lockf s F_LOCK size = Waits) /\ (~ (exists w, taken s size w) -> locked s size (lockf s F_LOCK size)).
Proof. intros. apply (setlk_ok s size SETLKW); [discriminate|assumption..]. Qed.

Lemma test_ok s size : good_section s size -> regular s ->
  (taken s size true -> lockf s F_TEST size = Ret (-1) EACCES s) /\ (~ taken s size true -> lockf s F_TEST size = Ret 0 0 s).
Proof.
  intros G R. destruct (range_ok s RDLCK size 0 G) as [f [t [E [FT S]]]]. pose proof (exists_ok s false f t size R FT S) as X.
  assert (F : lockf s F_TEST size = if existsb (conflicts s false f t) (locks s) then Ret (-1) EACCES s else Ret 0 0 s).
  { unfold lockf. change (F_TEST =? F_TEST) with true. cbv iota. unfold fcntl. rewrite E. cbn [l_type]. destruct (find _ _) as [k|] eqn:D.
    - apply find_some in D. destruct D as [I D]. assert (Y : existsb (conflicts s false f t) (locks s) = true) by (apply existsb_exists; eauto). rewrite Y.
      apply conflicts_ok in D. destruct D as [O [[D|D] _]]; [discriminate|]. rewrite D. cbn [l_type l_pid]. change (0 <? 0) with false. cbv iota. cbn [orb]. now rewrite (proj2 (Z.eqb_neq _ _) O).
    - assert (Y : existsb (conflicts s false f t) (locks s) = false). { destruct (existsb _ _) eqn:Q; [|reflexivity]. apply existsb_exists in Q. destruct Q as [k [I Q]]. now rewrite (find_none _ _ D _ I) in Q. }
      rewrite Y. reflexivity. }
  rewrite F. split.
  - intros T. rewrite (proj2 X); auto.
  - intros N. destruct (existsb _ _); [|reflexivity]. exfalso. destruct (proj1 X eq_refl) as [T|[T _]]; [auto|discriminate].
Qed.

Lemma set_error s c l e s' : fst (fcntl s c l) = Ret (-1) e s' -> s' = s.
Proof.
  unfold fcntl. destruct (range s l) as [[f t]|x]; [|cbn [fst]; congruence].
  destruct c; (destruct (l_type l); cbn [andb negb]; repeat match goal with |- context [if ?b then _ else _] => destruct b | |- context [match find ?a ?b with _ => _ end] => destruct (find a b) end; cbn [fst]; congruence).
Qed.
Lemma error_ok s op size e s' : lockf s op size = Ret (-1) e s' -> s' = s.
Proof.
  unfold lockf. destruct (op =? F_TEST).
  - destruct (fcntl s GETLK (mkfl RDLCK 0 size 0)) as [[r x s''|] l'] eqn:F; [|discriminate]. assert (S : s'' = s).
    { unfold fcntl in F. destruct (range _ _) as [[f t]|y]; [|congruence]. cbn [l_type] in F. destruct (find _ _); congruence. }
    destruct (r <? 0); [congruence|]. destruct (_ || _); congruence.
  - destruct (op =? F_ULOCK); [apply set_error|]. destruct (op =? F_TLOCK); [apply set_error|]. destruct (op =? F_LOCK); [apply set_error|congruence].
Qed.
Lemma op_ok s op size : ~ In op [F_LOCK; F_TEST; F_TLOCK; F_ULOCK] -> lockf s op size = Ret (-1) EINVAL s.
Proof.
  intros N. unfold lockf. cbn [In] in N. destruct (Z.eqb_spec op F_TEST); [exfalso; apply N; auto|]. destruct (Z.eqb_spec op F_ULOCK); [exfalso; apply N; auto 6|].
  destruct (Z.eqb_spec op F_TLOCK); [exfalso; apply N; auto|]. destruct (Z.eqb_spec op F_LOCK); [exfalso; apply N; auto|]. reflexivity.
Qed.

(** locks never overlap wrongly *)
Lemma set_exclusive s c ty size : ty <> RDLCK -> c <> GETLK -> regular s -> exclusive s ->
  match fst (fcntl s c (mkfl ty 0 size 0)) with Ret _ _ s' => regular s' /\ exclusive s' | Waits => True end.
Proof.
  intros Ty C R X. unfold fcntl. destruct (range s (mkfl ty 0 size 0)) as [[f t]|e] eqn:E; [|cbn; auto]. assert (FT := range_le _ _ _ _ E). cbn [l_type].
  assert (Rel : regular (set_locks s (release s f t)) /\ exclusive (set_locks s (release s f t))).
  { split; [now apply release_regular|]. intros p q w b H1 H2. apply release_ok in H1; [|exact FT]. apply release_ok in H2; [|exact FT]. destruct H1, H2. eapply X; eauto. }
  assert (Add : existsb (conflicts s true f t) (locks s) = false -> regular (added s true f t) /\ exclusive (added s true f t)).
  { intros D. split; [now apply added_regular|]. assert (N : forall p w b, f <= b <= t -> holds s p w b -> p = me s).
    { intros p w b B [k [I [O [W K]]]]. destruct (Z.eq_dec p (me s)) as [|P]; [assumption|]. exfalso. assert (Y : existsb (conflicts s true f t) (locks s) = true); [|congruence].
      apply existsb_exists. exists k. split; [exact I|]. apply conflicts_ok. subst p. split; [exact P|]. split; [auto|lia]. }
    intros p q w b H1 H2. apply added_ok in H1; [|exact FT]. apply added_ok in H2; [|exact FT].
    destruct H1 as [[P [_ B]]|[H1 K1]], H2 as [[Q [_ B']]|[H2 K2]].
    - congruence.
    - rewrite P. symmetry. eapply N; eauto.
    - rewrite Q. eapply N; eauto.
    - eapply X; eauto. }
  destruct c; [congruence| |]; (destruct ty; [congruence| |exact Rel]); cbn [andb]; (destruct (negb (writable s)); [cbn; auto|]);
    (destruct (existsb _ _) eqn:D; [cbn; auto|now apply Add]).
Qed.
Lemma lockf_exclusive s op size : regular s -> exclusive s -> match lockf s op size with Ret _ _ s' => regular s' /\ exclusive s' | Waits => True end.
Proof.
  intros R X. unfold lockf. destruct (op =? F_TEST).
  - unfold fcntl. destruct (range _ _) as [[f t]|e]; cbn [l_type]; [|cbn; auto]. destruct (find _ _); change (0 <? 0) with false; cbv iota; destruct (_ || _); auto.
  - destruct (op =? F_ULOCK); [apply set_exclusive; auto; discriminate|]. destruct (op =? F_TLOCK); [apply set_exclusive; auto; discriminate|].
    destruct (op =? F_LOCK); [apply set_exclusive; auto; discriminate|auto].
Qed.
Lemma history_ok h : forall t p m wr, regular (mkst t p wr m) -> exclusive (mkst t p wr m) -> exclusive (mkst (history t h) p wr m).
Proof.
  induction h as [|c h IH]; intros t p m wr R X; cbn [history]; [exact X|].
  pose proof (lockf_exclusive (mkst t (c_pos c) (c_writable c) (c_me c)) (c_op c) (c_size c) R X) as L.
  destruct (lockf _ _ _) as [a b s|]; [apply IH; apply L|now apply IH].
Qed.
