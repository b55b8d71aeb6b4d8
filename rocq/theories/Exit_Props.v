(** Properties C24 and C49: termination handlers. *)
From Verif Require Import Base Exit_Model Exit_Spec Exit_Proof.
Open Scope Z_scope.

(** For handlers which register no further handlers: every history of registrations and __cxa_finalize calls makes
    exactly the specified calls (the object's handlers, newest first, each once). *)
Theorem C24_history_partial : forall beh moves ops, (forall f a, beh f a = []) -> (forall n, moves n 0%nat = false) ->
  exists q, run beh moves [] ops = Ok (fst (history [] ops), q).
Proof. intros beh moves ops Hb Hm. destruct (run_ok beh moves Hb Hm ops []) as (q & E & _). eauto. Qed.
Print Assumptions C24_history_partial.

(** After such a history, exit runs every remaining handler, so that over the whole run each registered handler has
    been called exactly once; atexit handlers run in reverse order, before those of objects, and the handlers of each
    object run in reverse order.  [objects] are the loaded objects whose fini functions call __cxa_finalize. *)
Theorem C24_exit_partial : forall beh moves ops objects, (forall f a, beh f a = []) -> (forall n, moves n 0%nat = false) ->
  (forall f a d, In (f, a, Some d) (registered ops) -> In d objects) ->
  exists l q q' l', run beh moves [] ops = Ok (l, q) /\ do_finalize beh moves q objects = Ok (q', l') /\
    Permutation (registered ops) (l ++ l') /\
    filter (of_object None) l' = rev (filter (of_object None) (registered ops)) /\
    (exists a b, l' = a ++ b /\ Forall (fun c => snd c = None) a /\ Forall (fun c => snd c <> None) b) /\
    (forall d, filter (of_object (Some d)) l' = rev (filter (of_object (Some d)) (snd (history [] ops)))).
Proof.
  intros beh moves ops objects Hb Hm Hall. destruct (run_ok beh moves Hb Hm ops []) as (q & E & V). cbn [live] in E, V.
  destruct (do_finalize_ok beh moves Hb Hm q objects) as (q' & E' & V'). rewrite V in E', V'.
  set (p := snd (history [] ops)) in *. set (p1 := filter (fun c => negb (of_object None c)) p) in *.
  assert (P := history_perm ops []). cbn [app] in P. fold p in P.
  assert (In_reg : forall c, In c p -> In c (registered ops)).
  { intros c Hc. eapply Permutation_in; [symmetry; exact P|]. apply in_app_iff. auto. }
  assert (Emp : snd (history p1 (map Finalize objects)) = []).
  { apply fini_empty. intros [[f a] d] Hc. apply filter_In in Hc as [Hc Hn]. destruct d as [d|]; [|discriminate Hn].
    exists d. split; [reflexivity|]. eapply Hall, In_reg, Hc. }
  assert (P1 := history_perm (map Finalize objects) p1). rewrite Emp, app_nil_r in P1.
  replace (registered (map Finalize objects)) with (@nil call) in P1 by (clear; induction objects; auto). rewrite app_nil_r in P1.
  assert (Nn : forall c, In c (fst (history p1 (map Finalize objects))) -> of_object None c = false).
  { intros c Hc. assert (Hi : In c p1) by (eapply Permutation_in; [symmetry; exact P1|exact Hc]).
    apply filter_In in Hi as [_ Hi]. destruct (of_object None c); [discriminate|reflexivity]. }
  exists (fst (history [] ops)), q, q', (rev (filter (of_object None) p) ++ fst (history p1 (map Finalize objects))).
  split; [exact E|]. split; [exact E'|]. split; [|split; [|split]].
  - rewrite P. apply Permutation_app_head. rewrite <- P1. apply filter_split.
  - rewrite filter_app, (filter_none _ (fst _)), app_nil_r by exact Nn. rewrite filter_rev, filter_filter. f_equal.
    transitivity (filter (of_object None) p); [apply filter_ext; intros x; destruct (of_object None x); reflexivity|].
    assert (G : forall ops p0, filter (of_object None) (snd (history p0 ops)) = filter (of_object None) p0 ++ filter (of_object None) (registered ops)).
    { clear. induction ops as [|[c|d] ops IH]; intros p0; cbn [history registered].
      - cbn. rewrite app_nil_r. reflexivity.
      - rewrite IH, filter_app, <- app_assoc. f_equal. cbn. destruct (of_object None c); reflexivity.
      - specialize (IH (filter (fun c => negb (of_object (Some d) c)) p0)). destruct (history _ ops) as [l p]. cbn [snd] in *.
        rewrite IH, filter_filter. f_equal. apply filter_ext. intros [[f a] [x|]]; reflexivity. }
    unfold p. rewrite G. reflexivity.
  - eexists _, _. split; [reflexivity|]. split; apply Forall_forall.
    + intros [[f a] d] Hc. apply in_rev, filter_In in Hc as [_ Hc]. destruct d; [discriminate|reflexivity].
    + intros [[f a] d] Hc Hd. cbn in Hd. subst d. specialize (Nn _ Hc). discriminate.
  - intros d. rewrite filter_app, filter_rev, filter_filter.
    rewrite (filter_none (fun x => of_object (Some d) x && of_object None x)) by (intros [[f a] [x|]] _; cbn; [apply andb_false_r|reflexivity]).
    cbn [rev app]. assert (Ep1 : filter (of_object (Some d)) p1 = filter (of_object (Some d)) p).
    { unfold p1. rewrite filter_filter. apply filter_ext. intros [[f a] [x|]]; cbn; [apply andb_true_r|reflexivity]. }
    rewrite <- Ep1. destruct (in_dec Z.eq_dec d objects) as [Hi|Hn]; [apply fini_order, Hi|].
    assert (Z0 : filter (of_object (Some d)) p1 = []).
    { apply filter_none. intros [[f a] x] Hc. destruct (of_object (Some d) (f, a, x)) eqn:Ex; [|reflexivity]. exfalso. apply Hn.
      cbn in Ex. apply dso_eqb_eq in Ex. subst x. apply filter_In in Hc as [Hc _]. eapply Hall, In_reg, Hc. }
    rewrite Z0. cbn. apply filter_none. intros c Hc. destruct (of_object (Some d) c) eqn:Ex; [|reflexivity]. exfalso.
    assert (Hi : In c (filter (of_object (Some d)) p1)) by (apply filter_In; split; [eapply Permutation_in; [symmetry; exact P1|exact Hc]|exact Ex]).
    rewrite Z0 in Hi. destruct Hi.
Qed.
Print Assumptions C24_exit_partial.

(** The full claim fails in three ways.  (1) Overall reverse order: a C++ object constructed after atexit is destroyed
    after the atexit handler has run. *)
Theorem C24_order_refuted : exists ops l q q' l',
  run quiet (fun _ _ => false) [] ops = Ok (l, q) /\ do_finalize quiet (fun _ _ => false) q [7] = Ok (q', l') /\ l = [] /\
  l' <> rev (registered ops).
Proof.
  exists [Register (1, 0, None); Register (2, 0, Some 7)]. do 4 eexists. split; [vm_compute; reflexivity|].
  split; [vm_compute; reflexivity|]. split; [reflexivity|discriminate].
Qed.
(** (2) a handler registered by a handler during exit never runs *)
Theorem C24_nested_refuted : exists beh q q' l', (forall n k : nat, (fun _ _ => false) n k = false) /\
  do_finalize beh (fun _ _ => false) q [] = Ok (q', l') /\ In {| fn := Some 2; arg := 0; dso := None |} (beh 1 0) /\ In (1, 0, None) l' /\ ~ In (2, 0, None) l'.
Proof.
  exists (fun f _ => if f =? 1 then [{| fn := Some 2; arg := 0; dso := None |}] else []), [{| fn := Some 1; arg := 0; dso := None |}].
  do 2 eexists. split; [reflexivity|]. split; [vm_compute; reflexivity|]. split; [left; reflexivity|]. split; [left; reflexivity|].
  intros [H|[]]. discriminate H.
Qed.
(** (3) if the nested registration reallocates the queue, the loop writes to freed memory *)
Theorem C24_dangling_refuted : exists beh moves q, moves 1%nat 0%nat = false /\ do_finalize beh moves q [] = UB.
Proof.
  exists (fun f _ => if f =? 1 then [{| fn := Some 2; arg := 0; dso := None |}] else []), (fun n k => (0 <? k)%nat), [{| fn := Some 1; arg := 0; dso := None |}].
  split; vm_compute; reflexivity.
Qed.
Print Assumptions C24_order_refuted.
Print Assumptions C24_nested_refuted.
Print Assumptions C24_dangling_refuted.

(** two objects and an atexit handler; object 7 is unloaded before exit *)
Example C24_ex : let ops := [Register (1, 10, Some 7); Register (2, 20, None); Register (3, 30, Some 8); Register (4, 40, Some 7); Finalize 7; Register (5, 50, None); Register (6, 60, Some 8)] in
  (forall f a d, In (f, a, Some d) (registered ops) -> In d [8; 7]) /\
  exists q q', run quiet (fun _ _ => false) [] ops = Ok ([(4, 40, Some 7); (1, 10, Some 7)], q) /\
  do_finalize quiet (fun _ _ => false) q [8; 7] = Ok (q', [(5, 50, None); (2, 20, None); (6, 60, Some 8); (3, 30, Some 8)]).
Proof.
  cbn. split.
  - intros f a d H. repeat destruct H as [H|H]; try (injection H; intros; subst; auto; fail); try discriminate; try contradiction.
  - do 2 eexists. split; reflexivity.
Qed.

(** C49: quick_exit calls the functions registered with at_quick_exit, newest first, each once *)
Theorem C49_quick_exit : forall fs fuel, (length fs <= fuel)%nat -> quick_exit fuel (fold_left at_quick_exit fs []) = Ok (rev fs).
Proof.
  intros fs fuel H. assert (E : forall fs q, fold_left at_quick_exit fs q = q ++ fs).
  { clear. induction fs as [|f fs IH]; intros q; cbn; [symmetry; apply app_nil_r|]. rewrite IH. unfold at_quick_exit. rewrite <- app_assoc. reflexivity. }
  rewrite E. apply quick_exit_ok. exact H.
Qed.
Print Assumptions C49_quick_exit.
Example C49_ex : quick_exit 3 (fold_left at_quick_exit [5; 6; 5] []) = Ok [5; 6; 5].
Proof. reflexivity. Qed.
