From Verif Require Import Base Exit_Model Exit_Spec.
Open Scope Z_scope.

Definition quiet : Z -> Z -> list handler := fun _ _ => [].

(** the handlers of a queue that still have a function *)
Fixpoint live (q : list handler) : list call :=
  match q with
  | [] => []
  | h :: q' => match fn h with None => live q' | Some f => (f, arg h, dso h) :: live q' end
  end.
Definition selc (sel : option Z -> bool) (c : call) : bool := let '(_, _, d) := c in sel d.

Lemma live_app a b : live (a ++ b) = live a ++ live b.
Proof. induction a as [|h a IH]; cbn; [reflexivity|]. destruct (fn h); cbn; rewrite IH; reflexivity. Qed.
Lemma nth_split_eq {A} (q : list A) k h : nth_error q k = Some h -> q = firstn k q ++ h :: skipn (S k) q.
Proof. revert q. induction k as [|k IH]; intros [|x q] H; cbn in *; try discriminate; [congruence|]. f_equal. apply IH, H. Qed.
Lemma clear_fn_split a h b : clear_fn (a ++ h :: b) (length a) = a ++ {| fn := None; arg := arg h; dso := dso h |} :: b.
Proof. induction a as [|x a IH]; cbn; [reflexivity|]. f_equal. exact IH. Qed.

(** the selected handlers among the first [length a] run, last first; the rest stays *)
Lemma pass_ok beh moves sel : (forall f a, beh f a = []) -> (forall n, moves n 0%nat = false) -> forall a b,
  exists a', pass beh moves sel (length a) (a ++ b) = Ok (a' ++ b, rev (filter (selc sel) (live a))) /\
             length a' = length a /\ live a' = filter (fun c => negb (selc sel c)) (live a).
Proof.
  intros Hb Hm a. induction a as [|h a IH] using rev_ind; intros b.
  - exists []. auto.
  - rewrite app_length, Nat.add_comm. cbn [length Nat.add]. cbn [pass]. rewrite <- app_assoc. cbn [app].
    rewrite nth_error_app2, Nat.sub_diag by lia. cbn [nth_error].
    rewrite live_app, !filter_app, rev_app_distr. cbn [live]. destruct (fn h) as [f|] eqn:Ef.
    + destruct (sel (dso h)) eqn:Es.
      * rewrite Hb. cbn [length]. rewrite Hm, app_nil_r, clear_fn_split.
        destruct (IH ({| fn := None; arg := arg h; dso := dso h |} :: b)) as (a' & -> & Hl & Hv). cbn [bind].
        exists (a' ++ [{| fn := None; arg := arg h; dso := dso h |}]). rewrite <- app_assoc. cbn [app]. split; [|split].
        -- cbn [filter selc]. rewrite Es. reflexivity.
        -- rewrite app_length, Hl. cbn. lia.
        -- rewrite live_app, Hv. cbn [live fn filter selc]. rewrite Es. reflexivity.
      * destruct (IH (h :: b)) as (a' & -> & Hl & Hv). exists (a' ++ [h]). rewrite <- app_assoc. cbn [app]. split; [|split].
        -- cbn [filter selc]. rewrite Es. reflexivity.
        -- rewrite app_length, Hl. cbn. lia.
        -- rewrite live_app, Hv. cbn [live filter selc]. rewrite Ef, Es. reflexivity.
    + destruct (IH (h :: b)) as (a' & -> & Hl & Hv). exists (a' ++ [h]). rewrite <- app_assoc. cbn [app]. split; [reflexivity|split].
      * rewrite app_length, Hl. cbn. lia.
      * rewrite live_app, Hv. cbn [live]. rewrite Ef. reflexivity.
Qed.
Lemma pass_all beh moves sel q : (forall f a, beh f a = []) -> (forall n, moves n 0%nat = false) ->
  exists q', pass beh moves sel (length q) q = Ok (q', rev (filter (selc sel) (live q))) /\
             live q' = filter (fun c => negb (selc sel c)) (live q).
Proof.
  intros Hb Hm. destruct (pass_ok beh moves sel Hb Hm q []) as (a' & E & _ & V). rewrite !app_nil_r in E. eauto.
Qed.

Section H.
  Variables (beh : Z -> Z -> list handler) (moves : nat -> nat -> bool).
  Hypothesis Hb : forall f a, beh f a = [].
  Hypothesis Hm : forall n, moves n 0%nat = false.

  Lemma sel_dso d : selc (fun x => dso_eqb x d) = of_object d.
  Proof. reflexivity. Qed.

  Lemma run_ok ops : forall q, exists q', run beh moves q ops = Ok (fst (history (live q) ops), q') /\ live q' = snd (history (live q) ops).
  Proof.
    induction ops as [|[[[f a] d]|d] ops IH]; intros q; cbn [run history]; [cbn; eauto|..].
    - destruct (IH (cxa_atexit q f a d)) as (q' & E & V). unfold cxa_atexit in *. rewrite live_app in E, V. cbn [live fn arg dso] in E, V.
      rewrite E. eauto.
    - unfold cxa_finalize. destruct (pass_all beh moves (fun x => dso_eqb x (Some d)) q Hb Hm) as (q1 & -> & V1). cbn [bind].
      destruct (IH q1) as (q' & -> & V). rewrite V1 in V |- *. change (selc (fun x => dso_eqb x (Some d))) with (of_object (Some d)) in *.
      destruct (history _ ops) as [l p]. cbn [bind fst snd] in *. eauto.
  Qed.

  Lemma run_fini_ok objects : forall q, exists q', run_fini beh moves q objects = Ok (q', fst (history (live q) (map Finalize objects))) /\
    live q' = snd (history (live q) (map Finalize objects)).
  Proof.
    induction objects as [|d ds IH]; intros q; cbn [run_fini map history]; [cbn; eauto|].
    unfold cxa_finalize. destruct (pass_all beh moves (fun x => dso_eqb x (Some d)) q Hb Hm) as (q1 & -> & V1). cbn [bind].
    destruct (IH q1) as (q' & -> & V). rewrite V1 in V |- *. change (selc (fun x => dso_eqb x (Some d))) with (of_object (Some d)) in *.
    destruct (history _ (map Finalize ds)) as [l p]. cbn [bind fst snd] in *. eauto.
  Qed.

  Lemma do_finalize_ok q objects : exists q', do_finalize beh moves q objects =
      Ok (q', rev (filter (of_object None) (live q)) ++ fst (history (filter (fun c => negb (of_object None c)) (live q)) (map Finalize objects))) /\
    live q' = snd (history (filter (fun c => negb (of_object None c)) (live q)) (map Finalize objects)).
  Proof.
    unfold do_finalize. destruct (pass_all beh moves (fun x => dso_eqb x None) q Hb Hm) as (q1 & -> & V1). cbn [bind].
    destruct (run_fini_ok objects q1) as (q' & -> & V). rewrite V1 in V |- *. cbn [bind]. eauto.
  Qed.
End H.

(** ** Consequences on the specification side *)
Lemma filter_split {A} (p : A -> bool) l : Permutation l (rev (filter p l) ++ filter (fun x => negb (p x)) l).
Proof.
  induction l as [|x l IH]; cbn; [constructor|]. destruct (p x); cbn; [|].
  - rewrite <- app_assoc. cbn. apply Permutation_cons_app. exact IH.
  - apply Permutation_cons_app. exact IH.
Qed.
Lemma history_perm ops : forall p, Permutation (p ++ registered ops) (fst (history p ops) ++ snd (history p ops)).
Proof.
  induction ops as [|[c|d] ops IH]; intros p; cbn [history registered].
  - rewrite app_nil_r. cbn. reflexivity.
  - rewrite <- IH, <- app_assoc. reflexivity.
  - specialize (IH (filter (fun c => negb (of_object (Some d) c)) p)).
    destruct (history _ ops) as [l q] eqn:E. cbn [fst snd] in *. rewrite <- app_assoc, <- IH, app_assoc.
    apply Permutation_app_tail, filter_split.
Qed.
Lemma dso_eqb_eq a b : dso_eqb a b = true <-> a = b.
Proof.
  destruct a as [x|], b as [y|]; cbn; try (split; congruence).
  destruct (Z.eqb_spec x y) as [->|N]; split; try congruence; try reflexivity. 
Qed.
Lemma fini_empty ds : forall p, (forall c, In c p -> exists d, snd c = Some d /\ In d ds) -> snd (history p (map Finalize ds)) = [].
Proof.
  induction ds as [|d ds IH]; intros p H; cbn [map history].
  - destruct p as [|c p]; [reflexivity|]. destruct (H c (or_introl eq_refl)) as (d & _ & []).
  - specialize (IH (filter (fun c => negb (of_object (Some d) c)) p)). destruct (history _ (map Finalize ds)) as [l q]. cbn [snd] in *.
    apply IH. intros c Hc. apply filter_In in Hc as [Hc Hn]. destruct (H c Hc) as (d' & Ed & [->|Hd]); [|eauto].
    destruct c as [[f a] x]. cbn in Ed. subst x. cbn in Hn. rewrite Z.eqb_refl in Hn. discriminate.
Qed.

Lemma filter_filter {A} (p q : A -> bool) l : filter p (filter q l) = filter (fun x => p x && q x) l.
Proof. induction l as [|x l IH]; cbn; [reflexivity|]. destruct (q x); cbn; destruct (p x); cbn; rewrite IH; reflexivity. Qed.
Lemma filter_ext_in' {A} (p q : A -> bool) l : (forall x, In x l -> p x = q x) -> filter p l = filter q l.
Proof. apply filter_ext_in. Qed.
Lemma filter_none {A} (p : A -> bool) l : (forall x, In x l -> p x = false) -> filter p l = [].
Proof. induction l as [|x l IH]; cbn; intros H; [reflexivity|]. rewrite H by auto. apply IH. auto. Qed.
Lemma filter_rev {A} (p : A -> bool) l : filter p (rev l) = rev (filter p l).
Proof. induction l as [|x l IH]; cbn; [reflexivity|]. rewrite filter_app, IH. cbn. destruct (p x); cbn; [reflexivity|apply app_nil_r]. Qed.

(** at exit, the calls for one object are its pending handlers, newest first *)
Lemma fini_order ds d0 : forall p, In d0 ds ->
  filter (of_object (Some d0)) (fst (history p (map Finalize ds))) = rev (filter (of_object (Some d0)) p).
Proof.
  assert (Once : forall ds p, filter (of_object (Some d0)) p = [] -> filter (of_object (Some d0)) (fst (history p (map Finalize ds))) = []).
  { induction ds0 as [|d ds0 IH]; intros p H; cbn [map history]; [reflexivity|].
    specialize (IH (filter (fun c => negb (of_object (Some d) c)) p)). destruct (history _ (map Finalize ds0)) as [l q]. cbn [fst] in *.
    rewrite filter_app, filter_rev, filter_filter, IH, app_nil_r.
    - replace (filter _ p) with (@nil call); [reflexivity|]. symmetry. apply filter_none. intros x Hx.
      destruct (of_object (Some d0) x) eqn:E; [|reflexivity]. exfalso.
      assert (Hi : In x (filter (of_object (Some d0)) p)) by (apply filter_In; auto). rewrite H in Hi. destruct Hi.
    - rewrite filter_filter. apply filter_none. intros x Hx. destruct (of_object (Some d0) x) eqn:E; [|reflexivity]. exfalso.
      assert (Hi : In x (filter (of_object (Some d0)) p)) by (apply filter_In; auto). rewrite H in Hi. destruct Hi. }
  induction ds as [|d ds IH]; intros p Hi; [destruct Hi|]. cbn [map history].
  destruct (Z.eq_dec d d0) as [->|N].
  - specialize (Once ds (filter (fun c => negb (of_object (Some d0) c)) p)). destruct (history _ (map Finalize ds)) as [l q]. cbn [fst] in *.
    rewrite filter_app, Once, app_nil_r.
    + rewrite filter_rev, filter_filter. f_equal. apply filter_ext. intros x. destruct (of_object (Some d0) x); reflexivity.
    + rewrite filter_filter. apply filter_none. intros x _. destruct (of_object (Some d0) x); reflexivity.
  - destruct Hi as [?|Hi]; [congruence|]. specialize (IH (filter (fun c => negb (of_object (Some d) c)) p) Hi).
    destruct (history _ (map Finalize ds)) as [l q]. cbn [fst] in *. rewrite filter_app, IH, filter_rev, !filter_filter.
    assert (X : forall x, of_object (Some d0) x && of_object (Some d) x = false).
    { intros [[f a] [x|]]; cbn [of_object dso_eqb andb]; [|reflexivity]. destruct (Z.eqb_spec x d0) as [E1|], (Z.eqb_spec x d) as [E2|]; try reflexivity. exfalso. apply N. congruence. }
    rewrite (filter_none (fun x => of_object (Some d0) x && of_object (Some d) x)) by (intros x _; apply X). cbn. f_equal.
    apply filter_ext. intros x. specialize (X x). destruct (of_object (Some d0) x); cbn in *; [rewrite X|]; reflexivity.
Qed.

Lemma quick_exit_ok q : forall fuel, (length q <= fuel)%nat -> quick_exit fuel q = Ok (rev q).
Proof.
  induction q as [|x q IH] using rev_ind; intros fuel H; [destruct fuel; reflexivity|].
  rewrite app_length in H. cbn in H. destruct fuel as [|fuel]; [lia|].
  rewrite rev_app_distr. cbn [rev app].
  replace (quick_exit (S fuel) (q ++ [x])) with (l <- quick_exit fuel (removelast (q ++ [x])) ;; Ok (last (q ++ [x]) 0 :: l)) by (destruct q; reflexivity).
  rewrite removelast_last, last_last, IH by lia. reflexivity.
Qed.
