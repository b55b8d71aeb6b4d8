(** Proofs about posix_spawn: the child's table is the user's table with the pipe added where the user has nothing. *)
From Verif Require Import Base Spawn_Model Spawn_Spec.
Open Scope Z_scope.

Section Proof.
Variables file world : Type.
Variable pick : table file -> Z.
Variable open_file : world -> list Z -> Z -> Z -> world * (file + Z).
Variable cloexec : Z -> bool.
Variable chdir : world -> list Z -> world + Z.
Variable fchdir : world -> desc file -> world + Z.
Variable sys : call -> Z.
Variable exec : prog file world -> Z.
Hypothesis PICK : forall t, get file t (pick t) = None /\ 0 <= pick t.

Notation get := (get file).
Notation set := (set file).
Definition lift (v : option (file * bool)) : option (desc file * bool) := match v with Some (f, b) => Some (User file f, b) | None => None end.
Lemma get_set : forall t fd v x, get (set t fd v) x = if x =? fd then v else get t x. Proof. reflexivity. Qed.
Lemma lift_none : forall v, lift v = None -> v = None. Proof. intros [[f b]|]; cbn; congruence. Qed.

Definition inv (s : cstate file world) (u : files file) (w : world) : Prop :=
  let '(t, w', p) := s in w' = w /\ 0 <= p /\ u p = None /\ (exists b, get t p = Some (PipeW file, b)) /\ forall x, x <> p -> get t x = lift (u x).

Lemma move_inv : forall fd s u w, inv s u w -> inv (move_pipe file world pick fd s) u w /\ snd (move_pipe file world pick fd s) <> fd.
Proof.
  intros fd [[t w'] p] u w (Hw & P0 & U & (b & G) & A). unfold move_pipe. destruct (fd =? p) eqn:E.
  - destruct (PICK t) as [PN PP]. set (n := pick t) in *.
    assert (NP : n <> p) by (intro C; rewrite C in PN; congruence).
    split; [|cbn; lia]. unfold inv. repeat split; auto.
    + apply lift_none. rewrite <- A by auto. exact PN.
    + exists false. rewrite !get_set, Z.eqb_refl. destruct (Z.eqb_spec n p); [congruence|]. rewrite G. reflexivity.
    + intros x X. rewrite !get_set. destruct (Z.eqb_spec x p) as [->|]; [rewrite U; reflexivity|]. destruct (Z.eqb_spec x n); [congruence|]. apply A. auto.
  - split; [|cbn; lia]. unfold inv. repeat split; auto. exists b; auto.
Qed.

Lemma action_inv : forall o s u w, inv s u w -> proper o -> no_cloexec cloexec o ->
  match act file world open_file chdir fchdir o (u, w) with
  | inl (u', w') => exists s', action file world pick open_file cloexec chdir fchdir o s = inl s' /\ inv s' u' w'
  | inr e => exists t w' p, action file world pick open_file cloexec chdir fchdir o s = inr ((t, w', p), e) /\ exists b, get t p = Some (PipeW file, b)
  end.
Proof.
  intros o s u w I PR NC.
  destruct (move_inv (op_fd o) s u w I) as [I' NE]. unfold action.
  destruct (move_pipe file world pick (op_fd o) s) as [[t w'] p] eqn:M. clear M I s. cbn [snd] in NE.
  destruct I' as (-> & P0 & U & (b & G) & A).
  destruct o as [fd|fd src|fd path oflag mode|path|fd]; cbn [op_fd act proper no_cloexec] in *.
  - eexists. split; [reflexivity|]. unfold inv, put. repeat split; auto.
    + destruct (Z.eqb_spec p fd); auto.
    + exists b. rewrite get_set. destruct (Z.eqb_spec p fd); [congruence|]. exact G.
    + intros x X. rewrite get_set. destruct (x =? fd); auto.
  - destruct (Z.eqb_spec src p) as [->|SP].
    { rewrite U. do 3 eexists. split; [reflexivity|]. eauto. }
    rewrite (A src SP). destruct (u src) as [[f c]|]; cbn [lift].
    2: { do 3 eexists. split; [reflexivity|]. eauto. }
    assert (I : inv (set t fd (Some (User file f, false)), w, p) (put file u fd (Some (f, false))) w).
    { unfold inv, put. repeat split; auto.
      + destruct (Z.eqb_spec p fd); [congruence|auto].
      + exists b. rewrite get_set. destruct (Z.eqb_spec p fd); [congruence|]. exact G.
      + intros x X. rewrite get_set. destruct (x =? fd); auto. }
    destruct (Z.eqb_spec src fd) as [->|]; cbn [negb]; eexists; (split; [reflexivity|exact I]).
  - destruct (open_file w path oflag mode) as [w' [f|e]].
    2: { do 3 eexists. split; [reflexivity|]. eauto. }
    destruct (PICK t) as [PN PP]. set (n := pick t) in *. cbv zeta.
    assert (NP : n <> p) by (intro C; rewrite C in PN; congruence).
    rewrite NC. destruct (Z.eqb_spec n fd) as [EQ|NF]; cbn [negb]; eexists; (split; [reflexivity|]); unfold inv, put; repeat split; auto.
    + destruct (Z.eqb_spec p fd); [congruence|auto].
    + exists b. rewrite get_set. destruct (Z.eqb_spec p n); [congruence|]. exact G.
    + intros x X. rewrite get_set, EQ. destruct (x =? fd); auto.
    + destruct (Z.eqb_spec p fd); [congruence|auto].
    + exists b. rewrite !get_set. destruct (Z.eqb_spec p n); [congruence|]. destruct (Z.eqb_spec p fd); [congruence|]. exact G.
    + intros x X. rewrite !get_set. destruct (Z.eqb_spec x n) as [->|].
      * destruct (Z.eqb_spec n fd); [congruence|]. rewrite <- A by auto. auto.
      * destruct (x =? fd); auto.
  - destruct (chdir w path) as [w'|e].
    + eexists. split; [reflexivity|]. unfold inv. repeat split; auto. eauto.
    + do 3 eexists. split; [reflexivity|]. eauto.
  - rewrite (A fd (not_eq_sym NE)). destruct (u fd) as [[f c]|]; cbn [lift].
    + destruct (fchdir w (User file f)) as [w'|e].
      * eexists. split; [reflexivity|]. unfold inv. repeat split; auto. eauto.
      * do 3 eexists. split; [reflexivity|]. eauto.
    + do 3 eexists. split; [reflexivity|]. eauto.
Qed.

Lemma actions_inv : forall ops s u w, inv s u w -> Forall proper ops -> Forall (no_cloexec cloexec) ops ->
  match act_all file world open_file chdir fchdir ops (u, w) with
  | inl (u', w') => exists s', actions file world pick open_file cloexec chdir fchdir ops s = inl s' /\ inv s' u' w'
  | inr e => exists t w' p, actions file world pick open_file cloexec chdir fchdir ops s = inr ((t, w', p), e) /\ exists b, get t p = Some (PipeW file, b)
  end.
Proof.
  induction ops as [|o r IH]; intros s u w I P N; cbn [act_all actions].
  - eexists. split; [reflexivity|exact I].
  - inversion P; subst. inversion N; subst. pose proof (action_inv o s u w I H1 H3) as H.
    destruct (act file world open_file chdir fchdir o (u, w)) as [[u' w']|e].
    + destruct H as (s' & -> & I'). apply IH; auto.
    + destruct H as (t & w' & p & -> & B). do 3 eexists. split; [reflexivity|exact B].
Qed.

Lemma setup_spec : forall a,
  match find (fails sys) (wanted (Some a)) with
  | Some c => snd (setup sys a) = sys c /\ sys c <> 0
  | None => setup sys a = (wanted (Some a), 0)
  end.
Proof.
  assert (ONE : forall c ig k l, (ig = match c with SetScheduler | SetParam => true | _ => false end) ->
    match find (fails sys) l with Some c' => snd k = sys c' /\ sys c' <> 0 | None => k = (l, 0) end ->
    match find (fails sys) (c :: l) with Some c' => snd (one sys c ig k) = sys c' /\ sys c' <> 0 | None => one sys c ig k = (c :: l, 0) end).
  { intros c ig k l IG H. cbn [find]. unfold one. cbv zeta.
    assert (F : fails sys c = negb ((sys c =? 0) || (ig && (sys c =? ENOSYS)))).
    { unfold fails. rewrite IG, negb_orb. destruct c; cbn [andb]; reflexivity. }
    rewrite F. destruct ((sys c =? 0) || (ig && (sys c =? ENOSYS))) eqn:E; cbn [negb].
    - destruct (find (fails sys) l); [exact H|]. rewrite H. reflexivity.
    - split; [reflexivity|]. apply orb_false_iff in E. destruct E as [E _]. lia. }
  assert (NIL : match find (fails sys) [] with Some c' => snd (@nil call, 0) = sys c' /\ sys c' <> 0 | None => (@nil call, 0) = ([], 0) end) by reflexivity.
  intros [s g sc sp r d m df mk]. unfold setup, wanted. cbn [f_setsid f_setpgroup f_setscheduler f_setschedparam f_resetids]. cbv zeta.
  destruct s, g, sc, sp, r; cbn [app]; repeat (apply ONE; [reflexivity|]); exact NIL.
Qed.

Lemma spawn_spec : forall a ops t u w mask disp, table_of file t u -> Forall proper ops -> Forall (no_cloexec cloexec) ops ->
  let r := spawn file world pick open_file cloexec chdir fchdir sys exec 0 0 a ops t w mask disp in
  (forall x, get (tab_after _ _ r) x = get t x) /\ mask_after _ _ r = mask /\ stored _ _ r = (ret _ _ r =? 0) /\ reaped _ _ r = negb (ret _ _ r =? 0) /\
  match expected file world open_file chdir fchdir sys a ops u w with
  | inr e => ret _ _ r = e /\ program _ _ r = None
  | inl (u', w') => exists g, (forall x, p_tab _ _ g x = inherited file u' x) /\ p_world _ _ g = w' /\ p_calls _ _ g = wanted a /\
        p_mask _ _ g = mask_of a mask /\ (forall i, p_disp _ _ g i = disp_of a disp i) /\
        ret _ _ r = exec g /\ program _ _ r = (if exec g =? 0 then Some g else None)
  end.
Proof.
  intros a ops t u w mask disp T PR NC. unfold spawn. cbn [Z.eqb negb]. cbv zeta.
  destruct (PICK t) as [N0 Z0]. set (p0 := pick t) in *. set (t1 := set t p0 (Some (PipeR file, true))).
  destruct (PICK t1) as [N1 Z1]. set (p1 := pick t1) in *.
  assert (NE : p1 <> p0). { intro C. rewrite C in N1. unfold t1 in N1. rewrite get_set, Z.eqb_refl in N1. congruence. }
  assert (N1' : get t p1 = None). { unfold t1 in N1. rewrite get_set in N1. destruct (Z.eqb_spec p1 p0); congruence. }
  set (t2 := set t1 p1 (Some (PipeW file, true))).
  assert (I : inv (set t2 p0 None, w, p1) u w).
  { unfold inv. repeat split; auto.
    - apply lift_none. change (lift (u p1)) with (match u p1 with Some (f, b) => Some (User file f, b) | None => None end). rewrite <- T. exact N1'.
    - exists true. unfold t2. rewrite !get_set, Z.eqb_refl. destruct (Z.eqb_spec p1 p0); congruence.
    - intros x X. unfold t2, t1. rewrite !get_set. destruct (Z.eqb_spec x p0) as [->|].
      + rewrite T in N0. exact (eq_sym N0).
      + destruct (Z.eqb_spec x p1); [congruence|]. apply T. }
  assert (TA : forall x, get (set (set t2 p1 None) p0 None) x = get t x).
  { intro x. unfold t2, t1. rewrite !get_set. destruct (Z.eqb_spec x p0) as [->|]; [auto|]. destruct (Z.eqb_spec x p1) as [->|]; auto. }
  assert (CH : let c := child file world pick open_file cloexec chdir fchdir sys exec a ops t2 w p0 p1 mask disp in
    match expected file world open_file chdir fchdir sys a ops u w with
    | inr e => fst c = e /\ snd c = None
    | inl (u', w') => exists g, (forall x, p_tab _ _ g x = inherited file u' x) /\ p_world _ _ g = w' /\ p_calls _ _ g = wanted a /\
        p_mask _ _ g = mask_of a mask /\ (forall i, p_disp _ _ g i = disp_of a disp i) /\
        fst c = exec g /\ snd c = (if exec g =? 0 then Some g else None)
    end).
  { cbv zeta. unfold child, expected. 
    assert (ST : match find (fails sys) (wanted a) with
      | Some c => snd (match a with Some a => setup sys a | None => ([], 0) end) = sys c /\ sys c <> 0
      | None => match a with Some a => setup sys a | None => ([], 0) end = (wanted a, 0) end).
    { destruct a as [a|]; [apply setup_spec|reflexivity]. }
    destruct (find (fails sys) (wanted a)) as [c|].
    - destruct ST as [S1 S2]. destruct (match a with Some a => setup sys a | None => ([], 0) end) as [calls e]. cbn [snd] in S1. subst e.
      destruct (Z.eqb_spec (sys c) 0); [congruence|]. cbn [negb fst snd]. cbv zeta.
      destruct I as (_ & _ & _ & (b & G) & _). rewrite G. auto.
    - rewrite ST. cbn [Z.eqb negb]. cbv zeta.
      pose proof (actions_inv ops _ u w I PR NC) as H.
      destruct (act_all file world open_file chdir fchdir ops (u, w)) as [[u' w']|e].
      + destruct H as ([[t3 w3] p3] & -> & (-> & P3 & U3 & (b & G3) & A3)). rewrite G3.
        match goal with |- context [exec ?g =? 0] => set (gg := g) end.
        exists gg. split; [|split; [|split; [|split; [|split]]]]; try reflexivity.
        * intro x. unfold gg. cbn [p_tab]. unfold exec_table, inherited. rewrite get_set. destruct (Z.eqb_spec x p3) as [->|X].
          -- rewrite U3. reflexivity.
          -- rewrite A3 by auto. destruct (u' x) as [[f [|]]|]; reflexivity.
        * intro i. unfold gg. cbn [p_disp]. unfold exec_disp, disp_of. destruct a as [a|].
          -- destruct (f_setsigdef a && a_def a i); destruct (disp i); reflexivity.
          -- destruct (disp i); reflexivity.
        * rewrite get_set, Z.eqb_refl. destruct (Z.eqb_spec (exec gg) 0) as [->|]; cbn [fst snd]; auto.
      + destruct H as (t3 & w3 & p3 & -> & (b & G3)). rewrite G3. auto. }
  destruct (child file world pick open_file cloexec chdir fchdir sys exec a ops t2 w p0 p1 mask disp) as [ec g].
  cbn [ret stored reaped tab_after mask_after program fst snd] in *. repeat (split; [auto|]). exact CH.
Qed.
End Proof.

Lemma lowest_ok : forall (file : Type) (t : table file), get file t (lowest t) = None /\ 0 <= lowest t.
Proof.
  intros file t. unfold lowest. destruct (find _ _) as [x|] eqn:F.
  - apply find_some in F. destruct F as [I H]. destruct (get file t x); [discriminate|]. split; [reflexivity|].
    apply in_map_iff in I. destruct I as (n & <- & _). lia.
  - clear F. assert (H : forall l, 0 <= fold_right (fun e m => Z.max m (fst e + 1)) 0 l /\
      forall x, fold_right (fun (e : Z * option (desc file * bool)) m => Z.max m (fst e + 1)) 0 l <= x -> get file l x = None).
    { induction l as [|[y v] r [IH1 IH2]]; cbn [fold_right get fst].
      - split; [lia|reflexivity].
      - split; [lia|]. intros x X. destruct (Z.eqb_spec x y); [lia|]. apply IH2. lia. }
    destruct (H t) as [H1 H2]. split; [apply H2; lia|exact H1].
Qed.
