(** Invariants of dynamic thread vectors. *)
From Coq Require Import FinFun.
From Verif Require Import Base Conc Dtv_Model Dtv_Spec.
Open Scope Z_scope.

Lemma block_eqb_spec : forall a b, block_eqb a b = true <-> a = b.
Proof.
  intros [t i|k] [u j|l]; cbn; split; intro H; try discriminate.
  - apply andb_true_iff in H; destruct H as [H1 H2]; apply Z.eqb_eq in H1, H2; congruence.
  - injection H as -> ->; rewrite !Z.eqb_refl; reflexivity.
  - apply Z.eqb_eq in H; congruence.
  - injection H as ->; apply Z.eqb_refl.
Qed.
Lemma set_content_same : forall f b d, set_content f b d b = d.
Proof. intros; unfold set_content; rewrite (proj2 (block_eqb_spec b b) eq_refl); reflexivity. Qed.
Lemma set_content_other : forall f b d x, x <> b -> set_content f b d x = f x.
Proof.
  intros f b d x H; unfold set_content. destruct (block_eqb x b) eqn:E; [|reflexivity].
  apply block_eqb_spec in E; contradiction.
Qed.
Lemma mem_b_In : forall x l, mem_b x l = true <-> In x l.
Proof.
  intros x l; unfold mem_b; rewrite existsb_exists; split.
  - intros (y & H & E); apply Z.eqb_eq in E; subst; exact H.
  - intro H; exists x; split; [exact H|apply Z.eqb_refl].
Qed.
Lemma set2_same : forall B (f : Z -> Z -> B) a i b, set2 f a i b a i = b.
Proof. intros; unfold set2; rewrite !setf_same; reflexivity. Qed.
Lemma set2_other : forall B (f : Z -> Z -> B) a i b a' i', a' <> a \/ i' <> i -> set2 f a i b a' i' = f a' i'.
Proof.
  intros B f a i b a' i' H; unfold set2. destruct (Z.eq_dec a' a) as [->|N].
  - rewrite setf_same, setf_other; [reflexivity|destruct H; congruence].
  - rewrite setf_other by exact N; reflexivity.
Qed.
Lemma indices_In : forall m i, In i (indices m) <-> 1 <= i < m.
Proof.
  intros m i; unfold indices; rewrite in_map_iff; split.
  - intros (x & <- & H); apply in_seq in H; lia.
  - intro H; exists (Z.to_nat i); split; [lia|apply in_seq; lia].
Qed.
Lemma indices_nodup : forall m, NoDup (indices m).
Proof. intro m; unfold indices; apply FinFun.Injective_map_NoDup; [intros x y; lia|apply seq_NoDup]. Qed.

Lemma fill_spec : forall c t idx v k f v' k' f', NoDup idx -> fill c t idx v k f = (v', k', f') ->
  k <= k' /\
  (forall i, ~ In i idx -> v' i = v i) /\
  (forall i, In i idx -> (stat c i = true /\ v' i = Some (Stat t i) /\ f' (Stat t i) = (if glob c i then Image else Zero)) \/
     (stat c i = false /\ exists m, v' i = Some (Dyn m) /\ k <= m < k' /\ f' (Dyn m) = Image)) /\
  (forall i j m, In i idx -> In j idx -> v' i = Some (Dyn m) -> v' j = Some (Dyn m) -> i = j) /\
  (forall b, (forall i, b = Stat t i -> ~ In i idx) -> (forall m, b = Dyn m -> m < k \/ k' <= m) -> f' b = f b).
Proof.
  intros c t; induction idx as [|i r IH]; intros v k f v' k' f' Hn E; cbn [fill] in E.
  - injection E as <- <- <-. split; [lia|]. split; [reflexivity|]. split; [intros ? []|]. split; [intros ? ? ? []|]. reflexivity.
  - inversion Hn as [|? ? Hi Hr]; subst. destruct (stat c i) eqn:Es.
    + destruct (IH _ _ _ _ _ _ Hr E) as (A & B & C & D & F).
      assert (Hv : v' i = Some (Stat t i)) by (rewrite (B i Hi); apply setf_same).
      split; [exact A|]. split; [|split; [|split]].
      * intros j Hj. rewrite (B j); [apply setf_other; intros ->; apply Hj; left; reflexivity|intro H; apply Hj; right; exact H].
      * intros j [<-|Hj]; [|exact (C j Hj)]. left. split; [exact Es|]. split; [exact Hv|].
        rewrite F; [apply set_content_same|intros j Hb; injection Hb as <-; exact Hi|discriminate].
      * intros x y m [<-|Hx] [<-|Hy] Ex Ey; [reflexivity|congruence|congruence|exact (D x y m Hx Hy Ex Ey)].
      * intros b H1 H2. rewrite F; [apply set_content_other; intros ->; exact (H1 i eq_refl (or_introl eq_refl))| |exact H2].
        intros j Hb H; exact (H1 j Hb (or_intror H)).
    + destruct (IH _ _ _ _ _ _ Hr E) as (A & B & C & D & F).
      assert (Hv : v' i = Some (Dyn k)) by (rewrite (B i Hi); apply setf_same).
      split; [lia|]. split; [|split; [|split]].
      * intros j Hj. rewrite (B j); [apply setf_other; intros ->; apply Hj; left; reflexivity|intro H; apply Hj; right; exact H].
      * intros j [<-|Hj].
        -- right. split; [exact Es|]. exists k. split; [exact Hv|]. split; [lia|]. rewrite F; [apply set_content_same|discriminate|].
           intros m Hm; injection Hm as <-; left; lia.
        -- destruct (C j Hj) as [C1|(C1 & m & C2 & C3 & C4)]; [left; exact C1|right]. split; [exact C1|]. exists m. repeat split; [exact C2|lia|lia|exact C4].
      * assert (W : forall x m, In x r -> v' x = Some (Dyn m) -> m <> k).
        { intros x m Hx Ex ->. destruct (C x Hx) as [(_ & C2 & _)|(_ & m & C2 & C3 & _)]; rewrite C2 in Ex; [discriminate|].
          injection Ex as ->; lia. }
        intros x y m [<-|Hx] [<-|Hy] Ex Ey; [reflexivity| | |exact (D x y m Hx Hy Ex Ey)].
        -- rewrite Hv in Ex; injection Ex as <-; destruct (W y k Hy Ey eq_refl).
        -- rewrite Hv in Ey; injection Ey as <-; destruct (W x k Hx Ex eq_refl).
      * intros b H1 H2. rewrite F.
        -- apply set_content_other; intros ->. destruct (H2 k eq_refl); lia.
        -- intros j Hb H; exact (H1 j Hb (or_intror H)).
        -- intros m Hm; destruct (H2 m Hm); [left; lia|right; lia].
Qed.

(** the vector being prepared for a thread, if any *)
Definition work (s : state) : option (Z * Z) :=
  match lock s with
  | Some l => match pc s l with LSlots _ _ _ t _ a _ _ => Some (t, a) | _ => None end
  | None => None
  end.
Definition eff (w : option (Z * Z)) (s : state) (t : Z) : Z :=
  match w with Some (u, a) => if t =? u then a else dtv s t | None => dtv s t end.
Definition bnd (w : option (Z * Z)) (s : state) (t i : Z) : option block := vec s (eff w s t) i.

Section Core.
Variable c : setup.

Definition kind (s : state) (t i : Z) (b : block) : Prop :=
  (stat c i = true /\ b = Stat t i) \/ (stat c i = false /\ exists k, b = Dyn k /\ k < next_blk s).
Record core (w : option (Z * Z)) (s : state) : Prop := {
  k_n : 1 <= n s;
  k_ready : forall i, ready s i = true -> 1 <= i < n s;
  k_nodup : NoDup (tcbs s);
  k_vecs : forall t, In t (tcbs s) -> dtv s t < next_vec s /\ eff w s t < next_vec s;
  k_sep : forall t u, In t (tcbs s) -> In u (tcbs s) -> t <> u -> dtv s t <> dtv s u /\ eff w s t <> dtv s u /\ eff w s t <> eff w s u;
  k_range : forall t i b, In t (tcbs s) -> bnd w s t i = Some b -> 1 <= i < len s (eff w s t);
  k_mono : forall t i b, In t (tcbs s) -> vec s (dtv s t) i = Some b -> bnd w s t i = Some b;
  k_bind : forall t i b, In t (tcbs s) -> bnd w s t i = Some b -> kind s t i b;
  k_inj : forall t u i j k, In t (tcbs s) -> In u (tcbs s) -> bnd w s t i = Some (Dyn k) -> bnd w s u j = Some (Dyn k) -> t = u /\ i = j;
  k_len : forall t, In t (tcbs s) -> 1 <= dtv_size s t <= len s (dtv s t) /\ len s (dtv s t) <= n s;
  k_slot : forall t i, In t (tcbs s) -> exited s t = false -> ready s i = true -> i < dtv_size s t /\ vec s (dtv s t) i <> None;
  k_rd : forall t, match rd s t with
                   | RIdle => True
                   | RSize i _ => In t (tcbs s) /\ exited s t = false /\ ready s i = true
                   | RDone i b => In t (tcbs s) /\ exited s t = false /\ ready s i = true /\ bnd w s t i = Some b
                   end;
  k_log : Forall (fun e => In (e_thread e) (tcbs s) /\ exists b, e_block e = Some b /\ bnd w s (e_thread e) (e_index e) = Some b) (log s)
}.

(** everything but the prepared vector, the readers and the log is the same *)
Lemma core_frame : forall w s s', core w s ->
  n s' = n s -> tcbs s' = tcbs s -> (forall t, exited s' t = false -> exited s t = false) ->
  dtv_size s' = dtv_size s -> dtv s' = dtv s -> vec s' = vec s -> len s' = len s -> next_vec s' = next_vec s -> next_blk s' = next_blk s ->
  ready s' = ready s ->
  (forall t, match rd s' t with
             | RIdle => True
             | RSize i _ => In t (tcbs s) /\ exited s' t = false /\ ready s i = true
             | RDone i b => In t (tcbs s) /\ exited s' t = false /\ ready s i = true /\ bnd w s t i = Some b
             end) ->
  Forall (fun e => In (e_thread e) (tcbs s) /\ exists b, e_block e = Some b /\ bnd w s (e_thread e) (e_index e) = Some b) (log s') ->
  core w s'.
Proof.
  intros w s s' K E1 E2 E3 E4 E5 E6 E7 E8 E9 E10 Hr Hl. destruct K.
  assert (Ee : forall t, eff w s' t = eff w s t) by (intro t; unfold eff; rewrite E5; reflexivity).
  assert (Eb : forall t i, bnd w s' t i = bnd w s t i) by (intros t i; unfold bnd; rewrite Ee, E6; reflexivity).
  constructor; unfold kind in *;
    repeat match goal with H : ?f s' = ?f s |- _ => rewrite H; clear H end; intros; rewrite ?Ee in *; rewrite ?Eb in *; eauto.
  - specialize (Hr t). destruct (rd s' t) eqn:Er; [exact I|exact Hr|]. rewrite Eb; exact Hr.
  - eapply Forall_impl; [|exact Hl]. intros e (H1 & b & H2 & H3). split; [exact H1|]. exists b. rewrite Eb. auto.
Qed.

Lemma core_rd : forall w s, core w s ->
  (forall t, match rd s t with
             | RIdle => True
             | RSize i _ => In t (tcbs s) /\ exited s t = false /\ ready s i = true
             | RDone i b => In t (tcbs s) /\ exited s t = false /\ ready s i = true /\ bnd w s t i = Some b
             end).
Proof. intros w s K; exact (k_rd _ _ K). Qed.

(** ** What a publishing loader has done *)
Definition settled (s : state) (t : Z) : Prop := len s (dtv s t) = dtv_size s t.
Definition filled (s : state) (prev t : Z) : Prop := n s <= dtv_size s t /\ forall j, prev <= j < n s -> vec s (dtv s t) j <> None.
Definition others (s : state) (prev : Z) (todo : list Z) : Prop :=
  forall t, In t (tcbs s) -> ~ In t todo -> exited s t = false -> filled s prev t.
Definition pubinv (s : state) : Prop :=
  match lock s with
  | None => forall t, In t (tcbs s) -> settled s t
  | Some l =>
      match pc s l with
      | LPub prev top new ts =>
          new = n s /\ 1 <= prev /\ top <= n s /\ NoDup ts /\ incl ts (tcbs s) /\ others s prev ts /\ forall t, In t (tcbs s) -> settled s t
      | LSlots prev top new t ts a i grow =>
          new = n s /\ 1 <= prev /\ top <= n s /\ NoDup (t :: ts) /\ incl (t :: ts) (tcbs s) /\ others s prev (t :: ts) /\
          (forall u, In u (tcbs s) -> settled s u) /\
          prev <= i /\ (i <= n s \/ i = prev) /\ (forall j, prev <= j < i -> vec s a j <> None) /\ len s a = n s /\
          (if grow then a <> dtv s t /\ dtv_size s t < n s else a = dtv s t /\ dtv_size s t = n s)
      | LSize prev top new t ts =>
          new = n s /\ 1 <= prev /\ top <= n s /\ NoDup (t :: ts) /\ incl (t :: ts) (tcbs s) /\ others s prev (t :: ts) /\
          (forall u, In u (tcbs s) -> u <> t -> settled s u) /\
          (forall j, prev <= j < n s -> vec s (dtv s t) j <> None) /\ len s (dtv s t) = n s
      | _ => False
      end
  end.
Definition holding (p : lpc) : bool := match p with LIdle | LBuilt _ _ => false | _ => true end.
Definition locked (s : state) : Prop := forall l, holding (pc s l) = true <-> lock s = Some l.
Definition builtinv (s : state) : Prop := forall l prev top, pc s l = LBuilt prev top -> 1 <= prev /\ prev <= top <= n s.
Definition inv (s : state) : Prop := core (work s) s /\ pubinv s /\ locked s /\ builtinv s.

Lemma inv_start : inv start.
Proof.
  split; [|split; [|split]].
  - constructor; cbn; intros; try discriminate; try contradiction; try lia; try exact I; constructor.
  - intros t [].
  - intro l; cbn; split; discriminate.
  - intros l prev top; cbn; discriminate.
Qed.

Lemma locked_set : forall s s' l p, locked s -> pc s' = setf (pc s) l p -> lock s' = lock s -> holding p = holding (pc s l) -> locked s'.
Proof.
  intros s s' l p L E1 E2 H x. rewrite E1, E2. destruct (Z.eq_dec x l) as [->|N].
  - rewrite setf_same, H; apply L.
  - rewrite setf_other by exact N; apply L.
Qed.
Lemma builtinv_set : forall s s' l p, builtinv s -> pc s' = setf (pc s) l p -> n s' = n s -> holding p = true \/ p = LIdle -> builtinv s'.
Proof.
  intros s s' l p B E1 E2 H x prev top. rewrite E1, E2. destruct (Z.eq_dec x l) as [->|N].
  - rewrite setf_same; intros ->; destruct H; discriminate.
  - rewrite setf_other by exact N; apply B.
Qed.

(** readers do not change anything the loaders look at *)
Lemma inv_reader : forall s s', inv s -> n s' = n s -> tcbs s' = tcbs s -> (forall t, exited s' t = false -> exited s t = false) ->
  dtv_size s' = dtv_size s -> dtv s' = dtv s -> vec s' = vec s -> len s' = len s -> next_vec s' = next_vec s -> next_blk s' = next_blk s ->
  ready s' = ready s -> lock s' = lock s -> pc s' = pc s ->
  (forall t, match rd s' t with
             | RIdle => True
             | RSize i _ => In t (tcbs s) /\ exited s' t = false /\ ready s i = true
             | RDone i b => In t (tcbs s) /\ exited s' t = false /\ ready s i = true /\ bnd (work s) s t i = Some b
             end) ->
  Forall (fun e => In (e_thread e) (tcbs s) /\ exists b, e_block e = Some b /\ bnd (work s) s (e_thread e) (e_index e) = Some b) (log s') ->
  inv s'.
Proof.
  intros s s' (K & P & L & B) E1 E2 E3 E4 E5 E6 E7 E8 E9 E10 E11 E12 Hr Hl.
  assert (Ew : work s' = work s) by (unfold work; rewrite E11, E12; reflexivity).
  split; [|split; [|split]].
  - rewrite Ew. eapply core_frame; eauto.
  - unfold pubinv, others, filled, settled in *. rewrite E1, E2, E4, E5, E6, E7, E11, E12.
    destruct (lock s) as [l|]; [|exact P]. destruct (pc s l) eqn:Ep; [exact P|exact P| | |].
    + destruct P as (A1 & A2 & A3 & A4 & A5 & A6 & A7). repeat (split; [assumption|]). split; [|assumption]. intros t H1 H2 H3; apply A6; auto.
    + destruct P as (A1 & A2 & A3 & A4 & A5 & A6 & A7). repeat (split; [assumption|]). split; [|exact A7]. intros u H1 H2 H3; apply A6; auto.
    + destruct P as (A1 & A2 & A3 & A4 & A5 & A6 & A7). repeat (split; [assumption|]). split; [|exact A7]. intros u H1 H2 H3; apply A6; auto.
  - intro x; rewrite E11, E12; apply L.
  - intros x prev top; rewrite E12, E1; apply B.
Qed.

Lemma bnd_ready : forall s t i, core (work s) s -> In t (tcbs s) -> exited s t = false -> ready s i = true ->
  exists b, vec s (dtv s t) i = Some b /\ bnd (work s) s t i = Some b /\ 1 <= i < len s (dtv s t).
Proof.
  intros s t i K Ht He Hi. destruct (k_slot _ _ K t i Ht He Hi) as (A & B).
  destruct (vec s (dtv s t) i) as [b|] eqn:E; [|contradiction]. exists b. split; [reflexivity|]. split; [exact (k_mono _ _ K t i b Ht E)|].
  pose proof (k_len _ _ K t Ht). pose proof (k_ready _ _ K i Hi). lia.
Qed.

Lemma step_access : forall t i s s', inv s -> access t i s = Some s' -> inv s'.
Proof.
  intros t i s s' V H. pose proof V as (K & _). unfold access in H. destruct (rd s t) eqn:Er; try discriminate.
  destruct (mem_b t (tcbs s) && negb (exited s t) && ready s i) eqn:Eg; [|discriminate].
  apply andb_true_iff in Eg; destruct Eg as (Eg & Hi). apply andb_true_iff in Eg; destruct Eg as (Ht & He).
  apply mem_b_In in Ht. apply negb_true_iff in He. pose proof (k_ready _ _ K i Hi) as Hr.
  destruct (i =? 0) eqn:E0; [apply Z.eqb_eq in E0; lia|]. destruct (k_slot _ _ K t i Ht He Hi) as (Hs & _).
  destruct (i <? dtv_size s t) eqn:E1; [|apply Z.ltb_ge in E1; lia]. injection H as <-.
  eapply inv_reader; [exact V|reflexivity|reflexivity|intros u Hu; exact Hu|reflexivity|reflexivity|reflexivity|reflexivity|reflexivity|reflexivity|reflexivity|reflexivity|reflexivity| |].
  - intro u; cbn [rd set_rd]. destruct (Z.eq_dec u t) as [->|N]; [rewrite setf_same; cbn; auto|].
    rewrite setf_other by exact N. exact (core_rd _ _ K u).
  - exact (k_log _ _ K).
Qed.

Lemma step_load : forall t s s', inv s -> load t s = Some s' -> exists i sz b,
  rd s t = RSize i sz /\ bnd (work s) s t i = Some b /\ In t (tcbs s) /\ exited s t = false /\ ready s i = true /\
  s' = finish s t (RDone i b) {| e_thread := t; e_index := i; e_block := Some b; e_seen := content s b |} /\ inv s'.
Proof.
  intros t s s' V H. pose proof V as (K & _). unfold load in H. pose proof (core_rd _ _ K t) as Kr.
  destruct (rd s t) as [|i sz|] eqn:Er; try discriminate. destruct Kr as (Ht & He & Hi).
  destruct (bnd_ready s t i K Ht He Hi) as (b & E & Eb & R).
  assert (C : (0 <=? i) && (i <? len s (dtv s t)) = true) by (apply andb_true_iff; split; [apply Z.leb_le|apply Z.ltb_lt]; lia).
  rewrite C, E in H. injection H as <-. exists i, sz, b. repeat (split; [assumption || reflexivity|]).
  eapply inv_reader; [exact V|reflexivity|reflexivity|intros u Hu; exact Hu|reflexivity|reflexivity|reflexivity|reflexivity|reflexivity|reflexivity|reflexivity|reflexivity|reflexivity| |].
  - intro u; cbn [rd finish]. destruct (Z.eq_dec u t) as [->|N]; [rewrite setf_same; cbn; auto|].
    rewrite setf_other by exact N. exact (core_rd _ _ K u).
  - cbn [log finish]. apply Forall_app; split; [exact (k_log _ _ K)|]. constructor; [|constructor]. cbn. split; [exact Ht|]. exists b; auto.
Qed.

Lemma step_write : forall t v s s', inv s -> write t v s = Some s' -> inv s'.
Proof.
  intros t v s s' V H. pose proof V as (K & _). unfold write in H. destruct (rd s t) eqn:Er; try discriminate. injection H as <-.
  eapply inv_reader; [exact V|reflexivity|reflexivity|intros u Hu; exact Hu|reflexivity|reflexivity|reflexivity|reflexivity|reflexivity|reflexivity|reflexivity|reflexivity|reflexivity| |].
  - exact (core_rd _ _ K).
  - exact (k_log _ _ K).
Qed.

Lemma step_return : forall t s s', inv s -> match rd s t with RDone _ _ => Some (set_rd s t RIdle) | _ => None end = Some s' -> inv s'.
Proof.
  intros t s s' V H. pose proof V as (K & _). destruct (rd s t) eqn:Er; try discriminate. injection H as <-.
  eapply inv_reader; [exact V|reflexivity|reflexivity|intros u Hu; exact Hu|reflexivity|reflexivity|reflexivity|reflexivity|reflexivity|reflexivity|reflexivity|reflexivity|reflexivity| |].
  - intro u; cbn [rd set_rd]. destruct (Z.eq_dec u t) as [->|N]; [rewrite setf_same; exact I|].
    rewrite setf_other by exact N. exact (core_rd _ _ K u).
  - exact (k_log _ _ K).
Qed.

Lemma step_exit : forall t s s', inv s -> exit t s = Some s' -> inv s'.
Proof.
  intros t s s' V H. pose proof V as (K & _). unfold exit in H. destruct (rd s t) eqn:Er; try discriminate.
  destruct (negb (mem_b t (tcbs s))); [discriminate|]. injection H as <-.
  eapply inv_reader; [exact V|reflexivity|reflexivity| |reflexivity|reflexivity|reflexivity|reflexivity|reflexivity|reflexivity|reflexivity|reflexivity|reflexivity| |].
  - intros u; cbn. unfold setf. destruct (u =? t); [discriminate|auto].
  - intro u; cbn. pose proof (core_rd _ _ K u) as Ku. destruct (Z.eq_dec u t) as [->|N]; [rewrite Er; exact I|].
    rewrite setf_other by exact N. exact Ku.
  - exact (k_log _ _ K).
Qed.

Lemma step_build : forall l k s s', inv s -> build c l k s = Some s' -> inv s'.
Proof.
  intros l k s s' (K & P & L & B) H. unfold build in H. destruct (pc s l) eqn:Ep; try discriminate.
  destruct (lock s) eqn:El; [discriminate|]. destruct ((0 <=? k) && _) eqn:Eg; [|discriminate]. injection H as <-.
  apply andb_true_iff in Eg; destruct Eg as (Hk & _); apply Z.leb_le in Hk.
  assert (W0 : work s = None) by (unfold work; rewrite El; reflexivity). rewrite W0 in K.
  split; [|split; [|split]].
  - unfold work; cbn [lock]. destruct K; constructor; cbn in *; auto.
    + lia.
    + intros i Hi; specialize (k_ready0 i Hi); lia.
    + intros t Ht; specialize (k_len0 t Ht); lia.
  - unfold pubinv in *; cbn; rewrite El in P; exact P.
  - intro x; cbn. destruct (Z.eq_dec x l) as [->|N].
    + rewrite setf_same; cbn. specialize (L l). rewrite Ep, El in L. cbn in L. exact L.
    + rewrite setf_other by exact N. specialize (L x). rewrite El in L. exact L.
  - intros x prev top; cbn. destruct (Z.eq_dec x l) as [->|N].
    + rewrite setf_same; intro E; injection E as <- <-. pose proof (k_n _ _ K). lia.
    + rewrite setf_other by exact N. intro E; specialize (B x prev top E). lia.
Qed.

Lemma step_lock : forall l s s', inv s -> take_lock l s = Some s' -> inv s'.
Proof.
  intros l s s' (K & P & L & B) H. unfold take_lock in H. destruct (pc s l) as [|prev top| | |] eqn:Ep; try discriminate.
  destruct (lock s) eqn:El; [discriminate|]. injection H as <-.
  assert (W0 : work s = None) by (unfold work; rewrite El; reflexivity). rewrite W0 in K.
  split; [|split; [|split]].
  - unfold work; cbn [lock pc]. rewrite setf_same.
    eapply core_frame; [exact K|reflexivity|reflexivity|intros t Ht; exact Ht|reflexivity|reflexivity|reflexivity|reflexivity|reflexivity|reflexivity|reflexivity|exact (core_rd _ _ K)|exact (k_log _ _ K)].
  - unfold pubinv in *; cbn; rewrite El in P. rewrite setf_same. destruct (B l prev top Ep) as (B1 & B2).
    split; [reflexivity|]. split; [exact B1|]. split; [lia|]. split; [exact (k_nodup _ _ K)|]. split; [intros x Hx; exact Hx|].
    split; [|exact P]. intros t Ht N; contradiction.
  - intro x; cbn. destruct (Z.eq_dec x l) as [->|N].
    + rewrite setf_same; cbn; split; reflexivity.
    + rewrite setf_other by exact N. specialize (L x). rewrite El in L. split; [intro H; apply L in H; discriminate|congruence].
  - intros x p q; cbn. destruct (Z.eq_dec x l) as [->|N]; [rewrite setf_same; discriminate|rewrite setf_other by exact N; apply B].
Qed.

Lemma step_create : forall t s s', inv s -> create c t s = Some s' -> inv s'.
Proof.
  intros t s s' (K & P & L & B) H. unfold create in H. destruct (lock s) eqn:El; [discriminate|].
  destruct (mem_b t (tcbs s)) eqn:Em; [discriminate|].
  assert (Hnew : ~ In t (tcbs s)) by (intro X; apply mem_b_In in X; congruence).
  destruct (fill c t (indices (n s)) (fun _ => None) (next_blk s) (content s)) as [[v k] f] eqn:Ef.
  destruct (fill_spec _ _ _ _ _ _ _ _ _ (indices_nodup _) Ef) as (F1 & F2 & F3 & F4 & _).
  injection H as <-. assert (W0 : work s = None) by (unfold work; rewrite El; reflexivity). rewrite W0 in K.
  assert (Hne : forall u, In u (tcbs s) -> u <> t) by (intros u Hu ->; contradiction).
  assert (Hin : forall u, In u (tcbs s ++ [t]) -> In u (tcbs s) \/ u = t) by (intros u Hu; apply in_app_iff in Hu; destruct Hu as [|[|[]]]; auto).
  assert (Hin' : forall u, In u (tcbs s) -> In u (tcbs s ++ [t])) by (intros u Hu; apply in_app_iff; auto).
  assert (Hd : forall u, In u (tcbs s) -> setf (dtv s) t (next_vec s) u = dtv s u) by (intros u Hu; apply setf_other; exact (Hne u Hu)).
  assert (Hv : forall u i, In u (tcbs s) -> setf (vec s) (next_vec s) v (dtv s u) i = vec s (dtv s u) i).
  { intros u i Hu. rewrite setf_other; [reflexivity|]. destruct (k_vecs _ _ K u Hu) as (X & _); lia. }
  assert (Hl : forall u, In u (tcbs s) -> setf (len s) (next_vec s) (n s) (dtv s u) = len s (dtv s u)).
  { intros u Hu. rewrite setf_other; [reflexivity|]. destruct (k_vecs _ _ K u Hu) as (X & _); lia. }
  assert (Hvi : forall i b, v i = Some b -> 1 <= i < n s /\ ((stat c i = true /\ b = Stat t i) \/ (stat c i = false /\ exists m, b = Dyn m /\ next_blk s <= m < k))).
  { intros i b E. destruct (in_dec Z.eq_dec i (indices (n s))) as [I|I].
    - split; [apply indices_In; exact I|]. destruct (F3 i I) as [(X1 & X2 & _)|(X1 & m & X2 & X3 & _)]; rewrite X2 in E; injection E as <-; [left; auto|right; split; [exact X1|exists m; auto]].
    - rewrite (F2 i I) in E; discriminate. }
  split; [|split; [|split]].
  - unfold work; cbn [lock]. destruct K; constructor; unfold bnd, eff, kind in *; cbn in *.
    + exact k_n0.
    + exact k_ready0.
    + apply NoDup_rev in k_nodup0. rewrite <- (rev_involutive (tcbs s ++ [t])). apply NoDup_rev. rewrite rev_app_distr; cbn.
      constructor; [rewrite <- in_rev; exact Hnew|exact k_nodup0].
    + intros u Hu; destruct (Hin u Hu) as [Hu'| ->]; [rewrite (Hd u Hu'); destruct (k_vecs0 u Hu'); lia|rewrite setf_same; lia].
    + intros u w Hu Hw N. destruct (Hin u Hu) as [Hu'| ->]; destruct (Hin w Hw) as [Hw'| ->].
      * rewrite (Hd u Hu'), (Hd w Hw'). apply k_sep0; assumption.
      * rewrite (Hd u Hu'), setf_same. destruct (k_vecs0 u Hu'); lia.
      * rewrite (Hd w Hw'), setf_same. destruct (k_vecs0 w Hw'); lia.
      * contradiction.
    + intros u i b Hu E; destruct (Hin u Hu) as [Hu'| ->].
      * rewrite (Hd u Hu') in *. rewrite (Hv u i Hu') in E. rewrite (Hl u Hu'). exact (k_range0 u i b Hu' E).
      * rewrite !setf_same in *. destruct (Hvi i b E); assumption.
    + intros u i b Hu E; exact E.
    + intros u i b Hu E; destruct (Hin u Hu) as [Hu'| ->].
      * rewrite (Hd u Hu'), (Hv u i Hu') in E. destruct (k_bind0 u i b Hu' E) as [X|(X1 & m & X2 & X3)]; [left; exact X|right]. split; [exact X1|]. exists m; split; [exact X2|lia].
      * rewrite !setf_same in E. destruct (Hvi i b E) as (_ & [X|(X1 & m & X2 & X3)]); [left; exact X|right]. split; [exact X1|]. exists m; split; [exact X2|lia].
    + assert (Hmix : forall u i j m, In u (tcbs s) -> vec s (dtv s u) i = Some (Dyn m) -> v j = Some (Dyn m) -> False).
      { intros u i j m Hu E1 E2. destruct (k_bind0 u i _ Hu E1) as [(_ & X)|(_ & m' & X & Y)]; [discriminate|injection X as <-].
        destruct (Hvi j _ E2) as (_ & [(_ & X)|(_ & m' & X & Z)]); [discriminate|injection X as <-; lia]. }
      intros u w i j m Hu Hw E1 E2. destruct (Hin u Hu) as [Hu'| ->]; destruct (Hin w Hw) as [Hw'| ->].
      * rewrite (Hd u Hu') in E1; rewrite (Hd w Hw') in E2. rewrite (Hv u i Hu') in E1. rewrite (Hv w j Hw') in E2. exact (k_inj0 u w i j m Hu' Hw' E1 E2).
      * rewrite (Hd u Hu') in E1. rewrite !setf_same in E2. rewrite (Hv u i Hu') in E1. destruct (Hmix u i j m Hu' E1 E2).
      * rewrite (Hd w Hw') in E2. rewrite !setf_same in E1. rewrite (Hv w j Hw') in E2. destruct (Hmix w j i m Hw' E2 E1).
      * rewrite !setf_same in E1, E2. split; [reflexivity|]. apply (F4 i j m); [apply indices_In; exact (proj1 (Hvi i _ E1))|apply indices_In; exact (proj1 (Hvi j _ E2))|exact E1|exact E2].
    + intros u Hu; destruct (Hin u Hu) as [Hu'| ->].
      * rewrite (Hd u Hu'), (Hl u Hu'). rewrite setf_other by exact (Hne u Hu'). apply k_len0; exact Hu'.
      * rewrite !setf_same; lia.
    + intros u i Hu He Hi; destruct (Hin u Hu) as [Hu'| ->].
      * rewrite (Hd u Hu'), (Hv u i Hu'). rewrite setf_other by exact (Hne u Hu'). apply k_slot0; assumption.
      * rewrite !setf_same. specialize (k_ready0 i Hi). split; [lia|].
        destruct (F3 i (proj2 (indices_In _ _) k_ready0)) as [(_ & X & _)|(_ & m & X & _)]; rewrite X; discriminate.
    + intro u. destruct (Z.eq_dec u t) as [->|N]; [rewrite (setf_same _ (rd s)); exact I|rewrite (setf_other _ (rd s)) by exact N].
      specialize (k_rd0 u). destruct (rd s u); [exact I|destruct k_rd0 as (X1 & X2 & X3); auto|].
      destruct k_rd0 as (X1 & X2 & X3 & X4). rewrite (Hd u X1), (Hv u i X1). auto.
    + eapply Forall_impl; [|exact k_log0]. intros e (X1 & b & X2 & X3). split; [exact (Hin' _ X1)|]. exists b. split; [exact X2|].
      rewrite (Hd _ X1), (Hv _ _ X1). exact X3.
  - unfold pubinv in *; cbn; rewrite El in P. intros u Hu; unfold settled in *; cbn. destruct (Hin u Hu) as [Hu'| ->].
    + rewrite (Hd u Hu'), (Hl u Hu'). rewrite setf_other by exact (Hne u Hu'). exact (P u Hu').
    + rewrite !setf_same; reflexivity.
  - intro x; cbn. specialize (L x). rewrite El in L. exact L.
  - intros x p q; cbn. apply B.
Qed.

(** the loader goes on to another thread, or to the slots of a thread in place *)
Lemma core_weff : forall w w' s s', core w s ->
  n s' = n s -> tcbs s' = tcbs s -> exited s' = exited s -> dtv_size s' = dtv_size s -> dtv s' = dtv s -> vec s' = vec s -> len s' = len s ->
  next_vec s' = next_vec s -> next_blk s' = next_blk s -> ready s' = ready s -> rd s' = rd s -> log s' = log s ->
  (forall t, eff w' s' t = eff w s t) -> core w' s'.
Proof.
  intros w w' s s' K E1 E2 E3 E4 E5 E6 E7 E8 E9 E10 E11 E12 Ee. destruct K.
  assert (Eb : forall t i, bnd w' s' t i = bnd w s t i) by (intros t i; unfold bnd; rewrite Ee, E6; reflexivity).
  constructor; unfold kind in *;
    repeat match goal with H : ?f s' = ?f s |- _ => rewrite H; clear H end; intros; rewrite ?Ee in *; rewrite ?Eb in *; eauto.
  - specialize (k_rd0 t). destruct (rd s t) eqn:Er; [exact I|exact k_rd0|]. rewrite Eb; exact k_rd0.
  - eapply Forall_impl; [|exact k_log0]. intros e (H1 & b & H2 & H3). split; [exact H1|]. exists b. rewrite Eb. auto.
Qed.

Lemma in_not : forall (x : Z) l t ts, ~ In x ts -> x <> t -> l = t :: ts -> ~ In x l.
Proof. intros x l t ts H1 H2 -> [->|H]; contradiction. Qed.

Lemma pub_done : forall l s s' prev top new, inv s -> pc s l = LPub prev top new [] -> publish c l s = Some s' -> inv s'.
Proof.
  intros l s s' prev top new (K & P & L & B) Ep H. unfold publish in H; rewrite Ep in H. injection H as <-.
  assert (El : lock s = Some l) by (apply L; rewrite Ep; reflexivity).
  assert (W0 : work s = None) by (unfold work; rewrite El, Ep; reflexivity). rewrite W0 in K.
  unfold pubinv in P; rewrite El, Ep in P. destruct P as (-> & P2 & P3 & P4 & P5 & P6 & P7).
  split; [|split; [|split]].
  - unfold work; cbn [lock]. destruct K; constructor; unfold bnd, eff, kind in *; cbn in *; auto.
    + intros i Hi. apply orb_true_iff in Hi; destruct Hi as [Hi|Hi]; [auto|]. apply andb_true_iff in Hi; destruct Hi as (X & Y).
      apply Z.leb_le in X; apply Z.ltb_lt in Y; lia.
    + intros t i Ht He Hi. apply orb_true_iff in Hi; destruct Hi as [Hi|Hi]; [auto|]. apply andb_true_iff in Hi; destruct Hi as (X & Y).
      apply Z.leb_le in X; apply Z.ltb_lt in Y. destruct (P6 t Ht (fun x => x) He) as (F1 & F2). split; [lia|]. apply F2; lia.
    + intro t; specialize (k_rd0 t). destruct (rd s t); [exact I| |].
      * destruct k_rd0 as (X1 & X2 & X3). rewrite X3; auto.
      * destruct k_rd0 as (X1 & X2 & X3 & X4). rewrite X3; auto.
  - unfold pubinv; cbn. exact P7.
  - intro x; cbn. destruct (Z.eq_dec x l) as [->|N].
    + rewrite setf_same; cbn; split; discriminate.
    + rewrite setf_other by exact N. specialize (L x). rewrite El in L. split; [intro H; apply L in H; congruence|discriminate].
  - intros x p q; cbn. destruct (Z.eq_dec x l) as [->|N]; [rewrite setf_same; discriminate|rewrite setf_other by exact N; apply B].
Qed.

Lemma pub_skip : forall l s s' prev top new t ts, inv s -> pc s l = LPub prev top new (t :: ts) -> exited s t = true -> s' = set_pc s l (LPub prev top new ts) -> inv s'.
Proof.
  intros l s s' prev top new t ts (K & P & L & B) Ep Hx ->.
  assert (El : lock s = Some l) by (apply L; rewrite Ep; reflexivity).
  assert (W0 : work s = None) by (unfold work; rewrite El, Ep; reflexivity). rewrite W0 in K.
  unfold pubinv in P; rewrite El, Ep in P. destruct P as (-> & P2 & P3 & P4 & P5 & P6 & P7).
  split; [|split; [|split]].
  - unfold work; cbn [lock set_pc pc]. rewrite El, setf_same. eapply core_weff; [exact K|reflexivity..].
  - unfold pubinv; cbn [lock set_pc pc]; rewrite El, setf_same.
    split; [reflexivity|]. split; [exact P2|]. split; [exact P3|]. split; [inversion P4; assumption|]. split; [intros x Hi; apply P5; right; exact Hi|].
    split; [|exact P7]. intros u H1 H2 H3. apply P6; [exact H1| |exact H3]. intros [->|X]; [cbn in H3; congruence|contradiction].
  - eapply locked_set; [exact L|reflexivity|reflexivity|rewrite Ep; reflexivity].
  - eapply builtinv_set; [exact B|reflexivity|reflexivity|left; reflexivity].
Qed.

Lemma pub_inplace : forall l s s' prev top new t ts, inv s -> pc s l = LPub prev top new (t :: ts) -> exited s t = false -> new <= dtv_size s t ->
  s' = set_pc s l (LSlots prev top new t ts (dtv s t) prev false) -> inv s'.
Proof.
  intros l s s' prev top new t ts (K & P & L & B) Ep Hx Hs ->.
  assert (El : lock s = Some l) by (apply L; rewrite Ep; reflexivity).
  assert (W0 : work s = None) by (unfold work; rewrite El, Ep; reflexivity). rewrite W0 in K.
  unfold pubinv in P; rewrite El, Ep in P. destruct P as (-> & P2 & P3 & P4 & P5 & P6 & P7).
  assert (Ht : In t (tcbs s)) by (apply P5; left; reflexivity).
  split; [|split; [|split]].
  - unfold work; cbn [lock set_pc pc]. rewrite El, setf_same. eapply core_weff; [exact K|reflexivity..|].
    intro u; unfold eff; cbn. destruct (Z.eqb_spec u t) as [->|N]; reflexivity.
  - unfold pubinv; cbn [lock set_pc pc]; rewrite El, setf_same. pose proof (k_len _ _ K t Ht). pose proof (P7 t Ht) as Hset; unfold settled in Hset.
    split; [reflexivity|]. split; [exact P2|]. split; [exact P3|]. split; [exact P4|]. split; [exact P5|]. split; [exact P6|]. split; [exact P7|].
    split; [lia|]. split; [right; reflexivity|]. split; [intros j Hj; lia|]. cbn. split; [lia|]. split; [reflexivity|lia].
  - eapply locked_set; [exact L|reflexivity|reflexivity|rewrite Ep; reflexivity].
  - eapply builtinv_set; [exact B|reflexivity|reflexivity|left; reflexivity].
Qed.

Lemma pub_grow : forall l s s' prev top new t ts, inv s -> pc s l = LPub prev top new (t :: ts) -> exited s t = false -> dtv_size s t < new ->
  publish c l s = Some s' -> inv s' /\ work s' = Some (t, next_vec s) /\ forall u j, In u (tcbs s) -> bnd (work s') s' u j = bnd (work s) s u j.
Proof.
  intros l s s' prev top new t ts (K & P & L & B) Ep Hx Hs H.
  assert (El : lock s = Some l) by (apply L; rewrite Ep; reflexivity).
  unfold publish in H; rewrite Ep, Hx in H. rewrite (proj2 (Z.ltb_lt _ _) Hs) in H. injection H as <-.
  assert (W0 : work s = None) by (unfold work; rewrite El, Ep; reflexivity). rewrite W0 in *.
  unfold pubinv in P; rewrite El, Ep in P. destruct P as (-> & P2 & P3 & P4 & P5 & P6 & P7).
  assert (Ht : In t (tcbs s)) by (apply P5; left; reflexivity).
  set (a := next_vec s).
  assert (Ha : forall u, In u (tcbs s) -> dtv s u <> a) by (intros u Hu; destruct (k_vecs _ _ K u Hu); unfold a; lia).
  match goal with |- inv ?s1 /\ _ => set (s' := s1) end.
  assert (W1 : work s' = Some (t, a)) by (unfold work, s'; cbn; rewrite El, setf_same; reflexivity).
  assert (Hv : forall u j, In u (tcbs s) -> vec s' (dtv s u) j = vec s (dtv s u) j).
  { intros u j Hu. unfold s'; cbn. rewrite setf_other by exact (Ha u Hu). reflexivity. }
  assert (Hl : forall u, In u (tcbs s) -> len s' (dtv s u) = len s (dtv s u)).
  { intros u Hu. unfold s'; cbn. rewrite setf_other by exact (Ha u Hu). reflexivity. }
  assert (Hb : forall u j, In u (tcbs s) -> bnd (work s') s' u j = bnd None s u j).
  { intros u j Hu. rewrite W1. unfold bnd, eff. change (dtv s') with (dtv s). destruct (Z.eqb_spec u t) as [->|N]; [|apply Hv; exact Hu].
    unfold s'; cbn. rewrite setf_same. destruct (j <? dtv_size s t) eqn:Ej; [reflexivity|]. apply Z.ltb_ge in Ej.
    destruct (vec s (dtv s t) j) as [b|] eqn:Eb; [|reflexivity]. pose proof (k_range _ _ K t j b Ht Eb) as R. cbn in R. pose proof (P7 t Ht) as X; unfold settled in X; lia. }
  assert (He : forall u, eff (work s') s' u = if u =? t then a else dtv s u) by (intro u; rewrite W1; reflexivity).
  split; [|split; [exact W1|exact Hb]].
  split; [|split; [|split]].
  - destruct K; constructor; unfold kind in *.
    + exact k_n0.
    + exact k_ready0.
    + exact k_nodup0.
    + intros u Hu. change (In u (tcbs s)) in Hu. rewrite He. change (dtv s') with (dtv s). change (next_vec s') with (a + 1). destruct (k_vecs0 u Hu). unfold a. destruct (u =? t); lia.
    + intros u w Hu Hw N. change (In u (tcbs s)) in Hu. change (In w (tcbs s)) in Hw. rewrite !He. change (dtv s') with (dtv s).
      destruct (k_sep0 u w Hu Hw N) as (X & _). pose proof (Ha u Hu). pose proof (Ha w Hw).
      destruct (Z.eqb_spec u t) as [->|N1]; destruct (Z.eqb_spec w t) as [->|N2]; repeat split; congruence.
    + intros u i b Hu E. change (In u (tcbs s)) in Hu. rewrite (Hb u i Hu) in E. pose proof (k_range0 u i b Hu E) as R. rewrite He. cbn in R.
      destruct (Z.eqb_spec u t) as [->|N]; [|rewrite (Hl u Hu); exact R]. replace (len s' a) with (n s) by (unfold s'; cbn; rewrite setf_same; reflexivity).
      destruct (k_len0 t Ht); lia.
    + intros u i b Hu E. change (In u (tcbs s)) in Hu. change (dtv s') with (dtv s) in E. rewrite (Hv u i Hu) in E. rewrite (Hb u i Hu). exact E.
    + intros u i b Hu E. change (In u (tcbs s)) in Hu. rewrite (Hb u i Hu) in E. exact (k_bind0 u i b Hu E).
    + intros u w i j k Hu Hw E1 E2. change (In u (tcbs s)) in Hu. change (In w (tcbs s)) in Hw. rewrite (Hb u i Hu) in E1. rewrite (Hb w j Hw) in E2. exact (k_inj0 u w i j k Hu Hw E1 E2).
    + intros u Hu. change (In u (tcbs s)) in Hu. change (dtv s') with (dtv s). rewrite (Hl u Hu). exact (k_len0 u Hu).
    + intros u i Hu Hex Hi. change (In u (tcbs s)) in Hu. change (dtv s') with (dtv s). rewrite (Hv u i Hu). exact (k_slot0 u i Hu Hex Hi).
    + intro u. change (rd s' u) with (rd s u). specialize (k_rd0 u). destruct (rd s u); [exact I|exact k_rd0|].
      destruct k_rd0 as (X1 & X2 & X3 & X4). rewrite (Hb u i X1). auto.
    + change (log s') with (log s). eapply Forall_impl; [|exact k_log0]. intros e (X1 & b & X2 & X3). split; [exact X1|]. exists b. rewrite (Hb _ _ X1). auto.
  - assert (Ps : forall u, In u (tcbs s) -> settled s' u) by (intros u Hu; unfold settled; change (dtv s') with (dtv s); rewrite (Hl u Hu); exact (P7 u Hu)).
    unfold pubinv. change (lock s') with (lock s). rewrite El. replace (pc s' l) with (LSlots prev top (n s) t ts a prev true) by (unfold s'; cbn; rewrite setf_same; reflexivity).
    split; [reflexivity|]. split; [exact P2|]. split; [exact P3|]. split; [exact P4|]. split; [exact P5|].
    split. { intros u H1 H2 H3. change (In u (tcbs s)) in H1. destruct (P6 u H1 H2 H3) as (F1 & F2). split; [exact F1|]. intros j Hj. change (dtv s') with (dtv s). rewrite (Hv u j H1). exact (F2 j Hj). }
    split; [exact Ps|]. split; [lia|]. split; [right; reflexivity|]. split; [intros j Hj; lia|]. split; [unfold s'; cbn; apply setf_same|].
    split; [apply not_eq_sym; exact (Ha t Ht)|exact Hs].
  - eapply locked_set; [exact L|reflexivity|reflexivity|rewrite Ep; reflexivity].
  - eapply builtinv_set; [exact B|reflexivity|reflexivity|left; reflexivity].
Qed.

(** which block a slot gets *)
Definition chosen (s : state) (t a i : Z) : block := if stat c i then Stat t i else match vec s a i with Some b => b | None => Dyn (next_blk s) end.
Definition counter (s : state) (a i : Z) : Z := if stat c i then next_blk s else match vec s a i with Some b => next_blk s | None => next_blk s + 1 end.

Lemma pub_slot : forall l s s' prev top new t ts a i grow, inv s -> pc s l = LSlots prev top new t ts a i grow -> i < new ->
  publish c l s = Some s' -> inv s' /\ content s' = set_content (content s) (chosen s t a i) Image /\ In t (tcbs s) /\ 1 <= i /\
  (forall u j, In u (tcbs s) -> bnd (work s') s' u j = if (u =? t) && (j =? i) then Some (chosen s t a i) else bnd (work s) s u j) /\
  (forall b, bnd (work s) s t i = Some b -> b = chosen s t a i).
Proof.
  intros l s s' prev top new t ts a i grow (K & P & L & B) Ep Hi H.
  assert (El : lock s = Some l) by (apply L; rewrite Ep; reflexivity).
  assert (W0 : work s = Some (t, a)) by (unfold work; rewrite El, Ep; reflexivity). rewrite W0 in *.
  unfold pubinv in P; rewrite El, Ep in P. destruct P as (-> & P2 & P3 & P4 & P5 & P6 & P7 & P8 & P9 & P10 & P11 & P12).
  assert (Ht : In t (tcbs s)) by (apply P5; left; reflexivity).
  assert (E : s' = {| n := n s; tcbs := tcbs s; exited := exited s; dtv_size := dtv_size s; dtv := dtv s; vec := set2 (vec s) a i (Some (chosen s t a i)); len := len s; next_vec := next_vec s;
                next_blk := counter s a i; content := set_content (content s) (chosen s t a i) Image; lock := lock s; active := active s; pc := setf (pc s) l (LSlots prev top (n s) t ts a (i + 1) grow);
                rd := rd s; ready := ready s; log := log s |}).
  { unfold publish in H; rewrite Ep in H. rewrite (proj2 (Z.ltb_lt _ _) Hi) in H. unfold chosen, counter. destruct (stat c i); [injection H as <-; reflexivity|].
    destruct (vec s a i); injection H as <-; reflexivity. }
  assert (W1 : work s' = Some (t, a)) by (rewrite E; unfold work; cbn; rewrite El, setf_same; reflexivity).
  assert (Het : eff (Some (t, a)) s t = a) by (unfold eff; rewrite Z.eqb_refl; reflexivity).
  assert (He : forall u, eff (Some (t, a)) s' u = eff (Some (t, a)) s u) by (intro u; rewrite E; reflexivity).
  assert (Hsame : forall b, bnd (Some (t, a)) s t i = Some b -> b = chosen s t a i).
  { intros b Hb. pose proof (k_bind _ _ K t i b Ht Hb) as X. unfold chosen. unfold bnd in Hb; rewrite Het in Hb.
    destruct X as [(X1 & X2)|(X1 & k & X2 & X3)]; rewrite X1; [exact X2|]. rewrite Hb; reflexivity. }
  assert (Hb : forall u j, In u (tcbs s) -> bnd (Some (t, a)) s' u j = if (u =? t) && (j =? i) then Some (chosen s t a i) else bnd (Some (t, a)) s u j).
  { intros u j Hu. unfold bnd. rewrite He. rewrite E; cbn [vec].
    destruct (Z.eqb_spec u t) as [->|N]; cbn [andb].
    - rewrite Het. destruct (Z.eqb_spec j i) as [->|N]; [apply set2_same|]. rewrite set2_other by (right; exact N). reflexivity.
    - rewrite set2_other; [reflexivity|left]. destruct (k_sep _ _ K u t Hu Ht N) as (_ & _ & X). rewrite Het in X. exact X. }
  assert (Hmono : forall u j b, In u (tcbs s) -> bnd (Some (t, a)) s u j = Some b -> bnd (Some (t, a)) s' u j = Some b).
  { intros u j b Hu Eb. rewrite (Hb u j Hu). destruct (Z.eqb_spec u t) as [->|N]; cbn [andb]; [|exact Eb].
    destruct (Z.eqb_spec j i) as [->|N]; [|exact Eb]. f_equal. symmetry; exact (Hsame b Eb). }
  assert (Hcnt : next_blk s <= counter s a i) by (unfold counter; destruct (stat c i); [lia|destruct (vec s a i); lia]).
  assert (Hvd : forall u j, In u (tcbs s) -> vec s (dtv s u) j <> None -> vec s' (dtv s u) j <> None).
  { intros u j Hu X. rewrite E; cbn [vec]. destruct (Z.eq_dec (dtv s u) a) as [Ea|Na]; [|rewrite set2_other by (left; exact Na); exact X].
    destruct (Z.eq_dec j i) as [->|Nj]; [rewrite Ea, set2_same; discriminate|rewrite set2_other by (right; exact Nj); exact X]. }
  assert (Hchosen : kind s' t i (chosen s t a i)).
  { unfold kind, chosen. rewrite E; cbn [next_blk]. unfold counter. destruct (stat c i) eqn:Es; [left; auto|right; split; [reflexivity|]].
    destruct (vec s a i) as [b|] eqn:Ev; [|exists (next_blk s); split; [reflexivity|lia]].
    assert (X : bnd (Some (t, a)) s t i = Some b) by (unfold bnd; rewrite Het; exact Ev).
    destruct (k_bind _ _ K t i b Ht X) as [(X1 & _)|(_ & X1)]; [congruence|exact X1]. }
  assert (Hdyn : forall u j k, In u (tcbs s) -> bnd (Some (t, a)) s u j = Some (Dyn k) -> chosen s t a i = Dyn k -> u = t /\ j = i).
  { intros u j k Hu Eb Ec. unfold chosen in Ec. destruct (stat c i) eqn:Es; [discriminate|]. destruct (vec s a i) as [b|] eqn:Ev.
    - assert (X : bnd (Some (t, a)) s t i = Some (Dyn k)) by (unfold bnd; rewrite Het, Ev, Ec; reflexivity). exact (k_inj _ _ K u t j i k Hu Ht Eb X).
    - injection Ec as <-. destruct (k_bind _ _ K u j _ Hu Eb) as [(_ & X)|(_ & k & X & Y)]; [discriminate|injection X as <-; lia]. }
  rewrite W1. split; [|split; [rewrite E; reflexivity|split; [exact Ht|split; [lia|split; [exact Hb|exact Hsame]]]]].
  split; [|split; [|split]].
  - rewrite W1. destruct K; constructor.
    + rewrite E; exact k_n0.
    + rewrite E; exact k_ready0.
    + rewrite E; exact k_nodup0.
    + intros u Hu. rewrite He. rewrite E in *. exact (k_vecs0 u Hu).
    + intros u w. rewrite !He. rewrite E. exact (k_sep0 u w).
    + intros u j b Hu Eb. replace (tcbs s') with (tcbs s) in Hu by (rewrite E; reflexivity). rewrite He. replace (len s') with (len s) by (rewrite E; reflexivity).
      rewrite (Hb u j Hu) in Eb. destruct (Z.eqb_spec u t) as [->|N]; cbn [andb] in Eb; [|exact (k_range0 u j b Hu Eb)].
      destruct (Z.eqb_spec j i) as [->|N]; [|exact (k_range0 t j b Hu Eb)]. rewrite Het, P11. lia.
    + intros u j b Hu Eb. replace (tcbs s') with (tcbs s) in Hu by (rewrite E; reflexivity). replace (dtv s') with (dtv s) in Eb by (rewrite E; reflexivity).
      replace (vec s') with (set2 (vec s) a i (Some (chosen s t a i))) in Eb by (rewrite E; reflexivity).
      destruct (Z.eq_dec (dtv s u) a) as [Ea|Na].
      * assert (u = t) as ->. { destruct (Z.eq_dec u t) as [X|N]; [exact X|]. destruct (k_sep0 t u Ht Hu (not_eq_sym N)) as (_ & X & _). rewrite Het in X. congruence. }
        rewrite Ea in Eb. destruct (Z.eq_dec j i) as [->|Nj].
        -- rewrite set2_same in Eb. rewrite (Hb t i Ht), !Z.eqb_refl; exact Eb.
        -- rewrite set2_other in Eb by (right; exact Nj). apply Hmono; [exact Ht|]. unfold bnd; rewrite Het; exact Eb.
      * rewrite set2_other in Eb by (left; exact Na). apply Hmono; [exact Hu|]. exact (k_mono0 u j b Hu Eb).
    + intros u j b Hu Eb. replace (tcbs s') with (tcbs s) in Hu by (rewrite E; reflexivity). rewrite (Hb u j Hu) in Eb.
      assert (X : bnd (Some (t, a)) s u j = Some b -> kind s' u j b).
      { intro X. destruct (k_bind0 u j b Hu X) as [Y|(Y1 & k & Y2 & Y3)]; [left; exact Y|right]. split; [exact Y1|]. exists k. split; [exact Y2|]. rewrite E; cbn [next_blk]; lia. }
      destruct (Z.eqb_spec u t) as [->|N]; cbn [andb] in Eb; [|exact (X Eb)]. destruct (Z.eqb_spec j i) as [->|N]; [|exact (X Eb)]. injection Eb as <-. exact Hchosen.
    + intros u w j1 j2 k Hu Hw E1 E2. replace (tcbs s') with (tcbs s) in Hu, Hw by (rewrite E; reflexivity). rewrite (Hb u j1 Hu) in E1. rewrite (Hb w j2 Hw) in E2.
      destruct ((u =? t) && (j1 =? i)) eqn:G1; destruct ((w =? t) && (j2 =? i)) eqn:G2;
        try (apply andb_true_iff in G1; destruct G1 as (G1 & G1'); apply Z.eqb_eq in G1, G1'; subst u j1);
        try (apply andb_true_iff in G2; destruct G2 as (G2 & G2'); apply Z.eqb_eq in G2, G2'; subst w j2).
      * auto.
      * injection E1 as E1. destruct (Hdyn w j2 k Hw E2 E1); auto.
      * injection E2 as E2. exact (Hdyn u j1 k Hu E1 E2).
      * exact (k_inj0 u w j1 j2 k Hu Hw E1 E2).
    + rewrite E; exact k_len0.
    + intros u j Hu Hex Hj. replace (dtv_size s') with (dtv_size s) by (rewrite E; reflexivity). replace (dtv s') with (dtv s) by (rewrite E; reflexivity).
      replace (tcbs s') with (tcbs s) in Hu by (rewrite E; reflexivity). assert (Y : ready s j = true) by (rewrite E in Hj; exact Hj). assert (Z : exited s u = false) by (rewrite E in Hex; exact Hex).
      destruct (k_slot0 u j Hu Z Y) as (X1 & X2). split; [exact X1|]. exact (Hvd u j Hu X2).
    + intro u. replace (rd s' u) with (rd s u) by (rewrite E; reflexivity). specialize (k_rd0 u).
      replace (tcbs s') with (tcbs s) by (rewrite E; reflexivity). replace (ready s') with (ready s) by (rewrite E; reflexivity). replace (exited s') with (exited s) by (rewrite E; reflexivity).
      destruct (rd s u); [exact I|exact k_rd0|]. destruct k_rd0 as (X1 & X2 & X3 & X4). auto.
    + replace (log s') with (log s) by (rewrite E; reflexivity). replace (tcbs s') with (tcbs s) by (rewrite E; reflexivity).
      eapply Forall_impl; [|exact k_log0]. intros e (X1 & b & X2 & X3). split; [exact X1|]. exists b. auto.
  - unfold pubinv. replace (lock s') with (Some l) by (rewrite E; cbn; congruence). replace (pc s' l) with (LSlots prev top (n s) t ts a (i + 1) grow) by (rewrite E; cbn; rewrite setf_same; reflexivity).
    replace (n s') with (n s) by (rewrite E; reflexivity). replace (tcbs s') with (tcbs s) by (rewrite E; reflexivity).
    split; [reflexivity|]. split; [exact P2|]. split; [exact P3|]. split; [exact P4|]. split; [exact P5|].
    split. { intros u H1 H2 H3. replace (tcbs s') with (tcbs s) in H1 by (rewrite E; reflexivity). assert (H3' : exited s u = false) by (rewrite E in H3; exact H3).
             destruct (P6 u H1 H2 H3') as (F1 & F2). split; [rewrite E; exact F1|]. intros j Hj. replace (n s') with (n s) in Hj by (rewrite E; reflexivity).
             replace (dtv s') with (dtv s) by (rewrite E; reflexivity). apply Hvd; [exact H1|exact (F2 j Hj)]. }
    split; [intros u Hu; rewrite E; exact (P7 u Hu)|]. split; [lia|]. split; [left; lia|].
    split. { intros j Hj. destruct (Z.eq_dec j i) as [->|N]; rewrite E; cbn [vec]; [rewrite set2_same; discriminate|]. rewrite set2_other by (right; exact N). apply P10; lia. }
    split; [rewrite E; exact P11|]. rewrite E; exact P12.
  - eapply locked_set; [exact L|rewrite E; reflexivity|rewrite E; reflexivity|rewrite Ep; reflexivity].
  - eapply builtinv_set; [exact B|rewrite E; reflexivity|rewrite E; reflexivity|left; reflexivity].
Qed.

Lemma pub_next : forall l s s' prev top new t ts a i, inv s -> pc s l = LSlots prev top new t ts a i false -> new <= i ->
  s' = set_pc s l (LPub prev top new ts) -> inv s' /\ forall u j, bnd (work s') s' u j = bnd (work s) s u j.
Proof.
  intros l s s' prev top new t ts a i (K & P & L & B) Ep Hi ->.
  assert (El : lock s = Some l) by (apply L; rewrite Ep; reflexivity).
  assert (W0 : work s = Some (t, a)) by (unfold work; rewrite El, Ep; reflexivity). rewrite W0 in *.
  unfold pubinv in P; rewrite El, Ep in P. destruct P as (-> & P2 & P3 & P4 & P5 & P6 & P7 & P8 & P9 & P10 & P11 & P12 & P13).
  assert (Ee : forall u, eff None (set_pc s l (LPub prev top (n s) ts)) u = eff (Some (t, a)) s u).
  { intro u; unfold eff; cbn. destruct (Z.eqb_spec u t) as [->|N]; [symmetry; exact P12|reflexivity]. }
  assert (W1 : work (set_pc s l (LPub prev top (n s) ts)) = None) by (unfold work; cbn; rewrite El, setf_same; reflexivity).
  split; [|intros u j; rewrite W1; unfold bnd; rewrite Ee; reflexivity].
  split; [|split; [|split]].
  - rewrite W1. eapply core_weff; [exact K|reflexivity..|exact Ee].
  - unfold pubinv; cbn [lock set_pc pc]; rewrite El, setf_same.
    split; [reflexivity|]. split; [exact P2|]. split; [exact P3|]. split; [inversion P4; assumption|]. split; [intros x Hx; apply P5; right; exact Hx|].
    split; [|exact P7]. intros u H1 H2 H3. destruct (Z.eq_dec u t) as [->|N].
    + split; [cbn; lia|]. intros j Hj. cbn. rewrite <- P12. apply P10. cbn in Hj. lia.
    + apply P6; [exact H1| |exact H3]. intros [X|X]; [congruence|contradiction].
  - eapply locked_set; [exact L|reflexivity|reflexivity|rewrite Ep; reflexivity].
  - eapply builtinv_set; [exact B|reflexivity|reflexivity|left; reflexivity].
Qed.

Lemma pub_store : forall l s s' prev top new t ts a i, inv s -> pc s l = LSlots prev top new t ts a i true -> new <= i ->
  publish c l s = Some s' -> inv s' /\ forall u j, bnd (work s') s' u j = bnd (work s) s u j.
Proof.
  intros l s s' prev top new t ts a i (K & P & L & B) Ep Hi H.
  assert (El : lock s = Some l) by (apply L; rewrite Ep; reflexivity).
  unfold publish in H; rewrite Ep in H. rewrite (proj2 (Z.ltb_ge _ _) Hi) in H. injection H as <-.
  assert (W0 : work s = Some (t, a)) by (unfold work; rewrite El, Ep; reflexivity). rewrite W0 in *.
  unfold pubinv in P; rewrite El, Ep in P. destruct P as (-> & P2 & P3 & P4 & P5 & P6 & P7 & P8 & P9 & P10 & P11 & P12 & P13).
  assert (Ht : In t (tcbs s)) by (apply P5; left; reflexivity).
  match goal with |- inv ?s1 /\ _ => set (s' := s1) end.
  assert (Hd : forall u, dtv s' u = eff (Some (t, a)) s u) by (intro u; reflexivity).
  assert (W1 : work s' = None) by (unfold work, s'; cbn; rewrite El, setf_same; reflexivity).
  assert (Hd' : forall u, u <> t -> dtv s' u = dtv s u) by (intros u N; unfold s'; cbn; apply setf_other; exact N).
  assert (Hdt : dtv s' t = a) by (unfold s'; cbn; apply setf_same).
  assert (Hb : forall u j, bnd None s' u j = bnd (Some (t, a)) s u j) by (intros u j; unfold bnd, eff; reflexivity).
  assert (Hvd : forall u j, In u (tcbs s) -> vec s (dtv s u) j <> None -> vec s (dtv s' u) j <> None).
  { intros u j Hu X. destruct (vec s (dtv s u) j) as [b|] eqn:Ev; [|contradiction]. pose proof (k_mono _ _ K u j b Hu Ev) as Y. unfold bnd in Y. rewrite Hd, Y; discriminate. }
  split; [|intros u j; rewrite W1; apply Hb].
  split; [|split; [|split]].
  - rewrite W1. destruct K; constructor.
    + exact k_n0.
    + exact k_ready0.
    + exact k_nodup0.
    + intros u Hu. change (eff None s' u) with (dtv s' u). rewrite Hd. destruct (k_vecs0 u Hu); auto.
    + intros u w Hu Hw N. change (eff None s') with (dtv s'). rewrite !Hd. destruct (k_sep0 u w Hu Hw N) as (_ & _ & X); auto.
    + intros u j b Hu Eb. exact (k_range0 u j b Hu Eb).
    + intros u j b Hu Eb. exact Eb.
    + intros u j b Hu Eb. exact (k_bind0 u j b Hu Eb).
    + intros u w j1 j2 k Hu Hw E1 E2. exact (k_inj0 u w j1 j2 k Hu Hw E1 E2).
    + intros u Hu. change (len s') with (len s). change (dtv_size s') with (dtv_size s). change (n s') with (n s). destruct (Z.eq_dec u t) as [->|N].
      * rewrite Hdt, P11. destruct (k_len0 t Hu); lia.
      * rewrite (Hd' u N). exact (k_len0 u Hu).
    + intros u j Hu Hex Hj. destruct (k_slot0 u j Hu Hex Hj) as (X1 & X2). split; [exact X1|]. exact (Hvd u j Hu X2).
    + exact k_rd0.
    + exact k_log0.
  - unfold pubinv. change (lock s') with (lock s); rewrite El. replace (pc s' l) with (LSize prev top (n s) t ts) by (unfold s'; cbn; rewrite setf_same; reflexivity).
    split; [reflexivity|]. split; [exact P2|]. split; [exact P3|]. split; [exact P4|]. split; [exact P5|].
    split. { intros u H1 H2 H3. destruct (P6 u H1 H2 H3) as (F1 & F2). split; [exact F1|]. intros j Hj. exact (Hvd u j H1 (F2 j Hj)). }
    split. { intros u Hu N. unfold settled. rewrite (Hd' u N). exact (P7 u Hu). }
    rewrite Hdt. split; [|exact P11]. intros j Hj. change (n s') with (n s) in Hj. apply P10; lia.
  - eapply locked_set; [exact L|reflexivity|reflexivity|rewrite Ep; reflexivity].
  - eapply builtinv_set; [exact B|reflexivity|reflexivity|left; reflexivity].
Qed.

Lemma pub_size : forall l s s' prev top new t ts, inv s -> pc s l = LSize prev top new t ts ->
  publish c l s = Some s' -> inv s' /\ forall u j, bnd (work s') s' u j = bnd (work s) s u j.
Proof.
  intros l s s' prev top new t ts (K & P & L & B) Ep H.
  assert (El : lock s = Some l) by (apply L; rewrite Ep; reflexivity).
  unfold publish in H; rewrite Ep in H. injection H as <-.
  assert (W0 : work s = None) by (unfold work; rewrite El, Ep; reflexivity). rewrite W0 in *.
  unfold pubinv in P; rewrite El, Ep in P. destruct P as (-> & P2 & P3 & P4 & P5 & P6 & P7 & P8 & P9).
  assert (Ht : In t (tcbs s)) by (apply P5; left; reflexivity).
  match goal with |- inv ?s1 /\ _ => set (s' := s1) end.
  assert (W1 : work s' = None) by (unfold work, s'; cbn; rewrite El, setf_same; reflexivity).
  assert (Hs : dtv_size s' t = n s) by (unfold s'; cbn; apply setf_same).
  assert (Hs' : forall u, u <> t -> dtv_size s' u = dtv_size s u) by (intros u N; unfold s'; cbn; apply setf_other; exact N).
  split; [|intros u j; rewrite W1; reflexivity].
  split; [|split; [|split]].
  - rewrite W1. pose proof (k_n _ _ K). destruct K; constructor; [exact k_n0|exact k_ready0|exact k_nodup0|exact k_vecs0|exact k_sep0|exact k_range0|exact k_mono0|exact k_bind0|exact k_inj0| | |exact k_rd0|exact k_log0].
    + intros u Hu. change (len s') with (len s). change (dtv s') with (dtv s). change (n s') with (n s). destruct (Z.eq_dec u t) as [->|N]; [rewrite Hs, P9; lia|rewrite (Hs' u N); exact (k_len0 u Hu)].
    + intros u j Hu Hex Hj. change (vec s') with (vec s). change (dtv s') with (dtv s). destruct (k_slot0 u j Hu Hex Hj) as (X1 & X2). split; [|exact X2].
      destruct (Z.eq_dec u t) as [->|N]; [rewrite Hs; apply k_ready0; exact Hj|rewrite (Hs' u N); exact X1].
  - unfold pubinv. change (lock s') with (lock s); rewrite El. replace (pc s' l) with (LPub prev top (n s) ts) by (unfold s'; cbn; rewrite setf_same; reflexivity).
    split; [reflexivity|]. split; [exact P2|]. split; [exact P3|]. split; [inversion P4; assumption|]. split; [intros x Hx; apply P5; right; exact Hx|].
    split.
    + intros u H1 H2 H3. destruct (Z.eq_dec u t) as [->|N].
      * split; [rewrite Hs; apply Z.le_refl|exact P8].
      * destruct (P6 u H1) as (F1 & F2); [intros [X|X]; [congruence|contradiction]|exact H3|]. split; [rewrite (Hs' u N); exact F1|exact F2].
    + intros u Hu. unfold settled. destruct (Z.eq_dec u t) as [->|N]; [rewrite Hs; exact P9|rewrite (Hs' u N); exact (P7 u Hu N)].
  - eapply locked_set; [exact L|reflexivity|reflexivity|rewrite Ep; reflexivity].
  - eapply builtinv_set; [exact B|reflexivity|reflexivity|left; reflexivity].
Qed.

Lemma step_publish : forall l s s', inv s -> publish c l s = Some s' -> inv s'.
Proof.
  intros l s s' V H. destruct (pc s l) as [|prev top|prev top new ts|prev top new t ts a i grow|prev top new t ts] eqn:Ep; [unfold publish in H; rewrite Ep in H; discriminate..| | |].
  - destruct ts as [|t ts]; [exact (pub_done l s s' _ _ _ V Ep H)|]. pose proof H as H'. unfold publish in H; rewrite Ep in H. destruct (exited s t) eqn:Ex.
    + injection H as <-. exact (pub_skip l s _ _ _ _ _ _ V Ep Ex eq_refl).
    + destruct (Z.ltb_spec (dtv_size s t) new) as [Hs|Hs].
      * exact (proj1 (pub_grow l s s' _ _ _ _ _ V Ep Ex Hs H')).
      * injection H as <-. exact (pub_inplace l s _ _ _ _ _ _ V Ep Ex Hs eq_refl).
  - destruct (Z.ltb_spec i new) as [Hi|Hi].
    + exact (proj1 (pub_slot l s s' _ _ _ _ _ _ _ _ V Ep Hi H)).
    + destruct grow; [exact (proj1 (pub_store l s s' _ _ _ _ _ _ _ V Ep Hi H))|].
      unfold publish in H; rewrite Ep in H. rewrite (proj2 (Z.ltb_ge _ _) Hi) in H. injection H as <-.
      exact (proj1 (pub_next l s _ _ _ _ _ _ _ _ V Ep Hi eq_refl)).
  - exact (proj1 (pub_size l s s' _ _ _ _ _ V Ep H)).
Qed.

Lemma step_inv : forall x a s s', inv s -> step c x a s = Some s' -> inv s'.
Proof.
  intros x a s s' V H. destruct a; cbn [step] in H.
  - exact (step_build _ _ _ _ V H).
  - exact (step_lock _ _ _ V H).
  - exact (step_publish _ _ _ V H).
  - exact (step_create _ _ _ V H).
  - exact (step_exit _ _ _ V H).
  - exact (step_access _ _ _ _ V H).
  - destruct (step_load _ _ _ V H) as (? & ? & ? & _ & _ & _ & _ & _ & _ & X); exact X.
  - exact (step_write _ _ _ _ V H).
  - exact (step_return _ _ _ V H).
Qed.
Lemma run_dtv : forall sched s, run (step c) sched start = Some s -> inv s.
Proof. intros sched s H. refine (run_inv _ _ (step c) inv _ sched start s inv_start H). intros; eapply step_inv; eassumption. Qed.

Lemma access_blocks : forall sched s, run (step c) sched start = Some s ->
  (forall e, In e (log s) -> exists b, e_block e = Some b) /\
  (forall e e', In e (log s) -> In e' (log s) -> (e_block e = e_block e' <-> e_thread e = e_thread e' /\ e_index e = e_index e')).
Proof.
  intros sched s H. destruct (run_dtv sched s H) as (K & _). pose proof (proj1 (Forall_forall _ _) (k_log _ _ K)) as F. split.
  - intros e He. destruct (F e He) as (_ & b & X & _). exists b; exact X.
  - intros e e' He He'. destruct (F e He) as (T & b & X & Y). destruct (F e' He') as (T' & b' & X' & Y'). rewrite X, X'. split.
    + intro E; injection E as <-. pose proof (k_bind _ _ K _ _ _ T Y) as A. pose proof (k_bind _ _ K _ _ _ T' Y') as A'.
      destruct A as [(_ & A)|(_ & k & A & _)]; destruct A' as [(_ & A')|(_ & k' & A' & _)]; rewrite A in *; try discriminate A'.
      * injection A' as -> ->; auto.
      * exact (k_inj _ _ K _ _ _ _ _ T T' Y Y').
    + intros (E1 & E2). rewrite E1, E2 in Y. congruence.
Qed.

(** ** Contents, if calls of dlopen do not overlap and static TLS belongs to global objects *)
Hypothesis Hserial : serial c = true.
Hypothesis Hglob : forall i, stat c i = true -> glob c i = true.

Lemma bnd_inj : forall w s t u i j b, core w s -> In t (tcbs s) -> In u (tcbs s) -> bnd w s t i = Some b -> bnd w s u j = Some b -> t = u /\ i = j.
Proof.
  intros w s t u i j b K Ht Hu E1 E2. destruct (k_bind _ _ K t i b Ht E1) as [(_ & ->)|(_ & k & -> & _)].
  - destruct (k_bind _ _ K u j _ Hu E2) as [(_ & X)|(_ & k & X & _)]; [injection X as -> ->; auto|discriminate].
  - exact (k_inj _ _ K t u i j k Ht Hu E1 E2).
Qed.

Definition span (p : lpc) : option (Z * Z) :=
  match p with
  | LIdle => None
  | LBuilt prev top => Some (prev, top)
  | LPub prev top _ _ => Some (prev, top)
  | LSlots prev top _ _ _ _ _ _ => Some (prev, top)
  | LSize prev top _ _ _ => Some (prev, top)
  end.
(** the slot [j] of thread [u] has been published by the loader at [p] *)
Definition published (p : lpc) (u j : Z) : Prop :=
  match p with
  | LPub prev _ _ ts => prev <= j /\ ~ In u ts
  | LSlots prev _ _ t ts _ i _ => prev <= j /\ (~ In u (t :: ts) \/ (u = t /\ j < i))
  | LSize prev _ _ t ts => prev <= j /\ ~ In u ts
  | _ => False
  end.
Record cinv (m : Z -> Z -> data) (s : state) : Prop := {
  c_act : (active s = 0 /\ forall l, pc s l = LIdle) \/ (active s = 1 /\ exists l0, pc s l0 <> LIdle /\ forall l, l <> l0 -> pc s l = LIdle);
  c_span : forall l prev top, span (pc s l) = Some (prev, top) -> top = n s /\ forall i, ready s i = true -> i < prev;
  c_new : forall t i, ready s i = false \/ ~ In t (tcbs s) -> m t i = Image;
  c_content : forall t i b, In t (tcbs s) -> exited s t = false -> ready s i = true -> bnd (work s) s t i = Some b -> content s b = m t i;
  c_pub : forall l u j b, lock s = Some l -> published (pc s l) u j -> In u (tcbs s) -> exited s u = false -> bnd (work s) s u j = Some b -> content s b = Image }.

Lemma cinv_start : cinv (fun _ _ => Image) start.
Proof. constructor; cbn; intros; try discriminate; try contradiction; auto. Qed.

Lemma act_set : forall s l p, pc s l <> LIdle -> p <> LIdle ->
  (active s = 0 /\ forall x, pc s x = LIdle) \/ (active s = 1 /\ exists l0, pc s l0 <> LIdle /\ forall x, x <> l0 -> pc s x = LIdle) ->
  (active s = 0 /\ forall x, setf (pc s) l p x = LIdle) \/ (active s = 1 /\ exists l0, setf (pc s) l p l0 <> LIdle /\ forall x, x <> l0 -> setf (pc s) l p x = LIdle).
Proof.
  intros s l p H1 H2 [(A & B)|(A & l0 & B1 & B2)]; [destruct (H1 (B l))|right]. split; [exact A|]. exists l0.
  destruct (Z.eq_dec l l0) as [->|N]; [|destruct (H1 (B2 l N))]. rewrite setf_same. split; [exact H2|]. intros x Hx. rewrite setf_other by exact Hx. exact (B2 x Hx).
Qed.
(** a loader goes on: blocks, contents and what is ready stay *)
Lemma cinv_loader : forall m s s' l p, cinv m s -> pc s l <> LIdle -> p <> LIdle -> pc s' = setf (pc s) l p -> active s' = active s -> span p = span (pc s l) ->
  n s' = n s -> tcbs s' = tcbs s -> exited s' = exited s -> ready s' = ready s -> content s' = content s ->
  (forall u j, In u (tcbs s) -> bnd (work s') s' u j = bnd (work s) s u j) ->
  lock s' = Some l -> (forall u j, In u (tcbs s) -> exited s u = false -> published p u j -> lock s = Some l /\ published (pc s l) u j \/ (forall b, bnd (work s) s u j = Some b -> content s b = Image)) ->
  cinv m s'.
Proof.
  intros m s s' l p C H1 H2 E1 E2 E3 E4 E5 E6 E7 E8 Hb Hl Hp. destruct C. constructor.
  - rewrite E1, E2. apply act_set; assumption.
  - intros x prev top. rewrite E1, E4, E7. destruct (Z.eq_dec x l) as [->|N]; [rewrite setf_same, E3; apply c_span0|rewrite setf_other by exact N; apply c_span0].
  - rewrite E5, E7; exact c_new0.
  - rewrite E5, E6, E7, E8. intros t i b Ht He Hi. rewrite (Hb t i Ht). exact (c_content0 t i b Ht He Hi).
  - intros x u j b. rewrite E5, E6, E8, E1, Hl. intros Ex; injection Ex as <-. rewrite setf_same. intros P Hu He. rewrite (Hb u j Hu). intro Eb.
    destruct (Hp u j Hu He P) as [(X & Y)|X]; [exact (c_pub0 l u j b X Y Hu He Eb)|exact (X b Eb)].
Qed.

Lemma cinv_publish : forall m l s s', inv s -> cinv m s -> publish c l s = Some s' -> cinv m s'.
Proof.
  intros m l s s' V C H. pose proof V as (K & P & L & B). pose proof (step_publish l s s' V H) as V'. pose proof V' as (K' & _).
  assert (El : holding (pc s l) = true -> lock s = Some l) by (intro X; apply L; exact X).
  destruct (pc s l) as [|prev top|prev top new ts|prev top new t ts a i grow|prev top new t ts] eqn:Ep; [unfold publish in H; rewrite Ep in H; discriminate..| | |];
    specialize (El eq_refl); unfold pubinv in P; rewrite El, Ep in P.
  - destruct ts as [|t ts].
    + unfold publish in H; rewrite Ep in H. injection H as <-. destruct C.
      assert (W0 : work s = None) by (unfold work; rewrite El, Ep; reflexivity).
      assert (Xl : forall x, x <> l -> pc s x = LIdle).
      { destruct c_act0 as [(_ & A)|(_ & l0 & A1 & A2)]; [auto|]. intros x N. destruct (Z.eq_dec l l0) as [->|N']; [exact (A2 x N)|]. rewrite (A2 l N') in Ep; discriminate. }
      destruct (c_span0 l prev top) as (S1 & S2); [rewrite Ep; reflexivity|].
      constructor; cbn.
      * left. split; [destruct c_act0 as [(_ & A)|(A & _)]; [rewrite A in Ep; discriminate|lia]|].
        intro x. destruct (Z.eq_dec x l) as [->|N]; [apply setf_same|rewrite setf_other by exact N; exact (Xl x N)].
      * intros x p q. destruct (Z.eq_dec x l) as [->|N]; [rewrite setf_same; discriminate|rewrite setf_other by exact N; rewrite (Xl x N); discriminate].
      * intros t i [Hi|Hi]; [apply orb_false_iff in Hi; apply c_new0; left; apply Hi|apply c_new0; right; exact Hi].
      * intros t i b Ht He Hi. unfold work; cbn. change (bnd None _ t i) with (bnd None s t i). rewrite W0 in *.
        destruct (ready s i) eqn:Er; [intro Eb; exact (c_content0 t i b Ht He Er Eb)|]. cbn in Hi. apply andb_true_iff in Hi; destruct Hi as (X & Y); apply Z.leb_le in X.
        intro Eb. rewrite (c_new0 t i (or_introl Er)). apply (c_pub0 l t i b El); [rewrite Ep; cbn; auto|exact Ht|exact He|exact Eb].
      * discriminate.
    + pose proof H as H'. unfold publish in H; rewrite Ep in H. destruct (exited s t) eqn:Ex.
      * injection H as <-. eapply (cinv_loader m s _ l); [exact C|rewrite Ep; discriminate| |reflexivity|reflexivity|rewrite Ep; reflexivity|reflexivity|reflexivity|reflexivity|reflexivity|reflexivity| |exact El|]; [discriminate| |].
        -- intros u j _. unfold work; cbn. rewrite El, setf_same, Ep. reflexivity.
        -- intros u j Hu He (X1 & X2). left. split; [exact El|]. rewrite Ep; cbn. split; [exact X1|]. intros [->|Y]; [congruence|contradiction].
      * destruct (Z.ltb_spec (dtv_size s t) new) as [Hs|Hs].
        -- destruct (pub_grow l s s' _ _ _ _ _ V Ep Ex Hs H') as (_ & _ & Hb). injection H as <-.
           eapply (cinv_loader m s _ l); [exact C|rewrite Ep; discriminate| |reflexivity|reflexivity|rewrite Ep; reflexivity|reflexivity|reflexivity|reflexivity|reflexivity|reflexivity|exact Hb|exact El|]; [discriminate|].
           intros u j Hu He (X1 & X2). left. split; [exact El|]. rewrite Ep; cbn. split; [exact X1|]. destruct X2 as [X2|(_ & X2)]; [exact X2|lia].
        -- injection H as <-. eapply (cinv_loader m s _ l); [exact C|rewrite Ep; discriminate| |reflexivity|reflexivity|rewrite Ep; reflexivity|reflexivity|reflexivity|reflexivity|reflexivity|reflexivity| |exact El|]; [discriminate| |].
           ++ intros u j _. unfold work; cbn. rewrite El, setf_same, Ep. unfold bnd, eff; cbn. destruct (Z.eqb_spec u t) as [->|]; reflexivity.
           ++ intros u j Hu He (X1 & X2). left. split; [exact El|]. rewrite Ep; cbn. split; [exact X1|]. destruct X2 as [X2|(_ & X2)]; [exact X2|lia].
  - destruct (Z.ltb_spec i new) as [Hi|Hi].
    + destruct (pub_slot l s s' _ _ _ _ _ _ _ _ V Ep Hi H) as (_ & Ec & Ht & Hi1 & Hb & Hsame).
      destruct P as (-> & P2 & P3 & P4 & P5 & P6 & P7 & P8 & P9 & P10 & P11 & P12).
      assert (F : n s' = n s /\ tcbs s' = tcbs s /\ exited s' = exited s /\ ready s' = ready s /\ active s' = active s /\ lock s' = lock s /\ pc s' = setf (pc s) l (LSlots prev top (n s) t ts a (i + 1) grow)).
      { unfold publish in H; rewrite Ep in H. rewrite (proj2 (Z.ltb_lt _ _) Hi) in H. destruct (stat c i); [injection H as <-; auto 10|]. destruct (vec s a i); injection H as <-; auto 10. }
      destruct F as (E4 & E5 & E6 & E7 & E2 & E9 & E1).
      assert (Hti : bnd (work s') s' t i = Some (chosen s t a i)) by (rewrite (Hb t i Ht), !Z.eqb_refl; reflexivity).
      assert (Hother : forall u j b, In u (tcbs s) -> bnd (work s') s' u j = Some b -> (u = t /\ j = i /\ content s' b = Image) \/ (~ (u = t /\ j = i) /\ bnd (work s) s u j = Some b /\ content s' b = content s b)).
      { intros u j b Hu Eb. pose proof Eb as Eb'. rewrite (Hb u j Hu) in Eb. destruct ((u =? t) && (j =? i)) eqn:G.
        - left. apply andb_true_iff in G; destruct G as (G1 & G2); apply Z.eqb_eq in G1, G2. injection Eb as <-. rewrite Ec, set_content_same. auto.
        - right. assert (N : ~ (u = t /\ j = i)) by (intros (-> & ->); rewrite !Z.eqb_refl in G; discriminate). split; [exact N|]. split; [exact Eb|].
          rewrite Ec. apply set_content_other. intros ->. apply N. rewrite <- E5 in Hu, Ht. destruct (bnd_inj _ _ _ _ _ _ _ K' Hu Ht Eb' Hti); auto. }
      destruct C. destruct (c_span0 l prev top) as (S1 & S2); [rewrite Ep; reflexivity|]. constructor.
      * rewrite E1, E2. apply act_set; [rewrite Ep; discriminate|discriminate|exact c_act0].
      * intros x p q. rewrite E1, E4, E7. destruct (Z.eq_dec x l) as [->|N]; [rewrite setf_same; cbn; intro X; injection X as <- <-; auto|rewrite setf_other by exact N; apply c_span0].
      * rewrite E5, E7; exact c_new0.
      * rewrite E5, E6, E7. intros u j b Hu He Hj Eb. destruct (Hother u j b Hu Eb) as [(-> & -> & _)|(_ & X & Y)]; [specialize (S2 i Hj); lia|].
        rewrite Y. exact (c_content0 u j b Hu He Hj X).
      * rewrite E5, E6, E9, El. intros x u j b Ex; injection Ex as <-. rewrite E1, setf_same. intros Hp Hu He Eb.
        destruct (Hother u j b Hu Eb) as [(_ & _ & X)|(N & X & Y)]; [exact X|]. rewrite Y. apply (c_pub0 l u j b El); [|exact Hu|exact He|exact X].
        rewrite Ep; cbn in *. destruct Hp as (Y1 & [Y2|(Y2 & Y3)]); (split; [exact Y1|]); [left; exact Y2|right; split; [exact Y2|]]. assert (j <> i) by (intros ->; apply N; auto). lia.
    + destruct P as (-> & P2 & P3 & P4 & P5 & P6 & P7 & P8 & P9 & P10 & P11 & P12).
      assert (Hp : forall p, (p = LPub prev top (n s) ts \/ p = LSize prev top (n s) t ts) -> forall u j, In u (tcbs s) -> exited s u = false -> published p u j ->
                lock s = Some l /\ published (pc s l) u j \/ (forall b, bnd (work s) s u j = Some b -> content s b = Image)).
      { intros p Hpp u j Hu He Hq. assert (Q : prev <= j /\ ~ In u ts) by (destruct Hpp as [->| ->]; exact Hq). destruct Q as (Q1 & Q2).
        destruct (bnd (work s) s u j) as [b|] eqn:Eb; [|right; discriminate]. left. split; [exact El|]. rewrite Ep; cbn. split; [exact Q1|].
        destruct (Z.eq_dec u t) as [->|N]; [right|left; intros [X|X]; congruence]. split; [reflexivity|].
        pose proof (k_range _ _ K t j b Hu Eb) as R. assert (W : eff (work s) s t = a) by (unfold work; rewrite El, Ep; unfold eff; rewrite Z.eqb_refl; reflexivity). rewrite W, P11 in R. lia. }
      destruct grow.
      * destruct (pub_store l s s' _ _ _ _ _ _ _ V Ep Hi H) as (_ & Hb). unfold publish in H; rewrite Ep in H. rewrite (proj2 (Z.ltb_ge _ _) Hi) in H. injection H as <-.
        eapply (cinv_loader m s _ l); [exact C|rewrite Ep; discriminate| |reflexivity|reflexivity|rewrite Ep; reflexivity|reflexivity|reflexivity|reflexivity|reflexivity|reflexivity|intros u j _; apply Hb|exact El|]; [discriminate|].
        apply Hp; right; reflexivity.
      * unfold publish in H; rewrite Ep in H. rewrite (proj2 (Z.ltb_ge _ _) Hi) in H. injection H as <-.
        destruct (pub_next l s _ _ _ _ _ _ _ _ V Ep Hi eq_refl) as (_ & Hb).
        eapply (cinv_loader m s _ l); [exact C|rewrite Ep; discriminate| |reflexivity|reflexivity|rewrite Ep; reflexivity|reflexivity|reflexivity|reflexivity|reflexivity|reflexivity|intros u j _; apply Hb|exact El|]; [discriminate|].
        apply Hp; left; reflexivity.
  - destruct (pub_size l s s' _ _ _ _ _ V Ep H) as (_ & Hb). unfold publish in H; rewrite Ep in H. injection H as <-.
    eapply (cinv_loader m s _ l); [exact C|rewrite Ep; discriminate| |reflexivity|reflexivity|rewrite Ep; reflexivity|reflexivity|reflexivity|reflexivity|reflexivity|reflexivity|intros u j _; apply Hb|exact El|]; [discriminate|].
    intros u j Hu He Hq. left. split; [exact El|]. rewrite Ep. exact Hq.
Qed.

Lemma cinv_build : forall m l k s s', inv s -> cinv m s -> build c l k s = Some s' -> cinv m s'.
Proof.
  intros m l k s s' (K & P & L & B) C H. unfold build in H. destruct (pc s l) eqn:Ep; try discriminate.
  destruct (lock s) eqn:El; [discriminate|]. rewrite Hserial in H. destruct ((0 <=? k) && _) eqn:Eg; [|discriminate]. injection H as <-.
  apply andb_true_iff in Eg; destruct Eg as (Hk & Ha); apply Z.leb_le in Hk; apply Z.eqb_eq in Ha. destruct C.
  assert (A : forall x, pc s x = LIdle) by (destruct c_act0 as [(_ & A)|(A & _)]; [exact A|lia]).
  assert (W0 : work s = None) by (unfold work; rewrite El; reflexivity). rewrite W0 in *.
  constructor; cbn.
  - right. split; [lia|]. exists l. rewrite setf_same. split; [discriminate|]. intros x N. rewrite setf_other by exact N. apply A.
  - intros x p q. destruct (Z.eq_dec x l) as [->|N]; [rewrite setf_same|rewrite setf_other by exact N; rewrite A; discriminate].
    cbn. intro X; injection X as <- <-. split; [reflexivity|]. intros i Hi. apply (k_ready _ _ K i Hi).
  - exact c_new0.
  - unfold work; cbn. exact c_content0.
  - discriminate.
Qed.
Lemma cinv_lock : forall m l s s', inv s -> cinv m s -> take_lock l s = Some s' -> cinv m s'.
Proof.
  intros m l s s' (K & P & L & B) C H. unfold take_lock in H. destruct (pc s l) as [|prev top| | |] eqn:Ep; try discriminate.
  destruct (lock s) eqn:El; [discriminate|]. injection H as <-.
  eapply (cinv_loader m s _ l); [exact C|rewrite Ep; discriminate| |reflexivity|reflexivity|rewrite Ep; reflexivity|reflexivity|reflexivity|reflexivity|reflexivity|reflexivity| |reflexivity|]; [discriminate| |].
  - intros u j _. unfold work; cbn. rewrite El, setf_same. reflexivity.
  - intros u j Hu He (_ & X). contradiction.
Qed.
Lemma cinv_create : forall m t s s', inv s -> cinv m s -> create c t s = Some s' -> cinv m s'.
Proof.
  intros m t s s' V C H. pose proof V as (K & P & L & B). pose proof (step_create t s s' V H) as (K' & _). unfold create in H. destruct (lock s) eqn:El; [discriminate|].
  destruct (mem_b t (tcbs s)) eqn:Em; [discriminate|].
  assert (Hnew : ~ In t (tcbs s)) by (intro X; apply mem_b_In in X; congruence).
  destruct (fill c t (indices (n s)) (fun _ => None) (next_blk s) (content s)) as [[v k] f] eqn:Ef.
  destruct (fill_spec _ _ _ _ _ _ _ _ _ (indices_nodup _) Ef) as (F1 & F2 & F3 & F4 & F5).
  injection H as <-. assert (W0 : work s = None) by (unfold work; rewrite El; reflexivity). rewrite W0 in *. destruct C.
  constructor; cbn.
  - exact c_act0.
  - exact c_span0.
  - intros u i [Hi|Hi]; apply c_new0; [left; exact Hi|right]. intro X; apply Hi; apply in_app_iff; auto.
  - intros u i b Hu He Hi. unfold work; cbn. unfold bnd, eff; cbn. apply in_app_iff in Hu. destruct Hu as [Hu|[<-|[]]].
    + assert (N : u <> t) by (intros ->; contradiction). rewrite (setf_other _ (dtv s)) by exact N. rewrite setf_other by (destruct (k_vecs _ _ K u Hu); lia).
      intro Eb. rewrite <- (c_content0 u i b Hu He Hi); [|rewrite W0; exact Eb]. destruct (k_bind _ _ K u i b Hu Eb) as [(_ & ->)|(_ & x & -> & X)]; apply F5.
      * intros j Ej; injection Ej as X _; congruence.
      * discriminate.
      * discriminate.
      * intros y Ey; injection Ey as <-; left; exact X.
    + rewrite !setf_same. intro Eb. rewrite (c_new0 t i (or_intror Hnew)). destruct (in_dec Z.eq_dec i (indices (n s))) as [I|I]; [|rewrite (F2 i I) in Eb; discriminate].
      destruct (F3 i I) as [(X1 & X2 & X3)|(X1 & x & X2 & X3 & X4)]; rewrite X2 in Eb; injection Eb as <-; [rewrite X3, (Hglob i X1); reflexivity|exact X4].
  - discriminate.
Qed.
(** readers *)
Lemma cinv_frame : forall m s s', cinv m s -> active s' = active s -> pc s' = pc s -> n s' = n s -> ready s' = ready s -> tcbs s' = tcbs s ->
  (forall t, exited s' t = false -> exited s t = false) -> lock s' = lock s -> dtv s' = dtv s -> vec s' = vec s -> content s' = content s -> cinv m s'.
Proof.
  intros m s s' C E1 E2 E3 E4 E5 E6 E7 E8 E9 E10. destruct C.
  assert (Ew : work s' = work s) by (unfold work; rewrite E7, E2; reflexivity).
  assert (Eb : forall t i, bnd (work s') s' t i = bnd (work s) s t i) by (intros t i; rewrite Ew; unfold bnd, eff; rewrite E8, E9; reflexivity).
  constructor.
  - rewrite E1, E2; exact c_act0.
  - rewrite E2, E3, E4; exact c_span0.
  - rewrite E4, E5; exact c_new0.
  - rewrite E4, E5, E10. intros t i b Ht He Hi. rewrite Eb. apply c_content0; auto.
  - rewrite E2, E5, E7, E10. intros l u j b. rewrite Eb. intros X1 X2 X3 X4 X5. eapply c_pub0; eauto.
Qed.
Lemma cinv_write : forall m t v s s' i b, inv s -> cinv m s -> rd s t = RDone i b -> write t v s = Some s' -> cinv (set2 m t i (Val v)) s'.
Proof.
  intros m t v s s' i b (K & P & L & B) C Er H. unfold write in H. rewrite Er in H. injection H as <-.
  pose proof (core_rd _ _ K t) as Kr. rewrite Er in Kr. destruct Kr as (Ht & He & Hi & Hb). destruct C.
  set (s' := {| n := _ |}).
  assert (Eb : forall u j, bnd (work s') s' u j = bnd (work s) s u j) by (intros u j; reflexivity).
  assert (Ho : forall u j b', In u (tcbs s) -> bnd (work s) s u j = Some b' -> (u = t /\ j = i /\ b' = b) \/ ((u <> t \/ j <> i) /\ b' <> b)).
  { intros u j b' Hu E. destruct (Z.eq_dec u t) as [->|N].
    - destruct (Z.eq_dec j i) as [->|N]; [left; split; [reflexivity|]; split; [reflexivity|congruence]|right].
      split; [right; exact N|]. intros ->. destruct (bnd_inj _ _ _ _ _ _ _ K Ht Ht E Hb); contradiction.
    - right. split; [left; exact N|]. intros ->. destruct (bnd_inj _ _ _ _ _ _ _ K Hu Ht E Hb); contradiction. }
  constructor.
  - exact c_act0.
  - exact c_span0.
  - intros u j X. change (ready s j = false \/ ~ In u (tcbs s)) in X. rewrite set2_other; [apply c_new0; exact X|].
    destruct (Z.eq_dec u t) as [->|N]; [right; intros ->; destruct X; [congruence|contradiction]|left; exact N].
  - intros u j b' Hu Hex Hj. rewrite Eb. intro E. change (content s') with (set_content (content s) b (Val v)).
    destruct (Ho u j b' Hu E) as [(-> & -> & ->)|(N1 & N2)]; [rewrite set2_same; apply set_content_same|].
    rewrite set2_other by exact N1. rewrite set_content_other by exact N2. exact (c_content0 u j b' Hu Hex Hj E).
  - intros l u j b' Hl Hp Hu Hex. rewrite Eb. intro E. change (content s') with (set_content (content s) b (Val v)).
    destruct (Ho u j b' Hu E) as [(-> & -> & ->)|(N1 & N2)]; [|rewrite set_content_other by exact N2; exact (c_pub0 l u j b' Hl Hp Hu Hex E)].
    exfalso. change (pc s') with (pc s) in Hp. assert (X : exists p q, span (pc s l) = Some (p, q) /\ p <= i).
    { destruct (pc s l); cbn in Hp; try contradiction; cbn; eexists; eexists; (split; [reflexivity|]); apply Hp. }
    destruct X as (p & q & X1 & X2). destruct (c_span0 l p q X1) as (_ & Y). specialize (Y i Hi). lia.
Qed.

Definition at_var (s : state) (t cur : Z) : Prop := match rd s t with RIdle => True | RSize i _ => cur = i | RDone i _ => cur = i end.
Lemma program_cons : forall t x a r, program t ((x, a) :: r) = if x =? t then a :: program t r else program t r.
Proof. intros; unfold program; cbn. destruct (x =? t); reflexivity. Qed.

Lemma others_keep : forall x a s s' t, step c x a s = Some s' -> x <> t -> rd s' t = rd s t /\ (inv s -> seen t (log s') = seen t (log s)).
Proof.
  intros x a s s' t H N. assert (N' : t <> x) by congruence. destruct a; cbn [step] in H.
  - unfold build in H. destruct (pc s x); try discriminate. destruct (lock s); [discriminate|]. destruct (_ && _); [|discriminate]. injection H as <-; auto.
  - unfold take_lock in H. destruct (pc s x); try discriminate. destruct (lock s); [discriminate|]. injection H as <-; auto.
  - unfold publish in H. destruct (pc s x) as [| |p q r [|u ts]|p q r u ts a i g|]; try discriminate.
    + injection H as <-; auto.
    + destruct (exited s u); [injection H as <-; auto|]. destruct (_ <? _); injection H as <-; auto.
    + destruct (_ <? _).
      * destruct (stat c i); [injection H as <-; auto|]. destruct (vec s a i); injection H as <-; auto.
      * destruct g; injection H as <-; auto.
    + injection H as <-; auto.
  - unfold create in H. destruct (lock s); [discriminate|]. destruct (mem_b _ _); [discriminate|]. destruct (fill _ _ _ _ _ _) as [[v k] f]. injection H as <-. cbn.
    rewrite setf_other by exact N'. auto.
  - unfold exit in H. destruct (rd s x); try discriminate. destruct (negb _); [discriminate|]. injection H as <-; auto.
  - assert (X : inv s -> exists i' sz, s' = set_rd s x (RSize i' sz)).
    { intro V. pose proof V as (K & _). unfold access in H. destruct (rd s x); try discriminate. destruct (_ && _) eqn:Eg; [|discriminate].
      apply andb_true_iff in Eg; destruct Eg as (Eg & Hi). apply andb_true_iff in Eg; destruct Eg as (Ht & He). apply mem_b_In in Ht. apply negb_true_iff in He.
      pose proof (k_ready _ _ K i Hi) as Hr. destruct (k_slot _ _ K x i Ht He Hi) as (Hs & _).
      destruct (Z.eqb_spec i 0); [lia|]. destruct (Z.ltb_spec i (dtv_size s x)); [|lia]. injection H as <-. eauto. }
    split.
    + unfold access in H. destruct (rd s x); try discriminate. destruct (_ && _); [|discriminate]. destruct (i =? 0); [injection H as <-; cbn; apply setf_other; exact N'|].
      destruct (_ <? _); injection H as <-; cbn; apply setf_other; exact N'.
    + intro V. destruct (X V) as (i' & sz & ->). reflexivity.
  - split.
    + unfold load in H. destruct (rd s x); try discriminate. destruct (_ && _); [destruct (vec _ _ _)|]; injection H as <-; cbn; apply setf_other; exact N'.
    + intro V. destruct (step_load x s s' V H) as (i & sz & b & _ & _ & _ & _ & _ & -> & _). unfold seen; cbn [finish log].
      rewrite filter_app, map_app. cbn. destruct (Z.eqb_spec x t); [contradiction|]. cbn. apply app_nil_r.
  - unfold write in H. destruct (rd s x); try discriminate. injection H as <-; auto.
  - destruct (rd s x); try discriminate. injection H as <-. cbn. rewrite setf_other by exact N'. auto.
Qed.

Lemma step_cinv : forall x a s s' m, inv s -> cinv m s -> step c x a s = Some s' -> exists m', cinv m' s' /\ forall t, t <> x -> m' t = m t.
Proof.
  intros x a s s' m V C H. destruct a; cbn [step] in H.
  - exists m. split; [exact (cinv_build _ _ _ _ _ V C H)|reflexivity].
  - exists m. split; [exact (cinv_lock _ _ _ _ V C H)|reflexivity].
  - exists m. split; [exact (cinv_publish _ _ _ _ V C H)|reflexivity].
  - exists m. split; [exact (cinv_create _ _ _ _ V C H)|reflexivity].
  - exists m. split; [|reflexivity]. unfold exit in H. destruct (rd s x); try discriminate. destruct (negb _); [discriminate|]. injection H as <-.
    eapply cinv_frame; [exact C|reflexivity|reflexivity|reflexivity|reflexivity|reflexivity| |reflexivity|reflexivity|reflexivity|reflexivity]. intros u; cbn; unfold setf. destruct (u =? x); [discriminate|auto].
  - exists m. split; [|reflexivity]. unfold access in H. destruct (rd s x); try discriminate. destruct (_ && _); [|discriminate].
    destruct (i =? 0); [injection H as <-|destruct (_ <? _); injection H as <-]; eapply cinv_frame; eauto.
  - exists m. split; [|reflexivity]. destruct (step_load x s s' V H) as (i & sz & b & _ & _ & _ & _ & _ & -> & _). eapply cinv_frame; eauto.
  - pose proof H as H'. unfold write in H. destruct (rd s x) as [| |i b] eqn:Er; try discriminate. exists (set2 m x i (Val v)). split; [exact (cinv_write _ _ _ _ _ _ _ V C Er H')|].
    intros t N. unfold set2. apply setf_other; exact N.
  - exists m. split; [|reflexivity]. destruct (rd s x); try discriminate. injection H as <-. eapply cinv_frame; eauto.
Qed.

Lemma private_run : forall t sched s s' m cur, inv s -> cinv m s -> at_var s t cur -> run (step c) sched s = Some s' ->
  seen t (log s') = seen t (log s) ++ private (program t sched) cur (m t).
Proof.
  intros t; induction sched as [|[x a] r IH]; intros s s' m cur V C A H; cbn [run] in H.
  - injection H as <-. cbn. rewrite app_nil_r; reflexivity.
  - destruct (step c x a s) as [s1|] eqn:Es; [|discriminate]. pose proof (step_inv _ _ _ _ V Es) as V1. rewrite program_cons.
    destruct (Z.eqb_spec x t) as [->|N].
    + assert (Frame : forall mm cc, cinv mm s1 -> at_var s1 t cc -> private (a :: program t r) cur (m t) = private (program t r) cc (mm t) -> log s1 = log s ->
        seen t (log s') = seen t (log s) ++ private (a :: program t r) cur (m t)).
      { intros mm cc C1 A1 E1 E2. rewrite (IH s1 s' mm cc V1 C1 A1 H), E1, E2. reflexivity. }
      destruct a; cbn [step] in Es.
      * apply (Frame m cur); [exact (cinv_build _ _ _ _ _ V C Es)| |reflexivity|]; unfold at_var, build in *; destruct (pc s t); try discriminate; destruct (lock s); try discriminate; destruct (_ && _); try discriminate; injection Es as <-; [exact A|reflexivity].
      * apply (Frame m cur); [exact (cinv_lock _ _ _ _ V C Es)| |reflexivity|]; unfold at_var, take_lock in *; destruct (pc s t); try discriminate; destruct (lock s); try discriminate; injection Es as <-; [exact A|reflexivity].
      * assert (Z : rd s1 t = rd s t /\ log s1 = log s).
        { unfold publish in Es. destruct (pc s t) as [| |p q z [|u ts]|p q z u ts a i g|]; try discriminate.
          - injection Es as <-; auto.
          - destruct (exited s u); [injection Es as <-; auto|]. destruct (_ <? _); injection Es as <-; auto.
          - destruct (_ <? _).
            + destruct (stat c i); [injection Es as <-; auto|]. destruct (vec s a i); injection Es as <-; auto.
            + destruct g; injection Es as <-; auto.
          - injection Es as <-; auto. }
        destruct Z as (Z1 & Z2). apply (Frame m cur); [exact (cinv_publish _ _ _ _ V C Es)|unfold at_var; rewrite Z1; exact A|reflexivity|exact Z2].
      * apply (Frame m cur); [exact (cinv_create _ _ _ _ V C Es)| |reflexivity|]; unfold at_var, create in *; destruct (lock s); try discriminate; destruct (mem_b _ _); try discriminate;
          destruct (fill _ _ _ _ _ _) as [[v k] f]; injection Es as <-; [cbn; rewrite setf_same; exact I|reflexivity].
      * destruct (step_cinv t Exit s s1 m V C Es) as (m' & C' & Em). clear m' C' Em.
        assert (C1 : cinv m s1).
        { unfold exit in Es. destruct (rd s t); try discriminate. destruct (negb _); [discriminate|]. injection Es as <-. eapply cinv_frame; [exact C|reflexivity|reflexivity|reflexivity|reflexivity|reflexivity| |reflexivity|reflexivity|reflexivity|reflexivity]. intros u; cbn; unfold setf. destruct (u =? t); [discriminate|auto]. }
        apply (Frame m cur); [exact C1| |reflexivity|]; unfold at_var, exit in *; destruct (rd s t) eqn:Er; try discriminate; destruct (negb _); try discriminate; injection Es as <-; [cbn; rewrite Er; exact I|reflexivity].
      * pose proof V as (K & _). unfold access in Es. destruct (rd s t) eqn:Er; try discriminate. destruct (_ && _) eqn:Eg; [|discriminate].
        apply andb_true_iff in Eg; destruct Eg as (Eg & Hi). apply andb_true_iff in Eg; destruct Eg as (Ht & He). apply mem_b_In in Ht. apply negb_true_iff in He.
        pose proof (k_ready _ _ K i Hi) as Hr. destruct (k_slot _ _ K t i Ht He Hi) as (Hs & _).
        destruct (Z.eqb_spec i 0); [lia|]. destruct (Z.ltb_spec i (dtv_size s t)); [|lia]. injection Es as <-.
        apply (Frame m i); [eapply cinv_frame; eauto|unfold at_var; cbn; rewrite setf_same; reflexivity|reflexivity|reflexivity].
      * destruct (step_load t s s1 V Es) as (i & sz & b & Er & Eb & Ht & He & Hi & -> & _). unfold at_var in A; rewrite Er in A; subst cur.
        assert (C1 : cinv m (finish s t (RDone i b) {| e_thread := t; e_index := i; e_block := Some b; e_seen := content s b |})) by (eapply cinv_frame; eauto).
        rewrite (IH _ s' m i V1 C1); [|unfold at_var; cbn; rewrite setf_same; reflexivity|exact H].
        cbn [private]. unfold seen at 1; cbn [finish log]. rewrite filter_app, map_app. cbn. rewrite Z.eqb_refl. cbn. rewrite <- app_assoc. cbn.
        rewrite (c_content _ _ C t i b Ht He Hi Eb). reflexivity.
      * pose proof Es as Es'. unfold write in Es. destruct (rd s t) as [| |i b] eqn:Er; try discriminate. unfold at_var in A; rewrite Er in A; subst cur.
        apply (Frame (set2 m t i (Val v)) i); [exact (cinv_write _ _ _ _ _ _ _ V C Er Es')| | |]; injection Es as <-.
        -- unfold at_var; cbn; rewrite Er; reflexivity.
        -- cbn [private]. unfold set2; rewrite setf_same; reflexivity.
        -- reflexivity.
      * destruct (rd s t) eqn:Er; try discriminate. injection Es as <-. apply (Frame m cur); [eapply cinv_frame; eauto|unfold at_var; cbn; rewrite setf_same; exact I|reflexivity|reflexivity].
    + destruct (others_keep _ _ _ _ t Es N) as (E1 & E2). destruct (step_cinv _ _ _ _ _ V C Es) as (m' & C' & Em).
      rewrite (IH s1 s' m' cur V1 C'); [|unfold at_var in *; rewrite E1; exact A|exact H]. rewrite (E2 V), (Em t (not_eq_sym N)). reflexivity.
Qed.
Lemma private_all : forall t sched s, run (step c) sched start = Some s -> seen t (log s) = private (program t sched) 0 (fun _ => Image).
Proof. intros t sched s H. exact (private_run t sched start s (fun _ _ => Image) 0 inv_start cinv_start I H). Qed.
End Core.
