(** Invariant of thread-specific data. *)
From Verif Require Import Keys_Model Keys_Spec.
Open Scope Z_scope.

Definition eff (g : slot) (l : local) : Z := if lgen l <? gen g then 0 else value l.

Definition in_own (p : pc) (k : Z) : Prop := match p with XIn _ i => i = k | _ => False end.

Definition dtor_ok (tr : list event) (t : Z) (p : pc) : Prop :=
  match p with
  | XDtor j i v => v <> 0 /\ exists h1 h2, tr = h1 ++ h2 /\ live h2 i /\ specific h2 t i = v /\
      ((forall u, ~ In (EDelete u i true) h1) ->
       specific tr t i = v /\ created h2 i = created tr i)
  | _ => True
  end.
Definition range_ok (p : pc) : Prop :=
  match p with
  | XGet j i | XDtor j i _ | XIn j i => 0 <= i < PTHREAD_KEYS_MAX /\ 0 <= j < DESTRUCTOR_ITERATIONS
  | _ => True
  end.

Record inv (s : state) : Prop := {
  i_live : forall k, created (trace s) k = if in_use (slots s k) then Some (dtor (slots s k)) else None;
  i_key : forall k, in_use (slots s k) = true -> 0 <= k < PTHREAD_KEYS_MAX;
  i_nod : forall k, in_use (slots s k) = false -> dtor (slots s k) = 0;
  i_gen : forall t k, 0 <= lgen (locals s t k) <= gen (slots s k);
  i_max : forall k, gen (slots s k) < 2 ^ 64;
  i_eff : forall t k, ~ in_own (at_ s t) k -> specific (trace s) t k = eff (slots s k) (locals s t k);
  i_off : forall t k, in_use (slots s k) = false -> eff (slots s k) (locals s t k) = 0;
  i_in : forall t k, in_own (at_ s t) k -> specific (trace s) t k = 0;
  i_dtor : forall t, dtor_ok (trace s) t (at_ s t);
  i_range : forall t, range_ok (at_ s t);
  i_expl : explained (trace s) }.

Lemma init_inv : inv init.
Proof. constructor; cbn; try tauto; try discriminate; try reflexivity; lia. Qed.

Lemma bad_key_spec : forall s k, inv s -> bad_key (slots s) k = negb (in_use (slots s k)).
Proof.
  intros s k I. unfold bad_key. destruct (in_use (slots s k)) eqn:E; [|rewrite !orb_true_r; reflexivity].
  pose proof (i_key _ I k E). destruct (Z.ltb_spec k 0); [lia|].
  destruct (Z.leb_spec PTHREAD_KEYS_MAX k); [lia|]. reflexivity.
Qed.

Lemma live_use : forall s k, inv s -> (live (trace s) k <-> in_use (slots s k) = true).
Proof.
  intros s k I. unfold live. rewrite (i_live _ I). destruct (in_use (slots s k)); split; congruence.
Qed.

Lemma find_free_spec : forall g n i,
  match find_free g n i with
  | Some k => i <= k < i + Z.of_nat n /\ in_use (g k) = false
  | None => forall k, i <= k < i + Z.of_nat n -> in_use (g k) = true
  end.
Proof.
  intros g. induction n as [|n IH]; intros i; cbn [find_free]; [intros; lia|].
  destruct (in_use (g i)) eqn:E; cbn [negb].
  - specialize (IH (i + 1)). destruct (find_free g n (i + 1)) as [k|].
    + destruct IH as [A B]. split; [lia|exact B].
    + intros k H. destruct (Z.eq_dec k i) as [->|N]; [exact E|apply IH; lia].
  - split; [lia|exact E].
Qed.

Lemma next_range : forall j i, 0 <= i < PTHREAD_KEYS_MAX -> 0 <= j < DESTRUCTOR_ITERATIONS -> range_ok (next j i).
Proof.
  intros j i Hi Hj. unfold next. destruct (Z.ltb_spec (i + 1) PTHREAD_KEYS_MAX); [cbn; lia|].
  destruct (Z.ltb_spec (j + 1) DESTRUCTOR_ITERATIONS); cbn; unfold PTHREAD_KEYS_MAX in *; [lia|exact Logic.I].
Qed.
Lemma next_shape : forall j i, (exists j' i', next j i = XGet j' i') \/ next j i = Gone.
Proof. intros j i. unfold next. destruct (_ <? _); [eauto|]. destruct (_ <? _); eauto. Qed.
Lemma next_own : forall j i k, ~ in_own (next j i) k.
Proof. intros j i k. destruct (next_shape j i) as [(a & b & ->)| ->]; cbn; tauto. Qed.
Lemma next_dtor : forall j i tr t, dtor_ok tr t (next j i).
Proof. intros j i tr t. destruct (next_shape j i) as [(a & b & ->)| ->]; exact Logic.I. Qed.
Lemma leave_created : forall t p tr k, created (leave t p tr) k = created tr k.
Proof. intros t [] tr k; reflexivity. Qed.
Lemma leave_specific : forall t p tr u k, specific (leave t p tr) u k = specific tr u k.
Proof. intros t [] tr u k; reflexivity. Qed.
Lemma leave_expl : forall t p tr, explained tr -> explained (leave t p tr).
Proof. intros t [] tr; cbn; tauto. Qed.

(** an event of another thread, or one that does not touch the key, keeps [dtor_ok] *)
Lemma dtor_ok_cons : forall s e t, inv s -> allowed (trace s) e ->
  (forall v k, e <> ESet t k v true) -> (forall k d v, e <> ECall t k d v) ->
  dtor_ok (e :: trace s) t (at_ s t).
Proof.
  intros s e t I A NS NC. pose proof (i_dtor _ I t) as D. destruct (at_ s t) as [| |j i v| |]; try exact Logic.I.
  destruct D as (V & h1 & h2 & E & L & Sp & K). split; [exact V|].
  exists (e :: h1), h2. split; [cbn; rewrite E; reflexivity|]. split; [exact L|]. split; [exact Sp|].
  intros ND. assert (ND1 : forall u, ~ In (EDelete u i true) h1) by (intros u H; exact (ND u (or_intror H))).
  destruct (K ND1) as [K1 K2]. assert (Lv : live (trace s) i) by (unfold live; rewrite <- K2; exact L).
  destruct e as [u d [k|]|u k []|u k w []|u k w|u|u k d w|u k|u]; cbn [specific created]; try (split; assumption).
  - cbn in A. destruct (Z.eqb_spec i k) as [->|]; [elim (proj2 A); exact Lv|split; assumption].
  - destruct (Z.eqb_spec i k) as [->|]; [elim (ND u); left; reflexivity|split; assumption].
  - destruct (Z.eqb_spec t u) as [->|]; cbn [andb]; [|split; assumption].
    elim (NS w k). reflexivity.
  - destruct (Z.eqb_spec t u) as [->|]; cbn [andb]; [|split; assumption].
    elim (NC k d w). reflexivity.
Qed.

Lemma dtor_ok_leave : forall tr t u p q, dtor_ok tr t q -> dtor_ok (leave u p tr) t q.
Proof.
  intros tr t u p q D. destruct p; try exact D. cbn [leave]. destruct q; try exact D.
  destruct D as (V & h1 & h2 & E & L & Sp & K). split; [exact V|].
  exists (EGone u :: h1), h2. split; [cbn; rewrite E; reflexivity|]. split; [exact L|]. split; [exact Sp|].
  intros ND. cbn [specific created]. apply K. intros w H. exact (ND w (or_intror H)).
Qed.

Ltac zc u t := destruct (Z.eq_dec u t) as [->|?];
  [rewrite ?setf_same in *|rewrite ?setf_other in * by assumption].
Ltac bc u t := destruct (Z.eqb_spec u t) as [->|?].

Definition acting (p : pc) : Prop := match p with Running | XIn _ _ => True | _ => False end.

Lemma acting_dtor : forall tr t p, acting p -> dtor_ok tr t p.
Proof. intros tr t [] H; exact Logic.I || contradiction. Qed.

Lemma create_inv : forall s t d, inv s -> acting (at_ s t) ->
  let '(r, g') := key_create (slots s) d in
  inv {| slots := g'; locals := locals s; at_ := at_ s; trace := ECreate t d r :: trace s |}.
Proof.
  intros s t d I Ac. unfold key_create. pose proof (find_free_spec (slots s) (Z.to_nat PTHREAD_KEYS_MAX) 0) as F.
  rewrite Z2Nat.id in F by (unfold PTHREAD_KEYS_MAX; lia).
  destruct (find_free (slots s) (Z.to_nat PTHREAD_KEYS_MAX) 0) as [k0|].
  - destruct F as [F0 F1].
    assert (A : allowed (trace s) (ECreate t d (Some k0))).
    { cbn. split; [exact F0|]. rewrite (live_use s k0 I). congruence. }
    constructor; cbn [slots locals at_ trace created specific explained].
    + intros k. bc k k0; [rewrite setf_same; reflexivity|rewrite setf_other by assumption; apply I].
    + intros k. zc k k0; [intros _; exact F0|apply I].
    + intros k. zc k k0; [discriminate|apply I].
    + intros u k. zc k k0; cbn [gen]; apply I.
    + intros k. zc k k0; cbn [gen]; apply I.
    + intros u k H. bc k k0.
      * rewrite setf_same. unfold eff. cbn [gen]. symmetry. exact (i_off _ I u k0 F1).
      * rewrite setf_other by assumption. apply I; exact H.
    + intros u k. zc k k0; [discriminate|apply I].
    + intros u k H. bc k k0; [reflexivity|apply I; exact H].
    + intros u. apply dtor_ok_cons; try assumption; discriminate.
    + apply I.
    + split; [exact A|apply I].
  - assert (A : allowed (trace s) (ECreate t d None)).
    { cbn. intros k Hk. apply (live_use s k I), F. exact Hk. }
    destruct I. constructor; cbn [slots locals at_ trace created specific explained]; auto.
    intros u. apply dtor_ok_cons; try assumption; try discriminate. constructor; auto.
Qed.

Lemma delete_inv : forall s t k0, inv s -> acting (at_ s t) -> gen (slots s k0) < 2 ^ 64 - 1 ->
  let '(r, g') := key_delete (slots s) k0 in
  inv {| slots := g'; locals := locals s; at_ := at_ s; trace := EDelete t k0 r :: trace s |}.
Proof.
  intros s t k0 I Ac B. unfold key_delete. rewrite (bad_key_spec s k0 I).
  destruct (in_use (slots s k0)) eqn:U; cbn [negb].
  - assert (A : allowed (trace s) (EDelete t k0 true)).
    { cbn. rewrite (live_use s k0 I). tauto. }
    pose proof (i_gen _ I t k0) as G0.
    rewrite Z.mod_small by lia.
    constructor; cbn [slots locals at_ trace created specific explained].
    + intros k. bc k k0; [rewrite setf_same; reflexivity|rewrite setf_other by assumption; apply I].
    + intros k. zc k k0; [discriminate|apply I].
    + intros k. zc k k0; [reflexivity|apply I].
    + intros u k. zc k k0; cbn [gen]; [pose proof (i_gen _ I u k0); lia|apply I].
    + intros k. zc k k0; cbn [gen]; [lia|apply I].
    + intros u k H. bc k k0.
      * rewrite setf_same. unfold eff. cbn [gen]. pose proof (i_gen _ I u k0) as G.
        destruct (Z.ltb_spec (lgen (locals s u k0)) (gen (slots s k0) + 1)); [reflexivity|lia].
      * rewrite setf_other by assumption. apply I; exact H.
    + intros u k. zc k k0.
      * intros _. unfold eff. cbn [gen]. pose proof (i_gen _ I u k0) as G.
        destruct (Z.ltb_spec (lgen (locals s u k0)) (gen (slots s k0) + 1)); [reflexivity|lia].
      * apply I.
    + intros u k H. bc k k0; [reflexivity|apply I; exact H].
    + intros u. apply dtor_ok_cons; try assumption; discriminate.
    + apply I.
    + split; [exact A|apply I].
  - assert (A : allowed (trace s) (EDelete t k0 false)).
    { cbn. rewrite (live_use s k0 I). split; congruence. }
    pose proof I as I0. destruct I. constructor; cbn [slots locals at_ trace created specific explained]; auto.
    intros u. apply dtor_ok_cons; try assumption; discriminate.
Qed.

(** key_get does not change what is visible *)
Lemma get_facts : forall s t k, inv s ->
  let '(v, l') := key_get (slots s) (locals s t) k in
  v = (if in_use (slots s k) then eff (slots s k) (locals s t k) else 0) /\
  forall k', 0 <= lgen (l' k') <= gen (slots s k') /\ eff (slots s k') (l' k') = eff (slots s k') (locals s t k').
Proof.
  intros s t k I. unfold key_get. rewrite (bad_key_spec s k I).
  destruct (in_use (slots s k)) eqn:U; cbn [negb].
  - unfold eff. destruct (Z.ltb_spec (lgen (locals s t k)) (gen (slots s k))) as [L|L].
    + rewrite setf_same. split; [reflexivity|]. intros k'. pose proof (i_gen _ I t k').
      zc k' k; cbn [lgen value]; [|split; [lia|reflexivity]].
      split; [lia|]. rewrite Z.ltb_irrefl. destruct (Z.ltb_spec (lgen (locals s t k)) (gen (slots s k))); [reflexivity|lia].
    + split; [reflexivity|]. intros k'. split; [apply (i_gen _ I)|reflexivity].
  - split; [reflexivity|]. intros k'. split; [apply (i_gen _ I)|reflexivity].
Qed.

Lemma get_value : forall s t k, inv s -> ~ in_own (at_ s t) k ->
  (if in_use (slots s k) then eff (slots s k) (locals s t k) else 0) = specific (trace s) t k.
Proof.
  intros s t k I N. rewrite (i_eff _ I t k N). destruct (in_use (slots s k)) eqn:U; [reflexivity|].
  symmetry. exact (i_off _ I t k U).
Qed.

Lemma locals_inv : forall s t l', inv s ->
  (forall k', 0 <= lgen (l' k') <= gen (slots s k') /\ eff (slots s k') (l' k') = eff (slots s k') (locals s t k')) ->
  inv {| slots := slots s; locals := setf (locals s) t l'; at_ := at_ s; trace := trace s |}.
Proof.
  intros s t l' I H. constructor; cbn [slots locals at_ trace]; try apply I.
  - intros u k. zc u t; [apply H|apply I].
  - intros u k N. zc u t; [rewrite (proj2 (H k))|]; apply I; exact N.
  - intros u k N. zc u t; [rewrite (proj2 (H k))|]; apply I; exact N.
Qed.

Lemma get_inv : forall s t k, inv s -> acting (at_ s t) -> ~ in_own (at_ s t) k ->
  let '(v, l') := key_get (slots s) (locals s t) k in
  inv {| slots := slots s; locals := setf (locals s) t l'; at_ := at_ s; trace := EGet t k v :: trace s |}.
Proof.
  intros s t k I Ac N. pose proof (get_facts s t k I) as G. pose proof (get_value s t k I N) as V.
  destruct (key_get (slots s) (locals s t) k) as [v l']. destruct G as [G1 G2].
  pose proof (locals_inv s t l' I G2) as I'. rewrite V in G1.
  assert (A : allowed (trace s) (EGet t k v)) by exact G1.
  destruct I'. constructor; cbn [slots locals at_ trace created specific explained] in *; auto.
  intros u. apply dtor_ok_cons; try assumption; try discriminate.
Qed.

Lemma set_inv : forall s t k0 v, inv s -> acting (at_ s t) -> ~ in_own (at_ s t) k0 ->
  let '(r, l') := key_set (slots s) (locals s t) k0 v in
  inv {| slots := slots s; locals := setf (locals s) t l'; at_ := at_ s; trace := ESet t k0 v r :: trace s |}.
Proof.
  intros s t k0 v I Ac N. unfold key_set. rewrite (bad_key_spec s k0 I).
  destruct (in_use (slots s k0)) eqn:U; cbn [negb].
  - assert (A : allowed (trace s) (ESet t k0 v true)).
    { cbn. rewrite (live_use s k0 I). tauto. }
    constructor; cbn [slots locals at_ trace created specific explained]; try apply I.
    + intros u k. zc u t; [|apply I]. zc k k0; cbn [lgen]; [pose proof (i_gen _ I t k0); lia|apply I].
    + intros u k H. zc u t.
      * rewrite Z.eqb_refl. cbn [andb]. bc k k0.
        -- rewrite setf_same. unfold eff. cbn [lgen value]. rewrite Z.ltb_irrefl. reflexivity.
        -- rewrite setf_other by assumption. apply I; exact H.
      * destruct (Z.eqb_spec u t); [contradiction|]. cbn [andb]. apply I; exact H.
    + intros u k H. zc u t; [|apply I; exact H]. zc k k0; [congruence|apply I; exact H].
    + intros u k H. bc u t; cbn [andb]; [|apply I; exact H]. bc k k0; [contradiction|apply I; exact H].
    + intros u. zc u t.
      * apply acting_dtor; exact Ac.
      * apply dtor_ok_cons; try assumption; congruence.
    + split; [exact A|apply I].
  - assert (A : allowed (trace s) (ESet t k0 v false)).
    { cbn. rewrite (live_use s k0 I). split; congruence. }
    assert (G2 : forall k', 0 <= lgen (locals s t k') <= gen (slots s k') /\
       eff (slots s k') (locals s t k') = eff (slots s k') (locals s t k')) by (intros; split; [apply (i_gen _ I)|reflexivity]).
    pose proof (locals_inv s t (locals s t) I G2) as I'.
    destruct I'. constructor; cbn [slots locals at_ trace created specific explained] in *; auto.
    intros u. apply dtor_ok_cons; try assumption; discriminate.
Qed.

(** a thread moves to a place outside destructors *)
Lemma move_inv : forall s t p q, inv s -> (forall k, ~ in_own (at_ s t) k) -> (forall k, ~ in_own p k) ->
  range_ok p -> dtor_ok (trace s) t p ->
  inv {| slots := slots s; locals := locals s; at_ := setf (at_ s) t p; trace := leave t q (trace s) |}.
Proof.
  intros s t p q I N N' Rg D. constructor; cbn [slots locals at_ trace]; try apply I.
  - intros k. rewrite leave_created. apply I.
  - intros u k H. rewrite leave_specific. zc u t; [apply I, N|apply I; exact H].
  - intros u k H. rewrite leave_specific. zc u t; [elim (N' k H)|apply I; exact H].
  - intros u. apply dtor_ok_leave. zc u t; [exact D|apply I].
  - intros u. zc u t; [exact Rg|apply I].
  - apply leave_expl, I.
Qed.

Lemma step_inv : forall t a s s', inv s -> guarded client_rule step t a s = Some s' -> inv s'.
Proof.
  intros t a s s' I H. unfold guarded in H. destruct (client_rule s t a) eqn:R; [|discriminate].
  unfold step in H. unfold client_rule in R.
  assert (Acts : acting (at_ s t) ->
    (forall d, let '(r, g') := key_create (slots s) d in
       inv {| slots := g'; locals := locals s; at_ := at_ s; trace := ECreate t d r :: trace s |})) by
    (intros Ac d; apply create_inv; assumption).
  destruct (at_ s t) as [|j i|j i v|j i|] eqn:E; destruct a; try discriminate.
  - specialize (Acts Logic.I d). destruct (key_create (slots s) d). injection H as <-. exact Acts.
  - apply Z.ltb_lt in R. pose proof (delete_inv s t k I ltac:(rewrite E; exact Logic.I) R) as D.
    destruct (key_delete (slots s) k). injection H as <-. exact D.
  - pose proof (get_inv s t k I ltac:(rewrite E; exact Logic.I) ltac:(rewrite E; cbn; tauto)) as D.
    destruct (key_get (slots s) (locals s t) k). injection H as <-. exact D.
  - pose proof (set_inv s t k v I ltac:(rewrite E; exact Logic.I) ltac:(rewrite E; cbn; tauto)) as D.
    destruct (key_set (slots s) (locals s t) k v). injection H as <-. exact D.
  - injection H as <-.
    pose proof (move_inv s t (XGet 0 0) (XGet 0 0) I ltac:(rewrite E; cbn; tauto) ltac:(cbn; tauto)
      ltac:(cbn; unfold PTHREAD_KEYS_MAX, DESTRUCTOR_ITERATIONS; lia) Logic.I) as M. cbn [leave] in M.
    destruct M. constructor; cbn [slots locals at_ trace created specific explained] in *; auto.
    + intros u. specialize (i_dtor0 u). zc u t; [exact Logic.I|].
      apply dtor_ok_cons; try exact I; try discriminate. exact Logic.I.
    + split; [exact Logic.I|exact i_expl0].
  - (* XGet *)
    pose proof (i_range _ I t) as Rg. rewrite E in Rg. cbn in Rg.
    pose proof (get_facts s t i I) as G. pose proof (get_value s t i I ltac:(rewrite E; cbn; tauto)) as V.
    destruct (key_get (slots s) (locals s t) i) as [v l']. destruct G as [G1 G2].
    pose proof (locals_inv s t l' I G2) as I'. injection H as <-.
    apply (move_inv _ t _ (if v =? 0 then next j i else XDtor j i v) I'); cbn [at_ trace].
    + rewrite E; cbn; tauto.
    + destruct (v =? 0); [apply next_own|cbn; tauto].
    + destruct (v =? 0); [apply next_range; tauto|cbn; tauto].
    + destruct (Z.eqb_spec v 0) as [->|Nz]; [apply next_dtor|]. cbn. split; [exact Nz|].
      exists [], (trace s). split; [reflexivity|]. split.
      * apply (live_use s i I). destruct (in_use (slots s i)); [reflexivity|congruence].
      * split; [congruence|]. intros _. split; [congruence|reflexivity].
  - (* XDtor *)
    pose proof (i_range _ I t) as Rg. rewrite E in Rg. cbn in Rg.
    pose proof (i_dtor _ I t) as D. rewrite E in D. cbn in D.
    destruct (Z.eqb_spec (dtor (slots s i)) 0) as [Z0|Nz].
    + injection H as <-. apply (move_inv _ t _ (next j i) I); [rewrite E; cbn; tauto|apply next_own|apply next_range; tauto|apply next_dtor].
    + injection H as <-.
      assert (U : in_use (slots s i) = true).
      { destruct (in_use (slots s i)) eqn:U; [reflexivity|]. elim Nz. exact (i_nod _ I i U). }
      assert (A : allowed (trace s) (ECall t i (dtor (slots s i)) v)).
      { destruct D as (Dv & h1 & h2 & D1 & D2 & D3 & D4). cbn. split; [exact Dv|]. split; [exact Nz|].
        split; [rewrite (i_live _ I), U; reflexivity|]. exists h1, h2. split; [exact D1|]. split; [exact D2|].
        split; [exact D3|]. intros ND. destruct (D4 ND) as [K1 K2]. split; [exact K1|].
        rewrite K2, (i_live _ I), U. reflexivity. }
      constructor; cbn [slots locals at_ trace created specific explained]; try apply I.
      * intros u k H. zc u t.
        -- cbn in H. rewrite Z.eqb_refl. cbn [andb]. bc k i; [elim H; reflexivity|]. apply I. rewrite E; cbn; tauto.
        -- destruct (Z.eqb_spec u t); [contradiction|]. cbn [andb]. apply I; exact H.
      * intros u k H. zc u t.
        -- cbn in H. subst k. rewrite !Z.eqb_refl. reflexivity.
        -- destruct (Z.eqb_spec u t); [contradiction|]. cbn [andb]. apply I; exact H.
      * intros u. zc u t; [exact Logic.I|]. apply dtor_ok_cons; try assumption; congruence.
      * intros u. zc u t; [exact Rg|apply I].
      * split; [exact A|apply I].
  - specialize (Acts Logic.I d). destruct (key_create (slots s) d). injection H as <-. exact Acts.
  - apply Z.ltb_lt in R. pose proof (delete_inv s t k I ltac:(rewrite E; exact Logic.I) R) as D.
    destruct (key_delete (slots s) k). injection H as <-. exact D.
  - apply negb_true_iff, Z.eqb_neq in R.
    pose proof (get_inv s t k I ltac:(rewrite E; exact Logic.I) ltac:(rewrite E; cbn; congruence)) as D.
    destruct (key_get (slots s) (locals s t) k). injection H as <-. exact D.
  - apply negb_true_iff, Z.eqb_neq in R.
    pose proof (set_inv s t k v I ltac:(rewrite E; exact Logic.I) ltac:(rewrite E; cbn; congruence)) as D.
    destruct (key_set (slots s) (locals s t) k v). injection H as <-. exact D.
  - (* XIn Step *)
    pose proof (i_range _ I t) as Rg. rewrite E in Rg. cbn in Rg.
    injection H as <-.
    pose proof (i_in _ I t i ltac:(rewrite E; reflexivity)) as V0.
    constructor; cbn [slots locals at_ trace]; try apply I.
    + intros k. rewrite leave_created. cbn [created]. apply I.
    + intros u k. zc u t; [|apply I]. zc k i; cbn [lgen]; apply I.
    + intros u k H. rewrite leave_specific. cbn [specific]. zc u t.
      * zc k i.
        -- rewrite V0. unfold eff. cbn [value lgen]. destruct (_ <? _); reflexivity.
        -- apply I. rewrite E. cbn. congruence.
      * apply I; exact H.
    + intros u k H. zc u t; [|apply I; exact H]. zc k i; [|apply I; exact H].
      unfold eff. cbn [value lgen]. destruct (_ <? _); reflexivity.
    + intros u k H. rewrite leave_specific. cbn [specific]. zc u t; [elim (next_own _ _ _ H)|apply I; exact H].
    + intros u. apply dtor_ok_leave. zc u t; [apply next_dtor|].
      apply dtor_ok_cons; try assumption; try discriminate. exact Logic.I.
    + intros u. zc u t; [apply next_range; tauto|apply I].
    + apply leave_expl. split; [exact Logic.I|apply I].
Qed.

Lemma reachable_inv : forall s, reachable s -> inv s.
Proof.
  intros s [sched H]. exact (run_inv _ _ (guarded client_rule step) inv step_inv sched init s init_inv H).
Qed.

(** ** Every key is visited *)
Section Visit.
Variables t k d v : Z.

Definition has_value (tr : list event) : Prop := created tr k = Some d /\ specific tr t k = v.
Definition touches (e : event) : Prop :=
  match e with
  | EDelete _ k' true => k' = k
  | ESet t' k' _ true => t' = t /\ k' = k
  | _ => False
  end.

Definition progress (p : pc) (tr r1 : list event) : Prop :=
  In (ECall t k d v) r1 \/
  (has_value tr /\
   match p with
   | XGet j i => j = 0 /\ i <= k
   | XDtor j i w => j = 0 /\ (i < k \/ (i = k /\ w = v))
   | XIn j i => j = 0 /\ i < k
   | _ => False
   end).

Definition visit (p : pc) (tr : list event) : Prop :=
  forall r1 r2, tr = r1 ++ EExit t :: r2 -> has_value r2 -> v <> 0 -> d <> 0 ->
    (forall e, In e r1 -> ~ touches e) -> progress p tr r1.

Lemma has_cons : forall tr e, has_value tr -> allowed tr e -> ~ touches e ->
  (forall d' v', e <> ECall t k d' v') -> has_value (e :: tr).
Proof.
  intros tr e [A B] Al T NC. unfold has_value.
  destruct e as [u d' [k'|]|u k' []|u k' w []|u k' w|u|u k' d' w|u k'|u]; cbn [specific created]; try (split; assumption).
  - cbn in Al. destruct (Z.eqb_spec k k') as [<-|]; [|split; assumption].
    elim (proj2 Al). unfold live. congruence.
  - cbn in T. destruct (Z.eqb_spec k k') as [<-|]; [elim T; reflexivity|split; assumption].
  - cbn in T. destruct (Z.eqb_spec t u) as [<-|]; cbn [andb]; [|split; assumption].
    destruct (Z.eqb_spec k k') as [<-|]; [elim T; split; reflexivity|split; assumption].
  - destruct (Z.eqb_spec t u) as [<-|]; cbn [andb]; [|split; assumption].
    destruct (Z.eqb_spec k k') as [<-|]; [elim (NC d' w); reflexivity|split; assumption].
Qed.

Lemma split_cons : forall e tr r1 r2, e :: tr = r1 ++ EExit t :: r2 ->
  (r1 = [] /\ e = EExit t /\ tr = r2) \/ exists r, r1 = e :: r /\ tr = r ++ EExit t :: r2.
Proof.
  intros e tr [|x r] r2 H; cbn in H; injection H as -> ->; [left; auto|right; eauto].
Qed.

(** an event that leaves the thread where it is *)
Lemma visit_stay : forall p tr e, visit p tr -> allowed tr e -> e <> EExit t ->
  (forall d' v', e <> ECall t k d' v') -> visit p (e :: tr).
Proof.
  intros p tr e V Al NE NC r1 r2 E Hv Nv Nd NT.
  destruct (split_cons _ _ _ _ E) as [(_ & X & _)|(r & -> & E')]; [contradiction|].
  destruct (V r r2 E' Hv Nv Nd (fun e' H => NT e' (or_intror H))) as [H|[H M]].
  - left; right; exact H.
  - right. split; [|exact M]. apply has_cons; auto. apply NT. left; reflexivity.
Qed.

Lemma visit_leave : forall p q tr, visit p tr -> visit p (leave t q tr).
Proof.
  intros p q tr V. destruct q; try exact V. apply visit_stay; try assumption; try discriminate. exact Logic.I.
Qed.

Lemma visit_move : forall p q tr, visit p tr ->
  (has_value tr -> progress p tr [] -> progress q tr []) -> visit q tr.
Proof.
  intros p q tr V M r1 r2 E Hv Nv Nd NT. destruct (V r1 r2 E Hv Nv Nd NT) as [H|[H K]]; [left; exact H|].
  destruct (M H (or_intror (conj H K))) as [[]|K']. right. exact K'.
Qed.
End Visit.

Definition visited (s : state) : Prop := forall t k d v, visit t k d v (at_ s t) (trace s).
(** a thread that has not begun to exit has no exit event *)
Definition not_yet (s : state) : Prop := forall t, at_ s t = Running -> ~ In (EExit t) (trace s).

Lemma next_progress : forall t k d v tr j i, has_value t k d v tr -> j = 0 -> i < k ->
  0 <= k < PTHREAD_KEYS_MAX -> progress t k d v (next j i) tr [].
Proof.
  intros t k d v tr j i H -> L K. right. split; [exact H|]. unfold next.
  destruct (Z.ltb_spec (i + 1) PTHREAD_KEYS_MAX); [split; [reflexivity|lia]|lia].
Qed.

Lemma in_leave : forall t u p tr, In (EExit t) (leave u p tr) -> In (EExit t) tr.
Proof. intros t u [] tr; cbn; intros H; try exact H. destruct H as [H|H]; [discriminate|exact H]. Qed.

Lemma visit_other_leave : forall u t k d v p q tr, u <> t ->
  visit t k d v p tr -> visit t k d v p (leave u q tr).
Proof.
  intros u t k d v p q tr N V. destruct q; try exact V. apply visit_stay; try assumption; try discriminate. exact Logic.I.
Qed.

Lemma step_visited : forall u a s s', inv s /\ visited s /\ not_yet s ->
  guarded client_rule step u a s = Some s' -> inv s' /\ visited s' /\ not_yet s'.
Proof.
  intros u a s s' (I & V & Y) H. split; [exact (step_inv _ _ _ _ I H)|].
  pose proof (step_inv _ _ _ _ I H) as I'. pose proof (i_expl _ I') as X'.
  unfold guarded in H. destruct (client_rule s u a) eqn:R; [|discriminate]. unfold step in H.
  assert (Stay : forall e g l, (forall t, e <> EExit t) -> (forall t k d v, e <> ECall t k d v) ->
     s' = {| slots := g; locals := l; at_ := at_ s; trace := e :: trace s |} -> visited s' /\ not_yet s').
  { intros e g l N1 N2 ->. split.
    - intros t k d v. cbn [at_ trace]. apply visit_stay; auto. exact (proj1 X').
    - intros t Ht [E|E]; [exact (N1 t E)|exact (Y t Ht E)]. }
  destruct (at_ s u) as [|j i|j i w|j i|] eqn:E; destruct a; try discriminate.
  - destruct (key_create (slots s) d). injection H as <-. eapply Stay; [..|reflexivity]; discriminate.
  - destruct (key_delete (slots s) k). injection H as <-. eapply Stay; [..|reflexivity]; discriminate.
  - destruct (key_get (slots s) (locals s u) k). injection H as <-. eapply Stay; [..|reflexivity]; discriminate.
  - destruct (key_set (slots s) (locals s u) k v). injection H as <-. eapply Stay; [..|reflexivity]; discriminate.
  - injection H as <-. split.
    + intros t k d v. cbn [at_ trace]. zc t u.
      * intros r1 r2 E2 Hv Nv Nd NT. destruct (split_cons _ _ _ _ _ E2) as [(-> & _ & <-)|(r & -> & E')].
        -- right. split; [exact Hv|]. split; [reflexivity|].
           destruct Hv as [Hc _]. rewrite (i_live _ I) in Hc.
           destruct (in_use (slots s k)) eqn:U; [|discriminate]. pose proof (i_key _ I k U). lia.
        -- elim (Y u E). rewrite E'. apply in_or_app. right; left; reflexivity.
      * apply visit_stay; auto; try congruence. exact Logic.I.
    + intros t Ht. cbn [at_ trace] in *. zc t u; [discriminate|]. intros [Q|Q]; [congruence|exact (Y t Ht Q)].
  - (* XGet *)
    pose proof (get_facts s u i I) as G. pose proof (get_value s u i I ltac:(rewrite E; cbn; tauto)) as Gv.
    destruct (key_get (slots s) (locals s u) i) as [w l']. destruct G as [G1 _]. rewrite Gv in G1.
    injection H as <-. split.
    + intros t k d v. cbn [at_ trace]. zc t u; [|apply visit_other_leave; auto].
      intros r1 r2 E2 Hv Nv Nd NT. revert r1 r2 E2 Hv Nv Nd NT. apply visit_leave.
      intros r1 r2 E2 Hv Nv Nd NT.
      pose proof (V u k d v) as Vu. rewrite E in Vu.
      destruct (Vu r1 r2 E2 Hv Nv Nd NT) as [P|[P [-> Q]]]; [left; exact P|].
      destruct (Z.eq_dec i k) as [->|Ni].
      * right. split; [exact P|]. assert (Ew : w = v) by (rewrite G1; apply P). rewrite Ew.
        destruct (Z.eqb_spec v 0); [contradiction|]. split; [reflexivity|right; auto].
      * assert (Hk : 0 <= k < PTHREAD_KEYS_MAX).
        { destruct P as [Hc _]. rewrite (i_live _ I) in Hc.
          destruct (in_use (slots s k)) eqn:U; [|discriminate]. exact (i_key _ I k U). }
        destruct (w =? 0).
        -- destruct (next_progress u k d v (trace s) 0 i P eq_refl ltac:(lia) Hk) as [[]|K]. right; exact K.
        -- right. split; [exact P|]. split; [reflexivity|left; lia].
    + intros t Ht. cbn [at_ trace] in *. zc t u.
      * destruct (w =? 0); [destruct (next_shape j i) as [(p & q & Q)|Q]; rewrite Q in Ht|]; discriminate.
      * intros Q. apply in_leave in Q. exact (Y t Ht Q).
  - (* XDtor *)
    assert (Hk : forall k d v, has_value u k d v (trace s) -> 0 <= k < PTHREAD_KEYS_MAX /\ dtor (slots s k) = d).
    { intros k d v [Hc _]. rewrite (i_live _ I) in Hc.
      destruct (in_use (slots s k)) eqn:U; [|discriminate]. split; [exact (i_key _ I k U)|congruence]. }
    destruct (Z.eqb_spec (dtor (slots s i)) 0) as [Z0|Nz]; injection H as <-.
    + split.
      * intros t k d v. cbn [at_ trace]. zc t u; [|apply visit_other_leave; auto].
        apply visit_leave. intros r1 r2 E2 Hv Nv Nd NT.
        pose proof (V u k d v) as Vu. rewrite E in Vu.
        destruct (Vu r1 r2 E2 Hv Nv Nd NT) as [P|[P [-> Q]]]; [left; exact P|].
        destruct (Hk _ _ _ P) as [K1 K2].
        destruct Q as [Q|[-> ->]]; [|congruence].
        destruct (next_progress u k d v (trace s) 0 i P eq_refl ltac:(lia) K1) as [[]|K]. right; exact K.
      * intros t Ht. cbn [at_ trace] in *. zc t u.
        -- destruct (next_shape j i) as [(p & q & Q)|Q]; rewrite Q in Ht; discriminate.
        -- intros Q. apply in_leave in Q. exact (Y t Ht Q).
    + split.
      * intros t k d v. cbn [at_ trace]. zc t u.
        -- intros r1 r2 E2 Hv Nv Nd NT.
           destruct (split_cons _ _ _ _ _ E2) as [(_ & Q & _)|(r & -> & E')]; [discriminate|].
           pose proof (V u k d v) as Vu. rewrite E in Vu.
           destruct (Vu r r2 E' Hv Nv Nd (fun e' H => NT e' (or_intror H))) as [P|[P [-> Q]]]; [left; right; exact P|].
           destruct (Hk _ _ _ P) as [K1 K2].
           destruct Q as [Q|[-> ->]]; [|left; left; congruence].
           right. split; [|split; [reflexivity|exact Q]].
           apply has_cons; auto; [exact (proj1 X')|]. intros d' v'. intros X. injection X as X _ _. lia.
        -- apply visit_stay; auto; try discriminate; try congruence. exact (proj1 X').
      * intros t Ht. cbn [at_ trace] in *. zc t u; [discriminate|]. intros [Q|Q]; [discriminate|exact (Y t Ht Q)].
  - destruct (key_create (slots s) d). injection H as <-. eapply Stay; [..|reflexivity]; discriminate.
  - destruct (key_delete (slots s) k). injection H as <-. eapply Stay; [..|reflexivity]; discriminate.
  - destruct (key_get (slots s) (locals s u) k). injection H as <-. eapply Stay; [..|reflexivity]; discriminate.
  - destruct (key_set (slots s) (locals s u) k v). injection H as <-. eapply Stay; [..|reflexivity]; discriminate.
  - injection H as <-. split.
    + intros t k d v. cbn [at_ trace]. zc t u.
      * apply visit_leave. intros r1 r2 E2 Hv Nv Nd NT.
        assert (Vs : visit u k d v (XIn j i) (ERet u i :: trace s)).
        { apply visit_stay; try discriminate; [|exact Logic.I]. pose proof (V u k d v) as Vu. rewrite E in Vu. exact Vu. }
        destruct (Vs r1 r2 E2 Hv Nv Nd NT) as [P|[P [-> Q]]]; [left; exact P|].
        assert (Hk : 0 <= k < PTHREAD_KEYS_MAX).
        { destruct P as [Hc _]. cbn [created] in Hc. rewrite (i_live _ I) in Hc.
          destruct (in_use (slots s k)) eqn:U; [|discriminate]. exact (i_key _ I k U). }
        destruct (next_progress u k d v _ 0 i P eq_refl ltac:(lia) Hk) as [[]|K]. right; exact K.
      * apply visit_other_leave; auto. apply visit_stay; auto; try discriminate. exact Logic.I.
    + intros t Ht. cbn [at_ trace] in *. zc t u.
      * destruct (next_shape j i) as [(p & q & Q)|Q]; rewrite Q in Ht; discriminate.
      * intros Q. apply in_leave in Q. destruct Q as [Q|Q]; [discriminate|exact (Y t Ht Q)].
Qed.

Lemma reachable_visited : forall s, reachable s -> inv s /\ visited s /\ not_yet s.
Proof.
  intros s [sched H].
  refine (run_inv _ _ (guarded client_rule step) _ step_visited sched init s _ H).
  split; [exact init_inv|]. split.
  - intros t k d v r1 r2 E. destruct r1; discriminate.
  - intros t _ [].
Qed.
