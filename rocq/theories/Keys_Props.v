(** C38: thread-specific data. *)
From Verif Require Import Keys_Model Keys_Spec Keys_Proof.
Open Scope Z_scope.

(** C38: for any number of threads, any history and any interleaving, every result is the one the
    history calls for (Keys_Spec.v): key_create hands out a key that does not exist, or fails when
    all 1024 exist; delete and set succeed exactly on existing keys; get returns what this thread
    last set since the key was created, and null otherwise, in particular if the key number was
    used before by a deleted key; a destructor is called only with a non-null value that the
    thread had for the existing key, and it is the destructor of that key unless the key is deleted
    at that very moment.  Destructors may themselves call everything except get and set on their
    own key. *)
Theorem C38_history_partial : forall s, reachable s -> explained (trace s).
Proof. intros s R. apply (reachable_inv _ R). Qed.

(** What this says about getspecific, spelled out: *)
Theorem C38_get_partial : forall s t k v h,
  reachable s -> trace s = EGet t k v :: h -> v = specific h t k.
Proof.
  intros s t k v h R E. pose proof (C38_history_partial s R) as X. rewrite E in X. exact (proj1 X).
Qed.
Theorem C38_no_stale_value : forall s t k v h u d,
  reachable s -> trace s = EGet t k v :: ECreate u d (Some k) :: h -> v = 0.
Proof.
  intros s t k v h u d R E. rewrite (C38_get_partial s t k v _ R E). cbn. rewrite Z.eqb_refl. reflexivity.
Qed.

(** When a thread starts to exit with a non-null value for a key with a destructor, and nobody
    deletes the key and the thread does not set it again meanwhile, then by the end the
    destructor of the key has been called with that value. *)
Theorem C38_destructors_run_partial : forall s t k d v r1 r2,
  reachable s -> at_ s t = Gone -> trace s = r1 ++ EExit t :: r2 ->
  created r2 k = Some d -> d <> 0 -> specific r2 t k = v -> v <> 0 ->
  (forall u, ~ In (EDelete u k true) r1) -> (forall w, ~ In (ESet t k w true) r1) ->
  In (ECall t k d v) r1.
Proof.
  intros s t k d v r1 r2 R G E C Nd Sp Nv ND NS.
  destruct (reachable_visited s R) as (_ & V & _). pose proof (V t k d v) as Vt. rewrite G in Vt.
  destruct (Vt r1 r2 E (conj C Sp) Nv Nd) as [H|[_ []]]; [|exact H].
  intros e He. destruct e as [| u k' []|u k' w []| | | | |]; cbn; try tauto.
  - intros ->. exact (ND u He).
  - intros [-> ->]. exact (NS w He).
Qed.

(** The exit loops end: every step a thread takes in them lowers this number, which is at most
    3 * 8 * 1024, and no step of another thread changes it. *)
Definition steps_left (p : pc) : Z :=
  match p with
  | Running => 3 * 8 * 1024 + 1
  | XGet j i => 3 * ((8 - j) * 1024 - i)
  | XDtor j i _ => 3 * ((8 - j) * 1024 - i) - 1
  | XIn j i => 3 * ((8 - j) * 1024 - i) - 2
  | Gone => 0
  end.
Theorem C38_exit_ends : forall s t u a s', reachable s -> guarded client_rule step u a s = Some s' ->
  0 <= steps_left (at_ s t) /\
  (u <> t -> at_ s' t = at_ s t) /\
  (u = t -> a = Step -> steps_left (at_ s' t) < steps_left (at_ s t)) /\
  (u = t -> a <> Step -> a <> Exit -> at_ s' t = at_ s t).
Proof.
  intros s t u a s' R H. pose proof (reachable_inv _ R) as I. pose proof (i_range _ I t) as Rg.
  unfold guarded in H. destruct (client_rule s u a); [|discriminate].
  assert (N : forall j i, 0 <= i < 1024 -> 0 <= j < 8 -> steps_left (next j i) < steps_left (XGet j i) - 2).
  { intros j i Hi Hj. unfold next, PTHREAD_KEYS_MAX, DESTRUCTOR_ITERATIONS, steps_left.
    destruct (Z.ltb_spec (i + 1) 1024); [lia|]. destruct (Z.ltb_spec (j + 1) 8); lia. }
  unfold PTHREAD_KEYS_MAX, DESTRUCTOR_ITERATIONS in *. split; [|split; [|split]].
  - clear H N. destruct (at_ s t); unfold steps_left, range_ok, PTHREAD_KEYS_MAX, DESTRUCTOR_ITERATIONS in *; lia.
  - intros D. unfold step in H. destruct (at_ s u) as [|j i|j i w|j i|]; destruct a; try discriminate;
      repeat match type of H with
      | (let '(_, _) := ?x in _) = _ => destruct x
      | (if ?x then _ else _) = _ => destruct x
      end; injection H as <-; cbn [at_]; rewrite ?setf_other by congruence; reflexivity.
  - intros -> ->. unfold step in H.
    destruct (at_ s t) as [|j i|j i w|j i|] eqn:E; try discriminate;
      unfold range_ok, PTHREAD_KEYS_MAX, DESTRUCTOR_ITERATIONS in Rg;
      pose proof (N j i (proj1 Rg) (proj2 Rg)) as Nx; clear N.
    + destruct (key_get (slots s) (locals s t) i) as [w l']. injection H as <-. cbn [at_]. rewrite setf_same.
      destruct (w =? 0); cbn [steps_left] in *; lia.
    + destruct (dtor (slots s i) =? 0); injection H as <-; cbn [at_]; rewrite setf_same; cbn [steps_left] in *; lia.
    + injection H as <-. cbn [at_]. rewrite setf_same. cbn [steps_left] in *. lia.
  - intros -> Na Ne. unfold step in H. destruct (at_ s t) as [|j i|j i w|j i|] eqn:E; destruct a; try discriminate; try congruence;
      repeat match type of H with
      | (let '(_, _) := ?x in _) = _ => destruct x
      | (if ?x then _ else _) = _ => destruct x
      end; injection H as <-; cbn [at_]; exact E.
Qed.

(** Defect: POSIX sets the value to null before the destructor is called; this code does so after
    it has returned.  So getspecific in a destructor still returns the value being destroyed, and
    a value that a destructor sets for its own key is lost: the destructor is not called again for
    it, and a later destructor reads null. *)
Theorem C38_own_key_refuted : exists s h,
  reachable_any s /\ trace s = EGet 1 0 0 :: h /\ specific h 1 0 = 9 /\ In (EGet 1 0 5) h /\ ~ explained (trace s).
Proof.
  assert (X : option_map trace (run step [(1, Create 7); (1, Create 8); (1, Set_ 0 5); (1, Set_ 1 6); (1, Exit);
     (1, Step); (1, Step); (1, Get 0); (1, Set_ 0 9); (1, Step); (1, Step); (1, Step); (1, Get 0)] init) =
     Some [EGet 1 0 0; ECall 1 1 8 6; ERet 1 0; ESet 1 0 9 true; EGet 1 0 5; ECall 1 0 7 5; EExit 1;
           ESet 1 1 6 true; ESet 1 0 5 true; ECreate 1 8 (Some 1); ECreate 1 7 (Some 0)]) by (vm_compute; reflexivity).
  destruct (run step _ init) as [s|] eqn:E in X; [|discriminate]. cbn [option_map] in X. injection X as X.
  exists s. eexists. split; [eexists; exact E|]. rewrite X. split; [reflexivity|].
  split; [reflexivity|]. split; [cbn; tauto|]. intros [A _]. discriminate A.
Qed.

(** Defect: the exit loop reads a key's value and its destructor in two critical sections; if
    another thread deletes the key and a new key gets the same number in between, the destructor of
    the new key is called with the value of the old one. *)
Theorem C38_deleted_key_refuted : exists s h,
  reachable s /\ trace s = ECall 1 0 9 5 :: h /\ created h 0 = Some 9 /\ specific h 1 0 = 0.
Proof.
  assert (X : option_map trace (run (guarded client_rule step)
     [(1, Create 7); (1, Set_ 0 5); (1, Exit); (1, Step); (2, Delete 0); (2, Create 9); (1, Step)] init) =
     Some [ECall 1 0 9 5; ECreate 2 9 (Some 0); EDelete 2 0 true; EExit 1; ESet 1 0 5 true; ECreate 1 7 (Some 0)])
    by (vm_compute; reflexivity).
  destruct (run (guarded client_rule step) _ init) as [s|] eqn:E in X; [|discriminate].
  cbn [option_map] in X. injection X as X.
  exists s. eexists. split; [eexists; exact E|]. rewrite X. repeat split; reflexivity.
Qed.

(** ** Non-vacuity *)

(** a key number is reused: thread 2's old value is not seen, thread 1 sees what it has set *)
Example reuse : exists s, reachable s /\
  trace s = [EGet 1 0 4; EGet 2 0 0; ESet 1 0 4 true; ECreate 1 0 (Some 0); EGet 2 0 0; EDelete 1 0 true;
             EGet 2 0 3; ESet 2 0 3 true; ECreate 1 0 (Some 0)].
Proof.
  assert (X : option_map trace (run (guarded client_rule step)
     [(1, Create 0); (2, Set_ 0 3); (2, Get 0); (1, Delete 0); (2, Get 0); (1, Create 0); (1, Set_ 0 4); (2, Get 0); (1, Get 0)] init) =
     Some [EGet 1 0 4; EGet 2 0 0; ESet 1 0 4 true; ECreate 1 0 (Some 0); EGet 2 0 0; EDelete 1 0 true;
             EGet 2 0 3; ESet 2 0 3 true; ECreate 1 0 (Some 0)]) by (vm_compute; reflexivity).
  destruct (run (guarded client_rule step) _ init) as [s|] eqn:E in X; [|discriminate].
  exists s. split; [eexists; exact E|]. cbn [option_map] in X. injection X as X. exact X.
Qed.

(** two destructors run, the first one sets the other key and deletes a third *)
Example destructors : exists s, reachable s /\
  trace s = [ERet 1 1; ECall 1 1 8 6; ERet 1 0; EDelete 1 2 true; ESet 1 1 6 true; ECall 1 0 7 5; EExit 1;
             ESet 1 2 1 true; ESet 1 0 5 true; ECreate 1 9 (Some 2); ECreate 1 8 (Some 1); ECreate 1 7 (Some 0)].
Proof.
  assert (X : option_map trace (run (guarded client_rule step)
     [(1, Create 7); (1, Create 8); (1, Create 9); (1, Set_ 0 5); (1, Set_ 2 1); (1, Exit); (1, Step); (1, Step); (1, Set_ 1 6);
      (1, Delete 2); (1, Step); (1, Step); (1, Step); (1, Step); (1, Step)] init) =
     Some [ERet 1 1; ECall 1 1 8 6; ERet 1 0; EDelete 1 2 true; ESet 1 1 6 true; ECall 1 0 7 5; EExit 1;
             ESet 1 2 1 true; ESet 1 0 5 true; ECreate 1 9 (Some 2); ECreate 1 8 (Some 1); ECreate 1 7 (Some 0)])
    by (vm_compute; reflexivity).
  destruct (run (guarded client_rule step) _ init) as [s|] eqn:E in X; [|discriminate].
  exists s. split; [eexists; exact E|]. cbn [option_map] in X. injection X as X. exact X.
Qed.

Print Assumptions C38_history_partial.
Print Assumptions C38_get_partial.
Print Assumptions C38_no_stale_value.
Print Assumptions C38_destructors_run_partial.
Print Assumptions C38_exit_ends.
Print Assumptions C38_own_key_refuted.
Print Assumptions C38_deleted_key_refuted.
