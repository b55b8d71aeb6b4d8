(** C63: symbols resolve to the first definition in scope order. *)
From Verif Require Import Base Deps_Model Deps_Spec Deps_Proof Scope_Model Scope_Spec Scope_Proof.
Open Scope Z_scope.

(** Any history of dlopen calls, then one that loads [root]: the relocations of every object [x] that it loads bind to the first definition in
    the objects that were global before, in the order in which they became global, and then [root] and its dependencies, breadth-first. *)
Theorem C63_load : forall deps all fuel main hist, (S (S (length all)) <= fuel)%nat -> within deps main all ->
  Forall (fun call => within deps (fst (fst call)) all) hist ->
  let '(ld, gl) := history (length all) deps main hist in
  exists s, (s <- boot fuel deps main ;; dlopens fuel deps hist s) = Ok s /\
  forall root g, within deps root all -> ~ In root ld -> exists s', dlopen fuel deps root g false s = Ok s' /\
  forall x copy def, reach deps root x -> ~ In x ld ->
    lookup copy main x def s' = first_def (if copy then except main def else def) (gl ++ group (length all) deps root).
Proof.
  intros deps all fuel main hist F Hm Hh. destruct (history_inv deps all fuel F main hist Hm Hh) as (s & E & V).
  destruct (history (length all) deps main hist) as [ld gl]. exists s. split; [exact E|]. intros root g Hr Hn.
  destruct (dlopen_new deps all fuel F root g s ld gl V Hr Hn) as (s' & E' & _). exists s'. split; [exact E'|]. intros x copy def.
  exact (lookup_new deps all fuel F root g s ld gl s' x copy main def V Hr Hn E').
Qed.
Print Assumptions C63_load.

(** The program and its libraries: breadth-first. *)
Theorem C63_program : forall deps all fuel main, (S (S (length all)) <= fuel)%nat -> within deps main all ->
  exists s, boot fuel deps main = Ok s /\ forall x copy def, reach deps main x ->
    lookup copy main x def s = first_def (if copy then except main def else def) (group (length all) deps main).
Proof.
  intros deps all fuel main F Hm. destruct (dlopen_new deps all fuel F main true nothing [] [] (inv_nothing deps all fuel F) Hm (fun x => x)) as (s & E & _).
  exists s. split; [exact E|]. intros x copy def Hx. exact (lookup_new deps all fuel F main true nothing [] [] s x copy main def (inv_nothing deps all fuel F) Hm (fun x => x) E Hx (fun x => x)).
Qed.
Print Assumptions C63_program.

(** dlsym(RTLD_DEFAULT): the first definition in a global object; dlsym(RTLD_NEXT) from the program or one of its libraries: the first
    in the objects after it; dlsym(handle): the first in the object and its dependencies, breadth-first, each once. *)
Theorem C63_dlsym : forall deps all fuel main hist, (S (S (length all)) <= fuel)%nat -> within deps main all ->
  Forall (fun call => within deps (fst (fst call)) all) hist ->
  let '(ld, gl) := history (length all) deps main hist in
  exists s, (s <- boot fuel deps main ;; dlopens fuel deps hist s) = Ok s /\ forall def,
  dlsym_default def s = first_def def gl /\
  (forall origin a b, reach deps main origin -> gl = a ++ origin :: b -> ~ In origin a -> dlsym_next main origin def s = first_def (except main def) b) /\
  (forall root, within deps root all -> exists order, (forall x, In x order <-> reach deps root x) /\ NoDup order /\
     order = levels (S (length all)) deps [root] [root] /\ dlsym_handle fuel deps def root = Ok (first_def def order)).
Proof.
  intros deps all fuel main hist F Hm Hh. destruct (history_inv deps all fuel F main hist Hm Hh) as (s & E & V).
  destruct (history (length all) deps main hist) as [ld gl] eqn:Eh. exists s. split; [exact E|]. intro def. split; [|split].
  - exact (default_spec deps s ld gl def V).
  - intros origin a b Ho Eg Na. apply (next_spec deps s ld gl main origin def a b V Eg Na).
    destruct (dlopen_new deps all fuel F main true nothing [] [] (inv_nothing deps all fuel F) Hm (fun x => x)) as (s0 & E0 & V0 & (F1 & F2 & F3 & F4 & F5 & F6)).
    change (dlopen fuel deps main true false nothing) with (boot fuel deps main) in E0. rewrite E0 in E. cbn [bind] in E.
    apply (group_members deps all main Hm) in Ho.
    destruct (prefix_stays deps all fuel F hist s0 _ _ (counter nothing) V0 Hh) with (s' := s) as (A & _).
    + rewrite F1; lia.
    + intros y _. destruct (i_rts _ _ _ _ V0 y) as (_ & R). lia.
    + exact E.
    + destruct (A origin Ho) as (_ & ->). exact (proj2 (F4 origin (fun x => x) Ho)).
  - intros root Hr. eexists. split; [|split; [|split; [reflexivity|exact (handle_spec deps all fuel F root def Hr)]]].
    + intro x. exact (queue_members deps root all x Hr).
    + apply queue_nodup.
Qed.
Print Assumptions C63_dlsym.

(** With RTLD_GLOBAL, an object that was not loaded becomes global with all its dependencies: RTLD_DEFAULT finds every symbol they define. *)
Theorem C63_global : forall deps all fuel main hist root, (S (S (length all)) <= fuel)%nat -> within deps main all ->
  Forall (fun call => within deps (fst (fst call)) all) hist -> within deps root all -> ~ In root (fst (history (length all) deps main hist)) ->
  exists s, (s <- boot fuel deps main ;; dlopens fuel deps (hist ++ [(root, true, false)]) s) = Ok s /\
  forall x def, reach deps root x -> def x = true -> dlsym_default def s <> None.
Proof.
  intros deps all fuel main hist root F Hm Hh Hr Hn.
  assert (Hh' : Forall (fun call => within deps (fst (fst call)) all) (hist ++ [(root, true, false)])) by (apply Forall_app; split; [exact Hh|constructor; [exact Hr|constructor]]).
  destruct (history_inv deps all fuel F main _ Hm Hh') as (s & E & V). exists s. split; [exact E|]. intros x def Hx Hd.
  rewrite (default_spec deps s _ _ def V). unfold history, spec_opens in *. cbn [fold_left] in *. rewrite fold_left_app. cbn [fold_left].
  destruct (fold_left _ hist _) as [ld gl] eqn:Ef. cbn [fst] in Hn. cbn [spec_open]. destruct (in_dec Z.eq_dec root ld); [contradiction|]. cbn [snd].
  unfold first_def. rewrite find_append. intro X. pose proof (find_none _ _ X x) as Y. rewrite Hd in Y. discriminate Y.
  apply in_app_iff. right. apply (group_members deps all root Hr). exact Hx.
Qed.
Print Assumptions C63_global.

(** Object 2 needs 3. If 2 is opened with RTLD_LOCAL first, RTLD_GLOBAL makes 2 global, but not 3. *)
Definition d3 (x : Z) : list Z := if x =? 2 then [3] else [].
Theorem C63_promotion_refuted : exists deps all fuel main hist root x def s,
  within deps main all /\ Forall (fun call => within deps (fst (fst call)) all) hist /\ reach deps root x /\ def x = true /\
  (s <- boot fuel deps main ;; dlopens fuel deps (hist ++ [(root, true, false)]) s) = Ok s /\ dlsym_default def s = None.
Proof.
  assert (W : forall r, In r [1; 2; 3] -> within d3 r [1; 2; 3]).
  { intros r Hr x Hx. revert Hr. apply (closed_reach d3 (fun y => In y [1; 2; 3])); [|exact Hx]. intros y d Hy Hd. unfold d3 in Hd. destruct (y =? 2); [destruct Hd as [<-|[]]; cbn; auto|destruct Hd]. }
  assert (E : match (s <- boot 8 d3 1 ;; dlopens 8 d3 ([(2, false, false)] ++ [(2, true, false)]) s) with Ok s => (true, global s, dlsym_default (fun x => x =? 3) s) | _ => (false, [], None) end = (true, [1; 2], None)) by (vm_compute; reflexivity).
  destruct (s <- boot 8 d3 1 ;; dlopens 8 d3 ([(2, false, false)] ++ [(2, true, false)]) s) as [s| | |] eqn:Er; try discriminate E.
  exists d3, [1; 2; 3], 8%nat, 1, [(2, false, false)], 2, 3, (fun x => x =? 3), s.
  split; [apply W; cbn; auto|]. split; [constructor; [apply W; cbn; auto|constructor]|]. split; [apply reach_dep; left; reflexivity|]. split; [reflexivity|]. split; [exact Er|].
  injection E as _ E2. exact E2.
Qed.
Print Assumptions C63_promotion_refuted.

(** Lookups from an object at any later time (as lazyRelocate in main.cpp:209-229 does; not used with eagerBinding, linker.cpp:31) see
    that part of the global scope that was global when the object was loaded... *)
Theorem C63_late_global : forall deps all fuel main hist root g hist', (S (S (length all)) <= fuel)%nat -> within deps main all ->
  Forall (fun call => within deps (fst (fst call)) all) hist -> Forall (fun call => within deps (fst (fst call)) all) hist' ->
  within deps root all -> ~ In root (fst (history (length all) deps main hist)) ->
  forall s s1 s', (s <- boot fuel deps main ;; dlopens fuel deps hist s) = Ok s -> dlopen fuel deps root g false s = Ok s1 -> dlopens fuel deps hist' s1 = Ok s' ->
  forall x copy def, reach deps root x -> ~ In x (fst (history (length all) deps main hist)) ->
    resolve true copy main (Some (object_rts s' x)) s' def (global s') =
    first_def (if copy then except main def else def) (snd (history (length all) deps main (hist ++ [(root, g, false)]))).
Proof.
  intros deps all fuel main hist root g hist' F Hm Hh Hh' Hr Hn s s1 s' E E1 E' x copy def Hx Hxn.
  destruct (history_inv deps all fuel F main hist Hm Hh) as (s0 & E0 & V). rewrite E in E0. injection E0 as <-.
  rewrite (late_global deps all fuel F root g s _ _ s1 hist' s' x copy main def V Hr Hn E1 Hh' E' Hx Hxn).
  destruct (dlopen_new deps all fuel F root g s _ _ V Hr Hn) as (s2 & E2 & V2 & _). rewrite E1 in E2. injection E2 as <-. rewrite (i_global _ _ _ _ V2).
  unfold history, spec_opens in *. cbn [fold_left] in *. rewrite fold_left_app. cbn [fold_left]. destruct (fold_left _ hist _) as [ld gl]. cbn [fst snd] in *. cbn [spec_open].
  destruct (in_dec Z.eq_dec root ld); [contradiction|]. reflexivity.
Qed.
Print Assumptions C63_late_global.

(** ... but they lose a definition in a local scope whose object is made global later. *)
Theorem C63_late_local_refuted : exists deps main x def y s s', 
  (s <- boot 8 deps main ;; dlopens 8 deps [(2, false, false)] s) = Ok s /\ lookup false main x def s = Some y /\
  dlopens 8 deps [(3, true, false)] s = Ok s' /\ lookup false main x def s' = None.
Proof.
  assert (E : match (s <- boot 8 d3 1 ;; dlopens 8 d3 [(2, false, false)] s) with
              | Ok s => (lookup false 1 2 (fun x => x =? 3) s, match dlopens 8 d3 [(3, true, false)] s with Ok s' => Some (lookup false 1 2 (fun x => x =? 3) s') | _ => None end)
              | _ => (None, None) end = (Some 3, Some None)) by (vm_compute; reflexivity).
  destruct (s <- boot 8 d3 1 ;; dlopens 8 d3 [(2, false, false)] s) as [s| | |] eqn:Er; try discriminate E.
  destruct (dlopens 8 d3 [(3, true, false)] s) as [s'| | |] eqn:Er'; try discriminate E. injection E as E1 E2.
  exists d3, 1, 2, (fun x => x =? 3), 3, s, s'. auto.
Qed.
Print Assumptions C63_late_local_refuted.

(** The program 1 needs 2 and 3; 10 needs 3, 11 and 12; 11 needs 10 (a cycle) and 13. 10 is opened locally, 13 is made global, then 20, which
    needs 11, is opened globally: the order of what is global, and where 20 gets a symbol from that 3, 11 and 20 define. *)
Definition dx (x : Z) : list Z :=
  if x =? 1 then [2; 3] else if x =? 10 then [3; 11; 12] else if x =? 11 then [10; 13] else if x =? 20 then [11] else [].
Example C63_case : history 9 dx 1 [(10, false, false); (13, true, false); (20, true, false)] =
    ([1; 2; 3; 10; 3; 11; 12; 10; 13; 20; 11; 10; 13; 3; 12], [1; 2; 3; 13; 20; 11; 10; 12]).
Proof. vm_compute. reflexivity. Qed.
Example C63_lookups : match (s <- boot 12 dx 1 ;; dlopens 12 dx [(10, false, false); (13, true, false); (20, true, false)] s) with
  | Ok s => (global s, lookup false 1 20 (fun x => mem_b x [11; 20]) s, lookup false 1 20 (fun x => mem_b x [3; 11; 20]) s,
             dlsym_next 1 2 (fun x => mem_b x [1; 2; 12; 10]) s, dlsym_default (fun x => x =? 12) s)
  | _ => ([], None, None, None, None) end = ([1; 2; 3; 13; 20; 11; 10; 12], Some 20, Some 3, Some 10, Some 12).
Proof. vm_compute. reflexivity. Qed.
Example C63_handle : dlsym_handle 12 dx (fun x => mem_b x [13; 12]) 11 = Ok (Some 13).
Proof. vm_compute. reflexivity. Qed.
