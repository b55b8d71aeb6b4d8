(** C59: constructors run once, dependencies first; destructors in reverse. *)
From Verif Require Import Base Check Deps_Model Deps_Spec Deps_Proof Init_Model Init_Spec Init_Proof.
Open Scope Z_scope.

(** Over every sequence of loads, with constructors that load further objects ([opens]), and for every finite
    dependency graph: all the loads succeed, and when they are done the constructors of exactly the objects
    involved have been run, each once, to their end. At exit the destructors run once each, in the reverse order of
    the constructors' ends. *)
Theorem C59_once : forall deps opens roots all fuel,
  universe deps opens roots all -> (2 * length all + 2 <= fuel)%nat ->
  exists s, each (load fuel deps opens) roots start = Ok s /\
    NoDup (started s) /\ (forall x, In x (started s) <-> involved deps opens roots x) /\
    NoDup (finished s) /\ (forall x, In x (finished s) <-> involved deps opens roots x) /\
    forall fuel', (length (finished s) < fuel')%nat -> exists s', destructObjects fuel' s = Ok s' /\ destroyed s' = rev (finished s).
Proof.
  intros deps opens roots all fuel U F. destruct (once_ok deps opens roots all fuel U F) as (s & E & G & S & N). exists s. split; [exact E|].
  split; [apply G|]. split; [exact S|]. split; [apply G|]. split; [exact N|]. intros fuel' F'. apply exit_ok; assumption.
Qed.

(** If constructors load nothing, then for every sequence of loads each object's constructors run after those of its
    direct dependencies, except for a dependency that needs the object in turn. *)
Theorem C59_order : forall deps roots all fuel,
  universe deps no_opens roots all -> (2 * length all + 2 <= fuel)%nat ->
  exists s, each (load fuel deps no_opens) roots start = Ok s /\ started s = finished s /\
    forall x d, In x (started s) -> In d (deps x) -> ~ reach deps d x -> before (started s) d x.
Proof.
  intros deps roots all fuel U F. destruct (order_ok deps roots all fuel U F) as (s & E & G & SF & _ & O). exists s. auto.
Qed.

(** Without cycles this holds for all indirect dependencies too. *)
Theorem C59_order_acyclic : forall deps roots all fuel,
  universe deps no_opens roots all -> (2 * length all + 2 <= fuel)%nat -> (forall x, ~ needs deps x x) ->
  exists s, each (load fuel deps no_opens) roots start = Ok s /\ forall x y, In x (started s) -> needs deps x y -> before (started s) y x.
Proof.
  intros deps roots all fuel U F A. destruct (order_ok deps roots all fuel U F) as (s & E & G & SF & _ & O). exists s. split; [exact E|].
  intros x y. apply (ordered_trans deps (started s)); auto; [apply G|]. intros z d Z D.
  destruct (once_ok deps no_opens roots all fuel U F) as (s1 & E1 & _ & S1 & _). rewrite E in E1. injection E1 as <-.
  apply S1. apply S1 in Z. eapply inv_dep; eassumption.
Qed.

(** With a constructor that loads an object the order is violated: 1 needs 2 and 3, and 2's constructor loads 4, which
    needs 3. 4's constructor runs before 3's, although 3 does not need 4. *)
Definition nested_deps (x : Z) : list Z := if x =? 1 then [2; 3] else if x =? 4 then [3] else [].
Definition nested_opens (x : Z) : list Z := if x =? 2 then [4] else [].
Theorem C59_nested_order_refuted : exists deps opens roots all s,
  universe deps opens roots all /\ each (load 10 deps opens) roots start = Ok s /\
  In 4 (started s) /\ In 3 (deps 4) /\ ~ reach deps 3 4 /\ before (started s) 4 3 /\ before (finished s) 4 3.
Proof.
  assert (E : match each (load 10 nested_deps nested_opens) [1] start with Ok s => (started s, finished s) | _ => ([], []) end = ([2; 4; 3; 1], [4; 2; 3; 1])) by (vm_compute; reflexivity).
  destruct (each (load 10 nested_deps nested_opens) [1] start) as [s| | |] eqn:ES; try discriminate. injection E as S F.
  exists nested_deps, nested_opens, [1], [1; 2; 3; 4], s. split; [|split; [exact ES|]].
  - split; [intros x [<-|[]]; left; reflexivity|]. intros x [<-|[<-|[<-|[<-|[]]]]]; split; intros y Y; vm_compute in Y; cbn [In]; tauto.
  - rewrite S, F. split; [right; left; reflexivity|]. split; [left; reflexivity|]. split.
    + intros R. inversion R as [|? d ? D _]; subst. vm_compute in D. exact D.
    + split; [exists [2], [], [1]; reflexivity|exists [], [2], [1]; reflexivity].
Qed.

(** An example: 1 needs 2 and 3, which both need 4; 4 and 5 need each other. Later 6 is loaded, which needs 3 and 1. *)
Definition a_graph (x : Z) : list Z :=
  if x =? 1 then [2; 3] else if x =? 2 then [4] else if x =? 3 then [4] else if x =? 4 then [5] else if x =? 5 then [4] else if x =? 6 then [3; 1] else [].
Example C59_met : universe a_graph no_opens [1; 6] [1; 2; 3; 4; 5; 6] /\
  match each (load 14 a_graph no_opens) [1; 6] start with
  | Ok s => started s = [5; 4; 2; 3; 1; 6] /\ match destructObjects 7 s with Ok s' => destroyed s' = [6; 1; 3; 2; 4; 5] | _ => False end
  | _ => False end.
Proof.
  split; [|vm_compute; split; reflexivity]. split; [intros x [<-|[<-|[]]]; cbn; tauto|].
  intros x H. split; [|intros y []]. cbn [In] in H. destruct H as [<-|[<-|[<-|[<-|[<-|[<-|[]]]]]]]; intros y Y; vm_compute in Y; cbn [In]; tauto.
Qed.
Print Assumptions C59_once.
Print Assumptions C59_order.
Print Assumptions C59_order_acyclic.
Print Assumptions C59_nested_order_refuted.
