(** C60: every loaded object is relocated exactly once. *)
From Verif Require Import Base Check Deps_Model Deps_Spec Deps_Proof Relr_Model Relr_Spec Relr_Proof.
Open Scope Z_scope.

(** For every RELR table, the base address is added to exactly the words that the table names. *)
Theorem C60_relr : forall m o, wf_obj m o ->
  exists m', relr (table o) m 0 (base o) = Ok m' /\ shifted m m' (words o) (base o).
Proof. exact relr_obj. Qed.

(** Over every sequence of loads, for every finite dependency graph in which no root needs itself: all loads succeed,
    the words of every object that a root needs have its base address added exactly once, and nothing else changes. *)
Theorem C60_loads : forall deps objs all m0 fuel roots,
  (forall x, In x all -> incl (deps x) all) -> (forall x, In x all -> dynamic (objs x) = true -> wf_obj m0 (objs x)) ->
  others_apart objs all -> incl roots all -> (forall r, In r roots -> ~ needs deps r r) -> (S (S (length all)) <= fuel)%nat ->
  exists s, loads fuel deps objs roots (start m0) = Ok s /\
    let loaded x := In x all /\ dynamic (objs x) = true /\ exists r, In r roots /\ reach deps r x in
    (forall x a, loaded x -> In a (words (objs x)) -> exists v, m0 a = Some v /\ memory s a = Some ((v + base (objs x)) mod 2 ^ 64)) /\
    (forall a, (forall x, loaded x -> ~ In a (words (objs x))) -> memory s a = m0 a).
Proof.
  intros deps objs all m0 fuel roots C W A I NC F.
  destruct (loads_ok deps objs all m0 C W A fuel roots (start m0) I F NC (start_settled objs all m0)) as (s & E & (_ & _ & R1 & R2) & L).
  cbn [start rts] in L. exists s. split; [exact E|]. cbv zeta. split.
  - intros x a (X & D & N) Y. apply (R1 x a); auto. apply L. auto.
  - intros a H. apply R2. intros x X RX D. apply H. split; [exact X|]. split; [exact D|]. apply L in RX as [RX|RX]; [exact RX|congruence].
Qed.

(** The list of a load is in breadth-first order and has exactly the objects that the root needs, each once if the
    root does not need itself. *)
Theorem C60_breadth_first : forall deps root all fuel, within deps root all -> (S (S (length all)) <= fuel)%nat ->
  exists l, buildLinkBfs fuel deps root = Ok l /\ l = levels (S (length all)) deps [] [root] /\
    (forall x, In x l <-> reach deps root x) /\ (~ needs deps root root -> NoDup l).
Proof.
  intros deps root all fuel W F. eexists. split; [apply (bfs_spec deps root all fuel W F)|]. split; [reflexivity|].
  split; [intros x; apply bfs_members, W|apply bfs_nodup].
Qed.

(** If the root is needed by one of its dependencies then it is relocated twice: 1 and 2 need each other, 1 has one
    word, which gets its base address added two times. *)
Definition cyclic (x : Z) : list Z := if x =? 1 then [2] else if x =? 2 then [1] else [].
Definition an_obj (x : Z) : obj := {| base := 4096 * x; table := [8]; dynamic := true |}.
Theorem C60_cycle_refuted : exists deps objs all m0 root,
  (forall x, In x all -> incl (deps x) all) /\ (forall x, In x all -> dynamic (objs x) = true -> wf_obj m0 (objs x)) /\ others_apart objs all /\ In root all /\
  exists s v, loads 10 deps objs [root] (start m0) = Ok s /\ In 4104 (words (objs root)) /\ m0 4104 = Some v /\
    memory s 4104 = Some ((v + 2 * base (objs root)) mod 2 ^ 64) /\ base (objs root) mod 2 ^ 64 <> 0.
Proof.
  exists cyclic, an_obj, [1; 2], (fun a => Some 16), 1. split; [|split; [|split; [|split]]].
  - intros x [<-|[<-|[]]] y Y; vm_compute in Y; cbn [In]; tauto.
  - intros x [<-|[<-|[]]] _; (split; [repeat constructor; lia|]); (split; [reflexivity|]); (split; [repeat constructor; intros []|]); repeat constructor; cbn; first [lia|discriminate].
  - intros x y a [<-|[<-|[]]] [<-|[<-|[]]] N; try congruence; intros [<-|[]] [H|[]]; vm_compute in H; discriminate.
  - left. reflexivity.
  - assert (E : match loads 10 cyclic an_obj [1] (start (fun _ => Some 16)) with Ok s => memory s 4104 | _ => None end = Some ((16 + 2 * 4096) mod 2 ^ 64)) by (vm_compute; reflexivity).
    destruct (loads 10 cyclic an_obj [1] (start (fun _ => Some 16))) as [s| | |]; try discriminate. exists s, 16. split; [reflexivity|]. split; [left; reflexivity|].
    split; [reflexivity|]. split; [exact E|]. vm_compute. discriminate.
Qed.

(** An example: a table with an address, a bitmap for the words 1 and 3 after it, and an address; 1 needs 2 and 3, 2 needs 3. *)
Definition b_obj (x : Z) : obj := {| base := 4096 * x; table := [16; 11; 1024]; dynamic := true |}.
Definition b_deps (x : Z) : list Z := if x =? 1 then [2; 3] else if x =? 2 then [3] else [].
Example C60_met : words (b_obj 1) = [4112; 4120; 4136; 5120] /\
  (forall x, In x [1; 2; 3] -> wf_obj (fun _ => Some 7) (b_obj x)) /\ others_apart b_obj [1; 2; 3] /\ ~ needs b_deps 1 1 /\
  match loads 5 b_deps b_obj [1; 2] (start (fun _ => Some 7)) with
  | Ok s => map (memory s) [4112; 4120; 4128; 4136; 5120; 12312] = [Some 4103; Some 4103; Some 7; Some 4103; Some 4103; Some 12295]
  | _ => False end.
Proof.
  split; [vm_compute; reflexivity|]. split; [|split; [|split; [|vm_compute; reflexivity]]].
  - assert (W : forall x, words (b_obj x) = [4096 * x + 16; 4096 * x + 24; 4096 * x + 40; 4096 * x + 1024]) by (intros x; reflexivity).
    intros x X. assert (B : 1 <= x <= 3) by (destruct X as [<-|[<-|[<-|[]]]]; lia). split; [repeat (apply Forall_cons; [lia|]); apply Forall_nil|]. split; [reflexivity|].
    rewrite W. split; [repeat (apply NoDup_cons; [cbn [In]; lia|]); apply NoDup_nil|]. repeat (apply Forall_cons; [split; [lia|discriminate]|]). apply Forall_nil.
  - intros x y a [<-|[<-|[<-|[]]]] [<-|[<-|[<-|[]]]] N; try congruence; intros H1 H2; vm_compute in H1, H2; intuition congruence.
  - intros (d & D & R). assert (G : forall x y, reach b_deps x y -> In x [2; 3] -> In y [2; 3]).
    { apply (closed_reach b_deps (fun z => In z [2; 3])). intros x e [<-|[<-|[]]] E; vm_compute in E; cbn [In]; tauto. }
    apply G in R; [|vm_compute in D; cbn [In]; tauto]. cbn in R. intuition discriminate.
Qed.
Print Assumptions C60_relr.
Print Assumptions C60_loads.
Print Assumptions C60_breadth_first.
Print Assumptions C60_cycle_refuted.
