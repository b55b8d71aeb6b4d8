(** C61: static TLS blocks are disjoint, aligned and inside the allocation. *)
From Verif Require Import Base Tls_Model Tls_Spec Tls_Proof.
Open Scope Z_scope.

(** For both variants, any objects at start-up and any objects loaded later: if the linker does not stop for lack of
    static space then every object with a TLS segment (of the later ones: those that ask for static TLS) has a block. In every thread,
    wherever its memory was allocated, no two blocks overlap, no block overlaps the TCB, all are inside of the allocation,
    and blocks are aligned as the objects ask, for objects of the start-up and for alignments up to 16 or the TCB's. *)
Theorem C61_layout : forall above sz al first more t,
  wf_tcb sz al -> Forall wf_tobj first -> Forall wf_tobj more -> total first < 2 ^ 62 -> history above first more = Ok t ->
  map fst (placed t) = filter (fun o => negb (size o =? 0)) first ++ filter (fun o => negb (size o =? 0) && static o) more /\
  forall a, 0 <= a -> a + alloc_size sz al t < 2 ^ 64 ->
  exists tcb, tcb_address above sz al t a = Ok tcb /\ (al | tcb) /\ inside (tcb, sz) (a, alloc_size sz al t) /\
    ForallOrdPairs apart (pieces above sz tcb (placed t)) /\
    Forall (fun p => apart p (tcb, sz) /\ inside p (a, alloc_size sz al t)) (pieces above sz tcb (placed t)) /\
    forall o off, In (o, off) (placed t) -> In o first \/ align o <= Z.max al 16 -> (align o | block_address above sz tcb off).
Proof.
  intros above sz al first more t WT W1 W2 T E. unfold history in E. destruct (initial_ok above first W1 T) as (t0 & E0 & S0 & M0 & _).
  rewrite E0 in E. cbn [bind] in E. destruct (later_ok above first more t0 W2 S0) as [(t' & E' & S' & _ & M')|[E' _]]; rewrite E' in E; [injection E as <-|discriminate].
  split; [rewrite M', M0; reflexivity|]. intros a A L. apply (layout_ok above sz al first); assumption.
Qed.

(** The linker stops for lack of space only if the later objects with static TLS need more than 64 bytes; so at start-up never. *)
Theorem C61_space : forall above first more,
  Forall wf_tobj first -> Forall wf_tobj more -> total first < 2 ^ 62 ->
  total (filter (fun o => negb (size o =? 0) && static o) more) <= 64 -> exists t, history above first more = Ok t.
Proof.
  intros above first more W1 W2 T L. unfold history. destruct (initial_ok above first W1 T) as (t0 & E0 & S0 & M0 & LM).
  rewrite E0. cbn [bind]. destruct (later_ok above first more t0 W2 S0) as [(t' & E' & _)|[_ X]]; [eauto|].
  exfalso. change (filter late more) with (filter (fun o => negb (size o =? 0) && static o) more) in X. lia.
Qed.

(** Objects that are loaded later are not aligned if they ask for more than any object did at start-up: alignment 32,
    with both variants, for some allocation. *)
Theorem C61_late_alignment_refuted : exists first more o off a tA tB tcbA tcbB,
  Forall wf_tobj first /\ Forall wf_tobj more /\ wf_tcb 256 16 /\ In o more /\ align o = 32 /\
  history false first more = Ok tA /\ In (o, off) (placed tA) /\ tcb_address false 256 16 tA a = Ok tcbA /\ ~ (32 | block_address false 256 tcbA off) /\
  history true first more = Ok tB /\ In (o, 32) (placed tB) /\ tcb_address true 256 16 tB a = Ok tcbB /\ ~ (32 | block_address true 256 tcbB 32).
Proof.
  set (o := {| size := 8; align := 32; static := true |}). set (f := {| size := 8; align := 8; static := false |}).
  exists [f], [o], o, (2 ^ 64 - 32), (4096 - 72 + 16). do 4 eexists.
  assert (WF : wf_tobj f) by (split; [cbn; lia|split; [exists 3; cbn; lia|cbn; lia]]).
  assert (WO : wf_tobj o) by (split; [cbn; lia|split; [exists 5; cbn; lia|cbn; lia]]).
  split; [constructor; [exact WF|constructor]|]. split; [constructor; [exact WO|constructor]|].
  split; [split; [exists 4; lia|split; [lia|split; [lia|exists 16; lia]]]|]. split; [left; reflexivity|]. split; [reflexivity|].
  split; [vm_compute; reflexivity|]. split; [right; left; vm_compute; reflexivity|]. split; [vm_compute; reflexivity|].
  split; [intros H; apply Z.mod_divide in H; [vm_compute in H; discriminate|lia]|].
  split; [vm_compute; reflexivity|]. split; [right; left; vm_compute; reflexivity|]. split; [vm_compute; reflexivity|].
  intros H. apply Z.mod_divide in H; [vm_compute in H; discriminate|lia].
Qed.

(** ELF allows an alignment of 0 for "none"; an object with it gets its block at the thread pointer, where the TCB is. *)
Theorem C61_alignment_zero_refuted : exists first t tcb off,
  Forall (fun o => 0 <= size o <= 16 /\ (align o = 0 \/ power_of_two (align o))) first /\
  history false first [] = Ok t /\ In ({| size := 16; align := 0; static := false |}, off) (placed t) /\
  tcb_address false 256 16 t 4096 = Ok tcb /\ ~ apart (block_address false 256 tcb off, 16) (tcb, 256).
Proof.
  exists [{| size := 16; align := 0; static := false |}]. do 3 eexists. split; [repeat constructor; cbn; lia|].
  split; [vm_compute; reflexivity|]. split; [left; vm_compute; reflexivity|]. split; [vm_compute; reflexivity|].
  unfold apart. cbn [fst snd]. vm_compute. intuition congruence.
Qed.

(** The hypotheses are met; the layouts of three objects at start-up (one without TLS) and a later one. *)
Definition t1 : tobj := {| size := 24; align := 8; static := false |}.
Definition t2 : tobj := {| size := 100; align := 64; static := false |}.
Definition t3 : tobj := {| size := 8; align := 8; static := true |}.
Definition t0 : tobj := {| size := 0; align := 1; static := false |}.
Example C61_met : Forall wf_tobj [t1; t0; t2] /\ Forall wf_tobj [t3] /\ wf_tcb 256 16 /\ total [t1; t0; t2] < 2 ^ 62 /\
  match history false [t1; t0; t2] [t3], history true [t1; t0; t2] [t3] with
  | Ok t, Ok u => map snd (placed t) = [2 ^ 64 - 24; 2 ^ 64 - 128; 2 ^ 64 - 136] /\ map snd (placed u) = [0; 64; 168] /\ limit t = 192 /\
                  tcb_address false 256 16 t 5000 = Ok 5248 /\ tcb_address true 256 16 u 5000 = Ok 5056
  | _, _ => False end.
Proof.
  assert (P : forall k, 0 <= k < 62 -> power_of_two (2 ^ k)) by (intros k K; exists k; auto).
  assert (W : forall o k, 0 <= k < 8 -> align o = 2 ^ k -> 0 <= size o <= 100 -> wf_tobj o).
  { intros o k K A S. pose proof (Z.pow_le_mono_r 2 k 8). split; [lia|]. split; [rewrite A; apply P; lia|]. rewrite A. lia. }
  assert (W0 : wf_tobj t0) by (apply (W _ 0); cbn; lia). assert (W1 : wf_tobj t1) by (apply (W _ 3); cbn; lia).
  assert (W2 : wf_tobj t2) by (apply (W _ 6); cbn; lia). assert (W3 : wf_tobj t3) by (apply (W _ 3); cbn; lia).
  split; [auto|]. split; [auto|].
  split; [split; [apply (P 4); lia|split; [lia|split; [lia|exists 16; lia]]]|]. split; [cbn; lia|]. vm_compute. auto.
Qed.
Print Assumptions C61_layout.
Print Assumptions C61_space.
Print Assumptions C61_late_alignment_refuted.
Print Assumptions C61_alignment_zero_refuted.
