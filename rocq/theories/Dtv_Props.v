(** C62: thread-local variables of objects loaded at run time. *)
From Verif Require Import Base Conc Dtv_Model Dtv_Spec Dtv_Proof.
Open Scope Z_scope.

(** Any number of threads and of calls of dlopen, interleaved in any way: an access to a variable whose dlopen has returned
    gets a block; two accesses get the same block exactly if they are by the same thread and for the same object. *)
Theorem C62_blocks : forall c sched s, run (step c) sched start = Some s ->
  (forall e, In e (log s) -> exists b, e_block e = Some b) /\
  (forall e e', In e (log s) -> In e' (log s) -> (e_block e = e_block e' <-> e_thread e = e_thread e' /\ e_index e = e_index e')).
Proof. exact access_blocks. Qed.
Print Assumptions C62_blocks.

(** If calls of dlopen do not overlap, and objects with static TLS are in the global scope, every thread sees the values it
    would see if it ran alone, starting from the initialisers. *)
Theorem C62_private : forall c, serial c = true -> (forall i, stat c i = true -> glob c i = true) ->
  forall t sched s, run (step c) sched start = Some s -> seen t (log s) = private (program t sched) 0 (fun _ => Image).
Proof. exact private_all. Qed.
Print Assumptions C62_private.

Definition steps (l : Z) (k : nat) : list (Z * action) := repeat (l, Step) k.
Definition overlapping : list (Z * action) :=
  [(1, Create); (10, Build 2); (11, Build 2); (11, Lock)] ++ steps 11 6 ++ [(1, Access 3); (1, Load); (1, Write 7); (1, Return); (10, Lock)] ++ steps 10 7 ++ [(1, Access 3); (1, Load)].
(** Two calls of dlopen that overlap: the one that finishes last writes the TLS image over the variables of the other, which has returned. *)
Theorem C62_overlapping_dlopen_refuted : exists c sched s t, (forall i, stat c i = false) /\
  run (step c) sched start = Some s /\ seen t (log s) = [(3, Image); (3, Image)] /\ private (program t sched) 0 (fun _ => Image) = [(3, Image); (3, Val 7)].
Proof.
  set (c := {| serial := false; stat := fun _ => false; glob := fun _ => true |}).
  assert (E : match run (step c) overlapping start with Some s => seen 1 (log s) | None => [] end = [(3, Image); (3, Image)]) by (vm_compute; reflexivity).
  destruct (run (step c) overlapping start) as [s|] eqn:Er; [|discriminate].
  exists c, overlapping, s, 1. split; [reflexivity|]. split; [exact Er|]. split; [exact E|]. vm_compute; reflexivity.
Qed.
Print Assumptions C62_overlapping_dlopen_refuted.

(** An object with static TLS that is loaded with RTLD_LOCAL: threads created later see zeros, not the initialisers. *)
Definition late_thread : list (Z * action) := [(10, Build 1); (10, Lock); (10, Step); (1, Create); (1, Access 1); (1, Load)].
Theorem C62_local_static_refuted : exists c sched s t, serial c = true /\
  run (step c) sched start = Some s /\ seen t (log s) = [(1, Zero)] /\ private (program t sched) 0 (fun _ => Image) = [(1, Image)].
Proof.
  set (c := {| serial := true; stat := fun _ => true; glob := fun _ => false |}).
  assert (E : match run (step c) late_thread start with Some s => seen 1 (log s) | None => [] end = [(1, Zero)]) by (vm_compute; reflexivity).
  destruct (run (step c) late_thread start) as [s|] eqn:Er; [|discriminate].
  exists c, late_thread, s, 1. split; [reflexivity|]. split; [exact Er|]. split; [exact E|]. vm_compute; reflexivity.
Qed.
Print Assumptions C62_local_static_refuted.

(** Two threads with a static and a dynamic variable, and a third variable that is loaded while one of them is between
    its two loads. *)
Definition two_threads : list (Z * action) :=
  [(10, Build 2); (10, Lock); (10, Step); (1, Create); (2, Create); (1, Access 1); (1, Load); (1, Write 5); (1, Return); (2, Access 2);
   (11, Build 1); (3, Create); (11, Lock)] ++ steps 11 4 ++ [(2, Load); (2, Write 6); (2, Return); (1, Access 2); (1, Load); (1, Return)] ++ steps 11 8 ++
  [(3, Access 3); (3, Load); (2, Access 3); (2, Load); (2, Return); (2, Access 2); (2, Load); (1, Access 1); (1, Load)].
Example C62_case : exists s, run (step {| serial := true; stat := fun i => i =? 1; glob := fun _ => true |}) two_threads start = Some s /\
  seen 1 (log s) = [(1, Image); (2, Image); (1, Val 5)] /\ seen 2 (log s) = [(2, Image); (3, Image); (2, Val 6)] /\
  map e_block (log s) = map Some [Stat 1 1; Dyn 1; Dyn 0; Dyn 3; Dyn 5; Dyn 1; Stat 1 1].
Proof.
  assert (E : match run (step {| serial := true; stat := fun i => i =? 1; glob := fun _ => true |}) two_threads start with
              | Some s => (seen 1 (log s), seen 2 (log s), map e_block (log s)) | None => ([], [], []) end =
              ([(1, Image); (2, Image); (1, Val 5)], [(2, Image); (3, Image); (2, Val 6)], map Some [Stat 1 1; Dyn 1; Dyn 0; Dyn 3; Dyn 5; Dyn 1; Stat 1 1])) by (vm_compute; reflexivity).
  destruct (run _ two_threads start) as [s|] eqn:Er; [|discriminate]. injection E as E1 E2 E3. exists s. auto.
Qed.
