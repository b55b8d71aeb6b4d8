(** lockf: sections are locked, tested and released, and no two processes hold a byte that one of them locked. *)
From Verif Require Import Base Lockf_Model Lockf_Spec Lockf_Proof.
Open Scope Z_scope.

(** F_ULOCK: the caller holds nothing of the section any more, and all other locks are as before *)
Theorem C108_unlock : forall s size, good_section s size -> regular s ->
  exists s', lockf s F_ULOCK size = Ret 0 0 s' /\ same_file s s' /\ regular s' /\ same_elsewhere s s' size /\ forall w b, in_section s size b -> ~ holds s' (me s) w b.
Proof. exact ulock_ok. Qed.
Print Assumptions C108_unlock.

(** F_TLOCK: the caller gets a write lock on the section just if no other process holds a lock on a byte of it *)
Theorem C108_try : forall s size, good_section s size -> regular s -> writable s = true ->
  ((exists w, taken s size w) -> lockf s F_TLOCK size = Ret (-1) EAGAIN s) /\ (~ (exists w, taken s size w) -> locked s size (lockf s F_TLOCK size)).
Proof. exact tlock_ok. Qed.
Print Assumptions C108_try.

(** F_LOCK: the same, but it waits *)
Theorem C108_lock : forall s size, good_section s size -> regular s -> writable s = true ->
  ((exists w, taken s size w) -> lockf s F_LOCK size = Waits) /\ (~ (exists w, taken s size w) -> locked s size (lockf s F_LOCK size)).
Proof. exact lock_ok. Qed.
Print Assumptions C108_lock.

(** F_TEST tells whether another process holds a write lock *)
Theorem C108_test_partial : forall s size, good_section s size -> regular s ->
  (taken s size true -> lockf s F_TEST size = Ret (-1) EACCES s) /\ (~ taken s size true -> lockf s F_TEST size = Ret 0 0 s).
Proof. exact test_ok. Qed.
Print Assumptions C108_test_partial.

(** but not whether another process holds any lock: a section locked for reading by another process is called free, and taking it fails *)
Theorem C108_test_refuted : forall s size, good_section s size -> regular s -> writable s = true -> taken s size false -> ~ taken s size true ->
  lockf s F_TEST size = Ret 0 0 s /\ lockf s F_TLOCK size = Ret (-1) EAGAIN s.
Proof.
  intros s size G R W T N. split; [now apply test_ok|]. apply tlock_ok; eauto.
Qed.
Print Assumptions C108_test_refuted.

(** a call that fails changes nothing, and an unknown operation fails *)
Theorem C108_error : forall s op size e s', lockf s op size = Ret (-1) e s' -> s' = s.
Proof. exact error_ok. Qed.
Print Assumptions C108_error.
Theorem C108_operation : forall s op size, ~ In op [F_LOCK; F_TEST; F_TLOCK; F_ULOCK] -> lockf s op size = Ret (-1) EINVAL s.
Proof. exact op_ok. Qed.
Print Assumptions C108_operation.

(** after any history of calls by any processes, a byte that one process locked for writing is locked by no other *)
Theorem C108_exclusive : forall h t p m wr, regular (mkst t p wr m) -> exclusive (mkst t p wr m) -> exclusive (mkst (history t h) p wr m).
Proof. exact history_ok. Qed.
Print Assumptions C108_exclusive.

(** process 7 holds bytes 10-19 for writing and process 8 holds 30-39 for reading; process 9 is at 20 *)
Definition ex (p : Z) : st := mkst [mklk 7 true 10 19; mklk 8 false 30 39] p true 9.
Example c108_regular : regular (ex 20) /\ good_section (ex 20) 10 /\ good_section (ex 20) (-1) /\ good_section (ex 20) 0.
Proof. split; [intros k [<-|[<-|[]]]; cbn; lia|]. unfold good_section, off_max. cbn [pos ex]. lia. Qed.
Example c108_free : lockf (ex 20) F_TLOCK 10 = Ret 0 0 (mkst [mklk 9 true 20 29; mklk 7 true 10 19; mklk 8 false 30 39] 20 true 9).
Proof. reflexivity. Qed.
Example c108_write : lockf (ex 20) F_TLOCK (-1) = Ret (-1) EAGAIN (ex 20) /\ lockf (ex 20) F_TEST (-1) = Ret (-1) EACCES (ex 20) /\ lockf (ex 20) F_LOCK 0 = Waits.
Proof. repeat split. Qed.
Example c108_taken : taken (ex 20) 11 false /\ ~ taken (ex 20) 11 true.
Proof.
  split.
  - exists 8, 30. split; [cbn; lia|]. split; [left; cbn; lia|]. exists (mklk 8 false 30 39). cbn. repeat split; auto; lia.
  - intros [p [b [P [I [k [K [O [W B]]]]]]]]. destruct I as [[_ I]|[[I _]|[I _]]]; [|lia|lia]. destruct K as [<-|[<-|[]]]; [|discriminate]. cbn [first last pos ex] in *. lia.
Qed.
Example c108_read : lockf (ex 20) F_TEST 11 = Ret 0 0 (ex 20) /\ lockf (ex 20) F_TLOCK 11 = Ret (-1) EAGAIN (ex 20).
Proof. split; reflexivity. Qed.
Example c108_split : lockf (mkst [mklk 9 true 10 39] 20 true 9) F_ULOCK 10 = Ret 0 0 (mkst [mklk 9 true 10 19; mklk 9 true 30 39] 20 true 9).
Proof. reflexivity. Qed.
Example c108_history : history [] [mkcall 1 0 true F_LOCK 10; mkcall 2 5 true F_TLOCK 10; mkcall 1 5 true F_ULOCK 5; mkcall 2 5 true F_TLOCK 10] = [mklk 2 true 5 14; mklk 1 true 0 4].
Proof. reflexivity. Qed.
