(** Thread attributes: what was set last is what is got, whatever else was set before and since. *)
From Verif Require Import Base Tattr_Model Tattr_Spec Tattr_Proof.

(** asking for at most as many bytes of the processor set as were given: they come back, or ERANGE if a processor would be left out *)
Theorem C111_affinity_partial : forall a s h n dst, s <> [] -> Forall (fun c => ~ about_cpus c) h -> n <= length s ->
  let a' := run (snd (exec a (SetCpus (Some s) true))) h in
  (fits n s -> getaffinity a' n dst = (0%Z, firstn n s ++ skipn n dst)) /\ (~ fits n s -> getaffinity a' n dst = (ERANGE, dst)).
Proof. exact affinity_ok. Qed.
Print Assumptions C111_affinity_partial.

(** asking for more bytes: the zero bytes go to the front, over the processors, so that the first eight processors are never reported *)
Theorem C111_affinity_refuted : forall a s h n dst, s <> [] -> Forall (fun c => ~ about_cpus c) h -> length s < n ->
  exists d, getaffinity (run (snd (exec a (SetCpus (Some s) true))) h) n dst = (0%Z, d) /\ hd_error d = Some 0%Z.
Proof. exact lost_ok. Qed.
Print Assumptions C111_affinity_refuted.
Theorem C111_larger_partial : forall a s h n dst, s <> [] -> Forall (fun c => ~ about_cpus c) h -> length s < n ->
  let a' := run (snd (exec a (SetCpus (Some s) true))) h in
  getaffinity a' n dst = (0%Z, repeat 0%Z (n - length s) ++ skipn (n - length s) (s ++ skipn (length s) dst)).
Proof. exact larger_ok. Qed.
Print Assumptions C111_larger_partial.

(** with no set, or an empty one, all processors *)
Theorem C111_all : forall a s m h n dst, s = None \/ s = Some [] -> Forall (fun c => ~ about_cpus c) h ->
  getaffinity (run (snd (exec a (SetCpus s m))) h) n dst = (0%Z, repeat 255%Z n ++ skipn n dst).
Proof. exact none_ok. Qed.
Print Assumptions C111_all.

(** the mask comes back without the signal used for cancellation *)
Theorem C111_mask : forall a m h, Forall (fun c => ~ about_mask c) h ->
  fst (getsigmask (run (snd (exec a (SetMask (Some m)))) h)) = 0%Z /\
  forall s, snd (getsigmask (run (snd (exec a (SetMask (Some m)))) h)) s = true <-> m s = true /\ s <> SIGCANCEL.
Proof. exact mask_ok. Qed.
Print Assumptions C111_mask.
Theorem C111_no_mask : forall a h, Forall (fun c => ~ about_mask c) h ->
  fst (getsigmask (run (snd (exec a (SetMask None))) h)) = NO_SIGMASK /\ forall s, snd (getsigmask (run (snd (exec a (SetMask None))) h)) s = false.
Proof. exact nomask_ok. Qed.
Print Assumptions C111_no_mask.

(** the stack, its guard and the detach state *)
Theorem C111_stack : forall a p n h, Forall (fun c => ~ about_stack c) h ->
  ((STACK_MIN <= n)%Z -> fst (exec a (SetStack p n)) = 0%Z /\ getstack (run (snd (exec a (SetStack p n))) h) = (p, n)) /\
  ((n < STACK_MIN)%Z -> exec a (SetStack p n) = (EINVAL, a)).
Proof. exact stack_ok. Qed.
Print Assumptions C111_stack.
Theorem C111_stacksize : forall a n h, Forall (fun c => ~ about_stack c) h ->
  ((STACK_MIN <= n)%Z -> fst (exec a (SetStackSize n)) = 0%Z /\ getstack (run (snd (exec a (SetStackSize n))) h) = (fst (getstack a), n)) /\
  ((n < STACK_MIN)%Z -> exec a (SetStackSize n) = (EINVAL, a)).
Proof. exact stacksize_ok. Qed.
Print Assumptions C111_stacksize.
Theorem C111_stackaddr : forall a p h, Forall (fun c => ~ about_stack c) h ->
  fst (exec a (SetStackAddr p)) = 0%Z /\ getstack (run (snd (exec a (SetStackAddr p))) h) = (p, snd (getstack a)).
Proof. exact stackaddr_ok. Qed.
Print Assumptions C111_stackaddr.
Theorem C111_detach : forall a d h, Forall (fun c => ~ about_detach c) h ->
  (d = 0%Z \/ d = 1%Z -> fst (exec a (SetDetach d)) = 0%Z /\ getdetach (run (snd (exec a (SetDetach d))) h) = d) /\
  (d <> 0%Z -> d <> 1%Z -> exec a (SetDetach d) = (EINVAL, a)).
Proof. exact detach_ok. Qed.
Print Assumptions C111_detach.
Theorem C111_guard : forall a n h, Forall (fun c => ~ about_guard c) h -> fst (exec a (SetGuard n)) = 0%Z /\ getguard (run (snd (exec a (SetGuard n))) h) = n.
Proof. exact guard_ok. Qed.
Print Assumptions C111_guard.

(** a call that fails changes nothing *)
Theorem C111_fails : forall a c, fst (exec a c) <> 0%Z -> snd (exec a c) = a.
Proof. exact fails_ok. Qed.
Print Assumptions C111_fails.

(** the memory left when the object is destroyed: one block for each time a processor set was taken away *)
Theorem C111_memory_partial : forall stack guard h, destroy (run (init stack guard) h) = taken_away (init stack guard) h.
Proof. intros stack guard h. rewrite leak_ok. reflexivity. Qed.
Print Assumptions C111_memory_partial.
Theorem C111_memory_refuted : forall stack guard s, s <> [] -> destroy (run (init stack guard) [SetCpus (Some s) true; SetCpus None true]) = 1%Z.
Proof. intros stack guard [|x s] N; [congruence|]. reflexivity. Qed.
Print Assumptions C111_memory_refuted.

Definition others : list call := [SetStack 4096%Z 20000%Z; SetMask None; SetDetach 1%Z; SetDetach 7%Z].
Example c111_others : Forall (fun c => ~ about_cpus c) others.
Proof. repeat constructor; intros []. Qed.
Definition set3 : attr := run (init 65536%Z 4096%Z) (SetCpus (Some [5%Z; 1%Z; 0%Z]) true :: others).
Example c111_same : getaffinity set3 3 [9%Z; 9%Z; 9%Z] = (0%Z, [5%Z; 1%Z; 0%Z]) /\ getaffinity set3 2 [9%Z; 9%Z] = (0%Z, [5%Z; 1%Z]) /\ getaffinity set3 1 [9%Z] = (ERANGE, [9%Z]).
Proof. repeat split. Qed.
Example c111_fits : fits 2 [5%Z; 1%Z; 0%Z] /\ ~ fits 1 [5%Z; 1%Z; 0%Z].
Proof. split; [intros [|[|[|[|i]]]] L; try lia; reflexivity|]. intros F. discriminate (F 1 (le_n 1)). Qed.
Example c111_larger : getaffinity set3 4 [9%Z; 9%Z; 9%Z; 9%Z] = (0%Z, [0%Z; 1%Z; 0%Z; 9%Z]).
Proof. reflexivity. Qed.
Example c111_stack : getstack set3 = (4096%Z, 20000%Z) /\ getdetach set3 = 1%Z /\ getguard set3 = 4096%Z.
Proof. repeat split. Qed.
Example c111_memory : destroy set3 = 0%Z /\ destroy (run set3 [SetCpus (Some [1%Z]) true; SetCpus (Some [2%Z; 3%Z]) false]) = 0%Z.
Proof. split; reflexivity. Qed.
