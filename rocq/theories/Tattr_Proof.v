From Verif Require Import Base Tattr_Model Tattr_Spec.

Lemma exec_cpus a c : ~ about_cpus c -> cpus (snd (exec a c)) = cpus a.
Proof.
  intros N. destruct c as [s m|[m|]|d|n|p|p n|n]; cbn [exec]; try (destruct N; exact I); try reflexivity;
    [destruct (negb _ && negb _)|destruct (_ <? _)%Z|destruct (_ <? _)%Z]; reflexivity.
Qed.
Lemma run_cpus h : Forall (fun c => ~ about_cpus c) h -> forall a, cpus (run a h) = cpus a.
Proof. induction 1 as [|c h N F IH]; intros a; [reflexivity|]. change (run a (c :: h)) with (run (snd (exec a c)) h). rewrite IH. now apply exec_cpus. Qed.
Lemma set_cpus a s : s <> [] -> fst (exec a (SetCpus (Some s) true)) = 0%Z /\ cpus (snd (exec a (SetCpus (Some s) true))) = Some s.
Proof. intros N. cbn [exec]. unfold setaffinity. destruct s as [|x s]; [congruence|]. destruct (Nat.eqb _ _); split; reflexivity. Qed.

Lemma nth_skip (s : list Z) : forall n i, nth i (skipn n s) 0%Z = nth (n + i) s 0%Z.
Proof. induction s as [|x s IH]; intros [|n] i; cbn [skipn]; [reflexivity|now destruct i|reflexivity|apply IH]. Qed.
Lemma fits_ok n s : fits n s <-> existsb (fun b => negb (b =? 0)%Z) (skipn n s) = false.
Proof.
  unfold fits. split.
  - intros F. destruct (existsb _ _) eqn:E; [|reflexivity]. apply existsb_exists in E. destruct E as [b [I B]]. apply In_nth with (d := 0%Z) in I. destruct I as [i [L I]].
    rewrite negb_true_iff, Z.eqb_neq in B. exfalso. apply B. rewrite <- I, nth_skip. apply F. lia.
  - intros E i L. destruct (Z.eq_dec (nth i s 0%Z) 0%Z) as [|N]; [assumption|]. exfalso. assert (I : i < length s). { destruct (Nat.lt_ge_cases i (length s)); [assumption|]. rewrite nth_overflow in N by assumption. congruence. }
    assert (Y : existsb (fun b => negb (b =? 0)%Z) (skipn n s) = true); [|congruence]. apply existsb_exists. exists (nth i s 0%Z). split; [|now apply negb_true_iff, Z.eqb_neq].
    replace (nth i s 0%Z) with (nth (i - n) (skipn n s) 0%Z); [apply nth_In; rewrite skipn_length; lia|].
    rewrite nth_skip. f_equal. lia.
Qed.

Lemma affinity_ok a s h n dst : s <> [] -> Forall (fun c => ~ about_cpus c) h -> n <= length s ->
  let a' := run (snd (exec a (SetCpus (Some s) true))) h in
  (fits n s -> getaffinity a' n dst = (0%Z, firstn n s ++ skipn n dst)) /\ (~ fits n s -> getaffinity a' n dst = (ERANGE, dst)).
Proof.
  intros N F L a'. assert (C : cpus a' = Some s). { unfold a'. rewrite run_cpus by assumption. now apply set_cpus. }
  unfold getaffinity. rewrite C. split.
  - intros Ft. apply fits_ok in Ft. rewrite Ft. destruct (Nat.ltb_spec (length s) n); [lia|]. rewrite Nat.min_l by lia. unfold put. rewrite firstn_length, Nat.min_l by lia. reflexivity.
  - intros Ft. destruct (existsb _ _) eqn:E; [reflexivity|]. exfalso. now apply Ft, fits_ok.
Qed.
Lemma larger_ok a s h n dst : s <> [] -> Forall (fun c => ~ about_cpus c) h -> length s < n ->
  let a' := run (snd (exec a (SetCpus (Some s) true))) h in
  getaffinity a' n dst = (0%Z, repeat 0%Z (n - length s) ++ skipn (n - length s) (s ++ skipn (length s) dst)).
Proof.
  intros N F L a'. assert (C : cpus a' = Some s). { unfold a'. rewrite run_cpus by assumption. now apply set_cpus. }
  unfold getaffinity. rewrite C. rewrite skipn_all2 by lia. cbn [existsb]. destruct (Nat.ltb_spec (length s) n); [|lia]. rewrite Nat.min_r by lia. rewrite firstn_all. unfold put. now rewrite repeat_length.
Qed.
Lemma lost_ok a s h n dst : s <> [] -> Forall (fun c => ~ about_cpus c) h -> length s < n ->
  exists d, getaffinity (run (snd (exec a (SetCpus (Some s) true))) h) n dst = (0%Z, d) /\ hd_error d = Some 0%Z.
Proof.
  intros N F L. eexists. split; [now apply larger_ok|]. destruct (n - length s) eqn:E; [lia|]. reflexivity.
Qed.
Lemma none_ok a s m h n dst : s = None \/ s = Some [] -> Forall (fun c => ~ about_cpus c) h ->
  getaffinity (run (snd (exec a (SetCpus s m))) h) n dst = (0%Z, repeat 255%Z n ++ skipn n dst).
Proof.
  intros E F. unfold getaffinity. rewrite run_cpus by assumption. assert (C : cpus (snd (exec a (SetCpus s m))) = None) by (destruct E as [-> | ->]; reflexivity). rewrite C. unfold put. now rewrite repeat_length.
Qed.

Lemma run_keeps {A} (get : attr -> A) (about : call -> Prop) : (forall a c, ~ about c -> get (snd (exec a c)) = get a) ->
  forall h, Forall (fun c => ~ about c) h -> forall a, get (run a h) = get a.
Proof. intros K. induction 1 as [|c h N F IH]; intros a; [reflexivity|]. change (run a (c :: h)) with (run (snd (exec a c)) h). rewrite IH. now apply K. Qed.
Ltac others := let a := fresh in let c := fresh in let N := fresh in intros a c N; destruct c as [[[|? ?]|] []|[?|]|?|?|?|? ?|?]; cbn [exec setaffinity]; try (destruct N; exact I); try reflexivity;
  repeat match goal with |- context [if ?b then _ else _] => destruct b end; reflexivity.
Lemma exec_mask : forall a c, ~ about_mask c -> mask (snd (exec a c)) = mask a.
Proof. others. Qed.
Lemma exec_detach : forall a c, ~ about_detach c -> getdetach (snd (exec a c)) = getdetach a.
Proof. others. Qed.
Lemma exec_stack : forall a c, ~ about_stack c -> getstack (snd (exec a c)) = getstack a.
Proof. others. Qed.
Lemma exec_guard : forall a c, ~ about_guard c -> getguard (snd (exec a c)) = getguard a.
Proof. others. Qed.

Lemma mask_ok a m h : Forall (fun c => ~ about_mask c) h ->
  fst (getsigmask (run (snd (exec a (SetMask (Some m)))) h)) = 0%Z /\
  forall s, snd (getsigmask (run (snd (exec a (SetMask (Some m)))) h)) s = true <-> m s = true /\ s <> SIGCANCEL.
Proof.
  intros F. unfold getsigmask. rewrite (run_keeps mask about_mask exec_mask h F). cbn [exec snd mask fst]. split; [reflexivity|]. intros s. destruct (Z.eqb_spec s SIGCANCEL); [|tauto]. split; [discriminate|tauto].
Qed.
Lemma nomask_ok a h : Forall (fun c => ~ about_mask c) h -> 
  fst (getsigmask (run (snd (exec a (SetMask None))) h)) = NO_SIGMASK /\ forall s, snd (getsigmask (run (snd (exec a (SetMask None))) h)) s = false.
Proof. intros F. unfold getsigmask. rewrite (run_keeps mask about_mask exec_mask h F). now split. Qed.
Lemma stack_ok a p n h : Forall (fun c => ~ about_stack c) h ->
  ((STACK_MIN <= n)%Z -> fst (exec a (SetStack p n)) = 0%Z /\ getstack (run (snd (exec a (SetStack p n))) h) = (p, n)) /\
  ((n < STACK_MIN)%Z -> exec a (SetStack p n) = (EINVAL, a)).
Proof.
  intros F. rewrite (run_keeps getstack about_stack exec_stack h F). cbn [exec]. split; intros L; destruct (Z.ltb_spec n STACK_MIN); try lia; [split; reflexivity|reflexivity].
Qed.
Lemma stacksize_ok a n h : Forall (fun c => ~ about_stack c) h ->
  ((STACK_MIN <= n)%Z -> fst (exec a (SetStackSize n)) = 0%Z /\ getstack (run (snd (exec a (SetStackSize n))) h) = (fst (getstack a), n)) /\
  ((n < STACK_MIN)%Z -> exec a (SetStackSize n) = (EINVAL, a)).
Proof.
  intros F. rewrite (run_keeps getstack about_stack exec_stack h F). cbn [exec]. split; intros L; destruct (Z.ltb_spec n STACK_MIN); try lia; [split; reflexivity|reflexivity].
Qed.
Lemma stackaddr_ok a p h : Forall (fun c => ~ about_stack c) h ->
  fst (exec a (SetStackAddr p)) = 0%Z /\ getstack (run (snd (exec a (SetStackAddr p))) h) = (p, snd (getstack a)).
Proof. intros F. rewrite (run_keeps getstack about_stack exec_stack h F). split; reflexivity. Qed.
Lemma detach_ok a d h : Forall (fun c => ~ about_detach c) h ->
  (d = 0%Z \/ d = 1%Z -> fst (exec a (SetDetach d)) = 0%Z /\ getdetach (run (snd (exec a (SetDetach d))) h) = d) /\
  (d <> 0%Z -> d <> 1%Z -> exec a (SetDetach d) = (EINVAL, a)).
Proof.
  intros F. rewrite (run_keeps getdetach about_detach exec_detach h F). cbn [exec]. split.
  - intros [-> | ->]; split; reflexivity.
  - intros N0 N1. now rewrite (proj2 (Z.eqb_neq _ _) N0), (proj2 (Z.eqb_neq _ _) N1).
Qed.
Lemma guard_ok a n h : Forall (fun c => ~ about_guard c) h -> fst (exec a (SetGuard n)) = 0%Z /\ getguard (run (snd (exec a (SetGuard n))) h) = n.
Proof. intros F. rewrite (run_keeps getguard about_guard exec_guard h F). split; reflexivity. Qed.
Lemma fails_ok a c : fst (exec a c) <> 0%Z -> snd (exec a c) = a.
Proof.
  destruct c as [[[|? ?]|] []|[?|]|?|?|?|? ?|?]; cbn [exec setaffinity]; repeat match goal with |- context [if ?b then _ else _] => destruct b end; cbn [fst snd]; congruence.
Qed.

(** memory *)
Lemma leak_step a c : destroy (snd (exec a c)) = (destroy a + (if takes_away a c then 1 else 0))%Z.
Proof.
  destruct a as [q mk_ de sa ss gs li]. destruct c as [[[|x s]|] mem|[?|]|?|?|?|? ?|?]; cbn [exec setaffinity takes_away cpus];
    try (destruct q; unfold destroy; cbn [snd cpus live with_cpus]; lia);
    try (repeat match goal with |- context [if ?b then _ else _] => destruct b end; unfold destroy; cbn [snd cpus live]; destruct q; lia).
  destruct q as [q|]; cbn [size_of].
  - destruct (Nat.eqb _ _); [|destruct mem]; unfold destroy; cbn [snd cpus live with_cpus]; lia.
  - destruct (Nat.eqb_spec 0 (length (x :: s))) as [E|E]; [discriminate E|]. destruct mem; unfold destroy; cbn [snd cpus live with_cpus]; lia.
Qed.
Lemma leak_ok h : forall a, destroy (run a h) = (destroy a + taken_away a h)%Z.
Proof.
  induction h as [|c h IH]; intros a; cbn [taken_away]; [change (run a []) with a; lia|]. change (run a (c :: h)) with (run (snd (exec a c)) h). rewrite IH, leak_step. lia.
Qed.
