(** The user database: its path, its memory and its descriptor over all histories of calls. *)
From Verif Require Import Base Utmpx_Model Utmpx_Spec Utmpx_Proof.
Open Scope Z_scope.

(** no history frees a string twice or the constant path; what is live is the current path, at most one descriptor is open, and the path is the name set last *)
Theorem C115_history : forall h, exists s, run init h = Ok s /\ live s = blocks (pth s) /\ opened s = (match file s with Some _ => 1 | None => 0 end) /\
  (Forall with_memory h -> name_of (pth s) = last_name dflt h).
Proof. exact history_ok. Qed.
Print Assumptions C115_history.

(** setting a name fails only without memory, and then changes nothing *)
Theorem C115_name : forall h s f m, run init h = Ok s ->
  exists r, utmpxname s f m = Ok r /\ file (snd r) = file s /\ (m = true -> fst r = 0) /\ (fst r = 0 -> name_of (pth (snd r)) = f) /\ (fst r <> 0 -> snd r = s).
Proof. exact failed_ok. Qed.
Print Assumptions C115_name.

(** if no file is open, reading opens the current name, for reading only if writing is not allowed *)
Theorem C115_open : forall s a, file s = None -> opens a -> fst (getutxent s a) = inr (name_of (pth s)).
Proof. exact open_ok. Qed.
Print Assumptions C115_open.
Theorem C115_open_fails : forall s a, file s = None -> ~ opens a -> getutxent s a = (inl ENOENT, s).
Proof. exact fail_ok. Qed.
Print Assumptions C115_open_fails.

(** but if a file is open, a new name has no effect: the old file goes on being read *)
Theorem C115_switch_refuted : forall h s d old new m a, run init h = Ok s -> file s = Some (d, old) -> exists r, utmpxname s new m = Ok r /\ fst (getutxent (snd r) a) = inr old.
Proof. exact switch_reach. Qed.
Print Assumptions C115_switch_refuted.
(** the new name is used from endutxent on *)
Theorem C115_switch_partial : forall h s new a, run init h = Ok s -> opens a -> exists r, utmpxname s new true = Ok r /\ fst (getutxent (endutxent (snd r)) a) = inr new.
Proof.
  intros h s new a E O. destruct (failed_ok h s new true E) as [r [R [_ [Z0 [N _]]]]]. exists r. split; [exact R|]. rewrite open_ok; [|unfold endutxent; destruct (file (snd r)) eqn:F; [reflexivity|exact F]|exact O].
  f_equal. rewrite <- (N (Z0 eq_refl)). unfold endutxent. destruct (file (snd r)); reflexivity.
Qed.
Print Assumptions C115_switch_partial.

Definition other : list Z := [47; 120].
Example c115_run : run init [Name other true; Get (ans 0 0 5); Name [47; 121] true; End_; Name dflt true; Get (ans 13 0 6)] = Ok (mk Default [] 2 (Some (6, dflt)) 1).
Proof. reflexivity. Qed.
Example c115_memory : run init [Name other true; Name [47; 121] true; Name [47; 122] false] = Ok (mk (Heap 1 [47; 121]) [1] 2 None 0).
Proof. reflexivity. Qed.
Example c115_old : exists s, run init [Get (ans 0 0 5); Name other true] = Ok s /\ fst (getutxent s (ans 0 0 6)) = inr dflt /\ name_of (pth s) = other.
Proof. eexists. split; [reflexivity|]. split; reflexivity. Qed.
