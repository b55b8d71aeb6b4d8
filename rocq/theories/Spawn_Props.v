(** C91: posix_spawn. *)
From Verif Require Import Base Spawn_Model Spawn_Spec Spawn_Proof.
Open Scope Z_scope.

(** Whatever descriptors the kernel chooses for the pipe, and wherever the file actions put theirs: the program is started with exactly the
    descriptors, files, directory, mask and dispositions asked for and with no trace of the pipe, or the first error is returned, no process number
    is stored and the child has been waited for.  The caller's descriptors and mask are as before.  Missing: file actions that open with O_CLOEXEC
    and a failing fork (see the refuted theorems below). *)
Theorem C91_spawn_partial : forall (file world : Type) (pick : table file -> Z) (open_file : world -> list Z -> Z -> Z -> world * (file + Z)) (cloexec : Z -> bool)
    (chdir : world -> list Z -> world + Z) (fchdir : world -> desc file -> world + Z) (sys : call -> Z) (exec : prog file world -> Z),
  (forall t, get file t (pick t) = None /\ 0 <= pick t) ->
  forall a ops t u w mask disp, table_of file t u -> Forall proper ops -> Forall (no_cloexec cloexec) ops ->
  let r := spawn file world pick open_file cloexec chdir fchdir sys exec 0 0 a ops t w mask disp in
  (forall x, get file (tab_after _ _ r) x = get file t x) /\ mask_after _ _ r = mask /\ stored _ _ r = (ret _ _ r =? 0) /\ reaped _ _ r = negb (ret _ _ r =? 0) /\
  match expected file world open_file chdir fchdir sys a ops u w with
  | inr e => ret _ _ r = e /\ program _ _ r = None
  | inl (u', w') => exists g, (forall x, p_tab _ _ g x = inherited file u' x) /\ p_world _ _ g = w' /\ p_calls _ _ g = wanted a /\
        p_mask _ _ g = mask_of a mask /\ (forall i, p_disp _ _ g i = disp_of a disp i) /\
        ret _ _ r = exec g /\ program _ _ r = (if exec g =? 0 then Some g else None)
  end.
Proof. intros. apply spawn_spec; auto. Qed.
Print Assumptions C91_spawn_partial.

(** The functions that add a file action refuse a negative descriptor with EBADF and leave the list alone; otherwise they append the action.  So
    every list they build is proper. *)
Theorem C91_actions_added : forall ops : list fdop,
  (forall src dst, adddup2 ops src dst = if (src <? 0) || (dst <? 0) then (EBADF, ops) else (0, ops ++ [FDup2 dst src])) /\
  (forall fd, addclose ops fd = if fd <? 0 then (EBADF, ops) else (0, ops ++ [FClose fd])) /\
  (forall fd path oflag mode, addopen ops fd path oflag mode = if fd <? 0 then (EBADF, ops) else (0, ops ++ [FOpen fd path oflag mode])) /\
  (forall path, addchdir ops path = (0, ops ++ [FChdir path])) /\
  (forall fd, addfchdir ops fd = if fd <? 0 then (EBADF, ops) else (0, ops ++ [FFchdir fd])) /\
  (Forall proper ops -> forall x y path oflag mode, Forall proper (snd (adddup2 ops x y)) /\ Forall proper (snd (addclose ops x)) /\
     Forall proper (snd (addopen ops x path oflag mode)) /\ Forall proper (snd (addchdir ops path)) /\ Forall proper (snd (addfchdir ops x))).
Proof.
  intro ops. do 5 (split; [reflexivity|]). intros F x y path oflag mode.
  unfold adddup2, addclose, addopen, addchdir, addfchdir.
  assert (A : forall o, proper o -> Forall proper (ops ++ [o])) by (intros o P; apply Forall_app; split; [exact F|constructor; [exact P|constructor]]).
  destruct (Z.ltb_spec x 0), (Z.ltb_spec y 0); cbn [orb snd]; repeat split; auto; apply A; cbn; auto.
Qed.
Print Assumptions C91_actions_added.

(** If the pipe cannot be made, the error is returned and nothing has changed. *)
Theorem C91_pipe_error : forall (file world : Type) pick open_file cloexec chdir fchdir sys exec e fe a ops t w mask disp, e <> 0 ->
  let r := spawn file world pick open_file cloexec chdir fchdir sys exec e fe a ops t w mask disp in
  ret _ _ r = e /\ stored _ _ r = false /\ tab_after _ _ r = t /\ mask_after _ _ r = mask /\ program _ _ r = None.
Proof. intros. unfold r, spawn. destruct (Z.eqb_spec e 0); [congruence|]. cbn. auto. Qed.
Print Assumptions C91_pipe_error.

(** Refuted: a failing fork leaves the caller with two more open descriptors. *)
Theorem C91_fork_refuted : forall (file world : Type) (pick : table file -> Z) open_file cloexec chdir fchdir sys exec,
  (forall t, get file t (pick t) = None /\ 0 <= pick t) ->
  forall e a ops t w mask disp, e <> 0 ->
  let r := spawn file world pick open_file cloexec chdir fchdir sys exec 0 e a ops t w mask disp in
  ret _ _ r = e /\ program _ _ r = None /\ mask_after _ _ r = mask /\
  exists x y, x <> y /\ get file t x = None /\ get file t y = None /\ get file (tab_after _ _ r) x <> None /\ get file (tab_after _ _ r) y <> None.
Proof.
  intros file world pick open_file cloexec chdir fchdir sys exec P e a ops t w mask disp E. unfold spawn. cbn [Z.eqb negb]. cbv zeta.
  destruct (Z.eqb_spec e 0); [congruence|]. cbn [negb ret program mask_after tab_after]. do 3 (split; [reflexivity|]).
  exists (pick t), (pick (set file t (pick t) (Some (PipeR file, true)))).
  destruct (P t) as [A _]. destruct (P (set file t (pick t) (Some (PipeR file, true)))) as [B _].
  revert B. generalize (pick (set file t (pick t) (Some (PipeR file, true)))) as y. revert A. generalize (pick t) as x. intros x A y B.
  cbn [set get] in *. destruct (Z.eqb_spec y x); [discriminate|]. split; [congruence|]. split; [exact A|]. split; [exact B|].
  rewrite !Z.eqb_refl. destruct (Z.eqb_spec x y); [congruence|]. split; discriminate.
Qed.
Print Assumptions C91_fork_refuted.

(** Refuted: whether the program has a file opened with O_CLOEXEC by an action depends on whether its number happens to be the lowest unused one:
    with 0 to 2 open in the caller, opening it at 3 keeps the flag and opening it at 5 drops it. *)
Definition three : table nat := map (fun i => (i, Some (User nat (Z.to_nat i), false))) [0; 1; 2].
Definition sp (cl : bool) (sys : call -> Z) (a : option attr) (ops : list fdop) (ex : Z) : outcome nat unit :=
  spawn nat unit lowest (fun w p _ _ => (w, if (length p =? 0)%nat then inr 2 else inl (100 + length p)%nat)) (fun _ => cl) (fun w p => inl w) (fun w _ => inl w)
    sys (fun _ => ex) 0 0 a ops three tt (fun _ => false) (fun i => if i =? 2 then Ign else if i =? 15 then Handler 1 else Dfl).
Theorem C91_cloexec_refuted :
  (forall t : table nat, get nat t (lowest t) = None /\ 0 <= lowest t) /\
  match program _ _ (sp true (fun _ => 0) None [FOpen 3 [97] 0 0] 0) with Some g => p_tab _ _ g 3 = None | None => False end /\
  match program _ _ (sp true (fun _ => 0) None [FOpen 5 [97] 0 0] 0) with Some g => p_tab _ _ g 5 = Some (User nat 101%nat) | None => False end.
Proof. split; [apply lowest_ok|]. split; reflexivity. Qed.
Print Assumptions C91_cloexec_refuted.

(** Instances: the pipe gets 3 and 4; actions use exactly these numbers, and the program still gets what was asked. *)
Example three_of : table_of nat three (fun x => if (0 <=? x) && (x <=? 2) then Some (Z.to_nat x, false) else None).
Proof.
  intro x. cbn [three map get]. destruct (Z.eqb_spec x 0) as [->|]; [reflexivity|]. destruct (Z.eqb_spec x 1) as [->|]; [reflexivity|]. destruct (Z.eqb_spec x 2) as [->|]; [reflexivity|].
  destruct (Z.leb_spec 0 x); destruct (Z.leb_spec x 2); cbn [andb]; try reflexivity. lia.
Qed.
Example C91_instance_pipe :
  match program _ _ (sp false (fun _ => 0) None [FDup2 4 1; FClose 1; FOpen 3 [97; 98] 0 0; FDup2 3 4; FOpen 5 [97] 0 0] 0) with
  | Some g => map (p_tab _ _ g) [0; 1; 2; 3; 4; 5; 6; 7] = [Some (User nat 0%nat); None; Some (User nat 2%nat); Some (User nat 1%nat); Some (User nat 1%nat); Some (User nat 101%nat); None; None]
  | None => False
  end.
Proof. vm_compute. reflexivity. Qed.
Example C91_instance_error : let r := sp false (fun _ => 0) None [FDup2 4 1; FDup2 7 6] 0 in (ret _ _ r, stored _ _ r, reaped _ _ r, map (get nat (tab_after _ _ r)) [3; 4]) = (9, false, true, [None; None]). Proof. reflexivity. Qed.
Example C91_instance_exec : let r := sp false (fun _ => 0) None [FDup2 4 1] 2 in (ret _ _ r, stored _ _ r, reaped _ _ r) = (2, false, true). Proof. reflexivity. Qed.
Definition at1 : attr := {| f_setsid := true; f_setpgroup := false; f_setscheduler := true; f_setschedparam := true; f_resetids := true; f_setsigdef := true; f_setsigmask := true;
  a_def := fun i => i =? 2; a_mask := fun i => i =? 10 |}.
Example C91_instance_attr :
  match program _ _ (sp false (fun c => match c with SetScheduler => 38 | _ => 0 end) (Some at1) [] 0) with
  | Some g => p_calls _ _ g = [SetSid; SetScheduler; SetGid; SetUid] /\ p_mask _ _ g 10 = true /\ p_disp _ _ g 2 = Dfl /\ p_disp _ _ g 15 = Dfl
  | None => False
  end.
Proof. repeat split. Qed.
Example C91_instance_attr_error : let r := sp false (fun c => match c with SetGid => 1 | SetUid => 3 | _ => 0 end) (Some at1) [] 0 in (ret _ _ r, stored _ _ r) = (1, false). Proof. reflexivity. Qed.
