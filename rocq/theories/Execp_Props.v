(** C94: execvp and execvpe. *)
From Verif Require Import Base Users_Model Execp_Model Execp_Spec Execp_Proof.
Open Scope Z_scope.

(** A name with a slash is taken as it is; any other name is tried in the directories of PATH in order.  Missing: empty elements, see below. *)
Theorem C94_execvp_partial : forall exec file,
  (In 47 file -> forall n path, execvpe exec n file path = Ok ([file], if exec file =? 0 then Started file else Failed (exec file))) /\
  (~ In 47 file -> forall ds path n, elements ds path -> Forall (fun d => d <> []) ds -> (length path < n)%nat ->
     execvpe exec n file (Some path) = Ok (tried exec (map (candidate file) ds), decision exec (map (candidate file) ds))) /\
  (~ In 47 file -> forall n, (20 < n)%nat -> execvpe exec n file None = execvpe exec n file (Some [47; 98; 105; 110; 58; 47; 117; 115; 114; 47; 98; 105; 110])).
Proof.
  intros exec file. unfold execvpe. split; [|split].
  - intros I n path. replace (existsb (Z.eqb 47) file) with true; [reflexivity|]. symmetry. apply existsb_exists. exists 47. auto.
  - intros I ds path n E F K. replace (existsb (Z.eqb 47) file) with false.
    2: { symmetry. apply not_true_is_false. intro C. apply existsb_exists in C. destruct C as (x & X1 & X2). apply Z.eqb_eq in X2. subst. auto. }
    assert (M : map (candidate file) ds = map (raw file) ds).
    { apply map_ext_in. intros d D. rewrite Forall_forall in F. specialize (F d D). destruct d; [congruence|reflexivity]. }
    rewrite M. apply tries_ok; auto. destruct ds as [|d ds] using rev_ind; [inversion E|]. rewrite last_last. apply Forall_app in F. destruct F as [_ F]. inversion F. assumption.
  - reflexivity.
Qed.
Print Assumptions C94_execvp_partial.

(** Refuted: an empty element does not stand for the current directory: the program is looked for in the root directory instead, and an empty
    element at the end is ignored. *)
Theorem C94_empty_refuted : forall exec file, ~ In 47 file ->
  (forall d n, ~ In 58 d -> d <> [] -> (length d + 1 < n)%nat -> exec (47 :: file) = 0 ->
     execvpe exec n file (Some (58 :: d)) = Ok ([47 :: file], Started (47 :: file)) /\ candidate file [] = file) /\
  (forall d n, ~ In 58 d -> d <> [] -> (length d + 1 < n)%nat -> exec (d ++ [47] ++ file) = ENOENT ->
     execvpe exec n file (Some (d ++ [58])) = Ok ([d ++ [47] ++ file], Failed ENOENT)) /\
  (forall n, (0 < n)%nat -> execvpe exec n file (Some []) = Ok ([], Failed ENOENT)).
Proof.
  intros exec file I. assert (X : existsb (Z.eqb 47) file = false).
  { apply not_true_is_false. intro C. apply existsb_exists in C. destruct C as (x & X1 & X2). apply Z.eqb_eq in X2. subst. auto. }
  unfold execvpe. rewrite X. split; [|split].
  - intros d n N D K E. split; [|reflexivity]. destruct n as [|n]; [lia|]. cbn [tries cut Z.eqb Pos.eqb app]. rewrite E. reflexivity.
  - intros d n N D K E. rewrite (tries_trail exec [d; []] (d ++ [58])); [|apply (e_more d [[]] []); [exact N|constructor; auto]|rewrite app_length; cbn; lia|reflexivity].
    cbn [removelast map tried]. unfold raw, dec, goes_on. cbn [find existsb]. unfold goes_on. rewrite E. reflexivity.
  - intros n K. destruct n; [lia|]. reflexivity.
Qed.
Print Assumptions C94_empty_refuted.

(** Instances: "/a:/b:/c" with the answers EACCES, ENOENT and success, or all ENOENT but one EACCES *)
Example C94_instance_elements : elements [[47; 97]; [47; 98]; [47; 99]] [47; 97; 58; 47; 98; 58; 47; 99].
Proof. apply (e_more [47; 97] _ [47; 98; 58; 47; 99]); [cbn; lia|]. apply (e_more [47; 98] _ [47; 99]); [cbn; lia|]. constructor. cbn; lia. Qed.
Example C94_instance_found : execvpe (fun p => match p with [_; 97; _; _] => 13 | [_; 98; _; _] => 2 | _ => 0 end) 20 [120] (Some [47; 97; 58; 47; 98; 58; 47; 99]) =
  Ok ([[47; 97; 47; 120]; [47; 98; 47; 120]; [47; 99; 47; 120]], Started [47; 99; 47; 120]). Proof. reflexivity. Qed.
Example C94_instance_denied : execvpe (fun p => match p with [_; 97; _; _] => 13 | _ => 2 end) 20 [120] (Some [47; 97; 58; 47; 98; 58; 47; 99]) =
  Ok ([[47; 97; 47; 120]; [47; 98; 47; 120]; [47; 99; 47; 120]], Failed 13). Proof. reflexivity. Qed.
Example C94_instance_other : execvpe (fun p => match p with [_; 97; _; _] => 7 | _ => 0 end) 20 [120] (Some [47; 97; 58; 47; 98]) = Ok ([[47; 97; 47; 120]], Failed 7). Proof. reflexivity. Qed.

(** The variadic forms pass exactly the arguments before the null pointer, however many; execle also the environment after it.  Missing: execl with
    more than 14 arguments, see below. *)
Theorem C94_lists_partial : forall args a0 junk, Forall (fun a => a <> 0) (a0 :: args) ->
  ((length args <= 13)%nat -> exists av, execl ((a0 :: args) ++ [0] ++ junk) = Ok av /\ vector av = Some (a0 :: args)) /\
  (exists av, execlp ((a0 :: args) ++ [0] ++ junk) = Ok av /\ vector av = Some (a0 :: args)) /\
  (forall envp, exists av, execle ((a0 :: args) ++ [0; envp] ++ junk) = Ok (av, envp) /\ vector av = Some (a0 :: args)).
Proof.
  intros args a0 junk N. assert (N' : nz args) by (inversion N; assumption). split; [|split].
  - intro K. eexists. split.
    + unfold execl. cbn [app]. change (args ++ 0 :: junk) with (args ++ [0] ++ junk). apply execl_loop_ok; [assumption|cbn; lia].
    + change ([a0] ++ args ++ [0; 0]) with ((a0 :: args) ++ [0] ++ [0]). apply vector_ok. exact N.
  - eexists. split.
    + unfold execlp. cbn [app]. change (args ++ 0 :: junk) with (args ++ [0] ++ junk). rewrite argc_of_ok by assumption. cbn [bind]. rewrite Nat.sub_succ, Nat.sub_0_r, copy_args_ok. reflexivity.
    + change (a0 :: args ++ [0]) with ((a0 :: args) ++ [0] ++ []). apply vector_ok. exact N.
  - intro envp. eexists. split.
    + unfold execle. cbn [app]. change (args ++ 0 :: envp :: junk) with (args ++ [0] ++ (envp :: junk)). rewrite argc_of_ok by assumption. cbn [bind].
      replace (args ++ [0] ++ (envp :: junk)) with ((args ++ [0]) ++ envp :: junk) by (rewrite <- app_assoc; reflexivity).
      replace (S (length args)) with (length (args ++ [0])) by (rewrite app_length; cbn; lia). rewrite copy_args_ok. reflexivity.
    + change (a0 :: args ++ [0]) with ((a0 :: args) ++ [0] ++ []). apply vector_ok. exact N.
Qed.
Print Assumptions C94_lists_partial.
(** Refuted: execl stops the program if there are 15 arguments or more. *)
Theorem C94_execl_refuted : forall args junk, Forall (fun a => a <> 0) args -> (15 <= length args)%nat -> execl (args ++ [0] ++ junk) = Abort.
Proof. intros args junk N K. destruct args as [|a0 args]; [cbn in K; lia|]. inversion N; subst. unfold execl. cbn [app]. apply execl_loop_abort; [assumption|cbn in K |- *; lia]. Qed.
Print Assumptions C94_execl_refuted.
Example C94_instance_execl : execl [5; 6; 7; 0; 99] = Ok [5; 6; 7; 0; 0] /\ execlp [5; 6; 0; 99] = Ok [5; 6; 0] /\ execle [5; 6; 0; 42; 99] = Ok ([5; 6; 0], 42) /\ execl (repeat 1 15 ++ [0]) = Abort.
Proof. repeat split. Qed.
