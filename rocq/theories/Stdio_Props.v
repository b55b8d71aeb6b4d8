(** C39, C40, C57: buffered streams. *)
From Verif Require Import Stdio_Model Stdio_Spec Stdio_Proof.
Open Scope nat_scope.

(** C39: whatever the buffering mode and the kernel's short writes, after any sequence of fwrite, putc,
    fputc and fflush calls what the kernel has got, followed by at most a buffer full of pending
    bytes, is exactly what was written, in order.  For a pipe: *)
Theorem C39_output : forall d m ans os, pipe d = true -> no_errors ans -> Forall is_output os ->
  exists s rs pending, run (fresh d m ans) os = Some (s, rs) /\ length pending <= buffer_size /\
    output (dev s) ++ pending = output d ++ concat (map written os).
Proof.
  intros d m ans os P NE O.
  destruct (output_history os (opened d) (fresh d m ans) (fresh_rel d m ans) NE eq_refl ltac:(discriminate) O)
    as (s & rs & l & E & _ & _ & R).
  destruct (sim_output _ _ R) as (p & L & A & _). exists s, rs, p. split; [exact E|]. split; [exact L|].
  pose proof (r_pipe _ _ R) as Q. cbn [with_last emit i_pipe i_out opened] in *. rewrite P in *. rewrite <- Q in A.
  symmetry. exact A.
Qed.
(** ... and for a file, where writing replaces what is there: *)
Theorem C39_output_file : forall d m ans os, pipe d = false -> no_errors ans -> Forall is_output os ->
  exists s rs pending, run (fresh d m ans) os = Some (s, rs) /\ length pending <= buffer_size /\
    let all := concat (map written os) in
    put (content (dev s)) (kpos d + length all - length pending) pending = put (content d) (kpos d) all.
Proof.
  intros d m ans os P NE O.
  destruct (output_history os (opened d) (fresh d m ans) (fresh_rel d m ans) NE eq_refl ltac:(discriminate) O)
    as (s & rs & l & E & _ & _ & R).
  destruct (sim_output _ _ R) as (p & L & _ & A). exists s, rs, p. split; [exact E|]. split; [exact L|].
  pose proof (r_pipe _ _ R) as Q. cbn [with_last emit i_pipe i_pos i_data opened] in *. rewrite P in *. rewrite <- Q in A.
  symmetry. exact A.
Qed.
(** After an fflush nothing is pending. *)
Theorem C39_flushed : forall d m ans os, no_errors ans -> Forall is_output os ->
  exists s rs, run (fresh d m ans) (os ++ [Fflush]) = Some (s, rs ++ [Num 0]) /\
    let all := concat (map written os) in
    if pipe d then output (dev s) = output d ++ all
    else content (dev s) = put (content d) (kpos d) all /\ kpos (dev s) = kpos d + length all.
Proof.
  intros d m ans os NE O.
  destruct (output_history os (opened d) (fresh d m ans) (fresh_rel d m ans) NE eq_refl ltac:(discriminate) O)
    as (s1 & rs & l & E & N1 & M1 & R).
  destruct (flush_spec _ _ R eq_refl ltac:(intros _; exact M1)) as (s2 & e & E2 & _ & A & _ & N).
  exists s2, rs. rewrite run_app, E. cbn [run step]. rewrite E2, (N N1). cbn [option_map Z.eqb]. split; [reflexivity|].
  destruct (A (N N1)) as (_ & A1 & A2 & A3). cbn [with_last emit i_data i_pos i_out i_pipe opened] in *.
  destruct (pipe d); [exact A3|]. auto.
Qed.
(** With write errors: fwrite takes at least the objects that it reports, a prefix of its data, and
    what was taken is delivered or pending, in order. *)
Theorem C39_errors : forall d m ans os, pipe d = true -> only_writes os ->
  exists s rs pending taken, run (fresh d m ans) os = Some (s, rs) /\ all_accepted os rs taken /\
    length pending <= buffer_size /\ output (dev s) ++ pending = output d ++ taken.
Proof.
  intros d m ans os P O.
  destruct (write_history os (opened d) (fresh d m ans) (fresh_rel d m ans) eq_refl ltac:(discriminate) O)
    as (s & rs & a & E & AA & _ & l & _ & R).
  destruct (sim_output _ _ R) as (p & L & A & _). exists s, rs, p, a. split; [exact E|]. split; [exact AA|]. split; [exact L|].
  pose proof (r_pipe _ _ R) as Q. cbn [with_last emit i_pipe i_out opened] in *. rewrite P in *. rewrite <- Q in A.
  symmetry. exact A.
Qed.
(** ... and all of it has been delivered when an fflush succeeds. *)
Theorem C39_errors_flushed : forall d m ans os, pipe d = true -> only_writes os ->
  exists s rs r taken, run (fresh d m ans) (os ++ [Fflush]) = Some (s, rs ++ [r]) /\ all_accepted os rs taken /\
    (r = Num 0 -> output (dev s) = output d ++ taken).
Proof.
  intros d m ans os P O.
  destruct (write_history os (opened d) (fresh d m ans) (fresh_rel d m ans) eq_refl ltac:(discriminate) O)
    as (s1 & rs & a & E & AA & _ & l & NL & R).
  destruct (flush_spec _ _ R eq_refl ltac:(intros _; exact NL)) as (s2 & e & E2 & _ & A & _).
  rewrite run_app, E. cbn [run step]. rewrite E2. cbn [option_map].
  eexists s2, rs, _, a. split; [reflexivity|]. split; [exact AA|]. intros Z.
  destruct (Z.eqb_spec e 0) as [->|]; [|discriminate].
  destruct (A eq_refl) as (_ & _ & _ & A3). cbn [with_last emit i_out i_pipe opened] in A3. rewrite P in A3. exact A3.
Qed.
(** ... but it may take more than it reports: a line that could not be written is kept in the buffer
    and reported as not written; a program that tries again writes it twice. *)
Theorem C39_retry_refuted : exists s,
  let d := {| pipe := true; content := []; kpos := 0; output := [] |} in
  run (fresh d LineBuf [Err 4]) [Fwrite 1 2 [97; 10]%Z; Fwrite 1 2 [97; 10]%Z; Fflush] = Some (s, [Num 0; Num 2; Num 0]) /\
  output (dev s) = [97; 10; 97; 10]%Z.
Proof.
  assert (X : option_map (fun '(s, rs) => (rs, output (dev s)))
    (run (fresh {| pipe := true; content := []; kpos := 0; output := [] |} LineBuf [Err 4])
         [Fwrite 1 2 [97; 10]%Z; Fwrite 1 2 [97; 10]%Z; Fflush]) = Some ([Num 0; Num 2; Num 0], [97; 10; 97; 10]%Z))
    by (vm_compute; reflexivity).
  cbv zeta. destruct (run _ _) as [[s rs]|]; [|discriminate]. cbn [option_map] in X. injection X as -> X. exists s. auto.
Qed.

(** C40: for every sequence of reads of any sizes and all short reads by the kernel, the bytes
    returned are those of the file, in order, none is lost or repeated, and the end-of-file
    indicator is set exactly if more was asked for than there is. *)
Theorem C40_input : forall d m ans ns, no_errors ans ->
  exists s rs, run (fresh d m ans) (map (Fread 1) ns) = Some (s, rs) /\
    concat (map got rs) = firstn (list_sum ns) (skipn (kpos d) (content d)) /\
    eof s = (length (content d) - kpos d <? list_sum ns).
Proof.
  intros d m ans ns NE.
  destruct (read_history ns (opened d) (fresh d m ans) (fresh_rel d m ans) NE eq_refl ltac:(discriminate)) as (s & rs & E & R & C).
  exists s, rs. split; [exact E|]. split; [exact C|].
  rewrite <- (r_eof _ _ R). cbn [take i_eof opened orb]. rewrite length_taken, length_avail. cbn [opened i_push length i_data i_pos plus].
  apply eq_true_iff_eq. rewrite !Nat.ltb_lt. lia.
Qed.

(** C57: any permitted sequence of stream calls returns the same results as without a buffer, does
    not panic, and what the kernel has got differs from the unbuffered file only by at most one
    buffer of pending output. *)
Theorem C57_like_unbuffered_partial : forall d m ans os i rs,
  no_errors ans -> bytes (content d) -> ideal_run (opened d) os = Some (i, rs) ->
  exists s pending, run (fresh d m ans) os = Some (s, rs) /\ length pending <= buffer_size /\
    i_out i = (if pipe d then output (dev s) ++ pending else output (dev s)) /\
    i_data i = (if pipe d then content (dev s) else put (content (dev s)) (i_pos i - length pending) pending).
Proof.
  intros d m ans os i rs NE B H.
  destruct (run_sim os _ _ _ _ (fresh_sim d m ans NE B) H) as (s & E & M).
  destruct (sim_output _ _ (m_rel _ _ M)) as (p & L & A & C). exists s, p. split; [exact E|]. split; [exact L|].
  assert (P : pipe (dev s) = pipe d).
  { rewrite <- (r_pipe _ _ (m_rel _ _ M)). clear - H. change (pipe d) with (i_pipe (opened d)).
    revert H. generalize (opened d) as j. revert rs. induction os as [|o os IH]; intros rs j H; cbn [ideal_run] in H; [injection H as <- _; reflexivity|].
    destruct (ideal_step j o) as [[j1 r]|] eqn:E; [|discriminate].
    destruct (ideal_run j1 os) as [[j2 rs']|] eqn:E2; [|discriminate]. injection H as <- _.
    rewrite (IH _ _ E2). clear - E. unfold ideal_step in E.
    destruct o; repeat match type of E with
      | (if ?b then _ else _) = _ => destruct b
      | (let (_, _) := ?b in _) = _ => destruct b eqn:?
      end; try discriminate; injection E as <- _; try reflexivity;
      unfold take_line, reposition in *;
      repeat match goal with H : (if ?b then _ else _) = _ |- _ => destruct b | H : (_, _) = (_, _) |- _ => injection H as <- _ end; reflexivity. }
  rewrite P in *. auto.
Qed.
(** After an fflush the kernel's view is that of the unbuffered file, file offset included. *)
Theorem C57_flush_partial : forall d m ans os i rs,
  no_errors ans -> bytes (content d) -> ideal_run (opened d) (os ++ [Fflush]) = Some (i, rs) ->
  exists s, run (fresh d m ans) (os ++ [Fflush]) = Some (s, rs) /\
    content (dev s) = i_data i /\ kpos (dev s) = i_pos i /\ output (dev s) = i_out i.
Proof.
  intros d m ans os i rs NE B H.
  assert (X : exists i1 rs1, ideal_run (opened d) os = Some (i1, rs1) /\ ideal_run i1 [Fflush] = Some (i, [Num 0]) /\ rs = rs1 ++ [Num 0]).
  { clear NE B. revert H. generalize (opened d) as j. revert i rs. induction os as [|o os IH]; intros i rs j H; cbn [app ideal_run] in *.
    - exists j, []. cbn [ideal_step] in *. destruct (_ || _); [discriminate|]. cbn [option_map] in *. injection H as <- <-. auto.
    - destruct (ideal_step j o) as [[j1 r]|]; [|discriminate].
      destruct (ideal_run j1 (os ++ [Fflush])) as [[i' rs']|] eqn:E; [|discriminate]. injection H as <- <-.
      destruct (IH _ _ _ E) as (i1 & rs1 & A1 & A2 & ->). rewrite A1. exists i1, (r :: rs1). auto. }
  destruct X as (i1 & rs1 & A1 & A2 & ->).
  destruct (run_sim os _ _ _ _ (fresh_sim d m ans NE B) A1) as (s1 & E1 & M1).
  cbn [ideal_run ideal_step] in A2. destruct (Nat.eqb_spec (length (i_push i1)) 0) as [P|]; [|discriminate]. cbn [negb orb] in A2.
  destruct (i_pipe i1 && is_reading i1) eqn:PR; [discriminate|]. injection A2 as <-.
  destruct (flush_spec i1 s1 (m_rel _ _ M1) ltac:(apply length_zero_iff_nil; exact P)) as (s2 & e & E2 & _ & A & _ & N).
  { intros Q. rewrite Q in PR. apply not_reading. exact PR. }
  specialize (N (m_ne _ _ M1)). subst e. exists s2. rewrite run_app, E1. cbn [run step]. rewrite E2. cbn [option_map Z.eqb].
  split; [reflexivity|]. destruct (A eq_refl) as (_ & B1 & B2 & B3). auto.
Qed.

(** Defects: what happens without the restrictions of the specification. *)
Definition results (d : device) (m : bmode) (os : list op) : option (list result) :=
  option_map snd (run (fresh d m []) os).
Definition a_file (l : list Z) : device := {| pipe := false; content := l; kpos := 0; output := [] |}.
Definition a_pipe (l : list Z) : device := {| pipe := true; content := l; kpos := 0; output := [] |}.

(** a character that was pushed back at the end of the file is lost *)
Theorem C57_pushback_lost_refuted :
  results (a_file [97%Z]) FullBuf [Fgetc; Ungetc 97; Fread 1 2] = Some [Num 97; Num 97; Bytes 0 []].
Proof. vm_compute. reflexivity. Qed.
(** ungetc does not clear the end-of-file indicator *)
Theorem C57_ungetc_eof_refuted :
  results (a_file [97%Z]) FullBuf [Fgetc; Fgetc; Ungetc 97; Feof] = Some [Num 97; Num (-1); Num 97; Num 1].
Proof. vm_compute. reflexivity. Qed.
(** ungetc returns EOF for character 255 although it pushes it back *)
Theorem C57_ungetc_255_refuted :
  results (a_file [255%Z]) FullBuf [Fgetc; Ungetc 255; Fgetc] = Some [Num 255; Num (-1); Num 255].
Proof. vm_compute. reflexivity. Qed.
(** fseek(f, 0, SEEK_CUR) after ungetc moves the position forward *)
Theorem C57_seek_cur_refuted :
  results (a_file [97; 98]%Z) FullBuf [Fgetc; Ungetc 97; Ftell; Fseek 0 SeekCur; Ftell; Fgetc]
  = Some [Num 97; Num 97; Num 0; Num 0; Num 1; Num 98].
Proof. vm_compute. reflexivity. Qed.
(** fflush of a pipe that is being read (fflush(NULL) does this too) discards its input *)
Theorem C57_fflush_pipe_refuted :
  results (a_pipe [97; 98]%Z) FullBuf [Fgetc; Fflush; Fgetc] = Some [Num 97; Num 0; Num (-1)].
Proof. vm_compute. reflexivity. Qed.
(** after a failed fseek, getline fails although there is a line, and loses a character *)
Theorem C57_getline_refuted :
  results (a_file [97; 98; 10]%Z) FullBuf [Fseek (-1) SeekSet; Getdelim 10 false 0; Clearerr; Getdelim 10 false 0]
  = Some [Num (-1); Line None; Num 0; Line (Some [98; 10]%Z)].
Proof. vm_compute. reflexivity. Qed.
(** fputc does not return the character *)
Theorem C57_fputc_refuted : results (a_file []) FullBuf [Fputc 97] = Some [Num 1].
Proof. vm_compute. reflexivity. Qed.

(** Non-vacuity: a permitted history that mixes everything. *)
Definition mixed : list op :=
  [Putc 97; Fwrite 2 2 [98; 10; 99; 100]%Z; Ftell; Fseek 0 SeekSet; Fgets 10; Ungetc 120; Fgetc; Fgetc; Fread 2 1; Feof;
   Fseek (-1) SeekCur; Getdelim 10 true 0; Feof; Rewind; Fgetc; Fflush; Ftell; Fseek 0 SeekEnd; Putc 33; Fflush].
Example C57_example :
  ideal_run (opened (a_file [])) mixed <> None /\
  option_map (fun p => (i_data (fst p), snd p)) (ideal_run (opened (a_file [])) mixed) =
    Some ([97; 98; 10; 99; 100; 33]%Z,
      [Num 97; Num 2; Num 5; Num 0; Line (Some [97; 98; 10]%Z); Num 120; Num 120; Num 99; Bytes 0 [100%Z]; Num 1;
       Num 0; Line (Some [100%Z]); Num 1; Num 0; Num 97; Num 0; Num 1; Num 0; Num 33; Num 0]).
Proof. vm_compute. split; [discriminate|reflexivity]. Qed.
(** The code does the same, with short reads and writes. *)
Example C57_example_run :
  option_map (fun p => (content (dev (fst p)), length (snd p))) (run (fresh (a_file []) LineBuf [Count 1; Count 2; Count 1; Count 3; Count 0]) mixed)
  = Some ([97; 98; 10; 99; 100; 33]%Z, 20).
Proof. vm_compute. reflexivity. Qed.
Example C39_example : Forall is_output [Fwrite 2 2 [1; 2; 3; 4]%Z; Fputc 300; Fflush] /\ no_errors [Count 1; Count 0].
Proof. split; [repeat constructor|]. intros e H. cbn in H. intuition discriminate. Qed.
Example C39_errors_example : only_writes [Fwrite 1 2 [97; 10]%Z; Fflush].
Proof. intros o [<-|[<-|[]]]; [right; exists 1, 2, [97; 10]%Z; auto|left; reflexivity]. Qed.

Print Assumptions C39_output.
Print Assumptions C39_output_file.
Print Assumptions C39_flushed.
Print Assumptions C39_errors.
Print Assumptions C39_errors_flushed.
Print Assumptions C39_retry_refuted.
Print Assumptions C40_input.
Print Assumptions C57_like_unbuffered_partial.
Print Assumptions C57_flush_partial.
Print Assumptions C57_pushback_lost_refuted.
Print Assumptions C57_ungetc_eof_refuted.
Print Assumptions C57_ungetc_255_refuted.
Print Assumptions C57_seek_cur_refuted.
Print Assumptions C57_fflush_pipe_refuted.
Print Assumptions C57_getline_refuted.
Print Assumptions C57_fputc_refuted.
