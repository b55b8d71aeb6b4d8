(** popen and pclose: the descriptors and signals of the program and of the command, and the errors. *)
From Verif Require Import Base Popen_Model Popen_Spec Popen_Proof.
Open Scope Z_scope.

(** the program gets one new descriptor, one end of the pipe, closed on exec just if this was asked for; the command has the other end as its standard input or output,
    and otherwise the descriptors of the program; both have the signal actions and blocked signals from before the call.
    Not where the end for the command already has the number it is to get. *)
Theorem C106_popen_partial : forall old type id rd wr pid (writing : bool), new_pipe old rd wr ->
  (writing = true /\ In w type) \/ (writing = false /\ In r type /\ ~ In w type) ->
  (if writing then rd else wr) <> (if writing then 0 else 1) ->
  exists q c x, popen old type 0 id rd wr (Child pid) = Ok (res_ (Some (if writing then wr else rd, pid)) 0 q (Some c)) /\
    (x = true <-> In e type) /\ same_signals q old /\ with_fd old (if writing then wr else rd) (PipeEnd id writing, x) q /\
    same_signals c old /\ with_fd old (if writing then 0 else 1) (PipeEnd id (negb writing), false) c.
Proof. exact popen_ok. Qed.
Print Assumptions C106_popen_partial.

(** so the command keeps its end of the pipe when it is executed, and has no other descriptor of the pipe: the end of the input is seen when the stream is closed *)
Theorem C106_command_partial : forall old type id rd wr pid (writing : bool), new_pipe old rd wr ->
  (writing = true /\ In w type) \/ (writing = false /\ In r type /\ ~ In w type) ->
  (if writing then rd else wr) <> (if writing then 0 else 1) -> (forall fd v b, fds old fd <> Some (PipeEnd id v, b)) ->
  exists s q c, popen old type 0 id rd wr (Child pid) = Ok (res_ s 0 q (Some c)) /\
    forall fd v, (exists b, fds (exec c) fd = Some (PipeEnd id v, b)) <-> fd = (if writing then 0 else 1) /\ v = negb writing.
Proof.
  intros old type id rd wr pid writing NEW W N FRESH. destruct (popen_ok old type id rd wr pid writing NEW W N) as (q & c & x & E & _ & _ & _ & _ & F1 & F2). do 2 eexists. exists c. split; [exact E|].
  intros fd v. cbn [exec fds set_fds]. split.
  - intros [b H]. destruct (Z.eq_dec fd (if writing then 0 else 1)) as [->|NF].
    + rewrite F1 in H. injection H as H _. auto.
    + rewrite F2 in H by auto. destruct (fds old fd) as [[o b']|] eqn:O; [|discriminate]. destruct b'; [discriminate|]. injection H as -> _. now apply FRESH in O.
  - intros [-> ->]. rewrite F1. eauto.
Qed.
Print Assumptions C106_command_partial.

(** errors: a type with neither r nor w, no pipe, no process: the program is as before *)
Theorem C106_errors : forall old type pip id rd wr f, new_pipe old rd wr ->
  (~ In r type -> ~ In w type -> popen old type pip id rd wr f = Ok (res_ None 22 old None)) /\
  (In r type \/ In w type -> pip <> 0 -> popen old type pip id rd wr f = Ok (res_ None pip old None)) /\
  (In r type \/ In w type -> forall er, exists q, popen old type 0 id rd wr (Failed er) = Ok (res_ None er q None) /\ same q old).
Proof. intros old type pip id rd wr f NEW. split; [apply popen_invalid|]. split; [intros T P; now apply popen_pipe|]. intros T er. now apply popen_failed. Qed.
Print Assumptions C106_errors.

(** in a program without standard input or output the command loses the pipe *)
Theorem C106_closed_refuted : forall old type id rd wr pid (writing : bool), new_pipe old rd wr ->
  (writing = true /\ In w type) \/ (writing = false /\ In r type /\ ~ In w type) ->
  (if writing then rd else wr) = (if writing then 0 else 1) ->
  exists s q c, popen old type 0 id rd wr (Child pid) = Ok (res_ s 0 q (Some c)) /\ fds c (if writing then 0 else 1) = None.
Proof. exact popen_clash. Qed.
Print Assumptions C106_closed_refuted.

(** the streams of earlier calls stay open in the command *)
Theorem C106_earlier_refuted : forall old id rd wr id' rd' wr' pid pid' s q c, new_pipe old rd wr -> rd <> 0 -> wr <> 0 ->
  popen old [w] 0 id rd wr (Child pid) = Ok (res_ (Some s) 0 q (Some c)) ->
  new_pipe q rd' wr' -> rd' <> 0 ->
  exists s' q' c', popen q [w] 0 id' rd' wr' (Child pid') = Ok (res_ s' 0 q' (Some c')) /\ fds (exec c') (fst s) = Some (PipeEnd id true, false).
Proof.
  intros old id rd wr id' rd' wr' pid pid' s q c NEW N NW E NEW' N'.
  destruct (popen_ok old [w] id rd wr pid true NEW) as (q0 & c0 & x & E0 & X & _ & [F1 F2] & _); [left; cbn; auto|auto|]. rewrite E in E0. apply (f_equal (fun r => match r with Ok v => (stream v, parent v) | _ => (None, old) end)) in E0. cbv beta iota in E0. cbn [stream parent] in E0. injection E0 as -> ->.
  destruct (popen_ok q0 [w] id' rd' wr' pid' true NEW') as (q1 & c1 & x1 & E1 & _ & _ & _ & _ & G1 & G2); [left; cbn; auto|auto|]. do 2 eexists. exists c1. split; [exact E1|]. cbn [exec fds set_fds fst]. rewrite G2 by auto. rewrite F1.
  assert (x = false) as ->; [|reflexivity]. destruct x; auto. exfalso. destruct X as [X _]. specialize (X eq_refl). cbn in X. unfold w, e in X. lia.
Qed.
Print Assumptions C106_earlier_refuted.

(** pclose closes the descriptor of the stream and nothing else, and gives the status of its process *)
Theorem C106_pclose_partial : forall p fd pid wait status, wait pid = (0, status) ->
  exists q, pclose p (fd, pid) wait = (status, 0, q) /\ same_signals q p /\ fds q fd = None /\ forall j, j <> fd -> fds q j = fds p j.
Proof.
  intros p fd pid wait status W. unfold pclose. rewrite W. exists (close p fd). split; [reflexivity|]. split; [repeat split|]. cbn [fds close set_fds]. split; [apply upd_same|]. intros j J. now apply upd_other.
Qed.
Print Assumptions C106_pclose_partial.

(** but where the wait is interrupted (EINTR), it says that there is no such process *)
Theorem C106_pclose_refuted : forall p fd pid wait, wait pid = (4, 0) -> exists q, pclose p (fd, pid) wait = (-1, 10, q).
Proof. intros p fd pid wait W. unfold pclose. rewrite W. eexists. reflexivity. Qed.
Print Assumptions C106_pclose_refuted.

(** a program with its three descriptors and a handler; "r" and "we" *)
Definition prog : proc := mk (fun fd => if (0 <=? fd) && (fd <=? 2) then Some (Other fd, false) else None) 100 0 (fun _ => false).
Example c106_new : new_pipe prog 3 4 /\ (forall fd v b, fds prog fd <> Some (PipeEnd 9 v, b)).
Proof. split; [repeat split; lia|]. intros fd v b. cbn [fds prog]. destruct ((0 <=? fd) && (fd <=? 2)); discriminate. Qed.
Example c106_read : exists q c, popen prog [114] 0 9 3 4 (Child 50) = Ok (res_ (Some (3, 50)) 0 q (Some c)) /\ fds c 1 = Some (PipeEnd 9 true, false) /\ fds c 3 = None /\ fds q 4 = None /\ on_int c = 100.
Proof. do 2 eexists. split; [reflexivity|]. repeat split. Qed.
Example c106_write : exists q c, popen prog [119; 101] 0 9 3 4 (Child 50) = Ok (res_ (Some (4, 50)) 0 q (Some c)) /\ fds c 0 = Some (PipeEnd 9 false, false) /\ fds q 4 = Some (PipeEnd 9 true, true).
Proof. do 2 eexists. split; [reflexivity|]. repeat split. Qed.
(** the same without standard input, which pipe then gives for its reading end *)
Example c106_no_input : new_pipe (close prog 0) 0 3 /\ exists s q c, popen (close prog 0) [119] 0 9 0 3 (Child 50) = Ok (res_ s 0 q (Some c)) /\ fds c 0 = None.
Proof. split; [repeat split; lia|]. do 3 eexists. split; [reflexivity|]. reflexivity. Qed.
(** two streams *)
Example c106_two : exists q c, popen prog [w] 0 9 3 4 (Child 50) = Ok (res_ (Some (4, 50)) 0 q (Some c)) /\ new_pipe q 3 5.
Proof. do 2 eexists. split; [reflexivity|]. repeat split; lia. Qed.
