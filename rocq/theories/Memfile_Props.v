(** C73: streams in memory (open_memstream, fmemopen) behave like files. *)
From Verif Require Import Base Memfile_Model Memfile_Spec Memfile_Proof.
Open Scope Z_scope.

(** Full statement: every history of fwrite, fread, fseek, ftell and fflush gives the results of a file with the
    same contents.  Proved for the histories described by [m_oks] and [f_oks]; the others are refuted below. *)
Theorem C73_memstream_partial : forall ops, m_oks ([], 0) ops ->
  exists f es st, mfiles ([], 0) ops f es /\ m_run m_open ops = Ok (st, es).
Proof. intros ops H. exact (memstream_ok ops m_open ([], 0) m_open_rel H). Qed.
Print Assumptions C73_memstream_partial.

Theorem C73_fmemopen_partial : forall b m f ops, len b < 2 ^ 62 -> starts b m f -> f_oks m (len b) f ops ->
  exists f' es st, ffiles m (len b) f ops f' es /\ f_run (f_open b m) ops = Ok (st, es).
Proof. intros b m f ops Hb Hs Ho. exact (fmem_ok m (len b) ops Hb (f_open b m) f (f_open_rel b m f Hs) Ho). Qed.
Print Assumptions C73_fmemopen_partial.

(** Whatever is done with a stream opened by fmemopen, in any mode, nothing outside of the buffer is touched. *)
Theorem C73_fmemopen_safe : forall b m ops, len b < 2 ^ 62 ->
  (forall n, In (Read n) ops -> 0 <= n) ->
  exists st es, f_run (f_open b m) ops = Ok (st, es) /\ len (fbuf st) = len b.
Proof.
  intros b m ops Hb Hn. apply (fmem_safe (len b) ops Hb (f_open b m) (f_open_safe b m)).
  apply Forall_forall. intros [d|n|o w| |] Hi; cbn; auto.
Qed.
Print Assumptions C73_fmemopen_safe.

(** "hello", the first letter overwritten, a gap of one byte at the end, and flushed *)
Definition m_case : list op := [Write [104; 101; 108]; Seek 0 Set_; Write [106]; Seek 1 End_; Write [33]; Tell; Flush].
Ltac mstep := apply mo_cons; [cbn; unfold len; cbn [length]; try lia; try (repeat split; try lia; discriminate)|
  let K := fresh in intros ? ? K; inversion K; subst; clear K; try (cbn in *; unfold len in *; cbn [length] in *; lia)].
Example C73_m_case : m_oks ([], 0) m_case /\
  m_run m_open m_case = Ok ({| mbuf := [106; 101; 108; 0; 33; 0]; mpos := 5; mpub := Some ([106; 101; 108; 0; 33; 0], 5) |},
    [Wrote 3; Sought true; Wrote 1; Sought true; Wrote 1; Told 5; Flushed [106; 101; 108; 0; 33; 0] 5]).
Proof. split; [|reflexivity]. unfold m_case. repeat mstep. apply mo_nil. Qed.

Definition f_case : list op := [Write [97; 98; 99]; Seek 1 Set_; Write [120]; Seek 0 Set_; Read 10; Flush].
Ltac fstep := apply fo_cons; [cbn; unfold len; cbn [length]; try lia; try (right; repeat split; try discriminate; cbn; lia); auto|
  let K := fresh in intros ? ? K; inversion K; subst; clear K; try (cbn in *; unfold len in *; cbn [length] in *; lia)].
Example C73_f_case : f_oks WP 8 ([], 0, false) f_case /\ starts [7; 7; 7; 7; 7; 7; 7; 7] WP ([], 0, false) /\
  f_run (f_open [7; 7; 7; 7; 7; 7; 7; 7] WP) f_case = Ok ({| fbuf := [97; 120; 99; 7; 7; 7; 7; 0]; fpos := 3; fmax := 3; fupd := true |},
    [Wrote 3; Sought true; Wrote 1; Sought true; Got [97; 120; 99]; Flushed [97; 120; 99; 7; 7; 7; 7; 0] 3]).
Proof.
  split; [|split; reflexivity]. unfold f_case. repeat fstep. apply fo_nil.
Qed.

(** ** What is false of the code *)

(** a seek to a negative position has to fail; that of open_memstream succeeds, and the next write is outside of
    the buffer *)
Theorem C73_negative_seek_refuted :
  m_op m_open (Seek (-5) Set_) = Ok ({| mbuf := [0]; mpos := -5; mpub := None |}, Sought true) /\
  m_run m_open [Seek (-5) Set_; Write [1; 2; 3; 4; 5; 6; 7; 8; 9; 10]] = UB /\
  ~ mfile ([], 0) (Seek (-5) Set_) ([], -5) (Sought true).
Proof. split; [reflexivity|]. split; [reflexivity|]. intros H. inversion H; subst. cbn in *. lia. Qed.
Print Assumptions C73_negative_seek_refuted.

(** a seek must not change the contents: one to before the end by SEEK_END cuts them off ("abc" becomes "ab", without a terminator), one
    behind the end extends them *)
Theorem C73_seek_changes_refuted :
  (exists st, m_run m_open [Write [97; 98; 99]; Seek (-1) End_; Seek 0 End_; Tell; Flush] =
              Ok (st, [Wrote 3; Sought true; Sought true; Told 2; Flushed [97; 98; 99] 2])) /\
  (exists st, m_run m_open [Write [97]; Seek 5 Set_; Seek 0 End_; Tell] = Ok (st, [Wrote 1; Sought true; Sought true; Told 5])) /\
  (forall f es, mfiles ([], 0) [Write [97; 98; 99]; Seek (-1) End_; Seek 0 End_; Tell] f es -> es = [Wrote 3; Sought true; Sought true; Told 3]).
Proof.
  split; [eexists; reflexivity|]. split; [eexists; reflexivity|].
  intros f es H.
  repeat match goal with K : mfiles _ (_ :: _) _ _ |- _ => inversion K; subst; clear K | K : mfile _ _ _ _ |- _ => inversion K; subst; clear K end;
    try (match goal with K : target _ _ _ _ < 0 |- _ => exfalso; vm_compute in K; discriminate end).
  all: match goal with K : mfiles _ [] _ _ |- _ => inversion K; subst end; reflexivity.
Qed.
Print Assumptions C73_seek_changes_refuted.

(** fflush has to store the position if it is before the end; the code stores the length *)
Theorem C73_flush_size_refuted :
  (exists st, m_run m_open [Write [97; 98; 99]; Seek 1 Set_; Flush] = Ok (st, [Wrote 3; Sought true; Flushed [97; 98; 99; 0] 3])) /\
  mfile ([97; 98; 99], 1) Flush ([97; 98; 99], 1) (Flushed ([97; 98; 99] ++ [0]) 1).
Proof. split; [eexists; reflexivity|]. apply (mf_flush [97; 98; 99] 1). Qed.
Print Assumptions C73_flush_size_refuted.

(** a write through a stream for update ("r+") destroys the last byte of the buffer *)
Theorem C73_update_refuted : forall a b c x, exists st,
  f_run (f_open [a; b; c] RP) [Write [x]; Seek 0 Set_; Read 3] = Ok (st, [Wrote 1; Sought true; Got [x; b; 0]]).
Proof. intros. eexists. reflexivity. Qed.
Print Assumptions C73_update_refuted.

(** nor are the contents written through "w+" followed by a null byte *)
Theorem C73_terminator_refuted : exists st,
  f_run (f_open [7; 7; 7; 7] WP) [Write [97]; Flush] = Ok (st, [Wrote 1; Flushed [97; 7; 7; 0] 1]).
Proof. eexists. reflexivity. Qed.
Print Assumptions C73_terminator_refuted.

(** a write through a stream for appending has to go to the end; after a seek the code overwrites *)
Theorem C73_append_refuted : exists st,
  f_run (f_open [97; 98; 0; 0; 0] A) [Seek 0 Set_; Write [120]; Flush] = Ok (st, [Sought true; Wrote 1; Flushed [120; 0; 0; 0; 0] 2]).
Proof. eexists. reflexivity. Qed.
Print Assumptions C73_append_refuted.
