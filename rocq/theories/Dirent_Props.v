(** C89: directory streams.  C90: scandir.  The directory and its cursor are in Dirent_Spec.v. *)
From Verif Require Import Base Dirent_Model Dirent_Spec Dirent_Proof.
Open Scope Z_scope.

(** any program on a directory stream, over a kernel that returns the entries in pieces of any size, sees the entries one by one, with telldir,
    seekdir and rewinddir as on a cursor.  Missing for the full property: errors of the kernel (see C89_error_refuted). *)
Theorem C89_stream_partial : forall es read_entries qs, faithful es read_entries -> Forall (good_request es) qs ->
  exists outs d, run read_entries (map (call es) qs) opendir = Ok (outs, d) /\ map seen outs = serve_all es qs 0.
Proof. intros es read_entries qs K G. exact (run_ok es read_entries K qs opendir 0 (stands_open es) G). Qed.
Print Assumptions C89_stream_partial.

(** reading to the end gives every entry once, in order, and then no more *)
Theorem C89_read_all : forall es read_entries k, faithful es read_entries ->
  exists outs d, run read_entries (repeat Readdir (length es + k)) opendir = Ok (outs, d) /\
    map seen outs = map (fun e => Got (Some e)) es ++ repeat (Got None) k.
Proof.
  intros es read_entries k K. destruct (C89_stream_partial es read_entries (repeat Read (length es + k)) K) as (outs & d & E & M).
  { apply Forall_forall. intros q Q. apply repeat_spec in Q. subst q. exact I. }
  exists outs, d. split.
  - rewrite <- E. f_equal. clear. generalize (length es + k)%nat as n. induction n as [|n IH]; [reflexivity|]. cbn. f_equal. exact IH.
  - rewrite M. clear. assert (H : forall n i, (n + i = length es)%nat -> serve_all es (repeat Read (n + k)) i = map (fun e => Got (Some e)) (skipn i es) ++ repeat (Got None) k).
    { induction n as [|n IH]; intros i Hi.
      - rewrite skipn_all2 by lia. cbn [Nat.add map app]. assert (N : nth_error es i = None) by (apply nth_error_None; lia). clear -N. induction k as [|k IH]; [reflexivity|]. cbn [repeat serve_all serve]. rewrite N. f_equal. exact IH.
      - cbn [Nat.add repeat serve_all serve]. destruct (nth_error es i) as [e|] eqn:E; [|apply nth_error_None in E; lia].
        rewrite (skip_cons es i e E). cbn [map app]. f_equal. apply IH. lia. }
    apply (H (length es) 0%nat). lia.
Qed.
Print Assumptions C89_read_all.

(** full property: an error of the kernel is reported by a null pointer and errno.  The process is aborted instead. *)
Theorem C89_error_refuted : forall read_entries e, read_entries 0%nat 0 = inr e -> readdir read_entries opendir = Abort.
Proof. intros read_entries e H. unfold readdir. cbn [ent_limit ent_next opendir Nat.ltb Nat.leb Nat.eqb k_calls k_pos]. rewrite H. reflexivity. Qed.
Print Assumptions C89_error_refuted.

(** scandir returns the chosen entries, sorted by qsort if there is a comparison, and leaves errno alone.  Missing for the full property: functions
    that change errno, and the descriptor (see the refutations). *)
Theorem C90_scandir_partial : forall es read_entries f sel q fuel errno, faithful es read_entries ->
  match f with Some g => sees_fields g sel | None => forall c e en, sel c e en = (true, en) end ->
  (forall i e, nth_error es i = Some e -> snd (sel i e 0) = 0) -> (length es < fuel)%nat ->
  exists l fds, scandir read_entries f q fuel None errno = Ok (Z.of_nat (length (chosen sel 0 es)), match q with Some s => s l | None => l end, errno, fds) /\
    map fields l = chosen sel 0 es.
Proof.
  intros es read_entries f sel q fuel errno K FS Q F. unfold scandir.
  destruct (scan_ok es read_entries K f sel FS fuel 0 opendir [] 0 [] (stands_open es) ltac:(lia) (le_n _) eq_refl)
    as [(a & c & d & cs & -> & _ & LA & FA & M)|(a & c & d & j & e & _ & _ & NE & NZ & _)].
  2:{ exfalso. apply NZ, Q, NE. }
  cbn [bind Z.eqb negb]. cbn [app] in FA. rewrite FA, filled_some. cbn [bind]. exists cs, 1. cbn [skipn] in M. split; [|exact M].
  rewrite <- M, map_length. f_equal. f_equal. f_equal. f_equal. apply (f_equal (@length _)) in FA. rewrite firstn_length, map_length in FA. lia.
Qed.
Print Assumptions C90_scandir_partial.
(** an error of opendir is reported, and nothing is left open *)
Theorem C90_open_error : forall read_entries f q fuel e errno, scandir read_entries f q fuel (Some e) errno = Ok (-1, [], e, 0).
Proof. reflexivity. Qed.
Print Assumptions C90_open_error.
(** full property: what the function does to errno is of no concern.  If it sets errno, to say of an entry that is no directory, scandir fails. *)
Theorem C90_errno_refuted : forall es read_entries g sel q fuel errno i e, faithful es read_entries -> sees_fields g sel ->
  nth_error es i = Some e -> snd (sel i e 0) <> 0 -> (forall k x, (k < i)%nat -> nth_error es k = Some x -> snd (sel k x 0) = 0) -> (length es < fuel)%nat ->
  exists fds, scandir read_entries (Some g) q fuel None errno = Ok (-1, [], snd (sel i e 0), fds).
Proof.
  intros es read_entries g sel q fuel errno i e K FS NE NZ QK F. unfold scandir.
  destruct (scan_ok es read_entries K (Some g) sel FS fuel 0 opendir [] 0 [] (stands_open es) ltac:(lia) (le_n _) eq_refl)
    as [(a & c & d & cs & _ & Q & _)|(a & c & d & j & x & -> & _ & NJ & NZJ & QJ)].
  { exfalso. apply NZ, (Q i); [lia|exact NE]. }
  assert (IJ : i = j).
  { destruct (Nat.lt_trichotomy i j) as [L|[E|L]]; [exfalso; apply NZ, (QJ i); [lia|exact NE]|exact E|exfalso; apply NZJ, (QK j); [lia|exact NJ]]. }
  subst j. replace x with e in * by congruence. cbn [bind]. destruct (Z.eqb_spec (snd (sel i e 0)) 0); [contradiction|]. eexists. reflexivity.
Qed.
Print Assumptions C90_errno_refuted.
(** full property: scandir closes the directory.  It never does. *)
Theorem C90_descriptor_refuted : forall read_entries f q fuel errno v l en fds,
  scandir read_entries f q fuel None errno = Ok (v, l, en, fds) -> fds = 1.
Proof.
  intros read_entries f q fuel errno v l en fds. unfold scandir. destruct (scan _ _ _ _ _ _ _ _) as [[[[a c] en'] d]| | |]; cbn [bind]; try discriminate.
  destruct (negb (en' =? 0)); [congruence|]. destruct (filled (firstn c a)); cbn [bind]; congruence.
Qed.
Print Assumptions C90_descriptor_refuted.

(** ** A directory with two entries, ab and c, whose entries come one by one at odd calls and together at even ones *)
Definition ab : entry := {| ino := 11; after := 5; typ := 4; name := [97; 98] |}.
Definition c_ : entry := {| ino := 12; after := -1; typ := 8; name := [99] |}.
Definition rec_ab : list Z := [11;0;0;0;0;0;0;0; 5;0;0;0;0;0;0;0; 24;0; 4; 97;98;0; 77;78].
Definition rec_c : list Z := [12;0;0;0;0;0;0;0; 255;255;255;255;255;255;255;255; 24;0; 8; 99;0; 1;2;3].
Definition ex_read (c : nat) (p : Z) : (list Z * Z) + Z :=
  if p =? 0 then if Nat.even c then inl (rec_ab ++ rec_c, -1) else inl (rec_ab, 5) else if p =? 5 then inl (rec_c, -1) else inl ([], -1).
Lemma enc_ab : encodes ab rec_ab.
Proof. exists [11;0;0;0;0;0;0;0], [5;0;0;0;0;0;0;0], [24;0], [77;78]. cbn. intuition (try reflexivity; try lia; try discriminate). Qed.
Lemma enc_c : encodes c_ rec_c.
Proof. exists [12;0;0;0;0;0;0;0], [255;255;255;255;255;255;255;255], [24;0], [1;2;3]. cbn. intuition (try reflexivity; try lia; try discriminate). Qed.
Lemma ex_faithful : faithful [ab; c_] ex_read.
Proof.
  intros c i I. destruct i as [|[|[|i]]]; [| | |cbn in I; lia].
  - unfold ex_read. cbn [position Z.eqb]. destruct (Nat.even c).
    + exists 2%nat, [rec_ab; rec_c]. split; [reflexivity|]. split; [cbn; lia|]. split; [lia|]. split; [|apply Nat.leb_le; reflexivity]. constructor; [exact enc_ab|constructor; [exact enc_c|constructor]].
    + exists 1%nat, [rec_ab]. split; [reflexivity|]. split; [cbn; lia|]. split; [lia|]. split; [|apply Nat.leb_le; reflexivity]. constructor; [exact enc_ab|constructor].
  - exists 2%nat, [rec_c]. split; [reflexivity|]. split; [cbn; lia|]. split; [lia|]. split; [|apply Nat.leb_le; reflexivity]. constructor; [exact enc_c|constructor].
  - exists 2%nat, []. split; [reflexivity|]. split; [cbn; lia|]. split; [cbn; lia|]. split; [constructor|apply Nat.leb_le; reflexivity].
Qed.
Example C89_stream_example : faithful [ab; c_] ex_read /\ Forall (good_request [ab; c_]) [Read; Tell; Read; Read; Seek 1; Tell; Read; Rewind; Read] /\
  serve_all [ab; c_] [Read; Tell; Read; Read; Seek 1; Tell; Read; Rewind; Read] 0 =
  [Got (Some ab); At 5; Got (Some c_); Got None; Void; At 5; Got (Some c_); Void; Got (Some ab)].
Proof. split; [exact ex_faithful|]. split; [repeat constructor|reflexivity]. Qed.
(** only the directories, and a function that sets errno at the second entry *)
Example C90_scandir_example :
  sees_fields (fun _ s en => (typ (fields s) =? 4, en)) (fun _ e en => (typ e =? 4, en)) /\
  chosen (fun _ e en => (typ e =? 4, en)) 0 [ab; c_] = [ab] /\
  sees_fields (fun _ s en => if typ (fields s) =? 4 then (true, en) else (false, 20)) (fun _ e en => if typ e =? 4 then (true, en) else (false, 20)).
Proof. split; [intros c s en; reflexivity|]. split; [reflexivity|]. intros c s en. reflexivity. Qed.
