(** The modes of streams: what fopen and fdopen ask the kernel for. *)
From Verif Require Import Base Mode_Model Mode_Spec Mode_Proof.
Open Scope Z_scope.

(** fopen opens the path once, with mode 0666 and exactly the flags of the mode, in whatever order its letters come; the descriptor or the error is that of the kernel *)
Theorem C105_fopen_partial : forall open path c s rest, mode_string c s ->
  exists f, (forall b, 0 <= b -> (Z.testbit f b = true <-> wanted c s b)) /\
    fopen open path ((c :: s) ++ 0 :: rest) = Ok (if fst (open path f 438) =? 0 then inr (snd (open path f 438)) else inl (fst (open path f 438)), (path, f, 438)).
Proof.
  intros open path c s rest M. destruct (parse_ok c s rest M) as (f & E & H). exists f. split; [exact H|]. unfold fopen. rewrite E. cbn [bind]. destruct (open path f 438) as [e fd]. reflexivity.
Qed.
Print Assumptions C105_fopen_partial.

(** fdopen sets the append flag for a if it is not set, close on exec for e, and nothing else; it succeeds exactly if these succeed *)
Theorem C105_fdopen : forall getfl setfl setfd c s rest, mode_string c s ->
  exists err calls_a calls_e, fdopen getfl setfl setfd ((c :: s) ++ 0 :: rest) = Ok (err, calls_a ++ calls_e) /\
  (c <> a -> calls_a = []) /\
  (c = a -> getfl < 0 -> err = Some 22 /\ calls_a = [GetFl]) /\
  (c = a -> 0 <= getfl -> Z.testbit getfl 10 = true -> calls_a = [GetFl]) /\
  (c = a -> 0 <= getfl -> Z.testbit getfl 10 = false -> calls_a = [GetFl; SetFl (getfl + 1024)] /\ (setfl (getfl + 1024) = false -> err = Some 22)) /\
  (~ In 101 s -> calls_e = []) /\
  (In 101 s -> err = None -> calls_e = [SetCloexec]) /\
  (In 101 s -> setfd = false -> err = Some 22) /\
  (err = None <-> (c = a -> 0 <= getfl /\ (Z.testbit getfl 10 = false -> setfl (getfl + 1024) = true)) /\ (In 101 s -> setfd = true)).
Proof. exact fdopen_ok. Qed.
Print Assumptions C105_fdopen.

(** a mode that does not begin with r, w or a is not refused: the path is opened for reading *)
Theorem C105_letter_refuted : forall open path c s rest, c <> r -> c <> w -> c <> a -> c <> 0 -> ~ In 0 s -> (forall f, open path f 438 = (0, 3)) ->
  exists f, Z.land f 3 = 0 /\ Z.testbit f 6 = false /\ fopen open path ((c :: s) ++ 0 :: rest) = Ok (inr 3, (path, f, 438)).
Proof.
  intros open path c s rest N1 N2 N3 N0 N A. destruct (parse_other c s rest N1 N2 N3 N0 N) as (f & E & H1 & H2). exists f. split; [exact H1|]. split; [exact H2|]. unfold fopen. rewrite E. cbn [bind]. rewrite A. reflexivity.
Qed.
Print Assumptions C105_letter_refuted.

(** and with an empty mode, the bytes after it are read: the end of the array is passed, or what is there is taken for flags *)
Theorem C105_empty_refuted : forall open path, fopen open path [0] = UB /\ (exists rest f, fopen (fun _ _ _ => (0, 3)) path (0 :: rest) = Ok (inr 3, (path, f, 438)) /\ Z.testbit f 7 = true).
Proof. intros open path. split; [reflexivity|]. exists [120; 0], 128. split; reflexivity. Qed.
Print Assumptions C105_empty_refuted.

(** "w+xe", "ab" *)
Example c105_wpxe : mode_string w [43; 120; 101] /\ parse [119; 43; 120; 101; 0] = Ok (2 + 64 + 128 + 512 + 524288).
Proof. split; [|reflexivity]. split; [auto|]. cbn. intuition lia. Qed.
Example c105_ab : mode_string a [98] /\ parse [97; 98; 0] = Ok (1 + 64 + 1024) /\ fdopen 2 (fun _ => true) true [97; 98; 0] = Ok (None, [GetFl; SetFl 1026]).
Proof. split; [|split; reflexivity]. split; [auto|]. cbn. intuition lia. Qed.
Example c105_letter : parse [113; 43; 0] = Ok 0 /\ 113 <> r /\ 113 <> w /\ 113 <> a.
Proof. unfold r, w, a. repeat split; lia. Qed.
