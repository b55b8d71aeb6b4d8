(** C71: getopt and getopt_long report the options of a command line. *)
From Verif Require Import Base Getopt_Model Getopt_Spec Getopt_Proof.
Open Scope Z_scope.

(** The calls report every option, in the order of the command line and with its argument; when -1 is
    returned the operands have been moved behind the options, both in their order, and optind is the
    index of the first operand.  "--" ends the options.  Missing from the full claim: a word with several
    letters must be the last option word; a separate argument must not begin with '-'; an option that
    needs an argument has one. *)
Theorem C71_getopt_partial : forall m d l prog args dd rest,
  wf_decl d -> plus d = false ->
  Forall (ok_arg m d l) args -> clusters_last args ->
  (dd = [] /\ rest = [] \/ dd = [[45; 45]]) ->
  exists s',
    calls m false (optstring d) l (fresh (prog :: line args ++ dd ++ rest)) (events d args) s' /\
    argv s' = prog :: line (options args) ++ dd ++ line (operands args) ++ rest /\
    optind s' = (1 + length (line (options args)) + length dd)%nat.
Proof.
  intros m d l prog args dd rest WF Hp Hok Hcl Hdd.
  destruct (calls_args m false d l WF dd rest Hp Hdd args (fresh (prog :: line args ++ dd ++ rest)) [prog] []) as (s' & H1 & H2 & H3);
    auto; [discriminate|]. exists s'. auto.
Qed.
Print Assumptions C71_getopt_partial.

(** With '+' the options end at the first operand and the command line is left as it is. *)
Theorem C71_plus_partial : forall m posix d l prog args tail k,
  wf_decl d -> plus d = true ->
  Forall (ok_arg m d l) args -> operands args = [] -> (forall cs, ~ In (Cluster cs) args) ->
  (tail = [] /\ k = 0%nat \/
   (exists w r, tail = w :: r /\ bare w /\ k = 0%nat) \/
   (exists r, tail = [45; 45] :: r /\ k = 1%nat)) ->
  exists s',
    calls m posix (optstring d) l (fresh (prog :: line args ++ tail)) (events d args) s' /\
    argv s' = prog :: line args ++ tail /\
    optind s' = (1 + length (line args) + k)%nat.
Proof.
  intros m posix d l prog args tail k WF Hp Hok Hop Hcl Ht.
  assert (Hop' : Forall (fun a => operand a = false) args).
  { clear - Hop. induction args as [|a args IH]; constructor; unfold operands in *; cbn in Hop; destruct (operand a); try discriminate; auto. }
  destruct (calls_plus m posix d l WF tail k Hp Ht args (fresh (prog :: line args ++ tail)) [prog]) as (s' & H1 & H2 & H3);
    auto; [discriminate|]. exists s'. auto.
Qed.
Print Assumptions C71_plus_partial.

Definition abc : decl := Decl [(97, No); (98, No); (99, No); (111, Required); (112, Optional)] false false.

Lemma abc_wf : wf_decl abc.
Proof.
  split; [|split].
  - cbn. repeat constructor; cbn; lia.
  - intros c k H. cbn in H. repeat (destruct H as [H|H]; [injection H as <- <-; lia|]). destruct H.
  - discriminate.
Qed.

(** -ab -c: after a word with two letters the next word is read behind its end *)
Theorem C71_cluster_refuted :
  exists s1 s2, getopt Short false (optstring abc) [] (fresh [[120]; [45; 97; 98]; [45; 99]]) = Ok (97, s1) /\
  getopt Short false (optstring abc) [] s1 = Ok (98, s2) /\ getopt Short false (optstring abc) [] s2 = UB.
Proof. eexists _, _. split; [reflexivity|]. split; reflexivity. Qed.
Print Assumptions C71_cluster_refuted.

(** -o without its argument: the loop over the options never ends *)
Theorem C71_missing_refuted :
  ~ exists es s', calls Short false (optstring abc) [] (fresh [[120]; [45; 111]]) es s'.
Proof.
  intros (es & s' & H). 
  assert (K : forall s, calls Short false (optstring abc) [] s es s' ->
    s = fresh [[120]; [45; 111]] \/ s = St [[120]; [45; 111]] 1 None 111 1 [] None -> False).
  { clear H. intros s H. induction H as [s s' H | s s1 r e es s' H _ _ IH]; intros [-> | ->].
    - discriminate H.
    - discriminate H.
    - apply IH. right. cbv in H. congruence.
    - apply IH. right. cbv in H. congruence. }
  apply (K _ H). left. reflexivity.
Qed.
Print Assumptions C71_missing_refuted.

(** -o -5: an argument that begins with '-' is refused *)
Theorem C71_dash_argument_refuted :
  exists s1, getopt Short false (optstring abc) [] (fresh [[120]; [45; 111]; [45; 53]]) = Ok (63, s1).
Proof. eexists. reflexivity. Qed.
Print Assumptions C71_dash_argument_refuted.

(** -axb: the unknown letter is x, but optopt is a, and b is not reported *)
Theorem C71_unknown_refuted :
  exists s1 s2 s3, getopt Short false (optstring abc) [] (fresh [[120]; [45; 97; 120; 98]]) = Ok (97, s1) /\
  getopt Short false (optstring abc) [] s1 = Ok (63, s2) /\ optopt s2 = 97 /\
  getopt Short false (optstring abc) [] s2 = Ok (-1, s3).
Proof. eexists _, _, _. split; [reflexivity|]. split; [reflexivity|]. split; reflexivity. Qed.
Print Assumptions C71_unknown_refuted.

(** f -a with POSIXLY_CORRECT in the environment: the operand should end the options *)
Theorem C71_posixly_refuted :
  exists s1, getopt Short true (optstring abc) [] (fresh [[120]; [102]; [45; 97]]) = Ok (97, s1) /\
  argv s1 = [[120]; [45; 97]; [102]].
Proof. eexists. split; reflexivity. Qed.
Print Assumptions C71_posixly_refuted.

(** a command line with all forms: x f -a --ver=1 -o v -p g --out w -q -bc -- -a *)
Definition longs : list longopt := [LO [118; 101; 114] 2 None 300; LO [111; 117; 116; 112] 1 (Some 8) 7].
Definition cmd : list arg :=
  [Operand [102]; Plain 97; LJoined 0 (LO [118; 101; 114] 2 None 300) [118; 101] [49]; Separate 111 [118]; Plain 112;
   Operand [103]; LSeparate 1 (LO [111; 117; 116; 112] 1 (Some 8) 7) [111; 117; 116] [45; 119]; Unknown 113; Joined 112 [121];
   LUnknown [122]; Cluster [98; 99]].

Example C71_cmd : Forall (ok_arg Long abc longs) cmd /\ clusters_last cmd.
Proof.
  split.
  - assert (T : forall w, forallb (fun b => (0 <? b) && (b <? 256)) w = true -> text w).
    { intros w H. apply Forall_forall. intros b Hb. rewrite forallb_forall in H. specialize (H b Hb). lia. }
    assert (N : forall w, text w -> existsb (Z.eqb 61) w = false -> w <> [] -> ok_name w).
    { intros w H H1 H2. split; [exact H|]. split; [|exact H2]. intros K.
      assert (existsb (Z.eqb 61) w = true) by (apply existsb_exists; exists 61; split; [exact K | reflexivity]). congruence. }
    unfold cmd. repeat apply Forall_cons; [..|apply Forall_nil].
    + split; [apply T; reflexivity | left; cbn; lia].
    + exists No. split; [cbn; auto 10 | discriminate].
    + split; [reflexivity|]. split; [apply N; [apply T; reflexivity | reflexivity | discriminate]|]. split.
      * split; [reflexivity|]. right. split; [intros o' [<-|[<-|[]]]; discriminate|]. split; [exists [114]; reflexivity|].
        intros [|[|j]] o' Hn (r & E); cbn in Hn; [reflexivity | injection Hn as <-; discriminate | destruct j; discriminate].
      * split; [apply T; reflexivity|]. exists Optional. split; [reflexivity | discriminate].
    + split; [cbn; auto 10|]. split; [apply T; reflexivity | cbn; lia].
    + exists Optional. split; [cbn; auto 10 | discriminate].
    + split; [apply T; reflexivity | left; cbn; lia].
    + split; [reflexivity|]. split; [apply N; [apply T; reflexivity | reflexivity | discriminate]|]. split.
      * split; [reflexivity|]. right. split; [intros o' [<-|[<-|[]]]; discriminate|]. split; [exists [112]; reflexivity|].
        intros [|[|j]] o' Hn (r & E); cbn in Hn; [injection Hn as <-; discriminate | reflexivity | destruct j; discriminate].
      * split; [apply T; reflexivity | reflexivity].
    + cbn. lia.
    + split; [exists Optional; split; [cbn; auto 10 | discriminate]|]. split; [apply T; reflexivity | discriminate].
    + split; [reflexivity|]. split; [apply N; [apply T; reflexivity | reflexivity | discriminate]|].
      intros i o (Hn & [(E & _)|(_ & (r & E) & _)]);
        (destruct i as [|[|i]]; cbn in Hn; [injection Hn as <- | injection Hn as <- | destruct i; discriminate]; discriminate).
    + split; [cbn; lia|]. intros c [<-|[<-|[]]]; cbn; auto 10.
  - intros a cs b E x Hx. unfold cmd in E.
    assert (L : length (a ++ Cluster cs :: b) = 11%nat) by (rewrite <- E; reflexivity).
    assert (K : nth_error (a ++ Cluster cs :: b) (length a) = Some (Cluster cs)) by (rewrite nth_error_app2, Nat.sub_diag by lia; reflexivity).
    rewrite <- E in K. rewrite app_length in L. cbn [length] in L.
    do 10 (destruct a as [|? a]; [discriminate K | cbn [length nth_error] in K, L]).
    destruct b; [destruct Hx | cbn in L; lia].
Qed.
