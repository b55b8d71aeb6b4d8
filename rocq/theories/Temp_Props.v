(** Temporary files: the paths that are tried, the calls made, the template afterwards and the errors. *)
From Verif Require Import Base Temp_Model Temp_Spec Temp_Proof.
Open Scope Z_scope.

(** mkostemps with a template and its suffix: the numbers are tried in order, with open, until one does not exist; the template is the path, nothing else in its array is changed *)
Theorem C104_template : forall sys t pre suf rest flags, template t pre suf -> ~ In 0 t -> Z.of_nat (length t) < 2147483648 ->
  exists e fd t' paths, mkostemps sys (t ++ 0 :: rest) (Z.of_nat (length suf)) flags = Ok (e, fd, t' ++ 0 :: rest, map (fun p => Open p (open_flags flags) 384) paths) /\
    outcome sys pre suf e fd t' paths.
Proof. intros sys t pre suf rest flags -> N L. rewrite !in_app_iff in N. apply mkostemps_good; tauto. Qed.
Print Assumptions C104_template.

(** the flags of those calls: read and write, create, exclusive, and whatever else was asked for *)
Theorem C104_flags : forall flags, Z.land (open_flags flags) 3 = 2 /\ Z.testbit (open_flags flags) 6 = true /\ Z.testbit (open_flags flags) 7 = true /\
  forall b, 2 <= b -> b <> 6 -> b <> 7 -> Z.testbit (open_flags flags) b = Z.testbit flags b.
Proof. exact flags_ok. Qed.
Print Assumptions C104_flags.

(** anything else is EINVAL, whatever the length of the suffix is said to be; nothing is called or changed *)
Theorem C104_invalid : forall sys t rest sfx flags, ~ In 0 t -> Z.of_nat (length t) < 2147483648 -> -2147483648 <= sfx < 2147483648 ->
  ~ (exists pre suf, template t pre suf /\ Z.of_nat (length suf) = sfx) ->
  mkostemps sys (t ++ 0 :: rest) sfx flags = Ok (22, 0, t ++ 0 :: rest, []).
Proof. exact mkostemps_bad. Qed.
Print Assumptions C104_invalid.

(** with a kernel that refuses to create what exists, a path that was created did not exist *)
Theorem C104_fresh : forall sys (there : Z -> list Z -> Prop) t pre suf rest flags, (forall i p, there i p -> fst (sys i p) = 17) ->
  template t pre suf -> ~ In 0 t -> Z.of_nat (length t) < 2147483648 ->
  forall fd m calls, mkostemps sys (t ++ 0 :: rest) (Z.of_nat (length suf)) flags = Ok (0, fd, m, calls) ->
  exists k t', ~ there k t' /\ m = t' ++ 0 :: rest /\ sys k t' = (0, fd) /\ length t' = length t.
Proof.
  intros sys there t pre suf rest flags X T N L fd m calls H. destruct (C104_template sys t pre suf rest flags T N L) as (e & fd' & t' & paths & E & O). rewrite E in H.
  injection H as He Hf Hm _. subst e fd' m. destruct O as [(k & before & d & K & _ & _ & (LD & _) & TE & _ & E0 & _ & F)|(B & _)]; [|discriminate].
  exists k, t'. split; [intros TH; apply X in TH; lia|]. split; [reflexivity|]. split; [destruct (sys k t') as [a b]; cbn in E0, F; rewrite <- E0, F; auto|]. unfold template in T. rewrite T, TE, !app_length, LD. reflexivity.
Qed.
Print Assumptions C104_fresh.

(** mkdtemp likewise, with mkdir *)
Theorem C104_mkdtemp_partial : forall sys t rest, ~ In 0 t -> 6 <= Z.of_nat (length t) ->
  (forall pre, template t pre [] -> exists e fd t' paths, mkdtemp sys (t ++ 0 :: rest) = Ok (e, fd, t' ++ 0 :: rest, map (fun p => Mkdir p 448) paths) /\ outcome sys pre [] e fd t' paths) /\
  (~ (exists pre, template t pre []) -> mkdtemp sys (t ++ 0 :: rest) = Ok (22, 0, t ++ 0 :: rest, [])).
Proof.
  intros sys t rest N L. split; [|now apply mkdtemp_bad]. intros pre T. unfold template in T. rewrite app_nil_r in T. rewrite T in N |- *. rewrite in_app_iff in N. apply mkdtemp_good. tauto.
Qed.
Print Assumptions C104_mkdtemp_partial.

(** a template of fewer than six characters stops the program instead of giving EINVAL *)
Theorem C104_mkdtemp_refuted : forall sys t rest, ~ In 0 t -> Z.of_nat (length t) < 6 -> mkdtemp sys (t ++ 0 :: rest) = Abort.
Proof. intros sys t rest N L. unfold mkdtemp. rewrite strlen_string by auto. destruct (Z.ltb_spec (Z.of_nat (length t)) 6); [reflexivity|lia]. Qed.
Print Assumptions C104_mkdtemp_refuted.

(** tmpfile: a stream for a file under /tmp whose name is removed; if it cannot be removed, the file is closed *)
Theorem C104_tmpfile_partial : forall sys unlink, exists r err calls e fd t' paths, tmpfile sys unlink = Ok (r, err, calls) /\
  outcome sys [47; 116; 109; 112; 47; 116; 109; 112; 102; 105; 108; 101; 95] [] e fd t' paths /\
  (e <> 0 -> r = None /\ calls = map (fun p => Open p (open_flags 0) 384) paths) /\
  (e = 0 -> unlink t' = 0 -> r = Some fd /\ calls = map (fun p => Open p (open_flags 0) 384) paths ++ [Unlink t']) /\
  (e = 0 -> unlink t' <> 0 -> r = None /\ err = unlink t' /\ calls = map (fun p => Open p (open_flags 0) 384) paths ++ [Unlink t'; Close fd]).
Proof.
  intros sys unlink. destruct (tmpfile_ok sys unlink) as (r & err & calls & e & fd & t' & paths & E & O & A & B & C). exists r, err, calls, e, fd, t', paths. split; [exact E|]. split; [exact O|]. split; [intros N; destruct (A N) as (? & _ & ?); auto|]. split; [exact B|exact C].
Qed.
Print Assumptions C104_tmpfile_partial.

(** but where no file can be created, no error number is set: here every open fails with EACCES *)
Theorem C104_tmpfile_refuted : exists sys unlink calls, (forall i p, sys i p = (13, 0)) /\ tmpfile sys unlink = Ok (None, 0, calls).
Proof.
  exists (fun _ _ => (13, 0)), (fun _ => 0). destruct (tmpfile_ok (fun _ _ => (13, 0)) (fun _ => 0)) as (r & err & calls & e & fd & t' & paths & E & O & A & _).
  destruct (outcome_const _ _ _ _ _ _ _ (13, 0) O ltac:(auto) ltac:(cbn; lia)) as [E13 _]. cbn in E13. destruct (A ltac:(lia)) as (-> & -> & _). exists calls. auto.
Qed.
Print Assumptions C104_tmpfile_refuted.

(** the name with 999999 is not tried: EEXIST although it is free *)
Theorem C104_last_refuted : forall sys t pre suf rest flags, template t pre suf -> ~ In 0 t -> Z.of_nat (length t) < 2147483648 ->
  (forall i p, 0 <= i < 999999 -> fst (sys i p) = 17) ->
  exists fd m calls, mkostemps sys (t ++ 0 :: rest) (Z.of_nat (length suf)) flags = Ok (17, fd, m, calls).
Proof.
  intros sys t pre suf rest flags T N L A. destruct (C104_template sys t pre suf rest flags T N L) as (e & fd & t' & paths & E & O). destruct O as [(k & _ & _ & K & _ & _ & _ & _ & _ & E0 & NE & _)|(-> & _)].
  - exfalso. apply NE. rewrite E0. now apply A.
  - eauto.
Qed.
Print Assumptions C104_last_refuted.

(** "aXXXXXX.c" with two names taken *)
Example c104_taken : exists paths, mkostemps (fun i _ => if i <? 2 then (17, 0) else (0, 5)) ([97; 88; 88; 88; 88; 88; 88; 46; 99] ++ [0]) 2 0 =
  Ok (0, 5, [97; 48; 48; 48; 48; 48; 50; 46; 99] ++ [0], paths) /\ length paths = 3%nat.
Proof.
  assert (E : exists k, Z.to_nat limit = S (S (S k))) by (exists (Z.to_nat 999996); unfold limit; rewrite <- !Z2Nat.inj_succ by lia; reflexivity).
  unfold mkostemps. destruct E as [k ->]. eexists. split; [reflexivity|reflexivity].
Qed.
Example c104_template_ok : template [97; 88; 88; 88; 88; 88; 88; 46; 99] [97] [46; 99] /\ ~ In 0 [97; 88; 88; 88; 88; 88; 88; 46; 99].
Proof. split; [reflexivity|cbn; intuition discriminate]. Qed.
(** the length of the suffix is wrong *)
Example c104_bad_suffix : ~ (exists pre suf, template [97; 88; 88; 88; 88; 88; 88; 46; 99] pre suf /\ Z.of_nat (length suf) = 1).
Proof.
  intros (pre & suf & T & L). destruct suf as [|c [|c' s]]; cbn in L; try lia. unfold template in T. apply (f_equal (@rev Z)) in T. rewrite !rev_app_distr in T. cbn in T. injection T. intros; discriminate.
Qed.
Example c104_negative : mkostemps (fun _ _ => (0, 5)) ([97; 88; 88; 88; 88; 88; 88] ++ [0]) (-1) 0 = Ok (22, 0, [97; 88; 88; 88; 88; 88; 88] ++ [0], []).
Proof. reflexivity. Qed.
Example c104_flags_ex : open_flags (Z.lor 1 524288) = 524288 + 194.
Proof. reflexivity. Qed.
