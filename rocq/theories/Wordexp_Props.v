(** C95: wordexp. *)
From Verif Require Import Base Wordexp_Model Wordexp_Spec Wordexp_Proof.
Open Scope Z_scope.

(** The check accepts exactly the words of the shell language, with WRDE_NOCMD those without command substitution.  Missing: a dollar at the end, and
    backquotes in a text that also has backslashes or single quotes, see below; what stands between the brackets of ${...} and $((...)) is not looked at. *)
Theorem C95_check_partial : forall nocmd w n, ~ In 0 w -> last w 0 <> 36 -> (In 96 w -> ~ In 92 w /\ ~ In 39 w) -> (length w < n)%nat ->
  (we_check n nocmd (w ++ [0]) = Ok 0 <-> words nocmd Plain w).
Proof.
  intros nocmd w n N L T K. assert (T' : tame false false w) by (intro I; destruct (T I); auto). split.
  - intro E. exact (check_sound n nocmd false false false w N ltac:(discriminate) T' E).
  - intro H. exact (check_complete nocmd Plain w H n K N L T').
Qed.
Print Assumptions C95_check_partial.
(** It never reads behind the string and gives one of the errors otherwise.  Missing: a dollar at the end. *)
Theorem C95_safe_partial : forall nocmd w n, ~ In 0 w -> last w 0 <> 36 -> (length w < n)%nat ->
  exists e, we_check n nocmd (w ++ [0]) = Ok e /\ In e [0; WRDE_BADCHAR; WRDE_CMDSUB; WRDE_SYNTAX].
Proof. intros. apply check_total; assumption. Qed.
Print Assumptions C95_safe_partial.
(** The structure then holds the words the shell wrote, whatever it held, with the nulls asked for before them; with WRDE_APPEND the words before stay in front. *)
Theorem C95_words : forall n nocmd undef (dooffs reuse : bool) w text ws, we_check n nocmd text = Ok 0 -> sane ws ->
  exists w', wordexp n w text nocmd undef dooffs false reuse (shell_output ws) true = Ok (w', 0) /\ offs w' = offs w /\ holds w' (if dooffs then offs w else 0) ws /\
  forall calls, Forall (fun c => we_check n nocmd (fst c) = Ok 0 /\ sane (snd c)) calls ->
  exists w'', appends n w' nocmd undef dooffs (map (fun c => (fst c, shell_output (snd c))) calls) = Ok (w'', 0) /\ holds w'' (if dooffs then offs w else 0) (ws ++ concat (map snd calls)).
Proof.
  intros n nocmd undef dooffs reuse w text ws C S0. destruct (first_ok (emptied w) undef dooffs ws S0) as (w' & A & H & O); [reflexivity..|]. exists w'. split; [|split; [|split]].
  - unfold wordexp. rewrite C. cbn [bind negb Z.eqb]. replace (emptied (if reuse then emptied w else w)) with (emptied w) by (destruct reuse; reflexivity). rewrite A. reflexivity.
  - exact O.
  - exact H.
  - intros calls F. change (offs (emptied w)) with (offs w) in *. clear A C S0. revert w' ws H O. induction F as [|[t o] calls [C S0] F IH]; intros w' ws H O.
    + exists w'. cbn [map concat appends]. rewrite app_nil_r. auto.
    + cbn [map concat appends fst snd] in *. rewrite <- O in H. destruct (append_ok w' undef dooffs ws o S0 H) as (w2 & A & H2 & O2).
      unfold wordexp at 1. rewrite C. cbn [bind negb Z.eqb]. rewrite A. cbn [bind negb Z.eqb]. rewrite O in H2. destruct (IH w2 (ws ++ o) H2 ltac:(congruence)) as (w3 & E & H3).
      exists w3. rewrite E. split; [reflexivity|]. rewrite <- app_assoc in H3. exact H3.
Qed.
Print Assumptions C95_words.
(** What the check refuses is never given to the shell. *)
Theorem C95_refused : forall n nocmd undef dooffs append reuse w text e out good, we_check n nocmd text = Ok e -> e <> 0 -> exists w',
  wordexp n w text nocmd undef dooffs append reuse out good = Ok (w', e).
Proof. intros. unfold wordexp. rewrite H. cbn [bind]. destruct (Z.eqb_spec e 0); [congruence|]. eexists. reflexivity. Qed.
Print Assumptions C95_refused.

(** Refuted: a dollar at the end makes it read behind the string. *)
Theorem C95_dollar_refuted : forall nocmd w n, Forall (fun c => c <> 0 /\ ~ In c [92; 39; 34; 36; 96; 124; 38; 59; 60; 62; 123; 125; 40; 41; 10]) w -> (length w + 1 < n)%nat ->
  we_check n nocmd (w ++ [36; 0]) = UB.
Proof. intros. apply check_over; assumption. Qed.
Print Assumptions C95_dollar_refuted.
(** Refuted: with WRDE_NOCMD a command still comes to the shell, in '`'`id`'`', in ${x-$(id)} and in $(($(id))). *)
Theorem C95_nocmd_refuted : exists w1 w2 w3, executes [105; 100] w1 /\ executes [105; 100] w2 /\ executes [105; 100] w3 /\
  we_check 99 true (w1 ++ [0]) = Ok 0 /\ we_check 99 true (w2 ++ [0]) = Ok 0 /\ we_check 99 true (w3 ++ [0]) = Ok 0.
Proof.
  exists [39; 96; 39; 96; 105; 100; 96; 39; 96; 39], [36; 123; 120; 45; 36; 40; 105; 100; 41; 125], [36; 40; 40; 36; 40; 105; 100; 41; 41; 41]. split; [|split; [|split]].
  - apply (x_single _ [96] [96; 105; 100; 96; 39; 96; 39]); [cbn; lia|]. apply (x_backquote [105; 100]).
  - apply (x_default _ 120 [36; 40; 105; 100; 41; 125]); [lia|]. apply (x_dollar [105; 100]). cbn. lia.
  - apply (x_arith _ [36; 40; 105; 100; 41; 41; 41]). apply (x_dollar [105; 100]). cbn. lia.
  - repeat split; vm_compute; reflexivity.
Qed.
Print Assumptions C95_nocmd_refuted.
(** Refuted: a quoted or escaped backquote, '`' or \`, is refused. *)
Theorem C95_backquote_refuted : words false Plain [39; 96; 39] /\ words false Plain [92; 96] /\ we_check 9 false [39; 96; 39; 0] = Ok WRDE_SYNTAX /\ we_check 9 false [92; 96; 0] = Ok WRDE_SYNTAX.
Proof.
  split; [|split; [|split; reflexivity]].
  - apply w_single. apply w_single_char; [lia|]. apply w_single_end. constructor.
  - apply w_escape; [discriminate|constructor].
Qed.
Print Assumptions C95_backquote_refuted.
(** Refuted: after an error with WRDE_APPEND the words before are gone. *)
Theorem C95_append_refuted : forall n nocmd undef dooffs w text e out good, we_check n nocmd text = Ok e -> e <> 0 -> exists w',
  wordexp n w text nocmd undef dooffs true false out good = Ok (w', e) /\ wordc w' = 0%nat /\ wordv w' = [].
Proof. intros. unfold wordexp. rewrite H. cbn [bind]. destruct (Z.eqb_spec e 0); [congruence|]. eexists. repeat split. Qed.
Print Assumptions C95_append_refuted.

(** Instances *)
(** a'b c'"d$x"\  ${y:-{}}$((1+(2))) *)
Definition text1 : list Z := [97; 39; 98; 32; 99; 39; 34; 100; 36; 120; 34; 92; 32; 32; 36; 123; 121; 58; 45; 123; 125; 125; 36; 40; 40; 49; 43; 40; 50; 41; 41; 41].
Example C95_instance_accept : words true Plain text1 /\ we_check 40 true (text1 ++ [0]) = Ok 0.
Proof.
  assert (E : we_check 40 true (text1 ++ [0]) = Ok 0) by (vm_compute; reflexivity). split; [|exact E].
  apply C95_check_partial in E; [exact E|..]; vm_compute; intuition lia.
Qed.
Example C95_instance_refuse : we_check 40 true [36; 40; 97; 41; 0] = Ok WRDE_CMDSUB /\ we_check 40 false [36; 40; 97; 41; 0] = Ok 0 /\ we_check 40 false [97; 59; 0] = Ok WRDE_BADCHAR /\
  we_check 40 false [34; 97; 0] = Ok WRDE_SYNTAX /\ we_check 40 false [96; 97; 96; 0] = Ok 0 /\ we_check 40 true [96; 97; 96; 0] = Ok WRDE_CMDSUB. Proof. repeat split. Qed.
(** two words after two nulls, then one more *)
Example C95_instance_words : sane [[97; 98]; []] /\ exists w, wordexp 9 {| wordc := 7; offs := 2; wordv := []; strings := [] |} [97; 0] false false true false false (shell_output [[97; 98]; []]) true = Ok (w, 0) /\
  wordv w = [Null; Null; At 0; At 3; Null] /\ strings w = [97; 98; 0; 0] /\
  exists w', wordexp 9 w [97; 0] false false true true false (shell_output [[99]]) true = Ok (w', 0) /\ wordv w' = [Null; Null; At 0; At 3; At 4; Null] /\ strings w' = [97; 98; 0; 0; 99; 0].
Proof.
  split; [split; [repeat constructor; cbn; intuition lia|cbn; lia]|]. eexists. split; [vm_compute; reflexivity|]. split; [reflexivity|]. split; [reflexivity|].
  eexists. split; [vm_compute; reflexivity|]. split; reflexivity.
Qed.
