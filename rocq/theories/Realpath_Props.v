(** C74: realpath. *)
From Verif Require Import Base Realpath_Model Realpath_Spec Realpath_Proof.
Open Scope Z_scope.

(** realpath agrees with path resolution.  Missing for the full property: links of other kinds than [tame] allows, files
    used as directories, the empty path; see the refutations below. *)
Theorem C74_realpath_partial fs cwd path o :
  tame fs -> Forall name cwd -> path <> [] ->
  resolve fs (start cwd path) (split path) o ->
  exists f0, forall fuel, (f0 <= fuel)%nat -> realpath fuel fs (pathname cwd) path = Ok (limited o).
Proof. intros HT. exact (realpath_resolves fs HT cwd path o). Qed.
Print Assumptions C74_realpath_partial.

(** its result is an absolute path of existing files with no ".", ".." or link in it, and is its own real path *)
Theorem C74_canonical_partial fs cwd path cs :
  tame fs -> canonical fs cwd -> path <> [] -> resolve fs (start cwd path) (split path) (inl cs) ->
  (length (pathname cs) < Z.to_nat 4096)%nat ->
  canonical fs cs /\
  exists f0, forall fuel, (f0 <= fuel)%nat ->
    realpath fuel fs (pathname cwd) path = Ok (inl (pathname cs)) /\
    realpath fuel fs (pathname cwd) (pathname cs) = Ok (inl (pathname cs)).
Proof. exact (realpath_canonical fs cwd path cs). Qed.
Print Assumptions C74_canonical_partial.

(** in a file system without links, realpath ends, without undefined behaviour, for every path *)
Theorem C74_total_partial fs cwd path :
  (forall p t, fs p <> Link t) -> absolute cwd ->
  exists r, forall fuel, (length path + 2 < fuel)%nat -> realpath fuel fs cwd path = Ok r.
Proof. exact (realpath_total fs cwd path). Qed.
Print Assumptions C74_total_partial.

(** a file system: /d, /d/e, /d/e/g; /a is a link to d/../d/e, /d/e/f one to g, /c one to /d/e/ *)
Definition ex_fs (p : list Z) : node :=
  if str_eqb p [47; 100] then Dir
  else if str_eqb p [47; 100; 47; 101] then Dir
  else if str_eqb p [47; 100; 47; 101; 47; 103] then Other
  else if str_eqb p [47; 97] then Link [100; 47; 46; 46; 47; 100; 47; 101]
  else if str_eqb p [47; 100; 47; 101; 47; 102] then Link [103]
  else if str_eqb p [47; 99] then Link [47; 100; 47; 101; 47]
  else Err 2.

Lemma ex_links p t : ex_fs p = Link t ->
  (p = [47; 97] /\ t = [100; 47; 46; 46; 47; 100; 47; 101]) \/
  (p = [47; 100; 47; 101; 47; 102] /\ t = [103]) \/ (p = [47; 99] /\ t = [47; 100; 47; 101; 47]).
Proof.
  unfold ex_fs, str_eqb.
  repeat match goal with |- context [if list_eq_dec Z.eq_dec p ?q then _ else _] => destruct (list_eq_dec Z.eq_dec p q) end;
    intros H; try discriminate; injection H as <-; subst; tauto.
Qed.

Lemma last_component b m x y : ~ In 47 m -> ~ In 47 y -> render (b ++ [m]) = x ++ 47 :: y -> m = y.
Proof.
  intros Hm Hy E. rewrite render_app, render_one in E.
  pose proof (chop_app (render b) m Hm) as C1. rewrite E, chop_app in C1 by exact Hy. injection C1 as ->.
  apply app_inv_head in E. congruence.
Qed.

Lemma noslash (m : list Z) : existsb (Z.eqb 47) m = false -> ~ In 47 m.
Proof.
  intros H K. assert (existsb (Z.eqb 47) m = true) by (apply existsb_exists; exists 47; split; [exact K|reflexivity]).
  congruence.
Qed.

Lemma ex_no_link b m : existsb (Z.eqb 47) m = false -> m <> [97] -> m <> [102] -> m <> [99] -> ~ relative_link ex_fs b m.
Proof.
  intros Hs N1 N2 N3 (t & E & _). apply noslash in Hs.
  destruct (ex_links _ _ E) as [(P & _)|[(P & _)|(P & _)]].
  - apply N1. exact (last_component b m [] [97] Hs (noslash [97] eq_refl) P).
  - apply N2. exact (last_component b m [47; 100; 47; 101] [102] Hs (noslash [102] eq_refl) P).
  - apply N3. exact (last_component b m [] [99] Hs (noslash [99] eq_refl) P).
Qed.

Lemma ex_name c : c <> 46 -> c <> 47 -> c <> 0 -> name [c].
Proof. intros A B C. unfold name. cbn. intuition congruence. Qed.

Lemma ex_canonical : canonical ex_fs [[100]; [101]].
Proof.
  split; [repeat apply Forall_cons; try apply Forall_nil; apply ex_name; discriminate|].
  intros [|p1 [|p2 [|p3 pre]]] post E N; [contradiction| | |discriminate].
  - injection E as <- _. now left.
  - injection E as <- <- _. now left.
Qed.

Lemma ex_tame : tame ex_fs.
Proof.
  intros base n t HB Hn E. destruct (ex_links _ _ E) as [(P & ->)|[(P & ->)|(P & ->)]].
  - split; [discriminate|]. split; [cbn; lia|]. split; [cbn; intuition discriminate|]. split; [intros [q Q]; discriminate|].
    intros _ pre m post b ES Np W. change (split [100; 47; 46; 46; 47; 100; 47; 101]) with [[100]; [46; 46]; [100]; [101]] in ES.
    destruct pre as [|p1 [|p2 [|p3 [|p4 pre]]]]; cbn in ES; try (injection ES; intros; subst);
      try (apply ex_no_link; (reflexivity || discriminate)); try congruence.
    destruct pre; discriminate.
  - split; [discriminate|]. split; [cbn; lia|]. split; [cbn; intuition discriminate|]. split; [intros [q Q]; discriminate|].
    intros _ pre m post b ES Np W. change (split [103]) with [[103]] in ES.
    destruct pre as [|p1 pre]; cbn in ES; [injection ES; intros; subst; congruence|]. injection ES as _ ES. destruct pre; discriminate.
  - split; [discriminate|]. split; [cbn; lia|]. split; [cbn; intuition discriminate|]. split.
    + intros _. exists [[100]; [101]], 1%nat. split; [discriminate|]. split; [reflexivity|]. exact ex_canonical.
    + intros NA. exfalso. apply NA. eexists. reflexivity.
Qed.

(** from /d, the path "../c/../../a//./f" is /d/e/g: through an absolute link, a relative one and one at the end *)
Definition ex_path : list Z := [46; 46; 47; 99; 47; 46; 46; 47; 46; 46; 47; 97; 47; 47; 46; 47; 102].

Lemma ex_resolve : resolve ex_fs (start [[100]] ex_path) (split ex_path) (inl [[100]; [101]; [103]]).
Proof.
  assert (E1 : split ex_path = [[46; 46]; [99]; [46; 46]; [46; 46]; [97]; []; [46]; [102]]) by (vm_compute; reflexivity).
  assert (E2 : start [[100]] ex_path = [[100]]) by reflexivity.
  assert (E3 : split [100; 47; 46; 46; 47; 100; 47; 101] = [[100]; [46; 46]; [100]; [101]]) by (vm_compute; reflexivity).
  assert (E4 : split [47; 100; 47; 101; 47] = [[]; [100]; [101]; []]) by (vm_compute; reflexivity).
  rewrite E1, E2. clear E1 E2.
  apply r_up; [now right|]. cbn.
  apply r_link with (t := [47; 100; 47; 101; 47]); [apply ex_name; discriminate|reflexivity|]. rewrite E4. cbn.
  apply r_dot; [now left|now left|].
  apply r_file; [apply ex_name; discriminate|now left|].
  apply r_file; [apply ex_name; discriminate|now left|]. cbn.
  apply r_dot; [now left|now right|].
  apply r_up; [now right|]. cbn.
  apply r_up; [now right|]. cbn.
  apply r_link with (t := [100; 47; 46; 46; 47; 100; 47; 101]); [apply ex_name; discriminate|reflexivity|]. rewrite E3. cbn.
  apply r_file; [apply ex_name; discriminate|now left|]. cbn.
  apply r_up; [now right|]. cbn.
  apply r_file; [apply ex_name; discriminate|now left|]. cbn.
  apply r_file; [apply ex_name; discriminate|now left|]. cbn.
  apply r_dot; [now left|now right|].
  apply r_dot; [now right|now right|].
  apply r_link with (t := [103]); [apply ex_name; discriminate|reflexivity|]. cbn.
  apply r_file; [apply ex_name; discriminate|now right|]. cbn.
  apply r_done.
Qed.

Example C74_example :
  tame ex_fs /\ Forall name [[100]] /\ resolve ex_fs (start [[100]] ex_path) (split ex_path) (inl [[100]; [101]; [103]]) /\
  realpath 100 ex_fs [47; 100] ex_path = Ok (inl [47; 100; 47; 101; 47; 103]).
Proof.
  split; [exact ex_tame|]. split; [apply Forall_cons; [apply ex_name; discriminate|apply Forall_nil]|].
  split; [exact ex_resolve|]. vm_compute. reflexivity.
Qed.

(** a missing file is an error *)
Example C74_example_missing :
  resolve ex_fs (start [] [97; 47; 104]) (split [97; 47; 104]) (inr 2) /\
  realpath 100 ex_fs [47] [97; 47; 104] = Ok (inr 2).
Proof.
  split; [|vm_compute; reflexivity]. cbn.
  apply r_link with (t := [100; 47; 46; 46; 47; 100; 47; 101]); [apply ex_name; discriminate|reflexivity|]. cbn.
  apply r_file; [apply ex_name; discriminate|now left|]. cbn.
  apply r_up; [now right|]. cbn.
  apply r_file; [apply ex_name; discriminate|now left|]. cbn.
  apply r_file; [apply ex_name; discriminate|now left|]. cbn.
  apply r_err; [apply ex_name; discriminate|reflexivity].
Qed.

(** Of other links, realpath is wrong.

    A relative link inside the text of a link: /a is a link to b/f, and /b one to d.  The text "d" is put
    in front of the "f" left over without a slash, and realpath looks for /df. *)
Definition nested_fs (p : list Z) : node :=
  if str_eqb p [47; 97] then Link [98; 47; 102]
  else if str_eqb p [47; 98] then Link [100]
  else if str_eqb p [47; 100] then Dir
  else if str_eqb p [47; 100; 47; 102] then Other
  else Err 2.

Theorem C74_nested_link_refuted :
  resolve nested_fs [] (split [47; 97]) (inl [[100]; [102]]) /\
  realpath 100 nested_fs [47] [47; 97] = Ok (inr 2).
Proof.
  split; [|vm_compute; reflexivity]. cbn.
  apply r_dot; [now left|now left|].
  apply r_link with (t := [98; 47; 102]); [apply ex_name; discriminate|reflexivity|]. cbn.
  apply r_link with (t := [100]); [apply ex_name; discriminate|reflexivity|]. cbn.
  apply r_file; [apply ex_name; discriminate|now left|]. cbn.
  apply r_file; [apply ex_name; discriminate|now right|]. cbn.
  apply r_done.
Qed.
Print Assumptions C74_nested_link_refuted.

(** ... and if there is a file /df, lnk then has two terminators, and behind the first one realpath takes a string of
    -1 bytes *)
Definition overrun_fs (p : list Z) : node :=
  if str_eqb p [47; 100; 102] then Other else nested_fs p.

Theorem C74_overrun_refuted :
  resolve overrun_fs [] (split [47; 97]) (inl [[100]; [102]]) /\
  realpath 100 overrun_fs [47] [47; 97] = UB.
Proof.
  split; [|vm_compute; reflexivity]. cbn.
  apply r_dot; [now left|now left|].
  apply r_link with (t := [98; 47; 102]); [apply ex_name; discriminate|reflexivity|]. cbn.
  apply r_link with (t := [100]); [apply ex_name; discriminate|reflexivity|]. cbn.
  apply r_file; [apply ex_name; discriminate|now left|]. cbn.
  apply r_file; [apply ex_name; discriminate|now right|]. cbn.
  apply r_done.
Qed.
Print Assumptions C74_overrun_refuted.

(** The text of an absolute link is taken for resolved: /a is a link to /b, which is one to /d; the result is a link *)
Definition absolute_fs (p : list Z) : node :=
  if str_eqb p [47; 97] then Link [47; 98]
  else if str_eqb p [47; 98] then Link [47; 100]
  else if str_eqb p [47; 100] then Dir
  else Err 2.

Theorem C74_absolute_link_refuted :
  resolve absolute_fs [] (split [47; 97]) (inl [[100]]) /\
  realpath 100 absolute_fs [47] [47; 97] = Ok (inl [47; 98]) /\ absolute_fs [47; 98] = Link [47; 100].
Proof.
  split; [|split; vm_compute; reflexivity]. cbn.
  apply r_dot; [now left|now left|].
  apply r_link with (t := [47; 98]); [apply ex_name; discriminate|reflexivity|]. cbn.
  apply r_dot; [now left|now left|].
  apply r_link with (t := [47; 100]); [apply ex_name; discriminate|reflexivity|]. cbn.
  apply r_dot; [now left|now left|].
  apply r_file; [apply ex_name; discriminate|now left|]. cbn.
  apply r_done.
Qed.
Print Assumptions C74_absolute_link_refuted.

(** ... even if it leads nowhere *)
Definition dangling_fs (p : list Z) : node := if str_eqb p [47; 97] then Link [47; 98] else Err 2.

Theorem C74_dangling_refuted :
  resolve dangling_fs [] (split [47; 97]) (inr 2) /\
  realpath 100 dangling_fs [47] [47; 97] = Ok (inl [47; 98]).
Proof.
  split; [|vm_compute; reflexivity]. cbn.
  apply r_dot; [now left|now left|].
  apply r_link with (t := [47; 98]); [apply ex_name; discriminate|reflexivity|]. cbn.
  apply r_dot; [now left|now left|].
  apply r_err; [apply ex_name; discriminate|reflexivity].
Qed.
Print Assumptions C74_dangling_refuted.

(** ... and a link to / makes the result start with two slashes *)
Definition root_fs (p : list Z) : node :=
  if str_eqb p [47; 97] then Link [47] else if str_eqb p [47; 98] || str_eqb p [47; 47; 98] then Other else Err 2.

Theorem C74_root_link_refuted :
  resolve root_fs [] (split [47; 97; 47; 98]) (inl [[98]]) /\
  realpath 100 root_fs [47] [47; 97; 47; 98] = Ok (inl [47; 47; 98]).
Proof.
  split; [|vm_compute; reflexivity]. cbn.
  apply r_dot; [now left|now left|].
  apply r_link with (t := [47]); [apply ex_name; discriminate|reflexivity|]. cbn.
  apply r_dot; [now left|now left|].
  apply r_dot; [now left|now left|].
  apply r_file; [apply ex_name; discriminate|now right|]. cbn.
  apply r_done.
Qed.
Print Assumptions C74_root_link_refuted.

(** A link to itself is not ELOOP: realpath never returns. *)
Theorem C74_loop_refuted : forall fuel, realpath fuel loop_fs [47] [47; 108] = Fuel.
Proof. exact loop_never_ends. Qed.
Print Assumptions C74_loop_refuted.

(** A link text longer than 512 bytes is cut: /a is a link to 256 times "./" and then b, which ends at /b, not at /. *)
Definition long_text : list Z := concat (repeat [46; 47] 256) ++ [98].
Definition long_fs (p : list Z) : node :=
  if str_eqb p [47; 97] then Link long_text else if str_eqb p [47; 98] then Other else Err 2.

Theorem C74_long_link_refuted :
  resolve long_fs [] (split [47; 97]) (inl [[98]]) /\
  realpath 1000 long_fs [47] [47; 97] = Ok (inl [47]).
Proof.
  split; [|vm_compute; reflexivity]. cbn [split].
  apply r_dot; [now left|now left|].
  apply r_link with (t := long_text); [apply ex_name; discriminate|reflexivity|].
  rewrite app_nil_r. cbn [start].
  assert (G : forall n, split (concat (repeat [46; 47] n) ++ [98]) = repeat [46] n ++ [[98]]).
  { induction n as [|n IH]; [reflexivity|]. cbn [repeat concat]. rewrite <- app_assoc.
    change ([46; 47] ++ ?x) with ([46] ++ 47 :: x). rewrite split_slash; [|apply noslash; reflexivity]. rewrite IH. reflexivity. }
  unfold long_text. rewrite G.
  assert (S0 : start [] (concat (repeat [46; 47] 256) ++ [98]) = []) by reflexivity. rewrite S0.
  assert (K : forall n, resolve long_fs [] (repeat [46] n ++ [[98]]) (inl [[98]])).
  { induction n as [|n IH].
    - apply r_file; [apply ex_name; discriminate|now right|]. apply r_done.
    - cbn [repeat app]. apply r_dot; [now right|now left|]. exact IH. }
  apply K.
Qed.
Print Assumptions C74_long_link_refuted.

(** A file that is not a directory passes for one: "/b/.." is no error (ENOTDIR) if /b is a regular file. *)
Theorem C74_notdir_refuted :
  root_fs [47; 98] = Other /\ realpath 100 root_fs [47] [47; 98; 47; 46; 46] = Ok (inl [47]).
Proof. split; vm_compute; reflexivity. Qed.
Print Assumptions C74_notdir_refuted.

(** The empty path is no error (ENOENT), but the working directory. *)
Theorem C74_empty_refuted fs cwd fuel :
  Forall name cwd -> (length (pathname cwd) < Z.to_nat 4096)%nat ->
  realpath (S fuel) fs (pathname cwd) [] = Ok (inl (pathname cwd)).
Proof.
  intros HC HL. unfold realpath. cbn [slash0]. rewrite cwd_start by exact HC. cbn [outer bind resolv].
  rewrite <- pathname_render. unfold path_max. cbv zeta.
  assert (E : (4096 <? Z.of_nat (length (pathname cwd)) + 1) = false) by (apply Z.ltb_ge; lia).
  now rewrite E.
Qed.
Print Assumptions C74_empty_refuted.
