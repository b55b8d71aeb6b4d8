(** Property C13: basename and dirname.  [slashes] = only '/', [noslash] = no '/', [ends_slash] = last byte '/'. *)
From Verif Require Import Base Libgen_Model Libgen_Spec Libgen_Proof Check.
Open Scope Z_scope.

(** every path has one of the five shapes treated below: empty; only slashes; c///; ///c///; d///c/// *)
Theorem C13_cases : forall s, s = [] \/ (s <> [] /\ slashes s) \/
  (exists c sl, s = c ++ sl /\ c <> [] /\ noslash c /\ slashes sl) \/
  (exists sl1 c sl, s = sl1 ++ c ++ sl /\ sl1 <> [] /\ slashes sl1 /\ c <> [] /\ noslash c /\ slashes sl) \/
  (exists d sl1 c sl, s = d ++ sl1 ++ c ++ sl /\ d <> [] /\ ~ ends_slash d /\ sl1 <> [] /\ slashes sl1 /\
     c <> [] /\ noslash c /\ slashes sl).
Proof. exact path_cases. Qed.

Theorem C13_basename_empty : forall fuel m p, str_at m p [] -> basename fuel m (Some p) = Ok (m, Static [46]).
Proof. exact basename_empty. Qed.
Theorem C13_basename_null : forall fuel m, basename fuel m None = Ok (m, Static [46]) /\ dirname fuel m None = Ok (m, Static [46]).
Proof. auto. Qed.
(** all slashes: "/" *)
Theorem C13_basename_root : forall fuel m p sl, str_at m p sl -> slashes sl -> sl <> [] -> (length sl < fuel)%nat ->
  exists m', basename fuel m (Some p) = Ok (m', Ptr p) /\ str_at m' p [47] /\ same_outside m m' (p + 1) (length sl - 1).
Proof. exact basename_root. Qed.
(** otherwise the last component [c], with only the trailing slashes overwritten *)
Theorem C13_basename : forall fuel m p pre c sl, str_at m p (pre ++ c ++ sl) -> c <> [] -> noslash c -> slashes sl ->
  (pre = [] \/ ends_slash pre) -> (length (pre ++ c ++ sl) < fuel)%nat ->
  exists m', basename fuel m (Some p) = Ok (m', Ptr (p + Z.of_nat (length pre))) /\
    str_at m' (p + Z.of_nat (length pre)) c /\
    same_outside m m' (p + Z.of_nat (length pre + length c)) (length sl).
Proof. exact basename_comp. Qed.

Theorem C13_dirname_empty : forall fuel m p, str_at m p [] -> dirname fuel m (Some p) = Ok (m, Static [46]).
Proof. exact dirname_empty. Qed.
Theorem C13_dirname_slashes : forall fuel m p sl, str_at m p sl -> slashes sl -> sl <> [] -> (length sl < fuel)%nat ->
  dirname fuel m (Some p) = Ok (m, Static [47]).
Proof. exact dirname_slashes. Qed.
Theorem C13_dirname_single : forall fuel m p c sl, str_at m p (c ++ sl) -> c <> [] -> noslash c -> slashes sl ->
  (length (c ++ sl) < fuel)%nat -> dirname fuel m (Some p) = Ok (m, Static [46]).
Proof. exact dirname_single. Qed.
Theorem C13_dirname_root : forall fuel m p sl1 c sl, str_at m p (sl1 ++ c ++ sl) -> sl1 <> [] -> slashes sl1 ->
  c <> [] -> noslash c -> slashes sl -> (length (sl1 ++ c ++ sl) < fuel)%nat ->
  dirname fuel m (Some p) = Ok (m, Static [47]).
Proof. exact dirname_root. Qed.
Theorem C13_dirname : forall fuel m p d sl1 c sl, str_at m p (d ++ sl1 ++ c ++ sl) -> d <> [] -> ~ ends_slash d ->
  sl1 <> [] -> slashes sl1 -> c <> [] -> noslash c ->
  slashes sl -> (length (d ++ sl1 ++ c ++ sl) < fuel)%nat ->
  exists m', dirname fuel m (Some p) = Ok (m', Ptr p) /\ str_at m' p d /\ same_outside m m' (p + Z.of_nat (length d)) 1.
Proof. exact dirname_dir. Qed.

(** "/a//b/" *)
Example C13_hyps : str_at (mem_of 10 [47;97;47;47;98;47;0]) 10 ([47;97] ++ [47;47] ++ [98] ++ [47])
  /\ ~ ends_slash [47;97] /\ slashes [47;47] /\ noslash [98] /\ ends_slash ([47;97] ++ [47;47]).
Proof.
  split; [chk|]. split; [intros [l E]; destruct l as [|? [|? [|? ?]]]; discriminate|].
  split; [repeat constructor|]. split; [intros [H|[]]; discriminate|]. exists [47;97;47]. reflexivity.
Qed.
Print Assumptions C13_basename.
Print Assumptions C13_dirname.
