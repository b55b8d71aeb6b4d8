(** C99: glob and globfree. *)
From Coq Require Import Sorted Permutation.
From Verif Require Import Base Glob_Model Glob_Spec Glob_Proof.
Open Scope Z_scope.

(** Without errors, or if the caller does not mind them, glob gives exactly the paths that exist and match the pattern, each once, in order, behind
    the null pointers that were asked for; GLOB_NOMATCH if there is none, or the pattern with GLOB_NOCHECK. *)
Theorem C99_paths : forall sys fl fnm home errfunc pat g, honest fnm -> coherent sys -> sober sys -> distinct sys -> pat <> [] -> f_append fl = false ->
  f_tilde fl = false \/ hd 0 pat <> 126 -> f_err fl = false -> (forall p e, told errfunc p e = false) ->
  exists l, the_paths sys fl fnm [] pat l /\ in_order fl l /\ glob sys fnm home errfunc pat fl g = Ok (outcome pat fl (offsets fl g) 0 l).
Proof.
  intros sys fl fnm home errfunc pat g HON COH SOB DIS NE AP TI FE QU.
  destruct (search_ok sys fl fnm (told errfunc) HON COH SOB DIS (S (length pat)) [] pat NE) as (e & l & E & S0); [left; reflexivity|reflexivity|lia|].
  assert (e = 0) as ->. { destruct (Z.eq_dec e 0) as [->|N]; [reflexivity|]. destruct S0 as (_ & _ & _ & X). destruct (X N) as (_ & p & er & _ & [Y|Y]); [rewrite QU in Y|rewrite FE in Y]; discriminate Y. }
  exists (if f_nosort fl then l else sort l). split; [|split].
  - assert (S1 : searched sys fl fnm (told errfunc) [] pat 0 (if f_nosort fl then l else sort l)) by (destruct (f_nosort fl); [exact S0|apply (searched_perm _ _ _ _ _ _ _ l); [apply Permutation_sym, sort_perm|exact S0]]).
    apply S1. reflexivity.
  - intro N. rewrite N. apply sort_sorted.
  - apply glob_fresh; [exact AP|]. destruct pat as [|c p]; [congruence|]. assert (f_tilde fl && (c =? 126) = false) as ->. { destruct TI as [->|TI]; [reflexivity|]. cbn in TI. destruct (f_tilde fl); [cbn [andb]; lia|reflexivity]. } exact E.
Qed.
Print Assumptions C99_paths.
(** With GLOB_ERR or an error function too, nothing is listed that does not match; without an error nothing is missing, and with GLOB_ERR every directory
    could be read; an error is one that the caller asked for.  Missing: an error is not told if nothing was found before it, see C99_abort_refuted. *)
Theorem C99_errors_partial : forall sys fl fnm home errfunc pat g, honest fnm -> coherent sys -> sober sys -> distinct sys -> pat <> [] -> f_append fl = false ->
  f_tilde fl = false \/ hd 0 pat <> 126 ->
  exists e l, searched sys fl fnm (told errfunc) [] pat e l /\ in_order fl l /\ glob sys fnm home errfunc pat fl g = Ok (outcome pat fl (offsets fl g) e l).
Proof.
  intros sys fl fnm home errfunc pat g HON COH SOB DIS NE AP TI.
  destruct (search_ok sys fl fnm (told errfunc) HON COH SOB DIS (S (length pat)) [] pat NE) as (e & l & E & S0); [left; reflexivity|reflexivity|lia|].
  exists e, (if f_nosort fl then l else sort l). split; [|split].
  - destruct (f_nosort fl); [exact S0|]. apply (searched_perm _ _ _ _ _ _ _ l); [apply Permutation_sym, sort_perm|exact S0].
  - intro N. rewrite N. apply sort_sorted.
  - apply glob_fresh; [exact AP|]. destruct pat as [|c p]; [congruence|]. assert (f_tilde fl && (c =? 126) = false) as ->. { destruct TI as [->|TI]; [reflexivity|]. cbn in TI. destruct (f_tilde fl); [cbn [andb]; lia|reflexivity]. } exact E.
Qed.
Print Assumptions C99_errors_partial.
(** ~name/rest: the rest is searched in the home directory of the user; ~name alone is that directory, whether it exists or not. *)
Theorem C99_tilde : forall sys fl fnm home errfunc name h g, honest fnm -> coherent sys -> sober sys -> distinct sys -> f_append fl = false -> f_tilde fl = true ->
  ~ In 47 name -> home name = Some h -> len h <= PATH_MAX - 2 ->
  (forall rest, rest <> [] -> let pat := 126 :: name ++ 47 :: rest in exists e l, searched sys fl fnm (told errfunc) (h ++ [47]) rest e l /\ in_order fl l /\
     glob sys fnm home errfunc pat fl g = Ok (outcome pat fl (offsets fl g) e l)) /\
  (f_mark fl = false -> glob sys fnm home errfunc (126 :: name) fl g = Ok (0, holding (offsets fl g) [h]) /\ glob sys fnm home errfunc (126 :: name ++ [47]) fl g = Ok (0, holding (offsets fl g) [h ++ [47]])).
Proof.
  intros sys fl fnm home errfunc name h g HON COH SOB DIS AP TI N47 HM LH.
  assert (X : forall r, expand_tilde home (name ++ 47 :: r) = inr (h ++ [47], r)).
  { intro r. unfold expand_tilde. rewrite to_slash_app by (try apply surjective_pairing; exact N47). cbn [to_slash Z.eqb Pos.eqb fst snd]. rewrite app_nil_r, HM. replace (PATH_MAX - 2 <? len h) with false by lia. reflexivity. }
  split.
  - intros rest NE pat.
    destruct (search_ok sys fl fnm (told errfunc) HON COH SOB DIS (S (length pat)) (h ++ [47]) rest NE) as (e & l & E & S0); [right; exists h; reflexivity|rewrite len_app, len_1; lia|unfold pat; cbn [length]; rewrite app_length; cbn [length]; lia|].
    exists e, (if f_nosort fl then l else sort l). split; [|split].
    + destruct (f_nosort fl); [exact S0|]. apply (searched_perm _ _ _ _ _ _ _ l); [apply Permutation_sym, sort_perm|exact S0].
    + intro N. rewrite N. apply sort_sorted.
    + apply glob_fresh; [exact AP|]. unfold pat at 1. rewrite TI. cbn [andb Z.eqb Pos.eqb]. rewrite X. exact E.
  - intro M. assert (F : forall q k, do_glob sys fl fnm (told errfunc) (S k) q 0 [] = Ok (0, [q])).
    { intros q k. cbn [do_glob slashes literal Z.eqb andb negb]. rewrite M. cbn [negb]. rewrite app_nil_r. unfold finish. rewrite M. reflexivity. }
    assert (OC : forall pat q, outcome pat fl (offsets fl g) 0 (if f_nosort fl then [q] else sort [q]) = (0, holding (offsets fl g) [q])) by (intros; unfold outcome; destruct (f_nosort fl); reflexivity).
    split.
    + rewrite (glob_fresh sys fl fnm home errfunc (126 :: name) g 0 [h] AP); [rewrite OC; reflexivity|]. rewrite TI. cbn [andb Z.eqb Pos.eqb].
      assert (expand_tilde home name = inr (h, [])) as ->. { unfold expand_tilde. rewrite <- (app_nil_r name) at 1. rewrite to_slash_app by (try apply surjective_pairing; exact N47). cbn [to_slash fst snd]. rewrite app_nil_r, HM. replace (PATH_MAX - 2 <? len h) with false by lia. reflexivity. }
      apply F.
    + rewrite (glob_fresh sys fl fnm home errfunc (126 :: name ++ [47]) g 0 [h ++ [47]] AP); [rewrite OC; reflexivity|]. rewrite TI. cbn [andb Z.eqb Pos.eqb]. rewrite X. apply F.
Qed.
Print Assumptions C99_tilde.
(** A home directory that leaves no room in a path is no match, like an unknown user. *)
Theorem C99_tilde_none : forall sys fl fnm home errfunc name rest g, f_append fl = false -> f_tilde fl = true -> f_nocheck fl = false -> ~ In 47 name ->
  (home name = None \/ exists h, home name = Some h /\ PATH_MAX - 2 < len h) -> rest = [] \/ hd 0 rest = 47 ->
  glob sys fnm home errfunc (126 :: name ++ rest) fl g = Ok (GLOB_NOMATCH, Globt 0 None (offsets fl g)).
Proof.
  intros sys fl fnm home errfunc name rest g AP TI NC N47 HM RE. rewrite (glob_fresh sys fl fnm home errfunc (126 :: name ++ rest) g GLOB_NOMATCH [] AP); [unfold outcome; rewrite NC; destruct (f_nosort fl); reflexivity|].
  rewrite TI. cbn [andb Z.eqb Pos.eqb]. unfold expand_tilde. rewrite to_slash_app by (try apply surjective_pairing; exact N47).
  assert (fst (to_slash rest) = []) as ->. { destruct RE as [->|RE]; [reflexivity|]. destruct rest as [|c r]; [reflexivity|]. cbn in RE. subst c. reflexivity. }
  rewrite app_nil_r. cbn [fst snd]. destruct HM as [->|(h & -> & L)]; [reflexivity|]. replace (PATH_MAX - 2 <? len h) with true by lia. reflexivity.
Qed.
Print Assumptions C99_tilde_none.
(** A quoted path stands for itself, whatever is in it. *)
Theorem C99_quoted : forall sys fl fnm home errfunc s g, honest fnm -> coherent sys -> sober sys -> distinct sys -> s <> [] -> len s < PATH_MAX -> f_append fl = false -> f_noescape fl = false ->
  f_err fl = false -> (forall p e, told errfunc p e = false) ->
  glob sys fnm home errfunc (quote s) fl g = Ok (outcome (quote s) fl (offsets fl g) 0 (if lstat sys s =? 0 then [marked sys fl s] else [])).
Proof.
  intros sys fl fnm home errfunc s g HON COH SOB DIS NE L AP ES FE QU.
  destruct (C99_paths sys fl fnm home errfunc (quote s) g HON COH SOB DIS) as (l & [ND P] & _ & G); auto; [destruct s; [congruence|discriminate]|right; destruct s; [congruence|cbn; lia]|]. rewrite G. f_equal. f_equal.
  assert (Q : forall q, expands sys fl fnm [] (quote s) q <-> q = s) by (intro q; apply (quote_ex sys fl fnm ES (length s) s [] q); lia).
  destruct (lstat sys s =? 0) eqn:E.
  - apply Z.eqb_eq in E. assert (I : In (marked sys fl s) l) by (apply P; exists s; split; [apply Q; reflexivity|auto]).
    assert (A : forall x, In x l -> x = marked sys fl s) by (intros x X; apply P in X; destruct X as (q & X & _ & _ & ->); apply Q in X; subst q; reflexivity).
    destruct l as [|x [|y l]]; [destruct I|f_equal; apply A; left; reflexivity|]. exfalso. inversion ND as [|? ? N1 _]; subst. apply N1. left. rewrite (A x), (A y); [reflexivity|right; left; reflexivity|left; reflexivity].
  - destruct l as [|x l]; [reflexivity|]. exfalso. destruct (proj1 (P x)) as (q & X & Z0 & _); [left; reflexivity|]. apply Q in X. subst q. lia.
Qed.
Print Assumptions C99_quoted.
(** GLOB_APPEND puts what the call alone would have given behind what is there; a call that fails leaves it alone. *)
Theorem C99_append : forall sys fl fnm home errfunc pat o names, f_append fl = false -> (f_dooffs fl = true \/ o = O) ->
  (forall e new, glob sys fnm home errfunc pat fl (holding o names) = Ok (e, holding o new) -> glob sys fnm home errfunc pat (appending fl) (holding o names) = Ok (e, holding o (names ++ new))) /\
  (forall e, glob sys fnm home errfunc pat fl (holding o names) = Ok (e, Globt 0 None o) -> glob sys fnm home errfunc pat (appending fl) (holding o names) = Ok (e, holding o names)).
Proof. exact glob_append. Qed.
Print Assumptions C99_append.
(** globfree frees every name once, also after a call that found nothing. *)
Theorem C99_free : forall o names, globfree (holding o names) = Ok (names, Globt 0 None o) /\ globfree (Globt 0 None o) = Ok ([], Globt 0 None o).
Proof. intros o names. split; [apply free_ok|reflexivity]. Qed.
Print Assumptions C99_free.

(** Refuted: with GLOB_ERR a directory that cannot be read is "no match" instead of GLOB_ABORTED. *)
Theorem C99_abort_refuted : forall sys fl fnm home errfunc g er, listing sys [46] = inl er -> f_err fl = true -> f_append fl = false -> f_nocheck fl = false ->
  exists g', glob sys fnm home errfunc [42] fl g = Ok (GLOB_NOMATCH, g').
Proof.
  intros sys fl fnm home errfunc g er LI FE AP NC. eexists. rewrite (glob_fresh sys fl fnm home errfunc [42] g GLOB_ABORTED [] AP); [unfold outcome; rewrite NC; destruct (f_nosort fl); reflexivity|].
  cbn [Z.eqb Pos.eqb]. rewrite andb_false_r. cbn [do_glob length]. destruct ((0 =? 0) && negb (f_mark fl)); cbn [slashes Z.eqb Pos.eqb]; rewrite ?andb_false_r; cbn; rewrite LI, FE, orb_true_r; reflexivity.
Qed.
Print Assumptions C99_abort_refuted.
(** Refuted: GLOB_NOCHECK with an unknown user gives the pattern, but the call is said to have failed. *)
Theorem C99_nocheck_refuted : forall sys fl fnm home errfunc name g, ~ In 47 name -> home name = None -> f_tilde fl = true -> f_nocheck fl = true -> f_append fl = false ->
  glob sys fnm home errfunc (126 :: name) fl g = Ok (GLOB_NOMATCH, holding (offsets fl g) [126 :: name]).
Proof.
  intros sys fl fnm home errfunc name g N47 HM TI NC AP. rewrite (glob_fresh sys fl fnm home errfunc (126 :: name) g GLOB_NOMATCH [] AP); [unfold outcome; rewrite NC; destruct (f_nosort fl); reflexivity|].
  rewrite TI. cbn [andb Z.eqb Pos.eqb]. unfold expand_tilde. rewrite <- (app_nil_r name) at 1. rewrite to_slash_app by (try apply surjective_pairing; exact N47). cbn [to_slash fst snd]. rewrite app_nil_r, HM. reflexivity.
Qed.
Print Assumptions C99_nocheck_refuted.

(** Non-vacuity: a directory "a" with a file "c", and a file "b" *)
Definition a_slashes (p : list Z) : bool := match p with c :: r => (c =? 97) && forallb (Z.eqb 47) r | [] => false end.
Definition small : fs := FS
  (fun p => if a_slashes p || (if list_eq_dec Z.eq_dec p [98] then true else false) || (if list_eq_dec Z.eq_dec p [97;47;99] then true else false) then 0 else 2)
  (fun p => if a_slashes p then Some true else if list_eq_dec Z.eq_dec p [98] then Some false else if list_eq_dec Z.eq_dec p [97;47;99] then Some false else None)
  (fun p => if list_eq_dec Z.eq_dec p [46] then inr [([98], 8); ([97], 4)] else if list_eq_dec Z.eq_dec p [97;47] then inr [([99], 8)] else inl 2).
Definition star_or_equal (ne per : bool) (c n : list Z) : bool := if list_eq_dec Z.eq_dec c [42] then true else if list_eq_dec Z.eq_dec c n then true else false.
Example C99_hypotheses : honest star_or_equal /\ coherent small /\ sober small /\ distinct small.
Proof.
  assert (EN : forall p, dirlike p -> (p = [] /\ entries small p = [([98], 8); ([97], 4)]) \/ (p = [97;47] /\ entries small p = [([99], 8)]) \/ entries small p = []).
  { intros p D. unfold entries, small, listing. destruct (list_eq_dec Z.eq_dec (here p) [46]) as [E|N1].
    - left. destruct p as [|x p]; [auto|]. cbn [here] in E. rewrite E in D. exfalso. destruct D as [D|([|y s] & D)]; [discriminate|discriminate|]. injection D as <- D. destruct s; discriminate.
    - destruct (list_eq_dec Z.eq_dec (here p) [97;47]) as [E|N2]; [|auto]. right. left. destruct p as [|x p]; [discriminate|]. auto. }
  assert (SL : forall k, forallb (Z.eqb 47) (repeat 47 k) = true) by (induction k; [reflexivity|exact IHk]).
  split; [|split; [|split]].
  - intros ne per c r n t G F. unfold star_or_equal in F. destruct (list_eq_dec Z.eq_dec (c ++ r) [42]) as [E|_].
    + destruct c as [|x c]; [destruct t as [|y t]; [apply len_nonneg|]|]. * cbn in G. rewrite andb_false_r in G. injection G as _ G. destruct t; discriminate. * injection E as -> _. discriminate G.
    + destruct (list_eq_dec Z.eq_dec (c ++ r) n) as [<-|]; [|discriminate]. apply plain_short in G. rewrite !len_app, !len_1 in *. pose proof (len_nonneg r). lia.
  - intros p n ty D I. destruct (EN p D) as [[-> E]|[[-> E]|E]]; rewrite E in I; cbn [In] in I.
    + destruct I as [I|[I|[]]]; injection I as <- <-; (split; [discriminate|]; split; [cbn; lia|]; split; [reflexivity|]).
      * split; [discriminate|]. split; [intros _ _ _ r; cbn; discriminate|]. split; [discriminate|intros; reflexivity].
      * split; [intros _ k; cbn; rewrite SL; reflexivity|]. split; [intros _ X; destruct (X eq_refl)|]. split; [intros _ k; cbn; rewrite SL; reflexivity|intros _ X; destruct (X eq_refl)].
    + destruct I as [I|[]]; injection I as <- <-; (split; [discriminate|]; split; [cbn; lia|]; split; [reflexivity|]).
      split; [discriminate|]. split; [intros _ _ _ r; cbn; discriminate|]. split; [discriminate|intros; reflexivity].
    + destruct I.
  - split; [|cbn; discriminate]. intros p d. unfold small, stat_dir, lstat. destruct (a_slashes p); [reflexivity|]. cbn [orb]. destruct (list_eq_dec Z.eq_dec p [98]); [reflexivity|]. destruct (list_eq_dec Z.eq_dec p [97;47;99]); [reflexivity|discriminate].
  - intros p D. destruct (EN p D) as [[-> E]|[[-> E]|E]]; rewrite E; cbn; repeat constructor; cbn; intuition discriminate.
Qed.
Example C99_case : let fl m := Flags false false false m false false false false false in let g := Globt 0 None 0 in
  let run m pat := glob small star_or_equal (fun _ => None) None pat (fl m) g in
  run true [42] = Ok (0, holding 0 [[97;47]; [98]]) /\ run false [42;47;99] = Ok (0, holding 0 [[97;47;99]]) /\ run false [42;47] = Ok (0, holding 0 [[97;47]]) /\
  run false [97;47;92;99] = Ok (0, holding 0 [[97;47;99]]) /\ run false [97;47;98] = Ok (GLOB_NOMATCH, g).
Proof. vm_compute. repeat split. Qed.
