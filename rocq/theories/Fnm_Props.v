(** C70: fnmatch implements the pattern language. *)
From Verif Require Import Base Check Utf8_Model Utf8_Spec Fnm_Model Fnm_Spec Fnm_Proof Fnmb_Proof Fnmm_Proof Fnmp_Proof.
Open Scope Z_scope.

(** For every pattern and every string, with every combination of the flags, fnmatch terminates
    without undefined behaviour and returns 0 exactly if the pattern matches the string, and
    FNM_NOMATCH otherwise.  Missing from the full property: patterns outside [pattern] (see the
    refuted cases below) and strings that are not UTF-8. *)
Theorem C70_fnmatch_partial : forall f lc m ps w p s fuel, ok_locale lc ->
  pattern f ps -> Forall char w ->
  bytes_at m p (show ps ++ [0]) -> bytes_at m s (text w ++ [0]) ->
  Z.of_nat (length (show ps)) + Z.of_nat (length (text w)) < 2 ^ 63 ->
  (length (show ps) + 2 * length (text w) < fuel)%nat ->
  exists x, fnmatch fuel f lc m p s = Ok x /\ (x = 0 \/ x = 1) /\ (x = 0 <-> matches f lc ps w).
Proof. intros f lc m ps w p s fuel LC. exact (fnmatch_spec f lc m LC ps w p s fuel). Qed.
Print Assumptions C70_fnmatch_partial.

(** ** What the property does not cover is wrong *)
Definition none : flags := Fl false false false false false.
Definition two (pat str : list Z) : mem := munion (mem_of 100 (pat ++ [0])) (mem_of 1000 (str ++ [0])).

(** the end of a range outside ASCII: [!α-ω] does not match "x" *)
Theorem C70_wide_range_refuted : forall lc,
  matches none lc [Brk (Some 33) [Rng 945 969]] [120] /\
  fnmatch 60 none lc (two (show [Brk (Some 33) [Rng 945 969]]) (text [120])) 100 1000 = Ok NOMATCH.
Proof.
  intros lc. split; [|reflexivity]. left. split; [discriminate|]. constructor; [|constructor].
  cbn. intros (i & [<-|[]] & [H|H]); cbn in H; lia.
Qed.
Print Assumptions C70_wide_range_refuted.

(** a range that ends with '-' is continued by the next character: [%--x] matches "5" *)
Theorem C70_dash_range_refuted : forall lc,
  ~ matches none lc [Brk None [Rng 37 45; One 120]] [53] /\
  fnmatch 60 none lc (two (show [Brk None [Rng 37 45; One 120]]) (text [53])) 100 1000 = Ok 0.
Proof.
  intros lc. split; [|reflexivity]. intros [[_ H]|[H _]]; [|discriminate].
  inversion H as [|? ? ? ? H1 H2|]; subst. destruct H1 as (i & [<-|[<-|[]]] & [X|X]); cbn in X; lia.
Qed.
Print Assumptions C70_dash_range_refuted.

(** an escaped period does not match a leading period *)
Theorem C70_escaped_period_refuted : forall lc,
  let f := Fl false false true false false in
  matches f lc [Esc 46] [46] /\
  fnmatch 60 f lc (two (show [Esc 46]) (text [46])) 100 1000 = Ok NOMATCH.
Proof.
  intros lc f. split; [|reflexivity]. left. split; [intros _ _; right; reflexivity|].
  constructor; [left; reflexivity|constructor].
Qed.
Print Assumptions C70_escaped_period_refuted.

(** collating symbols and equivalence classes never match: [[.a.]] and [[=a=]] do not match "a" *)
Theorem C70_collating_refuted : forall lc,
  fnmatch 60 none lc (two [91; 91; 46; 97; 46; 93; 93] [97]) 100 1000 = Ok NOMATCH /\
  fnmatch 60 none lc (two [91; 91; 61; 97; 61; 93; 93] [97]) 100 1000 = Ok NOMATCH.
Proof. intros lc. split; reflexivity. Qed.
Print Assumptions C70_collating_refuted.

Lemma stuck : forall fuel f m p, m p = Some 255 -> m (p + 1) = Some 0 -> pat_slash fuel f m p = Fuel.
Proof.
  induction fuel as [|g IH]; intros f m p H H1; [reflexivity|]. cbn [pat_slash].
  assert (E : pat_next (S g) f m p (usz (-1)) = Ok (UNMATCHABLE, 0)).
  { unfold pat_next. change (usz (-1) =? 0) with false. rewrite (load_some _ _ _ H). cbn [bind Z.eqb Pos.eqb].
    unfold pat_char. rewrite (load_some _ _ _ H). cbn [bind]. unfold mbtowc. rewrite (load_some _ _ _ H).
    change (usz (-1)) with (2 ^ 64 - 1). replace (p + Z.min (2 ^ 64 - 1) 4) with (p + 4) by lia.
    cbn [bind Z.eqb Z.leb Z.compare Pos.compare Pos.compare_cont decode_wtranscode negb].
    unfold decode_wtranscode. cbn [Z.eqb].
    change (upd (fun _ => None) 0 0) with (upd (fun _ : Z => None) 0 0).
    cbn [dloop]. replace (p =? p + 4) with false by lia. cbn [orb Z.eqb]. rewrite (load_some _ _ _ H). reflexivity. }
  rewrite E. cbn [bind]. rewrite Z.add_0_r. apply IH; assumption.
Qed.

(** with FNM_PATHNAME, a byte of the pattern that is not UTF-8 makes fnmatch loop forever *)
Theorem C70_termination_refuted : forall fuel lc f, f_path f = true ->
  fnmatch fuel f lc (two [255] [97]) 100 1000 = Fuel.
Proof.
  intros fuel lc f E. unfold fnmatch. rewrite E. destruct fuel as [|g]; [reflexivity|]. remember g as g1 eqn:EG. cbn [path].
  rewrite (stuck (S g1) f (two [255] [97]) 100) by reflexivity.
  destruct g1 as [|g2]; [reflexivity|]. reflexivity.
Qed.
Print Assumptions C70_termination_refuted.

(** ** The hypotheses are met: a*[!x-z[:digit:]]?\*.é against several strings *)
Definition ascii : locale := Loc (fun k => if (97 <=? k) && (k <=? 122) then k - 32 else k)
  (fun k => if (65 <=? k) && (k <=? 90) then k + 32 else k)
  (fun name k => match name with [100; 105; 103; 105; 116] => (48 <=? k) && (k <=? 57) | _ => false end).

Example C70_locale : ok_locale ascii.
Proof.
  intros k H. unfold casefold, ascii, char, scalar in *. cbn [up low].
  destruct ((97 <=? k) && (k <=? 122)) eqn:A; destruct ((65 <=? k) && (k <=? 90)) eqn:B; cbv zeta;
    match goal with |- context [?x =? k] => destruct (Z.eqb_spec x k) end; lia.
Qed.

Definition sample : list elem :=
  [Chr 97; Star; Brk (Some 33) [Rng 120 122; Cls [100; 105; 103; 105; 116]]; Any; Esc 42; Star; Chr 46; Chr 233].

Example C70_pattern : pattern none sample.
Proof.
  split; [|discriminate]. unfold sample.
  repeat (apply Forall_cons; [cbn; unfold ok_one, char, scalar|]); try apply Forall_nil;
    repeat match goal with |- _ /\ _ => split end; try discriminate; try lia; try exact I.
  repeat constructor; lia.
Qed.

Example C70_yes : fnmatch 100 none ascii (two (show sample) (text [97; 49; 113; 228; 42; 46; 46; 233])) 100 1000 = Ok 0.
Proof. reflexivity. Qed.
Example C70_no : fnmatch 100 none ascii (two (show sample) (text [97; 49; 121; 228; 42; 46; 46; 233])) 100 1000 = Ok NOMATCH.
Proof. reflexivity. Qed.
Example C70_path : fnmatch 100 (Fl true false true false false) ascii
  (two (show [Star; Chr 47; Star; Chr 99]) (text [97; 47; 98; 99])) 100 1000 = Ok 0.
Proof. reflexivity. Qed.
Example C70_path_period : fnmatch 100 (Fl true false true false false) ascii
  (two (show [Star; Chr 47; Star; Chr 99]) (text [97; 47; 46; 99])) 100 1000 = Ok NOMATCH.
Proof. reflexivity. Qed.
Example C70_lead : fnmatch 100 (Fl true false false true true) ascii
  (two (show [Star; Chr 47; Star; Chr 99]) (text [97; 47; 98; 67; 47; 46])) 100 1000 = Ok 0.
Proof. reflexivity. Qed.
