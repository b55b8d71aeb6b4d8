(** C96: the protocol database. *)
From Verif Require Import Base Hosts_Model Hosts_Spec Users_Model Proto_Model Proto_Spec Proto_Proof.
Open Scope Z_scope.

(** getprotobyname and getprotobynumber find the first entry of the file with that name or number, in whatever state the calls before left the
    database.  Missing: entries without aliases, lines of more than 255 bytes and a last line without newline, see below. *)
Theorem C96_lookup_partial : forall ls es n s, listed ls es -> aliased es -> short ls -> (length ls + 1 < n)%nat ->
  (forall name, exists r s', getprotobyname n (text ls) name s = Ok (r, s') /\ first_with (fun e => p_name e = name) es r) /\
  (forall num, exists r s', getprotobynumber n (text ls) num s = Ok (r, s') /\ first_with (fun e => p_proto e = num) es r).
Proof.
  intros ls es n s L A S0 K. split.
  - intro name. destruct (first_ok (fun e => bytes_eq name (p_name e)) (fun e => p_name e = name) ls es n) as (r & o & F & R); auto.
    + intro e. rewrite bytes_eqE. split; auto.
    + exists r. eexists. split; [|exact R]. unfold getprotobyname. rewrite F. reflexivity.
  - intro num. destruct (first_ok (fun e => num =? p_proto e) (fun e => p_proto e = num) ls es n) as (r & o & F & R); auto.
    + intro e. rewrite Z.eqb_eq. split; auto.
    + exists r. eexists. split; [|exact R]. unfold getprotobynumber. rewrite F. reflexivity.
Qed.
Print Assumptions C96_lookup_partial.
(** getprotoent gives all entries in order, then nothing.  Missing as above. *)
Theorem C96_all_partial : forall ls es n k, listed ls es -> aliased es -> short ls -> (length ls + 1 < n)%nat ->
  exists s, run n (text ls) (repeat Get k) init = Ok (map (nth_error es) (seq 0 k), s).
Proof.
  intros ls es n k L A S0 K. destruct (run_ok n (repeat Get k) [] ls es init L A S0 K eq_refl) as (s & R). exists s. cbn [app] in R. rewrite R. do 4 f_equal. clear. unfold gets. induction k; [reflexivity|]. cbn. rewrite IHk. reflexivity.
Qed.
Print Assumptions C96_all_partial.
(** Every line is an entry or not, and which one is determined. *)
Theorem C96_line : forall l, (exists e, gives l e) \/ (forall e, ~ gives l e).
Proof.
  intro l. destruct (wc_total l) as (t & C). destruct (fields_total (S (length t)) t) as (ws & F); [lia|].
  assert (X : forall e, gives l e -> exists d, ws = p_name e :: d :: p_aliases e /\ decimal d (p_proto e)).
  { intros e (t' & d & C' & F' & D). rewrite (wc_fun _ _ _ C' C) in F'. exists d. split; [exact (fields_fun _ _ _ F F')|exact D]. }
  destruct ws as [|name [|d as_]]; [right; intros e G; destruct (X e G) as (? & ? & _); discriminate..|].
  assert (DN : d <> []) by (inversion F as [|? ? ? ? _ _ _ _ F2]; subst; inversion F2; subst; assumption).
  destruct (to_number d) as [v|] eqn:T.
  - left. exists {| p_name := name; p_proto := v; p_aliases := as_ |}. exists t, d. cbn. repeat split; auto. apply to_number_ok; assumption.
  - right. intros e G. destruct (X e G) as (d' & E & D). injection E as _ E2 _. subst d'. apply (to_number_ok d _ DN) in D. congruence.
Qed.
Print Assumptions C96_line.
Theorem C96_line_unique : forall l e e', gives l e -> gives l e' -> e = e'.
Proof.
  intros l e e' (t & d & C & F & D) (t' & d' & C' & F' & D'). rewrite (wc_fun _ _ _ C' C) in F'. pose proof (fields_fun _ _ _ F F') as E. injection E as E1 E2 E3. subst d'.
  assert (DN : d <> []) by (inversion F as [|? ? ? ? _ _ _ _ F2]; subst; inversion F2; subst; assumption).
  apply (to_number_ok d _ DN) in D. apply (to_number_ok d _ DN) in D'. destruct e, e'; cbn in *; congruence.
Qed.
Print Assumptions C96_line_unique.

(** Refuted: an entry without aliases is never found. *)
Theorem C96_alias_refuted : forall l e n s, gives l e -> p_aliases e = [] -> short [l] -> (3 < n)%nat -> exists s', getprotobyname n (text [l]) (p_name e) s = Ok (None, s').
Proof.
  intros l e n s G A S0 K. inversion S0 as [|? ? [N L] _]; subst. unfold getprotobyname. destruct n as [|[|[|n]]]; try lia. cbn [find_proto].
  pose proof (read_line_ok (S n) [] l [] N L) as R. cbn [app text map concat length] in R. unfold text at 1. cbn [map concat]. rewrite R. cbn [bind].
  assert (P : parse l = None). { destruct (parse l) as [e'|] eqn:P; [|reflexivity]. apply parse_ok in P. destruct P as [G' A']. rewrite (C96_line_unique l e' e G' G) in A'. congruence. }
  rewrite P. pose proof (read_line_end n [l]) as R2. replace (length (text [l])) with (0 + (length l + 1))%nat in R2 by (unfold text; cbn; rewrite !app_length; cbn; lia). rewrite R2. cbn [bind]. eexists. reflexivity.
Qed.
Print Assumptions C96_alias_refuted.
(** Refuted: at a last line without newline, or one of more than 255 bytes, the call never returns. *)
Theorem C96_hang_refuted : forall file n name s, firstn 256 file <> [] -> ~ In 10 (firstn 256 file) -> getprotobyname n file name s = Fuel.
Proof. intros file n name s E N. unfold getprotobyname. destruct n as [|n]; [reflexivity|]. cbn [find_proto]. rewrite stuck; [reflexivity|assumption..]. Qed.
Print Assumptions C96_hang_refuted.
(** Refuted: setprotoent and endprotoent do not go back to the first entry: wherever they are called, getprotoent goes on. *)
Theorem C96_rewind_refuted : forall ls es n cs, listed ls es -> aliased es -> short ls -> (length ls + 1 < n)%nat ->
  exists s, run n (text ls) cs init = Ok (map (nth_error es) (seq 0 (gets cs)), s).
Proof. intros ls es n cs L A S0 K. exact (run_ok n cs [] ls es init L A S0 K eq_refl). Qed.
Print Assumptions C96_rewind_refuted.

(** Instances: "ip 0 IP # x", "", "tcp<tab>6 TCP T" *)
Definition ls1 : list (list Z) := [[105; 112; 32; 48; 32; 73; 80; 32; 35; 32; 120]; []; [116; 99; 112; 9; 54; 32; 84; 67; 80; 32; 84]].
Definition es1 : list proto := [{| p_name := [105; 112]; p_proto := 0; p_aliases := [[73; 80]] |}; {| p_name := [116; 99; 112]; p_proto := 6; p_aliases := [[84; 67; 80]; [84]] |}].
Example C96_instance : listed ls1 es1 /\ aliased es1 /\ short ls1.
Proof.
  split; [|split].
  - apply l_entry; [apply parse_ok; vm_compute; reflexivity|]. apply l_other.
    + intros e (l & d & C & F & _). assert (C2 : without_comment [] []) by (constructor; cbn; tauto). rewrite (wc_fun _ _ _ C C2) in F. assert (F2 : fields [] []) by (constructor; constructor). discriminate (fields_fun _ _ _ F F2).
    + apply l_entry; [apply parse_ok; vm_compute; reflexivity|]. constructor.
  - repeat constructor; discriminate.
  - repeat constructor; cbn; intuition lia.
Qed.
Example C96_instance_get : exists s, getprotobynumber 9 (text ls1) 6 init = Ok (Some {| p_name := [116; 99; 112]; p_proto := 6; p_aliases := [[84; 67; 80]; [84]] |}, s). Proof. eexists. vm_compute. reflexivity. Qed.
(** "ip 0" *)
Example C96_instance_noalias : gives [105; 112; 32; 48] {| p_name := [105; 112]; p_proto := 0; p_aliases := [] |}.
Proof.
  exists [105; 112; 32; 48], [48]. split; [constructor; cbn; lia|]. split; [|apply (d_one 0); lia]. cbn [p_name p_aliases].
  apply (f_word [] [105; 112] [32; 48] [[48]]); [constructor|discriminate|intros c I; cbn in I; unfold is_blank; intuition lia|right; exists 32, [48]; split; [reflexivity|left; reflexivity]|].
  apply (f_word [32] [48] [] []); [repeat constructor|discriminate|intros c I; cbn in I; unfold is_blank; intuition lia|left; reflexivity|]. constructor. constructor.
Qed.
