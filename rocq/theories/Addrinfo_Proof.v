From Verif Require Import Base Hosts_Model Hosts_Spec Hosts_Proof Addrinfo_Model Addrinfo_Spec.
Open Scope Z_scope.

Definition with_next (e : entry) (n : option nat) : entry :=
  Entry (e_family e) (e_socktype e) (e_protocol e) (e_flags e) (e_addrlen e) (e_port e) (e_addr e) (e_canon e) n.
Lemma with_next2 e n n' : with_next (with_next e n) n' = with_next e n'.
Proof. reflexivity. Qed.
Definition state (n : nat) (es : list entry) (out : array) : Prop :=
  (length es <= n)%nat /\ forall i, out i = match nth_error es i with
    | Some e => Some (with_next e (if Nat.ltb (S i) (length es) then Some (S i) else None))
    | None => if Nat.ltb i n then Some zero else None end.

Lemma state_step n es out e : state n es out -> (length es < n)%nat -> e_next e = None ->
  exists out', (out1 <- put out (length es) e ;; match length es with S k' => set_next out1 k' (Some (length es)) | O => Ok out1 end) = Ok out' /\ state n (es ++ [e]) out'.
Proof.
  intros [L S0] K N. unfold put. rewrite (S0 (length es)). rewrite (proj2 (nth_error_None es (length es))) by lia. destruct (Nat.ltb_spec (length es) n); [|lia]. cbn [bind].
  assert (EN : with_next e None = e) by (destruct e; cbn in N |- *; unfold with_next; cbn; congruence).
  destruct (length es) as [|k] eqn:LE.
  - eexists. split; [reflexivity|]. split; [rewrite app_length; cbn; lia|]. intro i. destruct es; [|cbn in LE; lia]. unfold aupd. cbn [app]. destruct i as [|i]; cbn [Nat.eqb nth_error length Nat.ltb].
    + change (Nat.ltb 1 1) with false. cbn. rewrite EN. reflexivity.
    + rewrite (S0 (S i)). destruct i; reflexivity.
  - unfold set_next, aupd at 1. replace (Nat.eqb (S k) k) with false by (symmetry; apply Nat.eqb_neq; lia). rewrite (S0 k). destruct (nth_error es k) as [e0|] eqn:Ek; [|apply nth_error_None in Ek; lia].
    eexists. split; [reflexivity|]. split; [rewrite app_length; cbn; lia|]. intro i. rewrite app_length, LE. cbn [length]. unfold aupd. destruct (Nat.eqb_spec k i) as [<-|NE].
    + rewrite nth_error_app1 by lia. rewrite Ek. replace (Nat.ltb (S k) (S k + 1)) with true by (symmetry; apply Nat.ltb_lt; lia). reflexivity.
    + destruct (Nat.eqb_spec (S k) i) as [<-|NE2].
      * rewrite nth_error_app2 by lia. rewrite LE, Nat.sub_diag. cbn [nth_error]. replace (Nat.ltb (S (S k)) (S k + 1)) with false by (symmetry; apply Nat.ltb_ge; lia). rewrite EN. reflexivity.
      * rewrite (S0 i). destruct (Nat.ltb_spec i (S k)) as [C|C].
        -- rewrite nth_error_app1 by lia. destruct (nth_error es i) eqn:Ei; [|apply nth_error_None in Ei; lia]. replace (Nat.ltb (S i) (S k)) with true by (symmetry; apply Nat.ltb_lt; lia). replace (Nat.ltb (S i) (S k + 1)) with true by (symmetry; apply Nat.ltb_lt; lia). reflexivity.
        -- rewrite (proj2 (nth_error_None es i)) by lia. rewrite (proj2 (nth_error_None (es ++ [e]) i)) by (rewrite app_length; cbn; lia). reflexivity.
Qed.

(** the elements made, without links *)
Fixpoint elems1 (flags : Z) (canon : option (list Z)) (a : address) (ss : list service) (k : nat) : list entry :=
  match ss with [] => [] | s :: r => element flags (if Nat.eqb k 0 then canon else None) a s :: elems1 flags canon a r (S k) end.
Fixpoint elems (flags : Z) (canon : option (list Z)) (l : list address) (ss : list service) (k : nat) : list entry :=
  match l with [] => [] | a :: r => elems1 flags canon a ss k ++ elems flags canon r ss (k + length ss) end.
Lemma elems1_len flags canon a ss : forall k, length (elems1 flags canon a ss k) = length ss.
Proof. induction ss; intro k; cbn; [reflexivity|]. rewrite IHss. reflexivity. Qed.
Lemma elems_len flags canon l ss : forall k, length (elems flags canon l ss k) = (length ss * length l)%nat.
Proof. induction l; intro k; cbn [elems length]; [lia|]. rewrite app_length, elems1_len, IHl. lia. Qed.

Lemma inner_ok flags canon a n : forall ss es out, state n es out -> (length es + length ss <= n)%nat ->
  exists out', inner flags canon a ss (length es) out = Ok ((length es + length ss)%nat, out') /\ state n (es ++ elems1 flags canon a ss (length es)) out'.
Proof.
  induction ss as [|s ss IH]; intros es out H K.
  - exists out. cbn [inner length elems1]. rewrite Nat.add_0_r, app_nil_r. auto.
  - cbn [length] in K. destruct (state_step n es out (element flags (if Nat.eqb (length es) 0 then canon else None) a s) H) as (out1 & R & S1); [lia|reflexivity|].
    cbn [inner]. destruct (put out (length es) _) as [o1| | |] eqn:P; cbn [bind] in R; try discriminate. cbn [bind]. rewrite R. cbn [bind].
    destruct (IH _ out1 S1) as (out' & R' & S'); [rewrite app_length; cbn; lia|]. rewrite app_length in R', S'. cbn [length] in R', S'. replace (length es + 1)%nat with (S (length es)) in R', S' by lia.
    rewrite R'. exists out'. split; [f_equal; f_equal; cbn [length]; lia|]. rewrite <- app_assoc in S'. exact S'.
Qed.
Lemma outer_ok flags canon ss n : forall l es out, state n es out -> (length es + length ss * length l <= n)%nat ->
  exists out', outer flags canon l ss (length es) out = Ok out' /\ state n (es ++ elems flags canon l ss (length es)) out'.
Proof.
  induction l as [|a l IH]; intros es out H K.
  - exists out. cbn [outer elems]. rewrite app_nil_r. auto.
  - cbn [length] in K. cbn [outer]. destruct (inner_ok flags canon a n ss es out H) as (o1 & R & S1); [nia|]. rewrite R. cbn [bind].
    pose proof (IH _ o1 S1) as I. rewrite app_length, elems1_len in I. destruct I as (out' & R' & S'); [lia|]. rewrite R'. exists out'. split; [reflexivity|]. cbn [elems]. rewrite app_assoc. exact S'.
Qed.

Lemma walk_ok n es out : state n es out -> length es = n -> forall m i, (i + S m = n)%nat ->
  exists l, walk (S m) out i = Ok l /\ Forall2 (fun e e' => exists nx, e' = with_next e nx) (skipn i es) l.
Proof.
  intros [L S0] LE. induction m as [|m IH]; intros i K.
  - cbn [walk]. rewrite (S0 i). destruct (nth_error es i) as [e|] eqn:E; [|apply nth_error_None in E; lia]. replace (Nat.ltb (S i) (length es)) with false by (symmetry; apply Nat.ltb_ge; lia). cbn [with_next e_next].
    eexists. split; [reflexivity|]. assert (X : skipn i es = [e]). { destruct (nth_error_split es i E) as (a & b & -> & LA). rewrite app_length in LE. cbn in LE. assert (b = []) by (destruct b; [reflexivity|cbn in LE; lia]). subst b i. rewrite skipn_app, skipn_all, Nat.sub_diag. reflexivity. }
    rewrite X. constructor; [eauto|constructor].
  - change (walk (S (S m)) out i) with (match out i with None => UB | Some e => match e_next e with None => Ok [e] | Some j => l <- walk (S m) out j ;; Ok (e :: l) end end).
    rewrite (S0 i). destruct (nth_error es i) as [e|] eqn:E; [|apply nth_error_None in E; lia]. replace (Nat.ltb (S i) (length es)) with true by (symmetry; apply Nat.ltb_lt; lia). cbn [with_next e_next].
    destruct (IH (S i)) as (l & W & F); [lia|]. fold (with_next e (Some (S i))). rewrite W. cbn [bind]. eexists. split; [reflexivity|].
    assert (X : skipn i es = e :: skipn (S i) es). { destruct (nth_error_split es i E) as (a & b & -> & LA). subst i. rewrite !skipn_app, skipn_all, (skipn_all2 (n:=S (length a))) by lia. rewrite Nat.sub_diag. replace (S (length a) - length a)%nat with 1%nat by lia. reflexivity. }
    rewrite X. constructor; [eauto|exact F].
Qed.

Definition canon_of (node : option (list Z)) (flags : Z) (canon : list Z) : option (list Z) :=
  let c := match node with
           | Some nm => if has flags AI_CANONNAME then match canon with [] => Some nm | _ => Some canon end else None
           | None => None end in match c with Some [] => None | _ => c end.
Lemma build_ok node flags ss l canon : ss <> [] -> l <> [] ->
  exists out es, build node flags ss l canon = Ok out /\ walk (length ss * length l) out 0 = Ok es /\
    Forall2 (fun e e' => exists nx, e' = with_next e nx) (elems flags (canon_of node flags canon) l ss 0) es.
Proof.
  intros NS NL. unfold build. fold (canon_of node flags canon). set (n := (length ss * length l)%nat). assert (NP : (0 < n)%nat) by (unfold n; destruct ss, l; try congruence; cbn [length]; lia).
  destruct (outer_ok flags (canon_of node flags canon) ss n l [] (fun i => if Nat.ltb i n then Some zero else None)) as (out & R & S1).
  { split; [cbn; lia|]. intro i. destruct i; reflexivity. } { cbn [length]. unfold n. lia. }
  cbn [length app] in R, S1. rewrite R. cbn [bind]. pose proof (elems_len flags (canon_of node flags canon) l ss 0) as LE. fold n in LE. set (es := elems _ _ _ _ _) in *.
  destruct n as [|m] eqn:EN; [lia|]. unfold set_next. pose proof (proj2 S1 m) as Om. destruct (nth_error es m) as [e|] eqn:E; [|apply nth_error_None in E; lia]. rewrite LE in Om.
  replace (Nat.ltb (S m) (S m)) with false in Om by (symmetry; apply Nat.ltb_ge; lia). rewrite Om. eexists. 
  assert (S2 : state (S m) es (aupd out m (with_next e None))). { split; [lia|]. intro i. unfold aupd. destruct (Nat.eqb_spec m i) as [<-|NE]; [|apply (proj2 S1)]. rewrite E, LE. replace (Nat.ltb (S m) (S m)) with false by (symmetry; apply Nat.ltb_ge; lia). reflexivity. }
  destruct (walk_ok (S m) es _ S2 LE m 0%nat) as (w & W & F); [lia|]. exists w. split; [reflexivity|]. cbn [with_next e_family e_socktype e_protocol e_flags e_addrlen e_port e_addr e_canon]. split; [exact W|exact F].
Qed.

Lemma f2_comp {A B C} (P : A -> B -> Prop) (Q : B -> C -> Prop) (R : A -> C -> Prop) : (forall a b c, P a b -> Q b c -> R a c) -> forall la lb lc, Forall2 P la lb -> Forall2 Q lb lc -> Forall2 R la lc.
Proof. intros H la lb lc X. revert lc. induction X; intros lc Y; inversion Y; subst; constructor; eauto. Qed.
Lemma elems1_shows flags canon a : forall ss k, Forall (fun s => 0 <= s_port s <= 65535) ss -> Forall2 (shows flags) (elems1 flags canon a ss k) (map (fun s => (a, s)) ss).
Proof.
  induction ss as [|s ss IH]; intros k F; cbn [elems1 map]; constructor; inversion F; subst; [|apply IH; assumption].
  unfold shows, element. cbn. rewrite Z.mod_small by lia. auto 10.
Qed.
Lemma elems_shows flags canon ss : Forall (fun s => 0 <= s_port s <= 65535) ss -> forall l k, Forall2 (shows flags) (elems flags canon l ss k) (list_prod l ss).
Proof. intros F l. induction l as [|a l IH]; intro k; cbn [elems list_prod]; [constructor|]. apply Forall2_app; [apply elems1_shows; assumption|apply IH]. Qed.
Lemma elems1_canon flags canon a : forall ss k, k <> 0%nat -> Forall (fun e => e_canon e = None) (elems1 flags canon a ss k).
Proof. induction ss as [|s ss IH]; intros k K; cbn [elems1]; constructor; [|apply IH; lia]. destruct k; [congruence|reflexivity]. Qed.
Lemma elems_canon flags canon ss : forall l k, k <> 0%nat -> Forall (fun e => e_canon e = None) (elems flags canon l ss k).
Proof. induction l as [|a l IH]; intros k K; cbn [elems]; [constructor|]. apply Forall_app. split; [apply elems1_canon; exact K|apply IH; lia]. Qed.

Lemma canon_f2 w r : Forall2 (fun e e' => exists nx, e' = with_next e nx) w r -> Forall (fun e => e_canon e = None) w -> Forall (fun e => e_canon e = None) r.
Proof. intro F. induction F as [|x y w' r' (nx & ->) F IH]; intro X; constructor; inversion X as [|? ? XA XB]; subst; [exact XA|exact (IH XB)]. Qed.
Lemma result_ok node flags ss l canon : ss <> [] -> l <> [] -> Forall (fun s => 0 <= s_port s <= 65535) ss -> (has flags AI_CANONNAME = true -> node <> None) -> (node <> Some []) ->
  exists out es, build node flags ss l canon = Ok out /\ walk (length l * length ss) out 0 = Ok es /\ Forall2 (shows flags) es (list_prod l ss) /\ canonical node flags canon es.
Proof.
  intros NS NL P CN NE. destruct (build_ok node flags ss l canon NS NL) as (out & es & B & W & F). exists out, es. split; [exact B|]. split; [rewrite Nat.mul_comm; exact W|]. split.
  - assert (F' : Forall2 (fun e' e => exists nx, e' = with_next e nx) es (elems flags (canon_of node flags canon) l ss 0)) by (clear -F; induction F; constructor; auto).
    eapply f2_comp; [|exact F'|apply elems_shows; exact P]. intros a b c (nx & ->) H. exact H.
  - destruct l as [|a l]; [congruence|]. destruct ss as [|s ss]; [congruence|]. cbn [elems elems1 app] in F. inversion F as [|e0 e r0 r (nx & E1) F1]; subst. clear F. cbn [canonical]. split.
    + cbn [with_next element e_canon Nat.eqb]. unfold canon_of. destruct (has flags AI_CANONNAME); [|destruct node; reflexivity]. destruct node as [nm|]; [|exfalso; apply CN; reflexivity]. destruct canon; [|reflexivity]. destruct nm; [congruence|reflexivity].
    + assert (X : Forall (fun e => e_canon e = None) (elems1 flags (canon_of node flags canon) a ss 1 ++ elems flags (canon_of node flags canon) l (s :: ss) (0 + length (s :: ss)))) by (apply Forall_app; split; [apply elems1_canon; lia|apply elems_canon; cbn; lia]).
      exact (canon_f2 _ _ F1 X).
Qed.

Lemma fam_wants h : fam (h_family h) = wants h.
Proof. reflexivity. Qed.
Lemma parse_some p4 p6 f n a : parse p4 p6 f n = Some a <-> numeric p4 p6 f n a.
Proof.
  unfold parse, numeric. destruct f; destruct (p4 n) as [b4|] eqn:E4; try destruct (p6 n) as [b6|] eqn:E6; (split; [intro H; try discriminate; injection H as <-|intros [(N & b & Eb & ->)|(N & M & b & Eb & ->)]]); try congruence;
  try (exfalso; congruence); try (left; split; [congruence|eauto]; fail); try (right; repeat split; try congruence; eauto; fail).
  all: specialize (M eq_refl); discriminate.
Qed.
Lemma parse_none p4 p6 f n : (forall a, ~ numeric p4 p6 f n a) -> parse p4 p6 f n = None.
Proof. intro H. destruct (parse p4 p6 f n) as [a|] eqn:E; [|reflexivity]. apply parse_some in E. elim (H a E). Qed.

Lemma resolves_ok p4 p6 hosts dns h node l c : resolves p4 p6 hosts dns h node l c -> addresses p4 p6 hosts dns node (h_family h) (h_flags h) = (inr l, c).
Proof.
  intro R. unfold addresses. rewrite !fam_wants. destruct R.
  - apply parse_some in H. rewrite H. reflexivity.
  - rewrite (parse_none _ _ _ _ H), H0, H1. destruct l; [congruence|reflexivity].
  - rewrite (parse_none _ _ _ _ H), H0, H1. destruct r as [e|[|x r]]; cbn in H2; try contradiction; rewrite H3; (destruct l; [congruence|reflexivity]).
  - rewrite H, H0. unfold lookup_null, Dns_Model.lookup_null. destruct (wants h); reflexivity.
  - rewrite H, H0, H1. reflexivity.
Qed.
Lemma resolves_ne p4 p6 hosts dns h node l c : resolves p4 p6 hosts dns h node l c -> l <> [].
Proof. intro R. destruct R; try assumption; try discriminate. destruct (wants h); discriminate. Qed.

Lemma strtoul_decimal ds v : decimal ds v -> 0 <= v <= 65535 -> strtoul ds = Some (v, []).
Proof.
  intros D V. destruct (decimal_digits ds v D) as [(d & r & E & DD) G]. specialize (G []). rewrite app_nil_r in G. cbn [digits] in G.
  unfold strtoul. assert (D1 : is_space d = false /\ (d =? 45) = false /\ (d =? 43) = false) by (unfold is_digit in DD; unfold is_space; lia). destruct D1 as (D1 & D2 & D3). rewrite E in *. cbn [skip_spaces]. rewrite D1, D2, D3, DD, G. replace (18446744073709551615 <? v) with false by lia.
  unfold to_int. rewrite Z.mod_small by lia. replace (2147483648 <=? v) with false by lia. reflexivity.
Qed.
Lemma known_cases h : known h -> (h_protocol h, h_socktype h) = (0, 0) \/ (h_protocol h, h_socktype h) = (0, 1) \/ (h_protocol h, h_socktype h) = (0, 2) \/ (h_protocol h, h_socktype h) = (6, 0) \/ (h_protocol h, h_socktype h) = (6, 1) \/ (h_protocol h, h_socktype h) = (17, 0) \/ (h_protocol h, h_socktype h) = (17, 2).
Proof.
  intros (P & T & N). unfold transports in N. cbn [In] in P, T. destruct P as [P|[P|[P|[]]]], T as [T|[T|[T|[]]]]; rewrite <- P, <- T in *; auto 10; elim N; reflexivity.
Qed.
Lemma offers_ok sf h service ss : known h -> offers sf h service ss -> lookup_serv sf service (h_protocol h) (h_socktype h) (h_flags h) = inr ss.
Proof.
  intros K O. assert (KC := known_cases h K). destruct O.
  - unfold transports, lookup_serv. repeat destruct KC as [KC|KC]; injection KC as -> ->; reflexivity.
  - unfold lookup_serv. rewrite (strtoul_decimal ds v H H0). rewrite Z.mod_small by lia. assert (NE : exists x y, ds = x :: y) by (destruct ds; [inversion H; try discriminate; destruct l; discriminate|eauto]). destruct NE as (x & y & ->). unfold transports.
    repeat destruct KC as [KC|KC]; injection KC as -> ->; reflexivity.
  - unfold lookup_serv. rewrite H0, H1. destruct n as [|x y]; [congruence|]. unfold transports in H2. repeat destruct KC as [KC|KC]; injection KC as EP ET; rewrite EP, ET in *; cbn in H2 |- *; rewrite H2 in H3; exact H3.
Qed.
Lemma decimal_ne ds v : decimal ds v -> ds <> [].
Proof. intro D. inversion D; subst; [discriminate|]. destruct l; discriminate. Qed.

Section Main.
Variables (p4 p6 : list Z -> option (list Z)) (cfg : option (Z + bool * bool)) (sf : list Z -> Z -> Z + list service)
  (hf : list Z -> family -> found * list Z) (dns : list Z -> family -> list Z -> found * list Z).
Lemma gai_enter node service h : acceptable node h -> unrestricted cfg h -> (node <> None \/ service <> None) ->
  getaddrinfo p4 p6 cfg sf hf dns node service (Some h) =
    match lookup_serv sf service (h_protocol h) (h_socktype h) (h_flags h) with
    | inl e => Ok (Fail e 0)
    | inr ss => match addresses p4 p6 hf dns node (h_family h) (h_flags h) with
                | (inl e, _) => Ok (Fail e 0)
                | (inr l, canon) => out <- build node (h_flags h) ss l canon ;; Ok (Done out)
                end
    end.
Proof.
  intros (R & C & F) U NN. destruct h as [flags f st pr]. cbn [h_flags h_family h_socktype h_protocol] in *. unfold getaddrinfo.
  assert (L : Z.land flags 127 = flags). { change 127 with (Z.ones 7). rewrite Z.land_ones by lia. apply Z.mod_small. change (2 ^ 7) with 128. lia. }
  rewrite L, Z.eqb_refl. cbn [negb].
  assert (C' : has flags AI_CANONNAME && match node with None => true | Some _ => false end = false) by (destruct (has flags AI_CANONNAME); [|reflexivity]; destruct node; [reflexivity|elim (C eq_refl); reflexivity]). rewrite C'.
  assert (F' : negb ((f =? 2) || (f =? 10) || (f =? 0)) = false) by lia. rewrite F'.
  assert (X : (if has flags AI_ADDRCONFIG then match cfg with None => inl (Fail EAI_SYSTEM 38) | Some (inl e) => inl (Fail EAI_SYSTEM e) | Some (inr (v4, v6)) => if negb v4 && negb v6 then inl (Fail EAI_NONAME 0) else inr (if Bool.eqb v4 v6 then f else if v4 then 2 else 10) end else inr f) = inr f).
  { unfold unrestricted in U. cbn [h_flags] in U. destruct U as [->| ->]; [reflexivity|]. destruct (has flags AI_ADDRCONFIG); reflexivity. }
  rewrite X. destruct node, service; try reflexivity. destruct NN; congruence.
Qed.
End Main.

Lemma number_len f : forall k n, (1 <= k)%nat -> 0 <= n < 10 ^ Z.of_nat k -> (length (Inet_Model.number f 10 n) <= k)%nat.
Proof.
  induction f as [|f IH]; intros k n K R; cbn [Inet_Model.number]; [cbn; lia|]. destruct (Z.ltb_spec n 10); [cbn; lia|]. rewrite app_length. cbn [length].
  destruct k as [|[|k]]; [lia|cbn in R; lia|]. specialize (IH (S k) (n / 10)). rewrite (Nat2Z.inj_succ (S k)), Z.pow_succ_r in R by lia.
  assert (length (Inet_Model.number f 10 (n / 10)) <= S k)%nat; [|lia]. apply IH; [lia|]. split; [apply Z.div_pos; lia|apply Z.div_lt_upper_bound; lia].
Qed.
