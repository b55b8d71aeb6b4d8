(** C92: the shadow password file. *)
From Verif Require Import Base Mem_Model Hosts_Model Hosts_Spec Inet_Model Users_Model Shadow_Model Shadow_Spec Shadow_Proof.
Open Scope Z_scope.

(** The parser accepts exactly the lines of nine fields whose numbers are empty or decimal, with their values; it is defined on every text without
    a number above the largest long.  (Missing: such numbers, see below.) *)
Theorem C92_parse_partial : forall l, is_text l ->
  (forall e, sgetspent l = Ok (Some e) <-> shadow_line l e) /\ (moderate l -> exists x, sgetspent l = Ok x).
Proof. intros l T. split; [intro e; split; [apply parse_bwd; exact T|apply parse_fwd]|apply parse_ok]. Qed.
Print Assumptions C92_parse_partial.

(** What putspent writes, fgetspent reads back, and it leaves the rest of the file. *)
Theorem C92_trip_partial : forall e f, printable e -> fgetspent (putspent e ++ f) = Ok (Some e, f).
Proof.
  intros e f P. pose proof (parse_fwd _ _ (put_line e P)) as H. destruct (put_shape e P) as (t & E & N). rewrite E in *. unfold fgetspent.
  rewrite <- app_assoc. rewrite Hosts_Proof.fgets_ok; [|exact N|rewrite !app_length; cbn; lia]. destruct (t ++ [10]) eqn:X; [destruct t; discriminate|]. rewrite H. reflexivity.
Qed.
Print Assumptions C92_trip_partial.

(** A lookup gives the first entry of that name, whatever the other lines are and however long; the names that could leave the directory are refused. *)
Theorem C92_lookup_partial : forall name size tcb shadow n,
  let file := match tcb with Contents f => Some f | Errno e => if (e =? ENOENT) || (e =? ENOTDIR) then match shadow with Contents f => Some f | _ => None end else None end in
  (forall f, file = Some f -> is_text f /\ moderate f /\ (length f < n)%nat) ->
  (In 47 name \/ (exists r, name = 46 :: r) \/ name = [] -> getspnam_r n name size tcb shadow = Ok (EINVAL, None)) /\
  (~ In 47 name -> (forall r, name <> 46 :: r) -> name <> [] ->
   ((size < length name + 100)%nat -> getspnam_r n name size tcb shadow = Ok (ERANGE, None)) /\
   ((length name + 100 <= size)%nat -> (258 < length name)%nat -> getspnam_r n name size tcb shadow = Ok (EINVAL, None)) /\
   ((length name + 100 <= size)%nat -> (length name <= 258)%nat ->
     match file with
     | Some f => forall ls, lines ls f -> exists r, getspnam_r n name size tcb shadow = Ok r /\ answer name size ls r
     | None => getspnam_r n name size tcb shadow =
         Ok (match tcb, shadow with Errno e, s => if (e =? ENOENT) || (e =? ENOTDIR) then match s with Errno e' => if (e' =? ENOENT) || (e' =? ENOTDIR) then 0 else e' | _ => 0 end else e | _, _ => 0 end, None)
     end)).
Proof.
  intros name size tcb shadow n file HF.
  assert (T1 : (rd name =? 46) || existsb (Z.eqb 47) name || (length name =? 0)%nat = true <-> (In 47 name \/ (exists r, name = 46 :: r) \/ name = [])).
  { rewrite !orb_true_iff, existsb_exists, Z.eqb_eq, Nat.eqb_eq. split.
    - intros [[H|(x & I & E)]|H].
      + right. left. destruct name as [|c r]; cbn in H; [discriminate|]. subst. eauto.
      + left. apply Z.eqb_eq in E. subst. exact I.
      + right. right. destruct name; [reflexivity|discriminate].
    - intros [I|[(r & ->)| ->]]; [left; right; exists 47; auto|left; left; reflexivity|right; reflexivity]. }
  unfold getspnam_r. split.
  - intro H. apply T1 in H. rewrite H. reflexivity.
  - intros A B C. destruct ((rd name =? 46) || existsb (Z.eqb 47) name || (length name =? 0)%nat) eqn:E.
    { destruct (proj1 T1 eq_refl) as [H|[(r & H)|H]]; [tauto|elim (B r H)|tauto]. }
    clear T1. split; [|split].
    + intro L. destruct (Nat.ltb_spec size (length name + 100)); [reflexivity|lia].
    + intros L M. destruct (Nat.ltb_spec size (length name + 100)); [lia|]. destruct (Z.leb_spec (20 + NAME_MAX) (9 + Z.of_nat (length name) + 7)) as [|X]; [reflexivity|unfold NAME_MAX in X; lia].
    + intros L M. destruct (Nat.ltb_spec size (length name + 100)); [lia|]. destruct (Z.leb_spec (20 + NAME_MAX) (9 + Z.of_nat (length name) + 7)) as [X|X]; [unfold NAME_MAX in X; lia|].
      unfold file in *. clear file. destruct tcb as [f|e].
      * intros ls LS. destruct (HF f eq_refl) as (F1 & F2 & F3). apply search_ok; auto.
      * rewrite <- negb_orb. destruct ((e =? ENOENT) || (e =? ENOTDIR)) eqn:E1; cbn [negb]; [|reflexivity]. destruct shadow as [f|e2].
        -- intros ls LS. destruct (HF f eq_refl) as (F1 & F2 & F3). apply search_ok; auto.
        -- rewrite <- negb_orb. destruct ((e2 =? ENOENT) || (e2 =? ENOTDIR)); reflexivity.
Qed.
Print Assumptions C92_lookup_partial.

(** Every file has lines; and the entry found has the name asked for, if that has no colon. *)
Theorem C92_lines : forall f, exists ls, lines ls f.
Proof.
  assert (H : forall n f, (length f <= n)%nat -> exists ls, lines ls f).
  { induction n as [|n IH]; intros f L; [destruct f; [exists []; constructor|cbn in L; lia]|]. destruct (cut 10 f) as [[a b]|] eqn:C.
    - apply cut_some in C. destruct C as [-> N]. rewrite !app_length in L. cbn in L. destruct (IH b ltac:(lia)) as (ls & LS). exists ((a ++ [10]) :: ls). constructor; auto.
    - destruct f as [|c f]; [exists []; constructor|]. exists [c :: f]. constructor; [|discriminate]. intro I. apply in_split in I. destruct I as (x & y & E).
      assert (Q : exists a b, cut 10 (c :: f) = Some (a, b)); [|destruct Q as (a & b & Q); congruence].
      rewrite E. clear. induction x as [|z x (a & b & IH)]; cbn [app cut]; [exists [], y; reflexivity|]. destruct (z =? 10); [eauto|]. rewrite IH. eauto. }
  intro f. apply (H (length f)). lia.
Qed.
Print Assumptions C92_lines.
Theorem C92_name : forall name size ls e, ~ In 58 name -> answer name size ls (0, Some e) -> sp_namp e = name.
Proof.
  intros name size ls e N A. remember (0, Some e) as r eqn:R. induction A as [|l ls r B A IH|t ls r B L F A IH|t ls e' B L SL|l ls B C]; try discriminate; auto.
  inversion R; subst e'. destruct B as (r & B). destruct SL as (a & b & c & d & f & g & h & tail & N1 & _ & _ & _ & _ & _ & _ & _ & _ & _ & E). rewrite E in B.
  match type of B with _ ++ _ ++ ?rest = _ => set (z := rest) in B end.
  pose proof (proj2 (cut_some 58 (sp_namp e ++ [58] ++ z) (sp_namp e) z) (conj eq_refl N1)) as C1. rewrite B in C1.
  pose proof (proj2 (cut_some 58 (name ++ [58] ++ r) name r) (conj eq_refl N)) as C2. rewrite C2 in C1. inversion C1. reflexivity.
Qed.
Print Assumptions C92_name.

(** Refuted: a long number makes the parser overflow, which is undefined. *)
Theorem C92_overflow_refuted : exists l, is_text l /\ sgetspent l = UB.
Proof.
  exists ([97; 58; 120; 58] ++ repeat 57 20 ++ [58; 58; 58; 58; 58; 58]). split; [|vm_compute; reflexivity].
  intros c I. cbn in I. repeat (destruct I as [<-|I]; [lia|]). destruct I.
Qed.
Print Assumptions C92_overflow_refuted.
(** Refuted: the last entry of a file without a newline behind it cannot be found with any buffer. *)
Theorem C92_last_refuted : exists e t, printable e /\ putspent e = t ++ [10] /\
  forall size n, (101 <= size)%nat -> (100 < n)%nat -> getspnam_r n [97] size (Errno ENOENT) (Contents t) = Ok (ERANGE, None).
Proof.
  exists {| sp_namp := [97]; sp_pwdp := [120]; sp_lstchg := 1; sp_min := -1; sp_max := -1; sp_warn := -1; sp_inact := -1; sp_expire := -1; sp_flag := 2 ^ 64 - 1 |}.
  exists [97; 58; 120; 58; 49; 58; 58; 58; 58; 58; 58]. split; [|split; [reflexivity|]].
  - unfold printable, plain, long_field. cbn [sp_namp sp_pwdp sp_lstchg sp_min sp_max sp_warn sp_inact sp_expire sp_flag]. cbn [In]. intuition lia.
  - intros size n S1 N1. unfold getspnam_r. destruct (Nat.ltb_spec size (length [97] + 100)) as [X|X]; [cbn in X; lia|]. cbn [rd existsb length Nat.eqb orb].
    do 13 (destruct size as [|size]; [lia|]). destruct n as [|n]; [lia|]. reflexivity.
Qed.
Print Assumptions C92_last_refuted.
(** Refuted: a negative number other than -1 is written but not read back; a colon in the name finds the entry of another user. *)
Theorem C92_negative_refuted : exists e, sp_min e = -5 /\ fgetspent (putspent e) = Ok (None, []).
Proof.
  exists {| sp_namp := [97]; sp_pwdp := [120]; sp_lstchg := 1; sp_min := -5; sp_max := -1; sp_warn := -1; sp_inact := -1; sp_expire := -1; sp_flag := 2 ^ 64 - 1 |}.
  split; vm_compute; reflexivity.
Qed.
Print Assumptions C92_negative_refuted.
Theorem C92_colon_refuted : exists f name e, getspnam 100 name (Errno ENOENT) (Contents f) = Ok (Some e) /\ sp_namp e <> name.
Proof. exists [97; 58; 120; 58; 49; 58; 58; 58; 58; 58; 58; 10], [97; 58; 120]. eexists. split; [vm_compute; reflexivity|cbn; discriminate]. Qed.
Print Assumptions C92_colon_refuted.

(** Instances: "a:x:1:...", a comment and a long line before it *)
Definition e1 : spwd := {| sp_namp := [97]; sp_pwdp := [120; 33]; sp_lstchg := 19000; sp_min := 0; sp_max := 99999; sp_warn := 7; sp_inact := -1; sp_expire := -1; sp_flag := 2 ^ 64 - 1 |}.
Example C92_instance_put : putspent e1 = [97; 58; 120; 33; 58; 49; 57; 48; 48; 48; 58; 48; 58; 57; 57; 57; 57; 57; 58; 55; 58; 58; 58; 10]. Proof. vm_compute. reflexivity. Qed.
Example C92_instance_printable : printable e1.
Proof. unfold printable, plain, long_field. cbn [e1 sp_namp sp_pwdp sp_lstchg sp_min sp_max sp_warn sp_inact sp_expire sp_flag]. cbn [In]. intuition lia. Qed.
Example C92_instance_find : getspnam 1000 [97] (Errno ENOENT) (Contents ([35; 10] ++ repeat 97 300 ++ [97; 58; 10] ++ [97; 97; 58; 58; 58; 58; 58; 58; 58; 58; 10] ++ [97; 58; 10] ++ putspent e1)) = Ok (Some e1).
Proof. vm_compute. reflexivity. Qed.
Example C92_instance_range : getspnam_r 1000 [97] 256 (Errno ENOENT) (Contents ([97; 58] ++ repeat 98 300 ++ [10])) = Ok (ERANGE, None). Proof. vm_compute. reflexivity. Qed.
Example C92_instance_name : getspnam_r 10 [46; 46] 256 (Contents []) (Contents []) = Ok (EINVAL, None). Proof. reflexivity. Qed.
