(** C98: getmntent, addmntent, hasmntopt. *)
From Verif Require Import Base Hosts_Model Hosts_Spec Mnt_Model Mnt_Spec Mnt_Proof.
Open Scope Z_scope.

(** Calling getmntent (or getmntent_r with a buffer that takes every line) again and again gives the entries of the file in order, then null.
    Missing: a comment that leaves its numbers to a line without, escapes, a last line without newline, bytes above 126; see below. *)
Theorem C98_read_partial : forall size ls ms k fuel, (forall b, size = Some b -> (2 <= b)%nat) -> listed ls ms -> Forall (fits size) ls -> separate ls -> (length ls < fuel)%nat ->
  calls k fuel size (Stream (text ls) false) = Ok (map (nth_error ms) (seq 0 k)).
Proof. intros size ls ms k fuel SZ. apply calls_ok. exact SZ. Qed.
Print Assumptions C98_read_partial.
(** What addmntent wrote, getmntent reads. *)
Theorem C98_round_partial : forall size ls ms ns k fuel, (forall b, size = Some b -> (2 <= b)%nat) -> listed ls ms -> Forall (fits size) ls -> separate ls ->
  Forall proper ns -> (forall n l, In n ns -> addmntent [] n = l ++ [10] -> fits size l) -> (length ls + length ns < fuel)%nat ->
  calls k fuel size (Stream (fold_left addmntent ns (text ls)) false) = Ok (map (nth_error (ms ++ ns)) (seq 0 k)).
Proof.
  intros size ls ms ns k fuel SZ L F SP P FN K. rewrite add_all. apply calls_ok; auto.
  - apply listed_app; [exact L|apply all_listed; exact P].
  - apply Forall_app. split; [exact F|]. apply Forall_forall. intros x I. apply in_map_iff in I. destruct I as (n & <- & I). apply (FN n _ I). unfold addmntent, line_of. cbn [app]. rewrite <- ?app_assoc. cbn [app]. rewrite <- ?app_assoc. cbn [app]. rewrite <- ?app_assoc. cbn [app]. rewrite <- ?app_assoc. cbn [app]. rewrite <- ?app_assoc. cbn [app]. rewrite <- ?app_assoc. reflexivity.
  - destruct SP as [SP|SP]; [left|right].
    + intros l I. apply in_app_iff in I. destruct I as [I|I]; [auto|]. apply in_map_iff in I. destruct I as (n & <- & I). rewrite Forall_forall in P. destruct (P n I) as (W1 & H1 & _). intros (b & r & E & B). unfold line_of in E.
      destruct W1 as [W1 N1]. destruct (fsname n) as [|x w]; [congruence|]. inversion W1; subst. cbn in H1, E. destruct b as [|y b]; injection E; intros; [congruence|]. inversion B as [|? ? BL _]; subst. destruct BL; lia.
    + intros l m I. apply in_app_iff in I. destruct I as [I|I]; [auto|]. apply in_map_iff in I. destruct I as (n & <- & I). rewrite Forall_forall in P. intro B.
      pose proof (full_line _ n 7 7 (line_full n (P n I)) (line_chars n (P n I))) as X. pose proof (bare_line _ m (freq n + 1) 7 B (line_chars n (P n I))) as Y.
      pose proof (full_line _ n (freq n + 1) 7 (line_full n (P n I)) (line_chars n (P n I))) as X2.
      assert (LN : Z.of_nat (length (line_of n)) < 2 ^ 31 - 2). { apply (FN n _ I). unfold addmntent, line_of. cbn [app]. rewrite <- ?app_assoc. cbn [app]. rewrite <- ?app_assoc. cbn [app]. rewrite <- ?app_assoc. cbn [app]. rewrite <- ?app_assoc. cbn [app]. rewrite <- ?app_assoc. cbn [app]. rewrite <- ?app_assoc. reflexivity. }
      specialize (X2 LN). specialize (Y LN). rewrite X2 in Y. injection Y as _ Y _. lia.
  - rewrite app_length, map_length. exact K.
Qed.
Print Assumptions C98_round_partial.
(** A line that does not fit into the caller's buffer with its newline and null byte is refused, and the next call reads the next line. *)
Theorem C98_long : forall b l r fuel, (2 <= b)%nat -> ~ In 10 l -> (b < length l + 2)%nat -> r <> [] -> hd 0 r <> 10 -> (0 < fuel)%nat ->
  exists s, getmntent fuel (Some b) (Stream (l ++ 10 :: r) false) = Ok (None, s) /\ (ahead s = r \/ ahead s = 10 :: r) /\ eof s = false.
Proof. exact long_line. Qed.
Print Assumptions C98_long.
(** An option that is set is found; the result is null exactly if the text does not occur in the options. *)
Theorem C98_option_partial : forall m opt, (option_in opt (opts m) -> hasmntopt m opt <> None) /\ (hasmntopt m opt = None <-> ~ exists a b, opts m = a ++ opt ++ b) /\
  (forall i, hasmntopt m opt = Some i -> (exists a b, opts m = a ++ opt ++ b /\ length a = i) /\ forall a b, opts m = a ++ opt ++ b -> (i <= length a)%nat).
Proof.
  intros m opt. unfold hasmntopt. pose proof (strstr_some (opts m) opt) as X. split; [|split; [|apply strstr_first]].
  - intros (a & b & E & _) N. destruct (proj2 X) as (i & I); [eauto|]. congruence.
  - split; [intros N Y; apply X in Y; destruct Y; congruence|]. intro N. destruct (strstr (opts m) opt) as [i|] eqn:E; [|reflexivity]. elim N. apply X. eauto.
Qed.
Print Assumptions C98_option_partial.

(** Refuted: a commented-out line gives its numbers to the next entry, here "#a b c d 0 2" to "x y z w". *)
Theorem C98_stale_refuted : exists m, calls 1 3 None (Stream ([35;97;32;98;32;99;32;100;32;48;32;50;10] ++ [120;32;121;32;122;32;119;10]) false) = Ok [Some m] /\ passno m = 2.
Proof. eexists. split; [vm_compute; reflexivity|reflexivity]. Qed.
Print Assumptions C98_stale_refuted.
(** Refuted: "a\040b" stays as it is, and a directory with a blank is not read back. *)
Theorem C98_escape_refuted :
  (exists m, calls 1 3 None (Stream [120;32;97;92;48;52;48;98;32;122;32;119;32;48;32;48;10] false) = Ok [Some m] /\ dir m = [97;92;48;52;48;98]) /\
  (exists m, calls 1 3 None (Stream (addmntent [] (Mnt [120] [97;32;98] [122] [119] 0 0)) false) = Ok [Some m] /\ dir m = [97] /\ type_ m = [98]).
Proof. split; eexists; (split; [vm_compute; reflexivity|]); [reflexivity|split; reflexivity]. Qed.
Print Assumptions C98_escape_refuted.
(** Refuted: a last line without newline is lost. *)
Theorem C98_last_refuted : forall l size fuel, ~ In 10 l -> (forall b, size = Some b -> (length l + 1 < b)%nat) -> (0 < fuel)%nat -> exists s, getmntent fuel size (Stream l false) = Ok (None, s).
Proof.
  intros l size fuel N SZ F. destruct fuel as [|fuel]; [lia|]. unfold getmntent. cbn [get_loop]. unfold read_line. cbn [ahead eof].
  assert (X : forall k t, ~ In 10 t -> (length t < k)%nat -> fgets k t = (t, [])). { intros k t. revert k. induction t as [|c t IH]; intros k NT K; destruct k as [|k]; cbn in K; try lia; [reflexivity|]. cbn [fgets]. destruct (Z.eqb_spec c 10) as [->|NE]; [elim NT; left; reflexivity|]. rewrite IH; [reflexivity| |lia]. intro I. apply NT. right. exact I. }
  set (room := match size with None => _ | Some b => _ end). assert (R : (length l < room)%nat) by (unfold room; destruct size as [b|]; [specialize (SZ b eq_refl); lia|lia]).
  rewrite (X room l N R). replace (Nat.leb room (length l)) with false by (symmetry; apply Nat.leb_gt; exact R).
  assert (Y : match rev l with c :: _ => c =? 10 | [] => false end = false). { destruct (rev l) as [|c r] eqn:E; [reflexivity|]. apply Z.eqb_neq. intros ->. apply N. apply in_rev. rewrite E. left. reflexivity. }
  rewrite Y. cbn. eauto.
Qed.
Print Assumptions C98_last_refuted.
(** Refuted: "ro" is found in "rw,errors=remount-ro". *)
Theorem C98_option_refuted : exists m, hasmntopt m [114;111] <> None /\ ~ option_in [114;111] (opts m).
Proof.
  exists (Mnt [] [] [] [114;119;44;101;114;114;111;114;115;61;114;101;109;111;117;110;116;45;114;111] 0 0). split; [vm_compute; discriminate|]. cbn [opts]. intros (a & b & E & A & B).
  destruct A as [->|(x & ->)]; [discriminate|]. rewrite <- app_assoc in E. cbn [app] in E. do 20 (destruct x as [|? x]; [discriminate E|injection E as _ E]). destruct x; discriminate.
Qed.
Print Assumptions C98_option_refuted.
(** Refuted: a byte above 127 in the file, such as in a UTF-8 name, aborts the process (C72). *)
Theorem C98_bytes_refuted : calls 1 3 None (Stream [47;195;164;32;47;32;122;32;119;32;48;32;48;10] false) = Abort.
Proof. vm_compute. reflexivity. Qed.
Print Assumptions C98_bytes_refuted.

(** Non-vacuity: "# a", "x y z w", "" and "  p\tq r s 1 -2 t" *)
Example C98_case : let ls := [[]; [120;32;121;32;122;32;119]; [32;32;112;9;113;32;114;32;115;32;49;32;45;50;32;116]] in
  let ms := [Mnt [120] [121] [122] [119] 0 0; Mnt [112] [113] [114] [115] 1 (-2)] in
  listed ls ms /\ Forall (fits (Some 80%nat)) ls /\ separate ls /\ calls 3 9 (Some 80%nat) (Stream (text ls) false) = Ok (map Some ms ++ [None]).
Proof.
  assert (D1 : decimal [49] 1) by (apply (d_one 1); lia). assert (D2 : decimal [50] 2) by (apply (d_one 2); lia).
  assert (G1 : gap [32]) by (split; [repeat constructor|discriminate]). assert (G2 : gap [9]) by (split; [constructor; [right; reflexivity|constructor]|discriminate]).
  cbv zeta. split; [|split; [|split]].
  - apply l_empty; [constructor|]. apply l_bare; [apply (bare_i [] (Mnt [120] [121] [122] [119] 0 0) [32] [32] [32] []); try assumption; try reflexivity; try constructor; cbn; try lia; try discriminate; repeat constructor; lia|].
    apply l_full; [|constructor]. apply (full_i [32;32] (Mnt [112] [113] [114] [115] 1 (-2)) [9] [32] [32] [32] [49] [32] [45;50] [32;116]); try assumption; try (repeat constructor; fail); try (split; [repeat constructor; lia|discriminate]); try (cbn; lia).
    + cbn. apply i_plain; [exact D1|lia]. + cbn. apply (i_minus [50] 2); [exact D2|lia]. + right. exists 32, [116]. split; [reflexivity|left; reflexivity].
  - repeat apply Forall_cons; try apply Forall_nil; (split; [repeat (apply Forall_cons; [lia|]); apply Forall_nil|split; [vm_compute; reflexivity|cbn [length]; lia]]).
  - left. intros l I (b & r & E & B). assert (X : In 35 l) by (rewrite E; apply in_elt). clear E. cbn in I. destruct I as [<-|[<-|[<-|[]]]]; cbn [In] in X; lia.
  - vm_compute. reflexivity.
Qed.
