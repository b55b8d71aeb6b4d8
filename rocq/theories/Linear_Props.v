(** Properties C47 (lsearch, lfind) and C48 (insque, remque). *)
From Verif Require Import Base Mem_Model Sort_Spec Linear_Model Linear_Spec Linear_Proof Check.
Open Scope Z_scope.

(** C47: if the first element the comparison accepts is the [i]-th, both functions return its address and change
    nothing ... *)
Theorem C47_found : forall cmp m key base w els i, array_at m base w els -> (i < length els)%nat ->
  cmp i (nth i els []) = 0 -> (forall j, (j < i)%nat -> cmp j (nth j els []) <> 0) ->
  lsearch cmp m key base (length els) w = Ok (m, length els, base + Z.of_nat (i * w)) /\
  lfind cmp m base (length els) w = Ok (Some (base + Z.of_nat (i * w))).
Proof. exact lsearch_found. Qed.
(** ... and if it accepts none, lfind returns NULL and lsearch appends the key, counts it and returns its address,
    writing only there *)
Theorem C47_absent : forall cmp m key kb base w els, array_at m base w els ->
  (forall j, (j < length els)%nat -> cmp j (nth j els []) <> 0) ->
  bytes_at m key kb -> length kb = w -> mapped m (base + Z.of_nat (length els * w)) w ->
  disjoint (base + Z.of_nat (length els * w)) w key w ->
  lfind cmp m base (length els) w = Ok None /\
  exists m', lsearch cmp m key base (length els) w = Ok (m', S (length els), base + Z.of_nat (length els * w)) /\
    array_at m' base w (els ++ [kb]) /\ same_outside m m' (base + Z.of_nat (length els * w)) w.
Proof. exact lsearch_absent. Qed.
Print Assumptions C47_found.
Print Assumptions C47_absent.

Example C47_hyps :
  let m := munion (mem_of 100 [1;2; 3;4; 0;0]) (mem_of 50 [5;6]) in
  array_at m 100 2 [[1;2];[3;4]] /\ bytes_at m 50 [5;6] /\ mapped m 104 2 /\
  match lsearch (fun _ e => hd 0 e - 5) m 50 100 2 2 with Ok (m', n, p) => n = 3%nat /\ p = 104 /\ map m' [104;105] = [Some 5; Some 6] | _ => False end.
Proof. split; [split; [chk|repeat constructor]|]. chks. Qed.

(** C48: insque puts the element after its predecessor in a linear or circular queue, remque takes it out; no element
    outside the queue is touched. *)
Theorem C48_insque_linear : forall h e p l1 l2, linear h (l1 ++ p :: l2) -> ~ In e (l1 ++ p :: l2) -> h e <> None ->
  exists h', insque h e (Some p) = Ok h' /\ linear h' (l1 ++ p :: e :: l2) /\
    unchanged_except h h' (l1 ++ p :: e :: l2).
Proof. exact insque_linear. Qed.
Theorem C48_insque_circular : forall h e p l1 l2, circular h (l1 ++ p :: l2) -> ~ In e (l1 ++ p :: l2) -> h e <> None ->
  exists h', insque h e (Some p) = Ok h' /\ circular h' (l1 ++ p :: e :: l2) /\
    unchanged_except h h' (l1 ++ p :: e :: l2).
Proof. exact insque_circular. Qed.
Theorem C48_insque_first : forall h e, h e <> None ->
  exists h', insque h e None = Ok h' /\ linear h' [e] /\ unchanged_except h h' [e].
Proof.
  intros h e He. unfold insque, set_back, set_forw, get. destruct (h e) as [[f b]|]; [|congruence]. cbn [bind].
  rewrite put_same. cbn [bind]. eexists. split; [reflexivity|]. split.
  - split; [repeat constructor; intros []|]. cbn. rewrite put_same. auto.
  - intros x Hx. rewrite !put_other by (intros ->; apply Hx; left; reflexivity). reflexivity.
Qed.
Theorem C48_remque_linear : forall h e l1 l2, linear h (l1 ++ e :: l2) ->
  exists h', remque h e = Ok h' /\ linear h' (l1 ++ l2) /\ unchanged_except h h' (l1 ++ l2).
Proof. exact remque_linear. Qed.
Theorem C48_remque_circular : forall h e l1 l2, circular h (l1 ++ e :: l2) -> l1 ++ l2 <> [] ->
  exists h', remque h e = Ok h' /\ circular h' (l1 ++ l2) /\ unchanged_except h h' (l1 ++ l2).
Proof. exact remque_circular. Qed.
Print Assumptions C48_insque_linear.
Print Assumptions C48_insque_circular.
Print Assumptions C48_insque_first.
Print Assumptions C48_remque_linear.
Print Assumptions C48_remque_circular.

Example C48_hyps : exists h, linear h [1;2;3] /\ h 7 <> None /\ exists h', circular h' [1;2;3] /\ h' 7 <> None.
Proof.
  exists (fun a => if a =? 1 then Some (Some 2, None) else if a =? 2 then Some (Some 3, Some 1) else if a =? 3 then Some (None, Some 2) else Some (None, None)).
  split; [split; [repeat constructor; cbn; lia|cbn; auto]|]. split; [discriminate|].
  exists (fun a => if a =? 1 then Some (Some 2, Some 3) else if a =? 2 then Some (Some 3, Some 1) else if a =? 3 then Some (Some 1, Some 2) else Some (None, None)).
  split; [split; [repeat constructor; cbn; lia|cbn; auto]|discriminate].
Qed.
