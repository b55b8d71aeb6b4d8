(** Properties C20, C21, C22: tsearch, tfind, tdelete, twalk, tdestroy. *)
From Verif Require Import Base Tree_Model Tree_Spec Tree_Proof.
Open Scope Z_scope.

(** C20: every history of tsearch/tfind/tdelete from the empty tree answers like the ordered set, and the tree then
    holds, from left to right in ascending order, exactly the nodes of the set *)
Theorem C20_ordered_set : forall K (cmp : K -> K -> Z) ops, key_order cmp ->
  exists t, tree_run cmp E ops = Ok (t, snd (set_run cmp [] ops)) /\ inorder t = fst (set_run cmp [] ops) /\
            ascending cmp (inorder t).
Proof.
  intros K cmp ops O. destruct (run_ok cmp O ops E I (SSorted_nil _)) as (t & E & _ & H1 & H2). eauto.
Qed.
Print Assumptions C20_ordered_set.

(** in particular, after any history: tsearch of a present key returns the existing node and tdelete of an absent key
    returns NULL, and both leave the tree as it is *)
Theorem C20_unchanged : forall K (cmp : K -> K -> Z) ops t rs, key_order cmp -> tree_run cmp E ops = Ok (t, rs) ->
  (forall k n m, In n (inorder t) -> cmp k (key n) = 0 -> tsearch cmp k m t = Ok (t, Some (id n))) /\
  (forall k, (forall n, In n (inorder t) -> cmp k (key n) <> 0) -> tdelete cmp k t = Ok (t, None) /\ tfind cmp k t = None).
Proof.
  intros K cmp ops t rs O R. destruct (run_ok cmp O ops E I (SSorted_nil _)) as (t' & E & P & H1 & H2).
  rewrite R in E. injection E as <- _. split.
  - intros k n m Hn Hk. unfold tsearch. destruct (tsearch_ok cmp O k m t P H2) as (t' & run & f & -> & _ & C). cbn [bind].
    assert (L : lookup cmp k (inorder t) = Some n).
    { apply in_split in Hn as (l1 & l2 & El). rewrite El in *. rewrite lookup_app, lookup_cons, Hk.
      rewrite lookup_none; [reflexivity|]. intros x Hx. pose proof (below cmp O k _ _ _ H2 ltac:(lia) x Hx). lia. }
    rewrite L in C. destruct C as (-> & _ & ->). reflexivity.
  - intros k Hk. assert (L : lookup cmp k (inorder t) = None) by (apply lookup_none, Hk). split.
    + unfold tdelete. destruct (tdelete_ok cmp O k t None P H2) as (t' & run & f & -> & _ & _ & C). cbn [bind].
      rewrite L in C. destruct C as (-> & _ & ->). reflexivity.
    + rewrite (tfind_ok cmp O k t H2), L. reflexivity.
Qed.
Print Assumptions C20_unchanged.

(** integer keys under subtraction are ordered; a history with a duplicate, a failed malloc and deletions *)
Example C20_hyps : key_order Z.sub /\
  match tree_run Z.sub E [Insert 5 (Some 1); Insert 3 (Some 2); Insert 9 (Some 3); Insert 3 (Some 4); Insert 7 None;
                          Delete 5; Find 9; Delete 4; Find 5] with
  | Ok (t, rs) => map key (inorder t) = [3; 9] /\
      rs = [Node (Some 1); Node (Some 2); Node (Some 3); Node (Some 2); Node None; Deleted true; Node (Some 3); Deleted false; Node None]
  | _ => False end.
Proof. split; [unfold key_order; split; intros; lia|]. vm_compute. auto. Qed.

(** C21, partial: histories of insertions and lookups (and deletions of keys held by childless nodes) keep the tree
    balanced, whatever the comparison; tfind then makes at most 2 log2 (n + 1) comparisons.
    Missing: tdelete of a key held by an inner node, where the property fails (below). *)
Fixpoint gentle {K} (cmp : K -> K -> Z) (t : tree K) (ops : list (op K)) : Prop :=
  match ops with
  | [] => True
  | o :: ops' => match o with Delete k => at_leaf cmp k t | _ => True end /\
                 forall t1 r, tree_step cmp t o = Ok (t1, r) -> gentle cmp t1 ops'
  end.
Theorem C21_balanced_partial : forall K (cmp : K -> K -> Z) ops, gentle cmp E ops ->
  exists t rs, tree_run cmp E ops = Ok (t, rs) /\ balanced t /\
    forall k, 2 ^ cost cmp k t <= (Z.of_nat (length (inorder t)) + 1) * (Z.of_nat (length (inorder t)) + 1).
Proof.
  intros K cmp ops G.
  enough (H : forall t, avl t -> gentle cmp t ops -> exists t' rs, tree_run cmp t ops = Ok (t', rs) /\ avl t').
  { destruct (H E I G) as (t & rs & R & A). exists t, rs. split; [exact R|]. destruct (avl_real t A) as [Hh B]. split; [exact B|].
    intros k. pose proof (cost_height cmp k t) as C. pose proof (avl_size t A) as S. rewrite Hh in C. unfold sz in S.
    eapply Z.le_trans; [|exact S]. apply Z.pow_le_mono_r; lia. }
  clear G. induction ops as [|o ops IH]; intros t A G; [exists t, []; auto|]. cbn [tree_run gentle] in *. destruct G as [G1 G2].
  assert (St : exists t1 r, tree_step cmp t o = Ok (t1, r) /\ avl t1).
  { destruct o as [k m|k|k]; cbn [tree_step].
    - unfold tsearch. destruct (tsearch_avl cmp k m t A) as (t1 & run & f & -> & A1 & _). cbn [bind]. eauto.
    - eauto.
    - unfold tdelete. destruct (tdelete_leaf cmp k t None A G1) as (t1 & run & f & -> & A1 & _). cbn [bind]. eauto. }
  destruct St as (t1 & r & E1 & A1). rewrite E1. cbn [bind]. destruct (IH t1 A1 (G2 _ _ E1)) as (t2 & rs & -> & A2). cbn [bind]. eauto.
Qed.
Print Assumptions C21_balanced_partial.

Example C21_hyps : gentle Z.sub E [Insert 1 (Some 1); Insert 2 (Some 2); Insert 3 (Some 3); Insert 4 (Some 4); Delete 1] /\
  match tree_run Z.sub E [Insert 1 (Some 1); Insert 2 (Some 2); Insert 3 (Some 3); Insert 4 (Some 4); Delete 1] with
  | Ok (t, _) => t = T 2 {| id := 3; key := 3 |} (T 1 {| id := 2; key := 2 |} E E) (T 1 {| id := 4; key := 4 |} E E)
  | _ => False end.
Proof.
  split; [|vm_compute; reflexivity].
  repeat (split; [exact I || (vm_compute; auto)|]; intros t1 r H; vm_compute in H; injection H as <- <-). exact I.
Qed.

(** C21, refuted with deletion: this history leaves seven keys in a tree of height seven, a linked list *)
Theorem C21_delete_refuted : exists ops t rs, tree_run Z.sub E ops = Ok (t, rs) /\ ~ balanced t /\
  length (inorder t) = 7%nat /\ real_height t = 7 /\ cost Z.sub 25 t = 7.
Proof.
  exists (map (fun k => Insert k (Some k)) [18;27;0;15;17;30;10;7;13;21;2;8;3;20;1;29;4;23;26;6;25;28;14;22;24;11;5;16;9;12;19] ++
          map Delete [24;7;1;26;20;30;16;0;10;22;23;15;17;2;29;18;9;21;28;6;3;13;11;12]).
  eexists _, _. split; [vm_compute; reflexivity|]. split; [|vm_compute; auto].
  intros [H _]. vm_compute in H. apply H. reflexivity.
Qed.
Print Assumptions C21_delete_refuted.

(** C22 *)
Theorem C22_twalk : forall K fuel (t : tree K), (3 * length (inorder t) < fuel)%nat -> twalk fuel t = Ok (walk 0 t).
Proof. intros K. exact twalk_ok. Qed.
Theorem C22_tdestroy : forall K fuel (t : tree K), (2 * length (inorder t) < fuel)%nat -> tdestroy fuel t = Ok (inorder t).
Proof. intros K. exact tdestroy_ok. Qed.
Print Assumptions C22_twalk.
Print Assumptions C22_tdestroy.

Example C22_case :
  let n k := {| id := k; key := k |} in let t := T 3 (n 4) (T 2 (n 2) (T 1 (n 1) E E) E) (T 1 (n 5) E E) in
  twalk 20 t = Ok [(4, preorder, 0); (2, preorder, 1); (1, leaf, 2); (2, postorder, 1); (2, endorder, 1);
                   (4, postorder, 0); (5, leaf, 1); (4, endorder, 0)] /\
  tdestroy 20 t = Ok [n 1; n 2; n 4; n 5].
Proof. vm_compute. auto. Qed.
