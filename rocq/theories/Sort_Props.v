(** Properties C17 and C18: qsort and bsearch. *)
From Verif Require Import Base Sort_Model Sort_Spec Sort_Proof Check.
Open Scope Z_scope.

(** C17: for every comparison function (arbitrary results, even different from call to call) qsort terminates, leaves
    a permutation of the elements and touches nothing outside the array; if the comparison is a total preorder on the
    elements the result is sorted. *)
Theorem C17_qsort : forall fuel cmp m base count size els,
  array_at m base size els -> length els = count -> (count < fuel)%nat ->
  exists m' els', qsort fuel cmp m base count size = Ok m' /\ array_at m' base size els' /\ Permutation els els' /\
    same_outside m m' base (count * size) /\
    forall c, (forall t a b, cmp t a b = c a b) -> total_preorder c els -> sorted_by c els'.
Proof. exact qsort_ok. Qed.
Print Assumptions C17_qsort.

(** two-byte elements ordered by their first byte *)
Definition first_byte (a b : list Z) : Z := hd 0 a - hd 0 b.
Example C17_hyps : array_at (mem_of 100 [3;1; 1;2; 3;0; 2;5]) 100 2 [[3;1];[1;2];[3;0];[2;5]] /\
  total_preorder first_byte [[3;1];[1;2];[3;0];[2;5]] /\
  match qsort 9 (fun _ => first_byte) (mem_of 100 [3;1; 1;2; 3;0; 2;5]) 100 4 2 with
  | Ok m => map m [100;102;104;106] = [Some 1; Some 2; Some 3; Some 3] | _ => False end.
Proof.
  split; [split; [chk|repeat constructor]|]. split; [|vm_compute; reflexivity].
  unfold total_preorder, first_byte. split; intros; lia.
Qed.

(** C18: for every comparison bsearch terminates, examines only elements of the array, and returns NULL or an element
    for which the comparison gave 0 *)
Theorem C18_bsearch_any : forall fuel cmp m base size els,
  array_at m base size els -> (length els < fuel)%nat ->
  bsearch fuel cmp m base (length els) size = Ok None \/
  exists k e t, nth_error els k = Some e /\ bsearch fuel cmp m base (length els) size = Ok (Some (addr base size k)) /\
                cmp t e = 0.
Proof.
  intros fuel cmp m base size els Ha Hf. apply array_elat in Ha.
  destruct (bsearch_any fuel cmp 0 m base size els 0 (length els) Ha) as [H|(k & t & H1 & H2 & H3)]; [lia|lia|left; exact H|].
  right. exists k, (nth k els []), t. split; [apply nth_error_nth'; lia|auto].
Qed.
Print Assumptions C18_bsearch_any.

(** on an array partitioned with respect to the key: an equal element iff there is one *)
Theorem C18_bsearch : forall fuel c m base size els lo hi,
  array_at m base size els -> (length els < fuel)%nat -> partitioned c els lo hi ->
  ((lo < hi)%nat -> exists k, (lo <= k < hi)%nat /\
     bsearch fuel (fun _ => c) m base (length els) size = Ok (Some (base + Z.of_nat (k * size)))) /\
  (lo = hi -> bsearch fuel (fun _ => c) m base (length els) size = Ok None).
Proof.
  intros fuel c m base size els lo hi Ha Hf Hp. apply array_elat in Ha. pose proof Hp as [Hb _].
  apply (bsearch_part fuel c 0 m base size els 0 (length els) lo hi Ha); try lia. exact Hp.
Qed.
Print Assumptions C18_bsearch.

Example C18_hyps : array_at (mem_of 100 [1;3;3;7]) 100 1 [[1];[3];[3];[7]] /\
  partitioned (fun e => 3 - hd 0 e) [[1];[3];[3];[7]] 1 3 /\ partitioned (fun e => 5 - hd 0 e) [[1];[3];[3];[7]] 3 3.
Proof.
  split; [split; [chk|repeat constructor]|].
  split; (split; [cbn; lia|]); intros i e H; do 4 (destruct i as [|i]; cbn in H; [injection H as <-; cbn; lia|]); destruct i; discriminate.
Qed.
