(** Properties C25 and C50: requests handed to the allocator. *)
From Verif Require Import Base Mem_Model Mem_Proof Alloc_Model Alloc_Proof.
Open Scope Z_scope.

(** calloc of more than SIZE_MAX bytes fails with ENOMEM without touching memory *)
Theorem C25_calloc_overflow : forall malloc m n s, 0 <= n <= SIZE_MAX -> 0 <= s <= SIZE_MAX -> n * s > SIZE_MAX ->
  calloc malloc m n s = Ok {| ptr := None; memory := m; err := Some ENOMEM |}.
Proof. intros malloc m n s Hn Hs H. unfold calloc. rewrite (proj2 (overflow_check n s Hn Hs) H). reflexivity. Qed.

(** otherwise exactly n*s bytes are requested, and if the allocator supplies such a block, it is returned with all n*s
    bytes zero and nothing else changed *)
Theorem C25_calloc : forall malloc m n s m1 p, 0 <= n <= SIZE_MAX -> 0 <= s <= SIZE_MAX -> n * s <= SIZE_MAX ->
  malloc m (n * s) = Some (m1, p) -> mapped m1 p (Z.to_nat (n * s)) ->
  exists m2, calloc malloc m n s = Ok {| ptr := Some p; memory := m2; err := None |} /\
    (forall i, 0 <= i < n * s -> m2 (p + i) = Some 0) /\ same_outside m1 m2 p (Z.to_nat (n * s)).
Proof.
  intros malloc m n s m1 p Hn Hs H Em Hm. unfold calloc. rewrite overflow_false, wrap_id, Em by lia.
  destruct (memset_ok m1 p 0 (Z.to_nat (n * s)) Hm) as (m2 & -> & B & S). cbn [bind]. exists m2. split; [reflexivity|]. split; [|exact S].
  intros i Hi. specialize (B (Z.to_nat i)). rewrite repeat_length in B. replace (p + i) with (p + Z.of_nat (Z.to_nat i)) by lia.
  rewrite B by lia. rewrite (nth_error_nth' _ 0) by (rewrite repeat_length; lia). f_equal. apply nth_repeat.
Qed.
Theorem C25_calloc_exhausted : forall malloc m n s, 0 <= n <= SIZE_MAX -> 0 <= s <= SIZE_MAX -> n * s <= SIZE_MAX ->
  malloc m (n * s) = None -> calloc malloc m n s = Ok {| ptr := None; memory := m; err := None |}.
Proof. intros malloc m n s Hn Hs H Em. unfold calloc. rewrite overflow_false, wrap_id, Em by lia. reflexivity. Qed.

Theorem C25_reallocarray_overflow : forall realloc m p a b, 0 <= a <= SIZE_MAX -> 0 <= b <= SIZE_MAX -> a * b > SIZE_MAX ->
  reallocarray realloc m p a b = {| ptr := None; memory := m; err := Some ENOMEM |}.
Proof. intros realloc m p a b Ha Hb H. unfold reallocarray. rewrite (proj2 (overflow_check a b Ha Hb) H). reflexivity. Qed.
Theorem C25_reallocarray : forall realloc m p a b, 0 <= a <= SIZE_MAX -> 0 <= b <= SIZE_MAX -> a * b <= SIZE_MAX ->
  reallocarray realloc m p a b = match realloc m p (a * b) with
                                 | None => {| ptr := None; memory := m; err := None |}
                                 | Some (m', q) => {| ptr := Some q; memory := m'; err := None |}
                                 end.
Proof. intros realloc m p a b Ha Hb H. unfold reallocarray. rewrite overflow_false, wrap_id by lia. reflexivity. Qed.
Print Assumptions C25_calloc_overflow.
Print Assumptions C25_calloc.
Print Assumptions C25_calloc_exhausted.
Print Assumptions C25_reallocarray_overflow.
Print Assumptions C25_reallocarray.

(** 2^33 * 2^31 + 2^33 wraps; 3 * 5 bytes at address 100 *)
Example C25_ex1 : 8589934592 * 2147483649 > SIZE_MAX.
Proof. reflexivity. Qed.
Example C25_ex2 : exists m2, calloc (fun _ n => if n =? 15 then Some (mem_of 100 (repeat 7 15), 100) else None) (fun _ => None) 3 5
  = Ok {| ptr := Some 100; memory := m2; err := None |} /\ m2 114 = Some 0.
Proof. eexists. split; [reflexivity|]. reflexivity. Qed.

(** C50: aligned_alloc rejects with EINVAL exactly the requests whose alignment is not a power of two or whose size is
    not a multiple of it, and passes the others on unchanged.  An alignment of 0 is accepted only with size 0. *)
Theorem C50_aligned_alloc_ok : forall allocate m a s k, 0 <= k -> a = 2 ^ k -> a <= SIZE_MAX -> (a | s) ->
  aligned_alloc allocate m a s = match allocate m s a with
                                 | None => {| ptr := None; memory := m; err := Some ENOMEM |}
                                 | Some (m', p) => {| ptr := Some p; memory := m'; err := None |}
                                 end.
Proof.
  intros allocate m a s k Hk Ea Ha D. assert (0 < a) by (subst; apply Z.pow_pos_nonneg; lia). unfold aligned_alloc.
  rewrite wrap_id by lia. rewrite (proj2 (pow2_land a H)) by eauto. rewrite (proj2 (mod_land a k s Hk Ea) D). reflexivity.
Qed.
Theorem C50_aligned_alloc_einval : forall allocate m a s, 0 < a <= SIZE_MAX -> 0 <= s <= SIZE_MAX ->
  ~ ((exists k, 0 <= k /\ a = 2 ^ k) /\ (a | s)) ->
  aligned_alloc allocate m a s = {| ptr := None; memory := m; err := Some EINVAL |}.
Proof.
  intros allocate m a s Ha Hs H. unfold aligned_alloc. rewrite wrap_id by lia.
  destruct (Z.eqb_spec (Z.land a (a - 1)) 0) as [E|_]; [|reflexivity]. apply pow2_land in E as (k & Hk & Ek); [|lia].
  destruct (Z.eqb_spec (Z.land s (a - 1)) 0) as [E|_]; [|reflexivity]. exfalso. apply H. split; [eauto|].
  apply (mod_land a k s Hk Ek). exact E.
Qed.
Print Assumptions C50_aligned_alloc_ok.
Print Assumptions C50_aligned_alloc_einval.
Example C50_ex : ptr (aligned_alloc (fun m s a => Some (m, 4096)) (fun _ => None) 16 48) = Some 4096 /\
  err (aligned_alloc (fun m s a => Some (m, 4096)) (fun _ => None) 24 48) = Some EINVAL.
Proof. split; reflexivity. Qed.
