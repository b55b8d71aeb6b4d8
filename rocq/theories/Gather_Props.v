(** writev without a system call for it, and swab. *)
From Verif Require Import Base Gather_Model Gather_Spec Gather_Proof.
Open Scope Z_scope.

(** the bytes of all pieces, in order, are given to one write *)
Theorem C109_bytes : forall iovs, iovs <> [] -> Forall readable iovs -> sum iovs <= SSIZE_MAX ->
  writev iovs (Z.of_nat (length iovs)) = Ok (inr (concat (map bytes_of iovs))).
Proof. exact writev_ok. Qed.
Print Assumptions C109_bytes.

(** lengths whose sum is no ssize_t are refused, with nothing read, also where the sum is too large for a size_t *)
Theorem C109_too_long : forall iovs, iovs <> [] -> Forall sized iovs -> SSIZE_MAX < sum iovs -> writev iovs (Z.of_nat (length iovs)) = Ok (inl EINVAL).
Proof. exact toolong_ok. Qed.
Print Assumptions C109_too_long.

(** a negative count is not refused: an empty write is done; a count of 0 ends the process *)
Theorem C109_count_refuted : forall iovs c, (c < 0 -> writev iovs c = Ok (inr [])) /\ writev iovs 0 = Abort.
Proof. intros iovs c. split; [apply negative_ok|reflexivity]. Qed.
Print Assumptions C109_count_refuted.

(** swab exchanges the bytes of each whole pair, and writes nothing else *)
Theorem C110_swab : forall m src dest n,
  (forall j, 0 <= j < in_pairs n -> m (src + j) <> None) -> (forall j, 0 <= j < in_pairs n -> m (dest + j) <> None) ->
  (src + in_pairs n <= dest \/ dest + in_pairs n <= src) ->
  exists m', swab m src dest n = Ok m' /\ (forall j, 0 <= j < in_pairs n -> m' (dest + j) = m (src + partner j)) /\ (forall a, ~ dest <= a < dest + in_pairs n -> m' a = m a).
Proof. exact swab_ok. Qed.
Print Assumptions C110_swab.

Definition three : list iovec := [iov 2 [1; 2; 9]; iov 0 []; iov 3 [3; 4; 5]; iov 0 [7]].
Example c109_three : three <> [] /\ Forall readable three /\ sum three <= SSIZE_MAX.
Proof. split; [discriminate|]. split; [repeat constructor; cbn; lia|cbn; unfold SSIZE_MAX; lia]. Qed.
Example c109_run : writev three 4 = Ok (inr [1; 2; 3; 4; 5]) /\ writev three 2 = Ok (inr [1; 2]) /\ writev three 5 = UB.
Proof. repeat split. Qed.
(** the sum of these is 1 modulo the size of a size_t *)
Definition huge : list iovec := [iov 9223372036854775807 []; iov 9223372036854775807 []; iov 3 [1; 2; 3]].
Example c109_huge : Forall sized huge /\ SSIZE_MAX < sum huge /\ sum huge mod 18446744073709551616 = 1 /\ writev huge 3 = Ok (inl EINVAL).
Proof. split; [repeat constructor; cbn; lia|]. split; [cbn; unfold SSIZE_MAX; lia|]. split; reflexivity. Qed.

Definition mem5 : mem := munion (mem_of 100 [1; 2; 3; 4; 5]) (mem_of 200 [0; 0; 0; 0; 0]).
Example c110_mapped : in_pairs 5 = 4 /\ (forall j, 0 <= j < in_pairs 5 -> mem5 (100 + j) <> None) /\ (forall j, 0 <= j < in_pairs 5 -> mem5 (200 + j) <> None).
Proof.
  split; [reflexivity|]. change (in_pairs 5) with 4. split; intros j J; assert (C : j = 0 \/ j = 1 \/ j = 2 \/ j = 3) by lia; destruct C as [ -> |[ -> |[ -> | -> ]]]; discriminate.
Qed.
Example c110_run : match swab mem5 100 200 5 with Ok m => map (fun j => m (200 + j)) [0; 1; 2; 3; 4] = [Some 2; Some 1; Some 4; Some 3; Some 0] | _ => False end.
Proof. reflexivity. Qed.
Example c110_none : in_pairs (-3) = 0 /\ in_pairs 1 = 0 /\ swab (fun _ => None) 0 0 1 = Ok (fun _ => None) /\ swab (fun _ => None) 0 0 (-3) = Ok (fun _ => None).
Proof. repeat split. Qed.
