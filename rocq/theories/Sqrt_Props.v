(** C68: square roots. *)
From Verif Require Import Sqrt_Model Sqrt_Spec Sqrt_Proof Check.
Open Scope Z_scope.

(** sqrtf is correctly rounded for every float *)
Theorem C68_sqrtf : forall fuel x, (40 <= fuel)%nat -> bits binary32 x ->
  (finite binary32 x -> sign binary32 x = false -> value binary32 x <> 0 -> exists r, sqrtf fuel x = Ok r /\ nearest_root binary32 x r) /\
  (value binary32 x = 0 -> sqrtf fuel x = Ok x) /\ (inf binary32 x = true -> sign binary32 x = false -> sqrtf fuel x = Ok x) /\
  (nan binary32 x = true \/ (value binary32 x <> 0 /\ sign binary32 x = true) -> exists r, sqrtf fuel x = Ok r /\ nan binary32 r = true).
Proof. intros fuel x Hf B. split; [|apply sqrtf_special; auto]. intros Fx S V. apply sqrtf_pos; auto. Qed.
Print Assumptions C68_sqrtf.

(** sqrt shifts a 32-bit word by 32 bits, which is undefined, for exactly the subnormal numbers from 2^31 to 2^32 and from 2^10 to 2^11 times the
    least one *)
Theorem C68_sqrt_defined_refuted : forall fuel x, (40 <= fuel)%nat -> bits binary64 x -> finite binary64 x -> sign binary64 x = false ->
  2 ^ 31 <= mag binary64 x < 2 ^ 32 \/ 2 ^ 10 <= mag binary64 x < 2 ^ 11 -> sqrt fuel x = UB.
Proof. intros fuel x Hf B Fx S H. apply sqrt_pos; auto. unfold value. rewrite S. lia. Qed.
Print Assumptions C68_sqrt_defined_refuted.

(** sqrt is correctly rounded for every other double *)
Theorem C68_sqrt_partial : forall fuel x, (40 <= fuel)%nat -> bits binary64 x ->
  (finite binary64 x -> sign binary64 x = false -> value binary64 x <> 0 -> ~ (2 ^ 31 <= mag binary64 x < 2 ^ 32 \/ 2 ^ 10 <= mag binary64 x < 2 ^ 11) ->
    exists r, sqrt fuel x = Ok r /\ nearest_root binary64 x r) /\
  (value binary64 x = 0 -> sqrt fuel x = Ok x) /\ (inf binary64 x = true -> sign binary64 x = false -> sqrt fuel x = Ok x) /\
  (nan binary64 x = true \/ (value binary64 x <> 0 /\ sign binary64 x = true) -> exists r, sqrt fuel x = Ok r /\ nan binary64 r = true).
Proof. intros fuel x Hf B. split; [|apply sqrt_special; auto]. intros Fx S V H. apply sqrt_pos; auto. Qed.
Print Assumptions C68_sqrt_partial.

(** the nearest number is unique: what the specification describes is a function *)
Theorem C68_nearest_root_unique : forall f x r r', nearest_root f x r -> nearest_root f x r' -> mag f r = mag f r'.
Proof.
  intros f x r r' (B & F & S & H) (B' & F' & S' & H'). destruct (H r' B' F') as [H1 H2]. destruct (H' r B F) as [H3 H4]. rewrite (Z.add_comm (mag f r')) in H3, H4.
  destruct (Z.lt_trichotomy (mag f r) (mag f r')) as [L | [E | G]]; [|exact E|]; exfalso.
  - specialize (H1 L). specialize (H4 L). apply (Z.lt_irrefl (4 * (mag f x * one f))). eapply Z.lt_trans; eauto.
  - specialize (H2 G). specialize (H3 G). apply (Z.lt_irrefl (4 * (mag f x * one f))). eapply Z.lt_trans; eauto.
Qed.
Print Assumptions C68_nearest_root_unique.

(** sqrt (2), sqrt (9) = 3, sqrt of the least and of the largest number; the root of 2^31 least numbers is undefined *)
Example sqrt_1 : sqrt 40 0x4000000000000000 = Ok 0x3ff6a09e667f3bcd. Proof. vm_compute. reflexivity. Qed.
Example sqrt_2 : sqrt 40 0x4022000000000000 = Ok 0x4008000000000000. Proof. vm_compute. reflexivity. Qed.
Example sqrt_3 : sqrt 40 1 = Ok 0x1e60000000000000. Proof. vm_compute. reflexivity. Qed.
Example sqrt_4 : sqrt 40 0x7fefffffffffffff = Ok 0x5fefffffffffffff. Proof. vm_compute. reflexivity. Qed.
Example sqrt_5 : sqrt 40 0x80000000 = UB. Proof. vm_compute. reflexivity. Qed.
Example sqrt_6 : sqrt 40 0x8000000000000000 = Ok 0x8000000000000000. Proof. vm_compute. reflexivity. Qed.
Example sqrtf_1 : sqrtf 40 0x40000000 = Ok 0x3fb504f3. Proof. vm_compute. reflexivity. Qed.
Example sqrtf_2 : sqrtf 40 1 = Ok 0x1a3504f3. Proof. vm_compute. reflexivity. Qed.
