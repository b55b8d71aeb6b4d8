(** C64: fmod, remainder and remquo are exact for all arguments. The theorems are about double (binary64) and float (binary32). *)
From Verif Require Import Fmod_Model Fmod_Spec Fmod_Proof Remquo_Proof Check.
Open Scope Z_scope.

Theorem C64_fmod : forall f, format f -> forall fuel, 2200 <= Z.of_nat fuel ->
  forall x y, bits f x -> bits f y -> finite f x -> finite f y -> value f y <> 0 ->
  exists r, fmod fuel f x y = Ok r /\ is_fmod f x y r.
Proof.
  intros f Hf fuel Hfuel x y Bx By Fx Fy Ny. destruct (fmt_ok f Hf) as (F1 & F2 & _ & F4). apply fmod_correct; auto; [lia|].
  pose proof (value_abs f F1 F2 y By). lia.
Qed.
Print Assumptions C64_fmod.

(** fmod(x, infinity) is x; fmod(infinity, y), fmod(x, 0) and fmod of a NaN are NaN *)
Theorem C64_fmod_special : forall f, format f -> forall fuel x y, bits f x -> bits f y ->
  (finite f x -> inf f y = true -> fmod fuel f x y = Ok x) /\
  (inf f x = true \/ nan f x = true \/ nan f y = true \/ value f y = 0 -> exists r, fmod fuel f x y = Ok r /\ nan f r = true).
Proof.
  intros f Hf fuel x y Bx By. destruct (fmt_ok f Hf) as (F1 & F2 & _). split; [apply fmod_inf; auto|].
  intros H. apply fmod_nan; auto. destruct H as [H | [H | [H | H]]]; auto.
  - left. unfold inf in H. apply andb_true_iff in H. tauto.
  - left. unfold nan in H. apply andb_true_iff in H. tauto.
  - right. right. pose proof (value_abs f F1 F2 y By). lia.
Qed.
Print Assumptions C64_fmod_special.

Theorem C64_remquo : forall f, format f -> forall fuel, 2200 <= Z.of_nat fuel ->
  forall x y, bits f x -> bits f y -> finite f x -> finite f y -> value f y <> 0 ->
  exists r quo, remquo fuel f x y = Ok (r, quo) /\ remainder fuel f x y = Ok r /\ is_remquo f x y r quo.
Proof.
  intros f Hf fuel Hfuel x y Bx By Fx Fy Ny. destruct (fmt_ok f Hf) as (F1 & F2 & F3 & F4).
  destruct (remquo_correct f F1 F2 fuel x y ltac:(lia) F3 Bx By Fx Fy) as (r & quo & H1 & H2). { pose proof (value_abs f F1 F2 y By). lia. }
  exists r, quo. split; [exact H1|]. split; [unfold remainder; rewrite H1; reflexivity|exact H2].
Qed.
Print Assumptions C64_remquo.

Theorem C64_remquo_special : forall f, format f -> forall fuel, 2200 <= Z.of_nat fuel -> forall x y, bits f x -> bits f y ->
  (finite f x -> inf f y = true -> remquo fuel f x y = Ok (x, 0)) /\
  (inf f x = true \/ nan f x = true \/ nan f y = true \/ value f y = 0 -> exists r, remquo fuel f x y = Ok (r, 0) /\ nan f r = true).
Proof.
  intros f Hf fuel Hfuel x y Bx By. destruct (fmt_ok f Hf) as (F1 & F2 & _ & F4). pose proof (pow_pos (eb f) ltac:(lia)). split; [apply remquo_inf; auto; lia|].
  intros H'. apply remquo_nan; auto. destruct H' as [H' | [H' | [H' | H']]]; auto.
  - left. unfold inf in H'. apply andb_true_iff in H'. tauto.
  - left. unfold nan in H'. apply andb_true_iff in H'. tauto.
  - right. right. pose proof (value_abs f F1 F2 y By). lia.
Qed.
Print Assumptions C64_remquo_special.

(** -5.5 and 2: fmod is -1.5, remainder is 0.5 with quotient -3 *)
Example ex_args : bits binary64 13841250504769798144 /\ bits binary64 4611686018427387904 /\ special binary64 13841250504769798144 = false /\
  special binary64 4611686018427387904 = false /\ 2 * value binary64 13841250504769798144 = -11 * one binary64 /\ value binary64 4611686018427387904 = 2 * one binary64.
Proof. unfold bits. split; [|split; [|split; [|split; [|split]]]]; vm_compute; try reflexivity; split; congruence. Qed.
Example ex_fmod : fmod (Z.to_nat 2200) binary64 13841250504769798144 4611686018427387904 = Ok 13832806255468478464 /\ 2 * value binary64 13832806255468478464 = -3 * one binary64.
Proof. split; vm_compute; reflexivity. Qed.
Example ex_remquo : remquo (Z.to_nat 2200) binary64 13841250504769798144 4611686018427387904 = Ok (4602678819172646912, -3) /\ 2 * value binary64 4602678819172646912 = one binary64.
Proof. split; vm_compute; reflexivity. Qed.
(** a subnormal float divisor: 1.0 mod 2^-149*3 is 2^-149 * (2^149 mod 3) = 2^-149 * 2 *)
Example ex_subnormal : fmod (Z.to_nat 2200) binary32 1065353216 3 = Ok 2.
Proof. vm_compute. reflexivity. Qed.
