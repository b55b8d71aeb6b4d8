(** Memory as the processor sees it: mapped in pages of 4096 bytes, with a byte in each mapped cell. *)
From Verif Require Import Base Vstrcmp_Model.
Open Scope Z_scope.

Definition paged (m : mem) : Prop :=
  (forall a b, a / 4096 = b / 4096 -> m a <> None -> m b <> None) /\
  (forall a c, m a = Some c -> 0 <= c < 256).

(** the instructions a variant needs can be executed (Intel SDM: CPUID leaves 1 and 7, and for AVX2 the system has enabled the
    xmm and ymm state) *)
Definition executable (c : cpu) (v : variant) : Prop :=
  match v with
  | Default => True
  | Sse2 => 1 <= max_leaf c /\ Z.testbit (edx1 c) 26 = true
  | Sse4_2 => 1 <= max_leaf c /\ Z.testbit (ecx1 c) 20 = true
  | Avx2 => 7 <= max_leaf c /\ Z.testbit (ebx7 c) 5 = true /\ Z.testbit (ecx1 c) 27 = true /\
            Z.testbit (xcr0 c) 1 = true /\ Z.testbit (xcr0 c) 2 = true
  end.
