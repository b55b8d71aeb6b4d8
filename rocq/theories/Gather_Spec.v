(** What users rely on: writev writes the bytes of its pieces in order; swab exchanges the bytes of pairs. *)
From Verif Require Import Base Gather_Model.
Open Scope Z_scope.

Definition bytes_of (x : iovec) : list Z := firstn (Z.to_nat (iov_len x)) (iov_base x).
(** its length is a size_t *)
Definition sized (x : iovec) : Prop := 0 <= iov_len x < 18446744073709551616.
(** all its bytes can be read *)
Definition readable (x : iovec) : Prop := 0 <= iov_len x <= Z.of_nat (length (iov_base x)).
Definition sum (v : list iovec) : Z := fold_right (fun x s => iov_len x + s) 0 v.
(** the whole pairs in n bytes *)
Definition in_pairs (n : Z) : Z := if 0 <? n then 2 * (n / 2) else 0.
(** the other index of the pair *)
Definition partner (j : Z) : Z := if Z.even j then j + 1 else j - 1.
