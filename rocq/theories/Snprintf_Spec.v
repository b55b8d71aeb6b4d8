(** The output of a sequence of pieces, and where their strings may lie. *)
From Verif Require Import Base Snprintf_Model.
Open Scope Z_scope.

(** [p] stands for the bytes [out] in memory [m]; its string does not overlap the buffer and is not cut by dest_max *)
Inductive piece_text (m : mem) (buf : Z) (size : nat) : piece -> list Z -> Prop :=
| TChar c : piece_text m buf size (PChar c) [c]
| TStr str s src_max dest_max : str_at m str s -> disjoint buf size str (length s + 1) -> (length (firstn src_max s) <= dest_max)%nat ->
    piece_text m buf size (PStr str src_max dest_max) (firstn src_max s).

(** the bytes the caller of snprintf sees in a buffer of [size] bytes *)
Definition truncated (size : nat) (out : list Z) : list Z :=
  match size with O => [] | S k => firstn k out ++ [0] end.
