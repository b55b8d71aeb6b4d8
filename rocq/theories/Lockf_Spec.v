(** What a user of lockf relies on: sections of a file and who holds which byte. *)
From Verif Require Import Base Lockf_Model.
Open Scope Z_scope.

(** byte b is in the section that lockf(fd, op, size) is about: size bytes from the position on, or before it if size is negative, or all from the position on if it is 0 *)
Definition in_section (s : st) (size b : Z) : Prop :=
  (0 < size /\ pos s <= b < pos s + size) \/ (size < 0 /\ pos s + size <= b < pos s) \/ (size = 0 /\ pos s <= b <= off_max).
(** the section is within a file *)
Definition good_section (s : st) (size : Z) : Prop := 0 <= pos s <= off_max /\ 0 <= pos s + size /\ pos s + size <= off_max + 1.
(** process p holds a lock (w: a write lock) on byte b *)
Definition holds (s : st) (p : Z) (w : bool) (b : Z) : Prop :=
  exists k, In k (locks s) /\ owner k = p /\ write k = w /\ first k <= b <= last k.
(** another process holds a lock (w: a write lock) on a byte of the section *)
Definition taken (s : st) (size : Z) (w : bool) : Prop := exists p b, p <> me s /\ in_section s size b /\ holds s p w b.
(** no lock of the table is empty *)
Definition regular (s : st) : Prop := forall k, In k (locks s) -> first k <= last k.
(** the rest of the state *)
Definition same_file (s s' : st) : Prop := pos s' = pos s /\ writable s' = writable s /\ me s' = me s.
(** the locks are those of before outside the section, or of other processes *)
Definition same_elsewhere (s s' : st) (size : Z) : Prop :=
  forall p w b, p <> me s \/ ~ in_section s size b -> (holds s' p w b <-> holds s p w b).
(** no byte is locked for writing by one process and locked by another *)
Definition exclusive (s : st) : Prop := forall p q w b, holds s p true b -> holds s q w b -> p = q.
(** a history: calls of lockf, each by some process through a descriptor with some position; a call that waits changes nothing *)
Record call := mkcall { c_me : Z; c_pos : Z; c_writable : bool; c_op : Z; c_size : Z }.
Fixpoint history (t : list lk) (h : list call) : list lk :=
  match h with
  | [] => t
  | c :: h => history (match lockf (mkst t (c_pos c) (c_writable c) (c_me c)) (c_op c) (c_size c) with Ret _ _ s => locks s | Waits => t end) h
  end.
(** the answer is success, and now the caller holds a write lock on the whole section *)
Definition locked (s : st) (size : Z) (a : answer) : Prop :=
  exists s', a = Ret 0 0 s' /\ same_file s s' /\ regular s' /\ same_elsewhere s s' size /\
  forall b, in_section s size b -> holds s' (me s) true b /\ ~ holds s' (me s) false b.
