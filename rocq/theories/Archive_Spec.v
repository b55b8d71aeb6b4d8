(** The format of a locale archive, and what a lookup should give. *)
From Verif Require Import Base.
From Coq Require Import Znumtheory.
Open Scope Z_scope.

(** the four bytes at offset [o] are the number [v], little endian *)
Definition word_at (f : list Z) (o v : Z) : Prop :=
  exists a b0 b1 b2 b3 r, f = a ++ [b0; b1; b2; b3] ++ r /\ Z.of_nat (length a) = o /\ v = b0 + 2 ^ 8 * b1 + 2 ^ 16 * b2 + 2 ^ 24 * b3.
Definition string_at (f : list Z) (o : Z) (s : list Z) : Prop :=
  exists a r, f = a ++ s ++ 0 :: r /\ Z.of_nat (length a) = o /\ ~ In 0 s.
Definition bytes (f : list Z) : Prop := forall b, In b f -> 0 <= b < 256.

(** the hash of a name: for each byte, rotate 32 bits to the left by 9 and add *)
Definition hash (s : list Z) : Z :=
  let h := fold_left (fun h c => ((h mod 2 ^ 23) * 2 ^ 9 + h / 2 ^ 23 + c) mod 2 ^ 32) s (Z.of_nat (length s) mod 2 ^ 32) in
  if h =? 0 then 2 ^ 32 - 1 else h.

(** a slot of the hash table: empty, or a name with the offset of its record *)
Definition table := list (option (list Z * Z)).
Definition slot (t : table) (i : Z) : option (list Z * Z) := nth (Z.to_nat i) t None.
Definition stored (f : list Z) (o : Z) (s : option (list Z * Z)) : Prop :=
  match s with
  | None => exists h r, word_at f o h /\ word_at f (o + 4) 0 /\ word_at f (o + 8) r
  | Some (nm, r) => exists no, word_at f o (hash nm) /\ word_at f (o + 4) no /\ word_at f (o + 8) r /\ 0 < no /\ string_at f no nm /\ 0 < r <= Z.of_nat (length f) - 108
  end.
Definition archive (f : list Z) (t : table) : Prop :=
  bytes f /\ 56 <= Z.of_nat (length f) < 2 ^ 32 /\
  exists tb, word_at f 8 tb /\ word_at f 16 (Z.of_nat (length t)) /\ 0 <= tb /\ 2 < Z.of_nat (length t) /\ tb + 12 * Z.of_nat (length t) <= Z.of_nat (length f) /\
    forall i, 0 <= i < Z.of_nat (length t) -> stored f (tb + 12 * i) (slot t i).
(** double hashing: the slots tried for a hash, in order *)
Definition tried (n h k : Z) : Z := (h + k * (1 + h mod (n - 2))) mod n.
Definition well_built (t : table) : Prop :=
  let n := Z.of_nat (length t) in
  prime n /\ In None t /\
  forall nm r, In (Some (nm, r)) t -> exists k, 0 <= k /\ slot t (tried n (hash nm) k) = Some (nm, r) /\ forall j, 0 <= j < k -> slot t (tried n (hash nm) j) <> None.
(** the first of the names that the table has *)
Definition answer (t : table) (names : list (list Z)) (a : option Z) : Prop :=
  match a with
  | Some r => exists l1 e l2, names = l1 ++ e :: l2 /\ In (Some (e, r)) t /\ forall e' r', In e' l1 -> ~ In (Some (e', r')) t
  | None => forall e r, In e names -> ~ In (Some (e, r)) t
  end.
