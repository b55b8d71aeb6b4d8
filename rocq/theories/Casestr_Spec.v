(** Specification vocabulary for the case-insensitive and version comparisons *)
From Verif Require Import Base Str_Spec Ctype_Spec Strtol_Spec.
Open Scope Z_scope.

(** order of two strings when the case of letters does not count *)
Definition lex_nocase (a b : list Z) : comparison := lex (map lower_of a) (map lower_of b).

Definition digit (c : Z) : bool := (48 <=? c) && (c <=? 57).

(** number of digits at the start *)
Fixpoint run (s : list Z) : nat := match s with c :: r => if digit c then S (run r) else 0%nat | [] => 0%nat end.

(** Version order (strverscmp(3)): strings are compared from left to right by the items
    - a character that is not a digit: itself;
    - a digit sequence not starting with '0', a number: first its length, then its digits, so by value; a number comes
      after every character;
    - a digit sequence starting with '0', a fraction: its digits one by one; after a run of zeros a further digit comes
      before the end of the sequence (000 < 00 < 01 < 010 < 09 < 0 < 1).
    [version] lists the items as numbers; the order is their lexicographic order. *)
Inductive place := Text | Number | Zeros | Fraction.

Definition after (st : place) (c : Z) : place :=
  if digit c then
    match st with
    | Text => if c =? 48 then Zeros else Number
    | Zeros => if c =? 48 then Zeros else Fraction
    | _ => st
    end
  else Text.

Fixpoint version (st : place) (s : list Z) : list Z :=
  match s with
  | [] => [match st with Zeros => 1000 | _ => 0 end]
  | c :: r =>
    match st with
    | Text => if digit c && negb (c =? 48) then [1000 + Z.of_nat (run s); c] else [c]
    | Zeros => [if digit c then c else 1000 + c]
    | _ => [c]
    end ++ version (after st c) r
  end.

Definition vers (a b : list Z) : comparison := lex (version Text a) (version Text b).

(** a decimal number written without leading zeros *)
Definition plain_number (ds : list Z) : Prop :=
  ds <> [] /\ Forall (fun c => digit c = true) ds /\ hd0 ds <> 48.
(** the text around it does not continue it *)
Definition ends_text (s : list Z) : Prop := s = [] \/ exists p c, s = p ++ [c] /\ digit c = false.
Definition starts_text (s : list Z) : Prop := s = [] \/ exists p c, s = c :: p /\ digit c = false.

(** what malloc promises: a block of fresh bytes, nothing else changed *)
Definition malloc_like (alloc : nat -> mem -> option (Z * mem)) : Prop :=
  forall n m p m1, alloc n m = Some (p, m1) ->
    mapped m1 p n /\ (forall i, (i < n)%nat -> m (p + Z.of_nat i) = None) /\ same_outside m m1 p n.

(** [r] is 1 plus the number of the lowest bit set in [i] *)
Definition lowest_bit (w : nat) (i r : Z) : Prop :=
  1 <= r <= Z.of_nat w /\ i mod 2 ^ (r - 1) = 0 /\ i mod 2 ^ r <> 0.
