(** Vocabulary for wide strings; the rest is that of Str_Spec. *)
From Verif Require Import Base Str_Spec.
Open Scope Z_scope.

(** the wide string [s], with its terminator, is at [p] *)
Definition wstr_at (m : mem) (p : Z) (s : list Z) : Prop :=
  bytes_at m p (s ++ [0]) /\ Forall (fun c => c <> 0) s.

(** [s] is what a reader bounded by [n] sees at [p] *)
Definition wnstr_at (m : mem) (p : Z) (n : nat) (s : list Z) : Prop :=
  Forall (fun c => c <> 0) s /\ bytes_at m p s /\
  (length s = n \/ ((length s < n)%nat /\ m (p + Z.of_nat (length s)) = Some 0)).

(** a value of wchar_t *)
Definition wchar (c : Z) : Prop := -2147483648 <= c <= 2147483647.

(** the cells of the string [s] that a reader bounded by [n] sees, with the terminator if it is among them *)
Definition seen (n : nat) (s : list Z) : list Z := firstn n (s ++ [0]).

(** a search in [l], which is at [p], returned the first element with the property, or NULL if there is none *)
Definition found_first (p : Z) (r : option Z) (P : Z -> Prop) (l : list Z) : Prop :=
  match r with
  | Some q => exists i, q = p + Z.of_nat i /\ first_ix P l i
  | None => forall c, In c l -> ~ P c
  end.
