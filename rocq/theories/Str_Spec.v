(** Specification vocabulary for strings, independent of the model's loops. *)
From Verif Require Import Base.
Open Scope Z_scope.

(** [s] is what a reader bounded by [n] sees at [p]: all bytes before the first NUL, or [n] bytes
    if none of them is NUL.  Nothing is said about memory beyond that. *)
Definition nstr_at (m : mem) (p : Z) (n : nat) (s : list Z) : Prop :=
  Forall (fun c => 0 < c < 256) s /\ bytes_at m p s /\
  (length s = n \/ ((length s < n)%nat /\ m (p + Z.of_nat (length s)) = Some 0)).

(** after the call exactly the bytes [l] were written at [p] *)
Definition written (m m' : mem) (p : Z) (l : list Z) : Prop :=
  bytes_at m' p l /\ same_outside m m' p (length l).

(** lexicographic comparison of byte sequences *)
Fixpoint lex (a b : list Z) : comparison :=
  match a, b with
  | [], [] => Eq
  | [], _ :: _ => Lt
  | _ :: _, [] => Gt
  | x :: a', y :: b' => match x ?= y with Eq => lex a' b' | c => c end
  end.

(** position [i] is the first (last) one of [l] whose element satisfies [P] *)
Definition first_ix (P : Z -> Prop) (l : list Z) (i : nat) : Prop :=
  (exists c, nth_error l i = Some c /\ P c) /\
  forall j c, (j < i)%nat -> nth_error l j = Some c -> ~ P c.
Definition last_ix (P : Z -> Prop) (l : list Z) (i : nat) : Prop :=
  (exists c, nth_error l i = Some c /\ P c) /\
  forall j c, (i < j)%nat -> nth_error l j = Some c -> ~ P c.

(** [pat] occurs in [s] at offset [i] *)
Definition occurs (pat s : list Z) (i : nat) : Prop :=
  exists a b, s = a ++ pat ++ b /\ length a = i.

(** leftmost occurrence, as returned by the substring searches at base address [p] *)
Definition leftmost (pat s : list Z) (p : Z) (r : option Z) : Prop :=
  match r with
  | Some q => exists i, q = p + Z.of_nat i /\ occurs pat s i /\ forall j, (j < i)%nat -> ~ occurs pat s j
  | None => forall i, ~ occurs pat s i
  end.

(** fields of [s] separated by single delimiter bytes *)
Fixpoint fields (del s : list Z) : list (list Z) :=
  match s with
  | [] => [[]]
  | c :: s' =>
    if existsb (Z.eqb c) del then [] :: fields del s'
    else match fields del s' with
         | f :: fs => (c :: f) :: fs
         | [] => [[c]]
         end
  end.

(** maximal non-empty delimiter-free runs *)
Definition tokens (del s : list Z) : list (list Z) :=
  filter (fun f => match f with [] => false | _ => true end) (fields del s).

(** only bytes of the string [s] at [p] that are delimiters were changed *)
Definition only_delims_changed (m m' : mem) (p : Z) (s del : list Z) : Prop :=
  forall a, m' a <> m a ->
    exists i c, (i < length s)%nat /\ a = p + Z.of_nat i /\ nth_error s i = Some c /\ In c del.

(** [t] points to the field [f] of the string [s] stored at [p], in place *)
Definition in_place (p : Z) (s : list Z) (t : Z) (f : list Z) : Prop :=
  exists pre post, s = pre ++ f ++ post /\ t = p + Z.of_nat (length pre).
