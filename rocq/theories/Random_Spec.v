(** What random and its state functions should do. *)
From Verif Require Import Random_Model.
Open Scope Z_scope.

(** A generator.  [Small s]: the linear congruential generator of the smallest state size.
    [Lagged sep q]: an additive generator r(k) = r(k - n) + r(k - sep) mod 2^32; [q] are its last n
    values, the oldest first. *)
Inductive gen := Small (s : Z) | Lagged (sep : nat) (q : list Z).
Definition next (g : gen) : gen * Z :=
  match g with
  | Small s => let s' := (1103515245 * s + 12345) mod 2 ^ 31 in (Small s', s')
  | Lagged sep q =>
      let r := (nth 0 q 0 + nth (length q - sep) q 0) mod 2 ^ 32 in
      (Lagged sep (tl q ++ [r]), r / 2)
  end.

(** the state sizes of POSIX: the number of values for an array of [size] bytes *)
Definition degree (size : Z) : nat :=
  (if (size <? 32)%Z then 0 else if (size <? 64)%Z then 7 else if (size <? 128)%Z then 15
   else if (size <? 256)%Z then 31 else 63)%nat.
Definition separation (n : nat) : nat := if (n =? 31)%nat || (n =? 7)%nat then 3%nat else 1%nat.
(** the upper halves of [n] successive values of a 64-bit linear congruential generator *)
Fixpoint values (n : nat) (seed : Z) : list Z :=
  match n with
  | O => []
  | S m => let s := (6364136223846793005 * seed + 1) mod 2 ^ 64 in s / 2 ^ 32 :: values m s
  end.
(** at least one of the values must be odd *)
Definition make_odd (l : list Z) : list Z :=
  match l with [] => [] | v :: l' => (if Z.even v then v + 1 else v) :: l' end.
Definition seeded (n : nat) (seed : Z) : gen :=
  match n with
  | O => Small seed
  | _ => let l := make_odd (values n seed) in
         Lagged (separation n) (skipn (separation n) l ++ firstn (separation n) l)
  end.
Definition size_of (g : gen) : nat := match g with Small _ => 0%nat | Lagged _ q => length q end.

(** every array that has been initialised holds a generator of its own *)
Record world := { gens : Z -> option gen; current : Z }.
(** the default: the generator of a 128 byte state, seeded with 1 *)
Definition initial : world := {| gens := fun a => if a =? 0 then Some (seeded 31 1) else None; current := 0 |}.
Definition put (w : world) (a : Z) (g : gen) : world :=
  {| gens := fun b => if b =? a then Some g else gens w b; current := a |}.

(** [cap a]: the number of words in array [a].  [None]: the call is not permitted: the array is
    smaller than [size] says or, for setstate, not initialised. *)
Definition ideal_step (cap : Z -> nat) (w : world) (o : op) : option (world * result) :=
  match o with
  | Random =>
      match gens w (current w) with
      | None => None
      | Some g => let (g', r) := next g in Some (put w (current w) g', Num r)
      end
  | Srandom seed =>
      match gens w (current w) with
      | None => None
      | Some g => if (0 <=? seed) && (seed <? 2 ^ 32) then Some (put w (current w) (seeded (size_of g) seed), Num 0) else None
      end
  | Initstate seed a size =>
      if size <? 8 then Some (w, Array None)
      else if (size <=? 4 * Z.of_nat (cap a)) && (0 <=? seed) && (seed <? 2 ^ 32)
      then Some (put w a (seeded (degree size) seed), Array (Some (current w)))
      else None
  | Setstate a =>
      match gens w a with
      | None => None
      | Some _ => Some ({| gens := gens w; current := a |}, Array (Some (current w)))
      end
  end.
Fixpoint ideal_run (cap : Z -> nat) (w : world) (os : list op) : option (world * list result) :=
  match os with
  | [] => Some (w, [])
  | o :: os' =>
      match ideal_step cap w o with
      | None => None
      | Some (w1, r) => option_map (fun '(w2, rs) => (w2, r :: rs)) (ideal_run cap w1 os')
      end
  end.
(** the words of the arrays before the first call *)
Definition caps (mem : Z -> list Z) (a : Z) : nat := if a =? 0 then 32%nat else length (mem a).
(** a call that leaves array [a] alone if another one is current *)
Definition elsewhere (a : Z) (o : op) : Prop :=
  match o with Random | Srandom _ => True | Initstate _ b _ | Setstate b => b <> a end.
