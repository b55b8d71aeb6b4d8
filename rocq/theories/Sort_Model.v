(** Model of qsort, qsort_r and bsearch, options/ansi/generic/stdlib.cpp:316-400, on byte memory.
    The user's comparison function is [cmp t a b]: [t] numbers the calls made so far and [a], [b] are the bytes of
    the two elements, so an arbitrary (even inconsistent or stateful) function of the element contents is covered.
    Assumed: the comparison does not modify the array.  Index arithmetic is on [nat] (i * size never wraps inside an
    object). *)
From Verif Require Import Base Mem_Model.
Open Scope Z_scope.

Definition addr (base : Z) (size i : nat) : Z := base + Z.of_nat (i * size).

(** compare_idx, stdlib.cpp:341-345; returns the result and the new call number *)
Definition compare_idx (cmp : nat -> list Z -> list Z -> Z) (t : nat) (m : mem) (base : Z) (size i j : nat) : res Z :=
  a <- loadn size m (addr base size i) ;;
  b <- loadn size m (addr base size j) ;;
  Ok (cmp t a b).

(** for (size_t k = 0; k < size; ++k) std::swap(pi[k], pj[k]), stdlib.cpp:350-352; [n] = size - k *)
Fixpoint swap_bytes (n : nat) (m : mem) (pi pj : Z) : res mem :=
  match n with
  | O => Ok m
  | S n' => x <- load m pi ;; y <- load m pj ;;
            m1 <- store m pi y ;; m2 <- store m1 pj x ;;
            swap_bytes n' m2 (pi + 1) (pj + 1)
  end.
(** swap_idx, stdlib.cpp:347-353 *)
Definition swap_idx (m : mem) (base : Z) (size i j : nat) : res mem :=
  swap_bytes size m (addr base size i) (addr base size j).

(** for (j = begin; j < pivot; ++j), stdlib.cpp:361-366; [n] = pivot - j.  Returns memory, i and call number *)
Fixpoint part_loop (cmp : nat -> list Z -> list Z -> Z) (n : nat) (t : nat) (m : mem) (base : Z) (size i j pivot : nat)
  : res (mem * nat * nat) :=
  match n with
  | O => Ok (m, i, t)
  | S n' =>
    c <- compare_idx cmp t m base size j pivot ;;
    if c <=? 0 then
      m1 <- swap_idx m base size i j ;; part_loop cmp n' (S t) m1 base size (S i) (S j) pivot
    else part_loop cmp n' (S t) m base size i (S j) pivot
  end.

(** partition, stdlib.cpp:356-369; pivot = end - 1 *)
Definition partition (cmp : nat -> list Z -> list Z -> Z) (t : nat) (m : mem) (base : Z) (size begin end_ : nat)
  : res (mem * nat * nat) :=
  if (begin <? end_)%nat then
    let pivot := (end_ - 1)%nat in
    '(m1, i, t1) <- part_loop cmp (pivot - begin) t m base size begin begin pivot ;;
    m2 <- swap_idx m1 base size i pivot ;;
    Ok (m2, i, t1)
  else Abort.

(** quick_sort, stdlib.cpp:374-381 *)
Fixpoint quick_sort (fuel : nat) (cmp : nat -> list Z -> list Z -> Z) (t : nat) (m : mem) (base : Z) (size begin end_ : nat)
  : res (mem * nat) :=
  match fuel with
  | O => Fuel
  | S f =>
    if (end_ <? begin)%nat then Abort
    else if (end_ - begin <=? 1)%nat then Ok (m, t)
    else
      '(m1, pivot, t1) <- partition cmp t m base size begin end_ ;;
      '(m2, t2) <- quick_sort f cmp t1 m1 base size begin pivot ;;
      quick_sort f cmp t2 m2 base size (pivot + 1) end_
  end.

(** qsort / qsort_r, stdlib.cpp:386-400 *)
Definition qsort (fuel : nat) (cmp : nat -> list Z -> list Z -> Z) (m : mem) (base : Z) (count size : nat) : res mem :=
  '(m1, _) <- quick_sort fuel cmp 0 m base size 0 count ;; Ok m1.

(** bsearch, stdlib.cpp:316-337; the key is fixed, so the comparison is [cmp t element].  NULL is [None]. *)
Fixpoint bsearch_loop (fuel : nat) (cmp : nat -> list Z -> Z) (t : nat) (m : mem) (base : Z) (size i j : nat)
  : res (option Z) :=
  match fuel with
  | O => Fuel
  | S f =>
    if (i <? j)%nat then
      let k := ((j - i) / 2)%nat in
      e <- loadn size m (addr base size (i + k)) ;;
      let r := cmp t e in
      if r <? 0 then bsearch_loop f cmp (S t) m base size i (i + k)
      else if r >? 0 then bsearch_loop f cmp (S t) m base size (i + k + 1) j
      else Ok (Some (addr base size (i + k)))
    else if (i =? j)%nat then Ok None else Abort
  end.
Definition bsearch (fuel : nat) (cmp : nat -> list Z -> Z) (m : mem) (base : Z) (count size : nat) : res (option Z) :=
  bsearch_loop fuel cmp 0 m base size 0 count.
