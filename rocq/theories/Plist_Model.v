(** Model of parseList (options/rtld/generic/main.cpp:253-285), by which the dynamic linker takes lists of paths such as LD_LIBRARY_PATH apart, with the
    members of frg::string_view that it uses.  Growing the list succeeds. *)
From Verif Require Import Base.

Definition slash : Z := 47.
(** sub_string(p, n); outside of the string it is refused by an assertion *)
Definition sub_string (l : list Z) (p n : nat) : res (list Z) := if length l <? p + n then Abort else Ok (firstn n (skipn p l)).
(** find_first_of(separators, p) *)
Fixpoint find_in (seps : list Z) (l : list Z) (p : nat) : option nat :=
  match l with [] => None | c :: l => if existsb (Z.eqb c) seps then Some p else find_in seps l (S p) end.
Definition find_first_of (l seps : list Z) (p : nat) : option nat := find_in seps (skipn p l) p.
(** main.cpp:271-272: from index i downwards *)
Fixpoint back (l : list Z) (i : nat) : nat :=
  match i with 0 => 0 | S j => if (nth (S j) l 0 =? slash)%Z then back l j else S j end.
(** main.cpp:269-277 *)
Definition clean (path : list Z) : res (list Z) :=
  path <- (if (last path 0 =? slash)%Z then sub_string path 0 (back path (length path - 1) + 1) else Ok path) ;;
  Ok (if list_eq_dec Z.eq_dec path [slash] then [] else path).
(** main.cpp:256-282 *)
Fixpoint parse_loop (fuel : nat) (paths seps : list Z) (p : nat) (out : list (list Z)) : res (list (list Z)) :=
  match fuel with
  | 0 => Fuel
  | S fuel =>
    if p <? length paths then
      let s := match find_first_of paths seps p with Some cs => cs | None => length paths end in
      path <- sub_string paths p (s - p) ;;
      let p := s + 1 in
      match path with
      | [] => parse_loop fuel paths seps p out
      | _ => path <- clean path ;; parse_loop fuel paths seps p (out ++ [path])
      end
    else Ok out
  end.
Definition parseList (paths seps : list Z) : res (list (list Z)) := parse_loop (S (length paths)) paths seps 0 [].
