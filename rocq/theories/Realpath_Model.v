(** Model of realpath, options/posix/generic/posix_stdlib.cpp:232-438.

    Strings are lists of bytes without the terminator.  The file system is an oracle: what lstat and readlink say about
    an absolute path; it does not change meanwhile.  [cwd] is what getcwd stores.  Left out: the search for
    a buffer large enough for getcwd, allocation (it succeeds), debug output, the errors of readlink, and a readlink that
    stores nothing (path[0] is then read uninitialised).  lnk.resize (line 362) may shrink the vector before the bytes
    behind ls are moved; they are still in its storage, and the model moves them. *)
From Verif Require Export Base.
Open Scope Z_scope.

Inductive node := Dir | Other | Link (target : list Z) | Err (e : Z).

(** PATH_MAX, options/ansi/include/limits.h:70; ENAMETOOLONG, abis/linux/errno.h:39 *)
Definition path_max : Z := 4096.
Definition e_nametoolong : Z := 36.

(** the bytes before the first [c]: strchr (posix_stdlib.cpp:385, 401), and strlen for c = 0 (lines 388, 404) *)
Fixpoint upto (c : Z) (s : list Z) : list Z :=
  match s with [] => [] | b :: r => if b =? c then [] else b :: upto c r end.

(** posix_stdlib.cpp:291-294: the string before its last '/' (strrchr) *)
Fixpoint chop (s : list Z) : option (list Z) :=
  match s with
  | [] => None
  | c :: r => match chop r with
              | Some x => Some (c :: x)
              | None => if c =? 47 then Some [] else None
              end
  end.

(** posix_stdlib.cpp:345-346 *)
Fixpoint drop_slashes (r : list Z) : list Z :=   (* of the reversed string *)
  match r with
  | [] => []
  | c :: r' => match r' with [] => r | _ => if c =? 47 then drop_slashes r' else r end
  end.
Definition trim (t : list Z) : list Z := rev (drop_slashes (rev t)).

(** resolv (without its terminator), lnk (with its terminators) and ls *)
Record rstate := { resolv : list Z; lnk : list Z; ls : nat }.

(** operator== of frg::string_view, posix_stdlib.cpp:265, 285, 288 *)
Definition str_eqb (a b : list Z) : bool := if list_eq_dec Z.eq_dec a b then true else false.

(** path[0] == '/', posix_stdlib.cpp:242, 341 *)
Definition slash0 (p : list Z) : bool := match p with c :: _ => c =? 47 | [] => false end.

(** process_segment, posix_stdlib.cpp:279-378: the error, if any, and the state *)
Definition segment (fs : list Z -> node) (st : rstate) (s : list Z) : res (option Z * rstate) :=
  if str_eqb s [] || str_eqb s [46] then Ok (None, st)
  else if str_eqb s [46; 46] then
    match resolv st with
    | [] => Ok (None, st)
    | _ => match chop (resolv st) with
           | Some x => Ok (None, {| resolv := x; lnk := lnk st; ls := ls st |})
           | None => Abort
           end
    end
  else
    let r := resolv st ++ 47 :: s in
    match fs r with
    | Err e => Ok (Some e, st)
    | Dir | Other => Ok (None, {| resolv := r; lnk := lnk st; ls := ls st |})
    | Link t =>
        let path := firstn 512 t in
        if slash0 path then Ok (None, {| resolv := trim path; lnk := lnk st; ls := ls st |})
        else Ok (None, {| resolv := resolv st; lnk := path ++ skipn (ls st) (lnk st) ++ [0]; ls := 0 |})
    end.

(** the inner loop, posix_stdlib.cpp:399-417: consumes lnk.  A string_view of a negative size (it is unsigned) is UB *)
Fixpoint inner (fuel : nat) (fs : list Z -> node) (st : rstate) : res (option Z * rstate) :=
  match fuel with
  | O => Fuel
  | S g =>
      if (length (lnk st) <=? ls st)%nat then Ok (None, {| resolv := resolv st; lnk := []; ls := 0 |})
      else
        let here := upto 0 (skipn (ls st) (lnk st)) in
        v <- (if existsb (Z.eqb 47) here then Ok (upto 47 here)
              else let n := length (upto 0 (lnk st)) in
                   if (n <? ls st)%nat then UB else Ok (firstn (n - ls st) (skipn (ls st) (lnk st)))) ;;
        '(e, st) <- segment fs {| resolv := resolv st; lnk := lnk st; ls := ls st + length v + 1 |} v ;;
        match e with
        | Some e => Ok (Some e, st)
        | None => inner g fs st
        end
  end.

(** the outer loop, posix_stdlib.cpp:383-418; [p]: the path from ps *)
Fixpoint outer (fuel : nat) (fs : list Z -> node) (st : rstate) (p : list Z) : res (option Z * rstate) :=
  match fuel with
  | O => Fuel
  | S g =>
      match p with
      | [] => Ok (None, st)
      | _ =>
          let v := upto 47 p in
          let p := skipn (length v + 1) p in
          '(e, st) <- segment fs st v ;;
          match e with
          | Some e => Ok (Some e, st)
          | None =>
              '(e, st) <- inner g fs st ;;
              match e with Some e => Ok (Some e, st) | None => outer g fs st p end
          end
      end
  end.

(** posix_stdlib.cpp:232-438: the path or the error *)
Definition realpath (fuel : nat) (fs : list Z -> node) (cwd path : list Z) : res (list Z + Z) :=
  let '(r, p) := if slash0 path then ([], tl path)
                 else ((if str_eqb cwd [47] then [] else cwd), path) in
  '(e, st) <- outer fuel fs {| resolv := r; lnk := []; ls := 0 |} p ;;
  match e with
  | Some e => Ok (inr e)
  | None =>
      let r := match resolv st with [] => [47] | r => r end in
      if path_max <? Z.of_nat (length r) + 1 then Ok (inr e_nametoolong) else Ok (inl r)
  end.
