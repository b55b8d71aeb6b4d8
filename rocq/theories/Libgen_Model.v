(** Model of basename and dirname, options/posix/generic/libgen.cpp.  '/' is byte 47. *)
From Verif Require Import Base Str_Model.
Open Scope Z_scope.

(** result: a pointer into the argument or one of the static strings "." and "/" *)
Inductive path_res := Ptr (p : Z) | Static (s : list Z).

(** for(; i && s[i] == '/'; i--) s[i] = 0;  libgen.cpp:17-18 *)
Fixpoint del_slashes (i : nat) (m : mem) (s : Z) : res (mem * nat) :=
  match i with
  | O => Ok (m, O)
  | S k => c <- load m (s + Z.of_nat i) ;;
           if c =? 47 then m1 <- store m (s + Z.of_nat i) 0 ;; del_slashes k m1 s
           else Ok (m, i)
  end.
(** for(; i && s[i - 1] != '/'; i--);  libgen.cpp:21-22 *)
Fixpoint find_slash (i : nat) (m : mem) (s : Z) : res nat :=
  match i with
  | O => Ok O
  | S k => c <- load m (s + Z.of_nat k) ;; if c =? 47 then Ok i else find_slash k m s
  end.
(** basename, libgen.cpp:9-24; the argument NULL is [None] *)
Definition basename (fuel : nat) (m : mem) (s : option Z) : res (mem * path_res) :=
  match s with
  | None => Ok (m, Static [46])
  | Some s =>
    c <- load m s ;;
    if c =? 0 then Ok (m, Static [46])
    else
      n <- strlen fuel m s ;;
      '(m1, i) <- del_slashes (n - 1) m s ;;
      j <- find_slash i m1 s ;;
      Ok (m1, Ptr (s + Z.of_nat j))
  end.

(** for (; (s[i] == '/') == want; i--) if(!i) return ...;  libgen.cpp:33-35, 38-40, 43-45.
    [None] is the early return *)
Fixpoint back_while (want : bool) (i : nat) (m : mem) (s : Z) : res (option nat) :=
  c <- load m (s + Z.of_nat i) ;;
  if Bool.eqb (c =? 47) want then
    match i with O => Ok None | S k => back_while want k m s end
  else Ok (Some i).
(** dirname, libgen.cpp:26-50 *)
Definition dirname (fuel : nat) (m : mem) (s : option Z) : res (mem * path_res) :=
  match s with
  | None => Ok (m, Static [46])
  | Some s =>
    c <- load m s ;;
    if c =? 0 then Ok (m, Static [46])
    else
      n <- strlen fuel m s ;;
      r1 <- back_while true (n - 1) m s ;;
      match r1 with
      | None => Ok (m, Static [47])
      | Some i =>
        r2 <- back_while false i m s ;;
        match r2 with
        | None => Ok (m, Static [46])
        | Some i =>
          r3 <- back_while true i m s ;;
          match r3 with
          | None => Ok (m, Static [47])
          | Some i => m1 <- store m (s + Z.of_nat i + 1) 0 ;; Ok (m1, Ptr s)
          end
        end
      end
  end.
