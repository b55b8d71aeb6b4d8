(** Model of getsubopt (options/posix/generic/posix_stdlib.cpp:526-573). *)
From Verif Require Import Base Str_Model.
Open Scope Z_scope.

(** *s == ',' || *s == ' ' || *s == '\t' *)
Definition separator (x : Z) : bool := (x =? 44) || (x =? 32) || (x =? 9).
(** for(; *s && go( *s); s++), the loops at lines 537, 548, 556 and 564; the one at 548 starts at the
    second character *)
Fixpoint scan (go : Z -> bool) (fuel : nat) (m : mem) (p : Z) : res Z :=
  match fuel with
  | O => Fuel
  | S f => x <- load m p ;; if negb (x =? 0) && go x then scan go f m (p + 1) else Ok p
  end.
(** lines 570-573; the array of keys is the list of its pointers *)
Fixpoint find (fuel : nat) (m : mem) (subopt : Z) (keys : list Z) (cnt : Z) : res Z :=
  match keys with
  | [] => Ok (-1)
  | k :: ks => r <- strcmp fuel m subopt k ;; if r =? 0 then Ok cnt else find fuel m subopt ks (cnt + 1)
  end.
(** [opt] is *optionp, None for NULL.  The result is the memory, the new *optionp, *valuep and the
    return value. *)
Definition getsubopt (fuel : nat) (m : mem) (opt : option Z) (keys : list Z) : res (mem * option Z * option Z * Z) :=
  match opt with
  | None => Ok (m, None, None, -1)
  | Some s =>
    s <- scan separator fuel m s ;;
    x <- load m s ;;
    if x =? 0 then Ok (m, Some s, None, -1) else
    let subopt := s in
    s <- scan (fun x => negb (x =? 44) && negb (x =? 61)) fuel m (s + 1) ;;
    x <- load m s ;;
    '(m, s, value) <-
      (if x =? 0 then Ok (m, s, None)
       else
         '(m, s, value) <-
           (if x =? 61 then
              m <- store m s 0 ;;
              let v := s + 1 in
              s <- scan (fun x => negb (x =? 44)) fuel m v ;;
              x <- load m s ;;
              if x =? 0 then Ok (m, s, Some v) else m <- store m s 0 ;; Ok (m, s + 1, Some v)
            else m <- store m s 0 ;; Ok (m, s + 1, None)) ;;
         s <- scan separator fuel m s ;;
         Ok (m, s, value)) ;;
    r <- find fuel m subopt keys 0 ;;
    Ok (m, Some s, value, r)
  end.
