(** Model of sig2str and str2sig (options/posix/generic/posix_signal.cpp:146-287) with the numbers of abis/linux/signal.h.  Strings are lists of characters without the
    terminating zero.  strtol is that of C12 in the C locale, used as both calls use it: an error if errno is set or characters are left over. *)
From Coq Require Import String Ascii.
From Verif Require Import Base.
Open Scope Z_scope.

Definition z (s : string) : list Z := map (fun a => Z.of_N (N_of_ascii a)) (list_ascii_of_string s).
(** abis/linux/signal.h:130-131,216 *)
Definition SIGRTMIN := 35.
Definition SIGRTMAX := 64.
Definition NSIG := 65.
Definition SIG2STR_MAX : nat := 16.
Definition LONG_MAX := 2 ^ 63 - 1.
(** posix_signal.cpp:160-199 and 215-255, abis/linux/signal.h:121-164: both functions list the same names *)
Definition names : list (Z * list Z) :=
  [(SIGRTMIN, z "RTMIN"); (SIGRTMAX, z "RTMAX"); (1, z "HUP"); (2, z "INT"); (3, z "QUIT"); (4, z "ILL"); (5, z "TRAP"); (6, z "ABRT"); (7, z "BUS"); (8, z "FPE");
   (9, z "KILL"); (10, z "USR1"); (11, z "SEGV"); (12, z "USR2"); (13, z "PIPE"); (14, z "ALRM"); (15, z "TERM"); (16, z "STKFLT"); (17, z "CHLD"); (18, z "CONT");
   (19, z "STOP"); (20, z "TSTP"); (21, z "TTIN"); (22, z "TTOU"); (23, z "URG"); (24, z "XCPU"); (25, z "XFSZ"); (26, z "VTALRM"); (27, z "PROF"); (28, z "WINCH");
   (29, z "POLL"); (30, z "PWR"); (31, z "SYS"); (32, z "CANCEL"); (33, z "TIMER")].
Fixpoint by_number (l : list (Z * list Z)) (n : Z) : option (list Z) :=
  match l with [] => None | (k, s) :: l => if k =? n then Some s else by_number l n end.
Fixpoint by_name (l : list (Z * list Z)) (s : list Z) : option Z :=
  match l with [] => None | (k, t) :: l => if list_eq_dec Z.eq_dec s t then Some k else by_name l s end.
(** %d for the numbers below 100 that are printed here *)
Definition dec (n : Z) : list Z := if n <? 10 then [48 + n] else [48 + n / 10; 48 + n mod 10].
(** snprintf and strlcpy leave at most SIG2STR_MAX - 1 characters *)
Definition cut (s : list Z) : list Z := firstn (SIG2STR_MAX - 1) s.
(** posix_signal.cpp:146-209; None is -1 *)
Definition sig2str (signum : Z) : option (list Z) :=
  if (signum <=? 0) || (NSIG <=? signum) then None
  else if (SIGRTMIN <? signum) && (signum <? SIGRTMAX) then Some (cut (z "RTMIN+" ++ dec (signum - SIGRTMIN)))
  else match by_number names signum with Some s => Some (cut s) | None => Some (cut (z "SIG#" ++ dec signum)) end.

(** strtol(s, &endptr, 10) with errno 0 and *endptr 0, internal/include/mlibc/strtol.hpp:63-163 *)
Definition space (c : Z) : bool := (c =? 32) || ((9 <=? c) && (c <=? 13)).
Fixpoint skip (s : list Z) : list Z := match s with [] => [] | c :: t => if space c then skip t else s end.
Fixpoint digits (s : list Z) (acc : Z) : option Z :=
  match s with [] => Some acc | c :: s => if (48 <=? c) && (c <=? 57) then digits s (10 * acc + (c - 48)) else None end.
Definition sign (s : list Z) : bool * list Z :=
  match s with [] => (false, []) | c :: t => if c =? 45 then (true, t) else if c =? 43 then (false, t) else (false, s) end.
Definition whole (s : list Z) : option Z :=
  match s with
  | [] => Some 0
  | _ =>
    match sign (skip s) with
    | (_, []) => None
    | (neg, u) =>
      match digits u 0 with
      | None => None
      | Some v => let v := if neg then - v else v in if (- 2 ^ 63 <=? v) && (v <=? LONG_MAX) then Some v else None
      end
    end
  end.
Fixpoint prefixed (p s : list Z) : option (list Z) :=
  match p, s with [], _ => Some s | c :: p, d :: s => if c =? d then prefixed p s else None | _ :: _, [] => None end.
(** an addition of long that overflows is undefined *)
Definition ladd (a b : Z) : res Z := if (- 2 ^ 63 <=? a + b) && (a + b <=? LONG_MAX) then Ok (a + b) else UB.
(** posix_signal.cpp:211-287; None is -1 *)
Definition str2sig (s : list Z) : res (option Z) :=
  match by_name names s with
  | Some k => Ok (Some k)
  | None =>
    match prefixed (z "RTMIN+") s with
    | Some t =>
      match whole t with
      | None => Ok None
      | Some o => if o <? 0 then Ok None else v <- ladd SIGRTMIN o ;; if SIGRTMAX <=? v then Ok None else Ok (Some v)
      end
    | None =>
      match prefixed (z "RTMAX-") s with
      | Some t =>
        match whole t with
        | None => Ok None
        | Some o => if o <? 0 then Ok None else v <- ladd SIGRTMAX (- o) ;; if v <=? SIGRTMIN then Ok None else Ok (Some v)
        end
      | None =>
        match prefixed (z "SIG#") s with
        | Some t => match whole t with None => Ok None | Some v => if (v <=? 0) || (NSIG <=? v) then Ok None else Ok (Some v) end
        | None => Ok None
        end
      end
    end
  end.
