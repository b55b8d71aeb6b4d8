(** Model of timeradd and timersub (options/posix/generic/sys-time.cpp:39-55) and of the sets of descriptors for select
    (options/posix/generic/sys-select.cpp:16-34; abis/linux/fd_set.h:8-17).  The words of a set are kept as the unsigned numbers that the code casts them to. *)
From Verif Require Import Base.
Open Scope Z_scope.

(** struct timeval; both fields are 64 bits wide *)
Record timeval := tv { sec : Z; usec : Z }.
Definition in64 (x : Z) : bool := (-9223372036854775808 <=? x) && (x <=? 9223372036854775807).
Definition int64 (x : Z) : res Z := if in64 x then Ok x else UB.
(** sys-time.cpp:42-45 *)
Fixpoint carry (fuel : nat) (s u : Z) : res timeval :=
  match fuel with
  | O => Fuel
  | S fuel => if 999999 <? u then u <- int64 (u - 1000000) ;; s <- int64 (s + 1) ;; carry fuel s u else Ok (tv s u)
  end.
(** sys-time.cpp:51-54 *)
Fixpoint borrow (fuel : nat) (s u : Z) : res timeval :=
  match fuel with
  | O => Fuel
  | S fuel => if u <? 0 then u <- int64 (u + 1000000) ;; s <- int64 (s - 1) ;; borrow fuel s u else Ok (tv s u)
  end.
Definition timeradd (a b : timeval) : res timeval :=
  s <- int64 (sec a + sec b) ;; u <- int64 (usec a + usec b) ;; carry (S (Z.to_nat u)) s u.
Definition timersub (a b : timeval) : res timeval :=
  s <- int64 (sec a - sec b) ;; u <- int64 (usec a - usec b) ;; borrow (S (Z.to_nat (- u))) s u.

(** fd_set.h: FD_SETSIZE is 1024, NFDBITS 64, so there are 16 words *)
Definition FD_SETSIZE : Z := 1024.
Definition NFDBITS : Z := 64.
Definition fdset := list Z.
Definition FD_MASK (n : Z) : Z := Z.shiftl 1 n mod 18446744073709551616.
Definition get (s : fdset) (i : Z) : Z := nth (Z.to_nat i) s 0.
Fixpoint put (s : fdset) (i : nat) (w : Z) : fdset :=
  match s with [] => [] | x :: s => match i with O => w :: s | S i => x :: put s i w end end.
Definition in_set (fd : Z) : bool := (0 <=? fd) && (fd <? FD_SETSIZE).
(** sys-select.cpp:19-22 *)
Definition FD_CLR (fd : Z) (s : fdset) : res fdset :=
  if in_set fd then Ok (put s (Z.to_nat (fd / NFDBITS)) (Z.land (get s (fd / NFDBITS)) (Z.lnot (FD_MASK (Z.land fd (NFDBITS - 1))) mod 18446744073709551616))) else Abort.
(** sys-select.cpp:23-26 *)
Definition FD_ISSET (fd : Z) (s : fdset) : res Z :=
  if in_set fd then Ok (if negb (Z.land (get s (fd / NFDBITS)) (FD_MASK (Z.land fd (NFDBITS - 1))) =? 0) then 1 else 0) else Abort.
(** sys-select.cpp:27-30 *)
Definition FD_SET (fd : Z) (s : fdset) : res fdset :=
  if in_set fd then Ok (put s (Z.to_nat (fd / NFDBITS)) (Z.lor (get s (fd / NFDBITS)) (FD_MASK (Z.land fd (NFDBITS - 1))))) else Abort.
(** sys-select.cpp:31-33 *)
Definition FD_ZERO : fdset := repeat 0 16.
