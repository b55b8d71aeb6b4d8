(** Model of signal sets (options/internal/generic/sigset.cpp, posix_signal.cpp:126-130) and processor sets
    (options/linux/generic/cpuset.cpp).  A sigset_t is a list of words of 64 bits (one or sixteen, by the ABI); a cpu_set_t of
    [setsize] bytes is the list of them.  An int result of -1 sets errno to EINVAL. *)
From Verif Require Import Base.
Open Scope Z_scope.

Fixpoint set_nth (l : list Z) (i : nat) (x : Z) : list Z :=
  match l, i with [], _ => [] | _ :: r, O => x :: r | a :: r, S k => a :: set_nth r k x end.

(** sigset.cpp:46-54 *)
Definition sigemptyset (set : list Z) : list Z := repeat 0 (length set).
Definition sigfillset (set : list Z) : list Z := repeat (2 ^ 64 - 1) (length set).
(** the test in sigaddset, sigdelset and sigismember; the conversion of signo to unsigned int does not change it *)
Definition sig_ok (set : list Z) (signo : Z) : bool := negb ((signo <? 0) || (Z.of_nat (length set) * 8 * 8 <=? signo)).
(** sigset.cpp:56-67 *)
Definition sigaddset (set : list Z) (sig : Z) : list Z * Z :=
  let signo := sig - 1 in
  if sig_ok set signo then
    let field := Z.to_nat (signo / 64) in
    (set_nth set field (Z.lor (nth field set 0) (Z.shiftl 1 (signo mod 64))), 0)
  else (set, -1).
(** sigset.cpp:69-80; the complement of a word of 64 bits *)
Definition sigdelset (set : list Z) (sig : Z) : list Z * Z :=
  let signo := sig - 1 in
  if sig_ok set signo then
    let field := Z.to_nat (signo / 64) in
    (set_nth set field (Z.land (nth field set 0) (2 ^ 64 - 1 - Z.shiftl 1 (signo mod 64))), 0)
  else (set, -1).
(** sigset.cpp:82-92 *)
Definition sigismember (set : list Z) (sig : Z) : Z :=
  let signo := sig - 1 in
  if sig_ok set signo then
    if Z.land (nth (Z.to_nat (signo / 64)) set 0) (Z.shiftl 1 (signo mod 64)) =? 0 then 0 else 1
  else -1.
(** posix_signal.cpp:126-130: memcmp with an empty set *)
Definition sigisemptyset (set : list Z) : bool := forallb (fun w => w =? 0) set.

(** cpuset.cpp:12-16: the conversion of num_cpus to size_t; for num_cpus >= 0 *)
Definition cpu_alloc_size (num_cpus : Z) : Z := 8 * (num_cpus / 64 + (num_cpus mod 64 + 64 - 1) / 64).
(** cpuset.cpp:6-8: calloc *)
Definition cpu_alloc (num_cpus : Z) : list Z := repeat 0 (Z.to_nat (cpu_alloc_size num_cpus)).
(** cpuset.cpp:18-20 *)
Definition cpu_zero (set : list Z) : list Z := repeat 0 (length set).
(** cpuset.cpp:22-67; the quotient of a negative int is negative: a negative index, or the first byte for -7..-1 with a negative shift,
    which is undefined.  setsize * 8 is assumed to fit an int *)
Definition cpu_set (cpu : Z) (set : list Z) : res (list Z) :=
  if 8 * Z.of_nat (length set) <=? cpu then Ok set
  else if cpu <? 0 then UB
  else let off := Z.to_nat (cpu / 8) in Ok (set_nth set off ((Z.lor (nth off set 0) (Z.shiftl 1 (cpu mod 8))) mod 256)).
Definition cpu_clear (cpu : Z) (set : list Z) : res (list Z) :=
  if 8 * Z.of_nat (length set) <=? cpu then Ok set
  else if cpu <? 0 then UB
  else let off := Z.to_nat (cpu / 8) in Ok (set_nth set off ((Z.land (nth off set 0) (Z.lnot (Z.shiftl 1 (cpu mod 8)))) mod 256)).
Definition cpu_isset (cpu : Z) (set : list Z) : res Z :=
  if 8 * Z.of_nat (length set) <=? cpu then Ok 0
  else if cpu <? 0 then UB
  else Ok (Z.land (nth (Z.to_nat (cpu / 8)) set 0) (Z.shiftl 1 (cpu mod 8))).
(** cpuset.cpp:69-81 *)
Fixpoint bits (byte : Z) (bit : Z) (n : nat) : Z :=
  match n with O => 0 | S k => (if Z.land (Z.shiftl 1 bit) byte =? 0 then 0 else 1) + bits byte (bit + 1) k end.
Fixpoint cpu_count (set : list Z) : Z := match set with [] => 0 | b :: r => bits b 0 8 + cpu_count r end.
