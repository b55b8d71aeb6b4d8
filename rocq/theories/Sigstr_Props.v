From Coq Require Import String.
From Verif Require Import Base Sigstr_Model Sigstr_Spec Sigstr_Proof.
Open Scope Z_scope.

(** C118: every signal has a name that fits in SIG2STR_MAX characters with its terminator and is read back as that signal; other numbers have none *)
Theorem C118_round_trip : forall n, 0 < n < 65 -> exists s, sig2str n = Some s /\ (List.length s < 16)%nat /\ str2sig s = Ok (Some n).
Proof. exact round_ok. Qed.
Theorem C118_no_signal : forall n, n <= 0 \/ 65 <= n -> sig2str n = None.
Proof. exact bad_ok. Qed.
(** whatever the string, what is stored is a signal *)
Theorem C118_range : forall s v, str2sig s = Ok (Some v) -> 0 < v < 65.
Proof. exact range_ok. Qed.
(** numbers of any length: real time signals counted from either end (RTMIN and RTMAX are 35 and 64), and numbered signals *)
Theorem C118_rtmin_partial : forall ds, decimal ds -> value ds <= LONG_MAX - 35 \/ LONG_MAX < value ds -> str2sig (z "RTMIN+" ++ ds) = Ok (if value ds <? 29 then Some (35 + value ds) else None).
Proof. exact rtmin_ok. Qed.
Theorem C118_rtmax : forall ds, decimal ds -> str2sig (z "RTMAX-" ++ ds) = Ok (if value ds <? 29 then Some (64 - value ds) else None).
Proof. exact rtmax_ok. Qed.
Theorem C118_numbered : forall ds, decimal ds -> str2sig (z "SIG#" ++ ds) = Ok (if (0 <? value ds) && (value ds <? 65) then Some (value ds) else None).
Proof. exact signum_ok. Qed.
(** the behaviour is defined for every string that does not begin with RTMIN+ ... *)
Theorem C118_defined_partial : forall s, ~ (exists t, s = z "RTMIN+" ++ t) -> exists r, str2sig s = Ok r.
Proof. exact safe_ok. Qed.
(** ... but an offset next to the largest long makes the addition of SIGRTMIN overflow *)
Theorem C118_defined_refuted : str2sig (z "RTMIN+9223372036854775807") = UB.
Proof. vm_compute. reflexivity. Qed.
(** a plain decimal number, which POSIX wants accepted, is refused, whatever the number *)
Theorem C118_decimal_refuted : forall ds, decimal ds -> str2sig ds = Ok None.
Proof. exact plain_ok. Qed.

Example C118_nonvacuous : sig2str 40 = Some (z "RTMIN+5") /\ sig2str 34 = Some (z "SIG#34") /\ str2sig (z "RTMAX-007") = Ok (Some 57) /\ str2sig (z "TERM") = Ok (Some 15) /\ decimal (z "007").
Proof. repeat split; try (vm_compute; reflexivity); [discriminate|repeat constructor; discriminate]. Qed.

Print Assumptions C118_round_trip.
Print Assumptions C118_no_signal.
Print Assumptions C118_range.
Print Assumptions C118_rtmin_partial.
Print Assumptions C118_rtmax.
Print Assumptions C118_numbered.
Print Assumptions C118_defined_partial.
Print Assumptions C118_defined_refuted.
Print Assumptions C118_decimal_refuted.
