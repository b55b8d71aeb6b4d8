(** timeradd and timersub are exact, and the sets of descriptors are sets. *)
From Verif Require Import Base Fdset_Model Fdset_Spec Fdset_Proof.
Open Scope Z_scope.

Theorem C113_add : forall a b, normal a -> normal b -> fits (sec a + sec b) -> fits ((micros a + micros b) / 1000000) ->
  exists r, timeradd a b = Ok r /\ micros r = micros a + micros b /\ normal r.
Proof. exact add_ok. Qed.
Print Assumptions C113_add.
Theorem C113_sub : forall a b, normal a -> normal b -> fits (sec a - sec b) -> fits ((micros a - micros b) / 1000000) ->
  exists r, timersub a b = Ok r /\ micros r = micros a - micros b /\ normal r.
Proof. exact sub_ok. Qed.
Print Assumptions C113_sub.
(** what is subtracted can be added again *)
Theorem C113_inverse : forall a b, normal a -> normal b -> fits (sec a - 1) -> fits (sec a) -> fits (sec a - sec b) -> fits ((micros a - micros b) / 1000000) ->
  exists r, timersub a b = Ok r /\ timeradd r b = Ok a.
Proof. exact inverse_ok. Qed.
Print Assumptions C113_inverse.

(** after any calls of FD_ZERO, FD_SET and FD_CLR, FD_ISSET tells the members *)
Theorem C114_members : forall l fd, Forall valid l -> 0 <= fd < 1024 ->
  exists s, calls FD_ZERO l = Ok s /\ (members l fd -> FD_ISSET fd s = Ok 1) /\ (~ members l fd -> FD_ISSET fd s = Ok 0).
Proof. exact members_ok. Qed.
Print Assumptions C114_members.
(** a descriptor that has no place in a set never reaches memory outside of it *)
Theorem C114_range : forall fd s, ~ 0 <= fd < 1024 -> FD_SET fd s = Abort /\ FD_CLR fd s = Abort /\ FD_ISSET fd s = Abort.
Proof. exact range_ok. Qed.
Print Assumptions C114_range.

Example c113_run : timeradd (tv 1 999999) (tv 2 1) = Ok (tv 4 0) /\ timersub (tv 1 0) (tv 2 1) = Ok (tv (-2) 999999).
Proof. split; reflexivity. Qed.
Example c113_normal : normal (tv 1 999999) /\ normal (tv 2 1) /\ fits (1 + 2) /\ fits ((micros (tv 1 999999) + micros (tv 2 1)) / 1000000).
Proof. unfold normal, fits. cbn [usec]. change ((micros (tv 1 999999) + micros (tv 2 1)) / 1000000) with 4. lia. Qed.
Definition some_calls : list op := [Add 63; Add 64; Add 1023; Remove 64; Add 5].
Example c114_valid : Forall valid some_calls.
Proof. repeat constructor; cbn; lia. Qed.
Example c114_run : match calls FD_ZERO some_calls with Ok s => map (fun fd => FD_ISSET fd s) [5; 63; 64; 127; 1023; 0] = [Ok 1; Ok 1; Ok 0; Ok 0; Ok 1; Ok 0] | _ => False end.
Proof. reflexivity. Qed.
