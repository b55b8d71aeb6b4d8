(** C44: the 48-bit generators. *)
From Coq Require Import Floats.SpecFloat.
From Verif Require Import Rand48_Model Rand48_Spec Rand48_Proof.
Open Scope Z_scope.

(** Every history of calls has the results and the effects that POSIX prescribes: the generators
    advance by X' = (0x5DEECE66D X + 0xB) mod 2^48, drand48 and erand48 return exactly X'/2^48, mrand48
    and jrand48 the signed upper 32 bits, seed48 and srand48 set X, and seed48 returns the old X. *)
Theorem C44_history : forall mem os, good_mem mem -> Forall good_call os ->
  let w := {| x_own := 0; x_of := fun a => number (mem a) |} in
  Forall2 agrees (snd (run (start mem) os)) (snd (ideal_run w os)) /\
  number (own (fst (run (start mem) os))) = x_own (fst (ideal_run w os)) /\
  (forall a, number (arrays (fst (run (start mem) os)) a) = x_of (fst (ideal_run w os)) a).
Proof.
  intros mem os M G w. destruct (run_ok os w (start mem)) as [[RO RA _ _] A]; [|exact G|].
  - constructor; cbn; auto. lia.
  - split; [exact A|]. split; [symmetry; exact RO|]. intros a. symmetry. apply RA.
Qed.
(** [k] calls of jrand48 from the same array give the k-th iterates. *)
Theorem C44_iterate : forall mem a k, good_mem mem ->
  exists s, run (start mem) (repeat (Jrand48 a) k) =
    (s, map (fun n => Long (signed_high (Nat.iter (S n) next (number (mem a))))) (seq 0 k)).
Proof.
  intros mem a k M.
  assert (H : forall k w s, rel w s -> exists s', run s (repeat (Jrand48 a) k) =
    (s', map (fun n => Long (signed_high (Nat.iter (S n) next (x_of w a)))) (seq 0 k))).
  { clear. induction k as [|k IH]; intros w s R; [eexists; reflexivity|]. cbn [repeat run].
    destruct (call_ok w s (Jrand48 a) R I) as [R1 A1]. destruct (step s (Jrand48 a)) as [s1 r]. cbn [fst snd ideal_step] in *.
    destruct r; try contradiction. cbn [agrees] in A1. subst z.
    destruct (IH _ _ R1) as (s2 & E2). rewrite E2. exists s2. cbn [seq map Nat.iter nat_rect]. do 2 f_equal. rewrite <- seq_shift, map_map.
    apply map_ext. intros n. do 2 f_equal. cbn [set_x x_of]. rewrite Z.eqb_refl.
    apply (iter_next (S n)). }
  destruct (H k {| x_own := 0; x_of := fun a => number (mem a) |} (start mem)) as (s & E); [constructor; cbn; auto; lia|].
  exists s. exact E.
Qed.

(** Non-vacuity: the values after srand48(0) are those of any other implementation. *)
Example C44_example :
  good_mem (fun _ => (1, 2, 3)) /\
  snd (run (start (fun _ => (1, 2, 3))) [Srand48 0; Mrand48; Mrand48; Seed48 (5, 6, 65535); Mrand48; Jrand48 4]) =
    [Void; Long 733700828; Long (-1074162815); Old (25464, 37761, 49145); Long 1396556078; Long 1898359750].
Proof. split; [intros a; repeat split; lia|vm_compute; reflexivity]. Qed.
(** drand48 after srand48(0): 0.17082803610628972 *)
Example C44_double_example :
  snd (run (start (fun _ => (1, 2, 3))) [Srand48 0; Drand48]) = [Void; Double (S754_finite false 6154728638021760 (-55))].
Proof. vm_compute. reflexivity. Qed.

Print Assumptions C44_history.
Print Assumptions C44_iterate.
