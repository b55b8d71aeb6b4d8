(** POSIX drand48(): X(n+1) = (a X(n) + c) mod 2^48 with a = 0x5DEECE66D and c = 0xB. *)
From Coq Require Export QArith.
From Coq Require Import Floats.SpecFloat.
From Verif Require Import Rand48_Model.
Open Scope Z_scope.

Definition next (x : Z) : Z := (25214903917 * x + 11) mod 2 ^ 48.
(** the high-order 32 bits of a 48-bit number, as a signed number *)
Definition signed_high (x : Z) : Z :=
  let h := x / 2 ^ 16 in if h <? 2 ^ 31 then h else h - 2 ^ 32.
(** the number held by an array: element 0 has the low-order bits *)
Definition number (t : triple) : Z := let '(a, b, c) := t in a + b * 2 ^ 16 + c * 2 ^ 32.
(** the value of a double *)
Definition has_value (f : spec_float) (q : Q) : Prop :=
  match f with
  | S754_zero _ => (q == 0)%Q
  | S754_finite s m e => (inject_Z (if s then Zneg m else Zpos m) * (2 # 1) ^ e == q)%Q
  | _ => False
  end.
Definition is_triple (t : triple) : Prop :=
  let '(a, b, c) := t in 0 <= a < 2 ^ 16 /\ 0 <= b < 2 ^ 16 /\ 0 <= c < 2 ^ 16.

(** [world]: the internal X and the X of each array *)
Record world := { x_own : Z; x_of : Z -> Z }.
Definition set_own (w : world) (x : Z) : world := {| x_own := x; x_of := x_of w |}.
Definition set_x (w : world) (a x : Z) : world := {| x_own := x_own w; x_of := fun b => if b =? a then x else x_of w b |}.
(** the effect of a call; a result r/2^48, a number, or the previous X *)
Inductive ideal_result := Fraction (x : Z) | Number (z : Z) | Previous (x : Z) | Nothing.
Definition ideal_step (w : world) (o : op) : world * ideal_result :=
  match o with
  | Drand48 => let x := next (x_own w) in (set_own w x, Fraction x)
  | Mrand48 => let x := next (x_own w) in (set_own w x, Number (signed_high x))
  | Erand48 a => let x := next (x_of w a) in (set_x w a x, Fraction x)
  | Jrand48 a => let x := next (x_of w a) in (set_x w a x, Number (signed_high x))
  | Seed48 t => (set_own w (number t), Previous (x_own w))
  | Srand48 seed => (set_own w ((seed mod 2 ^ 32) * 2 ^ 16 + 13070), Nothing)
  end.
Fixpoint ideal_run (w : world) (os : list op) : world * list ideal_result :=
  match os with
  | [] => (w, [])
  | o :: os' => let (w1, r) := ideal_step w o in let (w2, rs) := ideal_run w1 os' in (w2, r :: rs)
  end.
Definition agrees (r : result) (i : ideal_result) : Prop :=
  match r, i with
  | Double f, Fraction x => has_value f (x # 281474976710656)     (* 2^48 *)
  | Long z, Number z' => z = z'
  | Old t, Previous x => number t = x
  | Void, Nothing => True
  | _, _ => False
  end.
Definition good_call (o : op) : Prop := match o with Seed48 t => is_triple t | _ => True end.
Definition good_mem (mem : Z -> triple) : Prop := forall a, is_triple (mem a).
