(** Textual forms of addresses. *)
From Verif Require Import Base Strtol_Spec.
Open Scope Z_scope.

(** [t] is the usual text of the number [n]: digits of the base, most significant first, no superfluous zero *)
Definition numeral (base n : Z) (t : list Z) : Prop :=
  t <> [] /\ Forall (fun c => digit_in base c = true /\ ~ (65 <= c <= 90)) t /\ digits_value base t = n /\ (hd 0 t = 48 -> t = [48]).

(** dotted-decimal notation *)
Inductive quad (a b c d : Z) : list Z -> Prop :=
| Quad ta tb tc td : numeral 10 a ta -> numeral 10 b tb -> numeral 10 c tc -> numeral 10 d td ->
    quad a b c d (ta ++ [46] ++ tb ++ [46] ++ tc ++ [46] ++ td).
Definition octet (x : Z) : Prop := 0 <= x <= 255.

(** groups separated by colons *)
Inductive groups : list Z -> list Z -> Prop :=
| GNil : groups [] []
| GOne g t : numeral 16 g t -> groups [g] t
| GCons g t gs ts : numeral 16 g t -> groups gs ts -> gs <> [] -> groups (g :: gs) (t ++ [58] ++ ts).
(** the text of an IPv6 address: all eight groups, or two or more zero groups replaced by "::" *)
Inductive v6text (gs : list Z) : list Z -> Prop :=
| Full t : length gs = 8%nat -> groups gs t -> v6text gs t
| Compressed pre suf z tp ts : gs = pre ++ repeat 0 z ++ suf -> (2 <= z)%nat -> length gs = 8%nat ->
    groups pre tp -> groups suf ts -> v6text gs (tp ++ [58; 58] ++ ts).
Definition group (g : Z) : Prop := 0 <= g <= 65535.

(** a field of a dotted quad as inet_pton(AF_INET) accepts it: one to three digits with a value of at most 255 *)
Definition field_ok (f : list Z) : bool :=
  forallb (fun c => (48 <=? c) && (c <=? 57)) f && (1 <=? length f)%nat && (length f <=? 3)%nat && (digits_value 10 f <=? 255).

(** the recommended (RFC 5952) form: the leftmost longest run of at least two zero groups is the one abbreviated *)
Inductive canonical6 (gs : list Z) : list Z -> Prop :=
| CFull t : length gs = 8%nat -> groups gs t ->
    (forall pre z suf, gs = pre ++ repeat 0 z ++ suf -> (z <= 1)%nat) -> canonical6 gs t
| CCompressed pre suf z tp ts : gs = pre ++ repeat 0 z ++ suf -> (2 <= z)%nat -> length gs = 8%nat -> groups pre tp -> groups suf ts ->
    (forall pre' z' suf', gs = pre' ++ repeat 0 z' ++ suf' -> (2 <= z')%nat -> (z' < z \/ (z' = z /\ length pre <= length pre'))%nat) ->
    canonical6 gs (tp ++ [58; 58] ++ ts).

(** the address is an IPv4-mapped one *)
Definition mapped4 (gs : list Z) : Prop := exists g h, gs = [0; 0; 0; 0; 0; 65535; g; h].

(** a field without dots, and what may follow the last field looked at *)
Definition dotless (f : list Z) : Prop := ~ In 46 f.
Definition ends (rest : list Z) : Prop := rest = [] \/ hd0 rest = 46.


(** decimal parts separated by dots *)
Inductive parts : list Z -> list Z -> Prop :=
| POne n t : numeral 10 n t -> parts [n] t
| PCons n t ns ts : numeral 10 n t -> parts ns ts -> parts (n :: ns) (t ++ [46] ++ ts).


(** the value denoted by one to four parts: the last part fills the remaining octets *)
Definition aton_value (ns : list Z) : option Z :=
  match ns with
  | [a] => if a <=? 4294967295 then Some a else None
  | [a; b] => if (a <=? 255) && (b <=? 16777215) then Some (a * 2 ^ 24 + b) else None
  | [a; b; c] => if (a <=? 255) && (b <=? 255) && (c <=? 65535) then Some (a * 2 ^ 24 + b * 2 ^ 16 + c) else None
  | [a; b; c; d] => if (a <=? 255) && (b <=? 255) && (c <=? 255) && (d <=? 255) then Some (a * 2 ^ 24 + b * 2 ^ 16 + c * 2 ^ 8 + d) else None
  | _ => None
  end.
(** the octets of an address, most significant first *)
Definition be32 (v : Z) : list Z := [v / 2 ^ 24 mod 256; v / 2 ^ 16 mod 256; v / 2 ^ 8 mod 256; v mod 256].
