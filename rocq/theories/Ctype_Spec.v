(** What ISO C (7.4, 7.30) says about the "C" locale: the members of each character class, and the case mappings.
    Independent of any table. *)
From Verif Require Import Base.
From Verif Require Import Ctype_Model.

Open Scope Z_scope.

Definition between (a b c : Z) : Prop := a <= c <= b.

Definition in_class (k : cls) (c : Z) : Prop :=
  let upper := between 65 90 c in        (* 'A' .. 'Z' *)
  let lower := between 97 122 c in       (* 'a' .. 'z' *)
  let digit := between 48 57 c in        (* '0' .. '9' *)
  match k with
  | Upper => upper
  | Lower => lower
  | Alpha => upper \/ lower
  | Digit => digit
  | Alnum => upper \/ lower \/ digit
  | Xdigit => digit \/ between 65 70 c \/ between 97 102 c
  | Space => c = 32 \/ between 9 13 c    (* ' ', \t \n \v \f \r *)
  | Blank => c = 32 \/ c = 9
  | Print => between 32 126 c
  | Graph => between 33 126 c
  | Punct => between 33 126 c /\ ~ (upper \/ lower \/ digit)
  | Cntrl => between 0 31 c \/ c = 127
  end.

(** the names wctype() takes *)
Definition class_name (k : cls) : list Z :=
  match k with
  | Upper => [117; 112; 112; 101; 114]
  | Lower => [108; 111; 119; 101; 114]
  | Alpha => [97; 108; 112; 104; 97]
  | Digit => [100; 105; 103; 105; 116]
  | Xdigit => [120; 100; 105; 103; 105; 116]
  | Space => [115; 112; 97; 99; 101]
  | Print => [112; 114; 105; 110; 116]
  | Graph => [103; 114; 97; 112; 104]
  | Blank => [98; 108; 97; 110; 107]
  | Cntrl => [99; 110; 116; 114; 108]
  | Punct => [112; 117; 110; 99; 116]
  | Alnum => [97; 108; 110; 117; 109]
  end.

(** the lower and upper case of a character in the C locale *)
Definition lower_of (c : Z) : Z := if (65 <=? c) && (c <=? 90) then c + 32 else c.
Definition upper_of (c : Z) : Z := if (97 <=? c) && (c <=? 122) then c - 32 else c.
