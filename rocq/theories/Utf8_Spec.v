(** UTF-8 as defined by the Unicode standard (definitions D76, D92, table 3-7) and what a client observes. *)
From Verif Require Import Base.
Open Scope Z_scope.

(** continuation byte *)
Definition isc (b : Z) : Prop := 128 <= b <= 191.

(** first two bytes of a three-byte (four-byte) sequence, table 3-7 *)
Definition pair3 (a b : Z) : Prop :=
  (a = 224 /\ 160 <= b <= 191) \/ (225 <= a <= 236 /\ isc b) \/ (a = 237 /\ 128 <= b <= 159) \/
  (238 <= a <= 239 /\ isc b).
Definition pair4 (a b : Z) : Prop :=
  (a = 240 /\ 144 <= b <= 191) \/ (241 <= a <= 243 /\ isc b) \/ (a = 244 /\ 128 <= b <= 143).

(** [l] is the well-formed UTF-8 sequence of the code point [cp] *)
Definition wf_char (l : list Z) (cp : Z) : Prop :=
  match l with
  | [a] => 0 <= a <= 127 /\ cp = a
  | [a; b] => 194 <= a <= 223 /\ isc b /\ cp = (a - 192) * 64 + (b - 128)
  | [a; b; c] => pair3 a b /\ isc c /\ cp = (a - 224) * 4096 + (b - 128) * 64 + (c - 128)
  | [a; b; c; d] =>
    pair4 a b /\ isc c /\ isc d /\
    cp = (a - 240) * 262144 + (b - 128) * 4096 + (c - 128) * 64 + (d - 128)
  | _ => False
  end.

(** Unicode scalar values, D76 *)
Definition scalar (c : Z) : Prop := 0 <= c <= 1114111 /\ ~ (55296 <= c <= 57343).

(** the number of bytes and the bytes of the encoding of [c], table 3-6 *)
Definition utf8 (c : Z) : list Z :=
  if c <? 128 then [c]
  else if c <? 2048 then [192 + c / 64; 128 + c mod 64]
  else if c <? 65536 then [224 + c / 4096; 128 + c / 64 mod 64; 128 + c mod 64]
  else [240 + c / 262144; 128 + c / 4096 mod 64; 128 + c / 64 mod 64; 128 + c mod 64].

(** [l] is a proper prefix of some well-formed sequence (possibly empty) *)
Definition viable (l : list Z) : Prop := exists r c, r <> [] /\ wf_char (l ++ r) c.

(** no well-formed sequence begins with [l] *)
Definition dead (l : list Z) : Prop := ~ exists r c, wf_char (l ++ r) c.

(** [l] is the concatenation of the sequences of the code points [cs] *)
Inductive decodes : list Z -> list Z -> Prop :=
| dec_nil : decodes [] []
| dec_cons u c l cs : wf_char u c -> decodes l cs -> decodes (u ++ l) (c :: cs).

(** what remains after the last complete character: nothing, an unfinished character, or a byte at which no
    well-formed sequence can continue *)
Inductive ending := Complete | Unfinished | Error.
Definition outcome (l cs : list Z) (e : ending) : Prop :=
  exists a t, l = a ++ t /\ decodes a cs /\
  match e with
  | Complete => t = []
  | Unfinished => t <> [] /\ viable t
  | Error => exists p b r, t = p ++ b :: r /\ viable p /\ dead (p ++ [b])
  end.

(** encoding of a sequence of code points *)
Definition enc (ws : list Z) : list Z := concat (map utf8 ws).
