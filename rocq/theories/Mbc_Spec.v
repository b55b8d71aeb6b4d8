(** What mblen, mbtowc and wctomb do in a UTF-8 locale: every call is independent of the ones before it. *)
From Verif Require Import Base Str_Spec Utf8_Model Utf8_Spec Mbc_Model.
Open Scope Z_scope.

(** the bytes [l] begin with the character [c] of the bytes [u]; with a byte at which no character can continue *)
Definition begins (l u : list Z) (c : Z) : Prop := wf_char u c /\ exists r, l = u ++ r.
Definition broken (l : list Z) : Prop := exists q b r, l = q ++ b :: r /\ viable q /\ dead (q ++ [b]).
Definition input (m : mem) (p : Z) (l : list Z) : Prop := bytes_at m p l /\ Forall (fun b => 0 <= b < 256) l.

(** the calls whose input is not cut within a character *)
Definition whole (m w : mem) (c : call) : Prop :=
  match c with
  | Mblen (Some p) n => exists l, input m p l /\ length l = n /\ (broken l \/ exists u c, begins l u c)
  | Mbtowc wc (Some p) n => (exists l, input m p l /\ length l = n /\ (broken l \/ exists u c, begins l u c)) /\ match wc with Some q => w q <> None | None => True end
  | Wctomb (Some p) c => 0 <= c /\ mapped m p 4
  | _ => True
  end.
(** what they return and store; [true]: errno is EILSEQ *)
Definition means (m w : mem) (c : call) (m' w' : mem) (r : Z * bool) : Prop :=
  match c with
  | Mblen (Some p) n => m' = m /\ w' = w /\ forall l, input m p l -> length l = n ->
      (forall u c, begins l u c -> r = (if c =? 0 then 0 else Z.of_nat (length u), false)) /\ (broken l -> r = (-1, true))
  | Mbtowc wc (Some p) n => m' = m /\ forall l, input m p l -> length l = n ->
      (forall u c, begins l u c -> r = (if c =? 0 then 0 else Z.of_nat (length u), false) /\ match wc with Some q => written w w' q [c] | None => w' = w end) /\
      (broken l -> r = (-1, true) /\ w' = w)
  | Wctomb (Some p) c => w' = w /\ (if c <=? 1114111 then r = (Z.of_nat (length (utf8 c)), false) /\ written m m' p (utf8 c) else r = (-1, true) /\ m' = m)
  | _ => m' = m /\ w' = w /\ r = (0, false)
  end.

(** the states reached by calls on input that is not cut; the client changes memory as it likes *)
Inductive reached (fuel : nat) : mem -> mem -> states -> Prop :=
| r_init m w : reached fuel m w states_init
| r_client m w s m' w' : reached fuel m w s -> reached fuel m' w' s
| r_call m w s c m' w' s' r : reached fuel m w s -> whole m w c -> run fuel c m w s = Ok (m', w', s', r) -> reached fuel m' w' s'.
