(** Model of mblen, mbtowc and wctomb, options/ansi/generic/stdlib.cpp:434-512, with their static conversion states.  The transcoder is
    that of Utf8_Model.v; the active locale is a UTF-8 one, has_shift_states is false.  The second component of a result: EILSEQ. *)
From Verif Require Import Base Utf8_Model.
Open Scope Z_scope.

(** mblen_state, mbtowc_state and the state of wctomb *)
Record states := { mblen_st : mbstate; mbtowc_st : mbstate; wctomb_st : mbstate }.
Definition states_init : states := {| mblen_st := mb_init; mbtowc_st := mb_init; wctomb_st := mb_init |}.

(** stdlib.cpp:434-455 *)
Definition mblen (fuel : nat) (m : mem) (s : states) (mbs : option Z) (limit : nat) : res (states * (Z * bool)) :=
  match mbs with
  | None => Ok ({| mblen_st := mb_init; mbtowc_st := mbtowc_st s; wctomb_st := wctomb_st s |}, (0, false))
  | Some p =>
      '(e, it, st, _, _) <- decode_wtranscode fuel m p (p + Z.of_nat limit) (upd (fun _ => None) 0 0) 0 1 (mblen_st s) ;;
      let s' := {| mblen_st := st; mbtowc_st := mbtowc_st s; wctomb_st := wctomb_st s |} in
      match e with
      | InExh | OutExh => Ok (s', (it - p, false))
      | NullTerm => Ok (s', (0, false))
      | Illegal | InUnder => Ok (s', (-1, true))
      | OutOver => Abort
      end
  end.

(** stdlib.cpp:457-501; [wc] null decodes into a local object *)
Definition mbtowc (fuel : nat) (m w : mem) (s : states) (wc : option Z) (mb : option Z) (max_size : nat) : res (mem * states * (Z * bool)) :=
  let w0 := match wc with Some _ => w | None => upd (fun _ => None) 0 0 end in
  let wp := match wc with Some p => p | None => 0 end in
  let back (w' : mem) := match wc with Some _ => w' | None => w end in
  match mb with
  | None => Ok (w, {| mblen_st := mb_init; mbtowc_st := mbtowc_st s; wctomb_st := wctomb_st s |}, (0, false))
  | Some p =>
      b <- load m p ;;
      if b =? 0 then w' <- store w0 wp 0 ;; Ok (back w', s, (0, false))
      else if (max_size =? 0)%nat then Ok (w, s, (-1, true))
      else
        '(e, it, st, w', _) <- decode_wtranscode fuel m p (p + Z.of_nat (Nat.min max_size 4)) w0 wp (wp + 1) (mbtowc_st s) ;;
        let s' := {| mblen_st := mblen_st s; mbtowc_st := st; wctomb_st := wctomb_st s |} in
        match e with
        | InUnder | InExh | OutExh | NullTerm => Ok (back w', s', (it - p, false))
        | Illegal => Ok (back w', s', (-1, true))
        | OutOver => Abort
        end
  end.

(** stdlib.cpp:503-512 *)
Definition wctomb (m : mem) (s : states) (p : option Z) (wc : Z) : res (mem * states * (Z * bool)) :=
  match p with
  | None => Ok (m, {| mblen_st := mblen_st s; mbtowc_st := mbtowc_st s; wctomb_st := mb_init |}, (0, false))
  | Some q => '(m', r, st, er) <- wcrtomb m q wc (wctomb_st s) ;; Ok (m', {| mblen_st := mblen_st s; mbtowc_st := mbtowc_st s; wctomb_st := st |}, (r, er))
  end.

(** a call of one of them *)
Inductive call := Mblen (mbs : option Z) (limit : nat) | Mbtowc (wc mb : option Z) (limit : nat) | Wctomb (p : option Z) (wc : Z).
Definition run (fuel : nat) (c : call) (m w : mem) (s : states) : res (mem * mem * states * (Z * bool)) :=
  match c with
  | Mblen mbs n => '(s', r) <- mblen fuel m s mbs n ;; Ok (m, w, s', r)
  | Mbtowc wc mb n => '(w', s', r) <- mbtowc fuel m w s wc mb n ;; Ok (m, w', s', r)
  | Wctomb p c => '(m', s', r) <- wctomb m s p c ;; Ok (m', w, s', r)
  end.
