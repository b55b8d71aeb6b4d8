(** Model of the UTF-8 conversions: options/internal/generic/charcode.cpp (utf8_charcode and
    polymorphic_charcode_adapter), options/ansi/generic/wchar.cpp and stdlib.cpp.
    Byte memory holds char values as 0..255; wide memory has one address per wchar_t element and holds the value
    converted to the 32-bit unsigned [codepoint] type.  A code_seq is a pair of addresses [it], [en]
    (charcode.hpp:37-46); the unbounded sequences of the code have the null pointer as end, modelled by an [en]
    that [it] never reaches.  The active locale is taken to be a UTF-8 one (current_charcode, charcode.cpp:357-363).
    Returned size_t(-1) and size_t(-2) are written -1 and -2; the last component of a result tells whether errno is
    set to EILSEQ. *)
From Verif Require Import Base.
Open Scope Z_scope.

(** enum transcode_status, charcode.hpp:13-35 *)
Inductive status := NullTerm | Illegal | InUnder | OutOver | InExh | OutExh.

(** __mlibc_mbstate, ansi/include/bits/mbstate.h (the unused __shift is left out): (__progress, __cpoint) *)
Definition mbstate : Type := (Z * Z)%type.
Definition mb_init : mbstate := (0, 0).

(** utf8_charcode::decode_state::operator(), charcode.cpp:74-123; [None] is illegal_input *)
Definition dstep (ds : mbstate) (uc : Z) : option mbstate :=
  let '(pr, cp) := ds in
  if pr =? 0 then
    if Z.land uc 128 =? 0 then Some (0, uc)
    else if Z.land uc 224 =? 192 then
      if uc <? 194 then None else Some (1, Z.land uc 31)
    else if Z.land uc 240 =? 224 then Some (2, Z.land uc 15)
    else if Z.land uc 248 =? 240 then
      if 245 <=? uc then None else Some (3, Z.land uc 7)
    else None
  else
    if Z.land uc 192 =? 128 then
      if (pr =? 2) && (cp =? 0) && (uc <? 160) then None
      else if (pr =? 2) && (cp =? 13) && (160 <=? uc) then None
      else if (pr =? 3) && (cp =? 0) && (uc <? 144) then None
      else if (pr =? 3) && (cp =? 4) && (144 <=? uc) then None
      else Some (pr - 1, Z.lor (Z.shiftl cp 6 mod 2^32) (Z.land uc 63))
    else None.

(** the loop of decode_wtranscode, charcode.cpp:239-257, for a UTF-8 decoder.  [wit], [wen]: output sequence.
    Returns the status on early exit ([None] after normal loop exit), the input position, the decoder state, the
    wide memory and the output position. *)
Fixpoint dloop (fuel : nat) (m : mem) (it en : Z) (w : mem) (wit wen : Z) (ds : mbstate)
  : res (option status * Z * mbstate * mem * Z) :=
  match fuel with
  | O => Fuel
  | S f =>
    if (it =? en) || (wit =? wen) then Ok (None, it, ds, w, wit)
    else uc <- load m it ;;
      match dstep ds uc with
      | None => Ok (Some Illegal, it, ds, w, wit)
      | Some ds' =>
        if fst ds' =? 0 then
          if snd ds' =? 0 then Ok (Some NullTerm, it + 1, ds', w, wit)
          else w1 <- store w wit (snd ds') ;; dloop f m (it + 1) en w1 (wit + 1) wen ds'
        else dloop f m (it + 1) en w wit wen ds'
      end
  end.

(** decode_wtranscode, charcode.cpp:233-266: status, nseq.it, *stp, wide memory, wseq.it *)
Definition decode_wtranscode (fuel : nat) (m : mem) (it en : Z) (w : mem) (wit wen : Z) (st : mbstate)
  : res (status * Z * mbstate * mem * Z) :=
  if wit =? wen then Abort
  else
    '(e, it', ds, w', wit') <- dloop fuel m it en w wit wen st ;;
    match e with
    | Some s => Ok (s, it', st, w', wit')
    | None =>
      Ok (if negb (fst ds =? 0) then InUnder else if it' =? en then InExh else OutExh, it', ds, w', wit')
    end.

(** decode_wtranscode_length, charcode.cpp:270-293: status and *n *)
Fixpoint dlen_loop (fuel : nat) (m : mem) (it en : Z) (ds : mbstate) (n : Z) : res (status * Z) :=
  match fuel with
  | O => Fuel
  | S f =>
    if it =? en then Ok (if negb (fst ds =? 0) then InUnder else InExh, n)
    else uc <- load m it ;;
      match dstep ds uc with
      | None => Ok (Illegal, n)
      | Some ds' =>
        if fst ds' =? 0 then
          if snd ds' =? 0 then Ok (NullTerm, n) else dlen_loop f m (it + 1) en ds' (n + 1)
        else dlen_loop f m (it + 1) en ds' n
      end
  end.

(** mbrtowc, charcode.cpp:380-411 (and ansi/generic/wchar.cpp:88-95), with mbs not null.
    [wcp] null decodes into a local object, modelled by a one-element wide memory.
    Result: wide memory, return value, *stp, EILSEQ raised *)
Definition mbrtowc (fuel : nat) (m w : mem) (wcp : option Z) (mbs : Z) (n : nat) (st : mbstate)
  : res (mem * Z * mbstate * bool) :=
  let w0 := match wcp with Some _ => w | None => upd (fun _ => None) 0 0 end in
  let wp := match wcp with Some p => p | None => 0 end in
  '(e, it, st', w', _) <- decode_wtranscode fuel m mbs (mbs + Z.of_nat n) w0 wp (wp + 1) st ;;
  '(wf, r, stf, er) <- match e with
  | InExh | OutExh => Ok (w', it - mbs, st', false)
  | NullTerm => w1 <- store w' wp 0 ;; Ok (w1, 0, mb_init, false)
  | InUnder => Ok (w', -2, st', false)
  | Illegal => Ok (w', -1, st', true)
  | OutOver => Abort
  end ;;
  Ok (match wcp with Some _ => wf | None => w end, r, stf, er).

(** mbrlen, ansi/generic/wchar.cpp:61-86, with mbs not null *)
Definition mbrlen (fuel : nat) (m : mem) (mbs : Z) (n : nat) (st : mbstate) : res (Z * mbstate * bool) :=
  '(e, it, st', _, _) <- decode_wtranscode fuel m mbs (mbs + Z.of_nat n) (upd (fun _ => None) 0 0) 0 1 st ;;
  match e with
  | InExh | OutExh => Ok (it - mbs, st', false)
  | NullTerm => Ok (0, st', false)
  | InUnder => Ok (-2, st', false)
  | Illegal => Ok (-1, st', true)
  | OutOver => Abort
  end.

(** mbstowcs, ansi/generic/stdlib.cpp:514-541.  The end of nseq is nullptr: [en] = 0, never equal to a valid address.
    [wcs] = None: null pointer.  Result: wide memory, return value, EILSEQ *)
Definition mbstowcs (fuel : nat) (m w : mem) (wcs : option Z) (mbs : Z) (limit : nat) : res (mem * Z * bool) :=
  match wcs with
  | None =>
    '(e, n) <- dlen_loop fuel m mbs 0 mb_init 0 ;;
    match e with
    | NullTerm | InExh => Ok (w, n, false)
    | Illegal | InUnder => Ok (w, -1, true)
    | _ => Abort
    end
  | Some p =>
    '(e, _, _, w', wit) <- decode_wtranscode fuel m mbs 0 w p (p + Z.of_nat limit) mb_init ;;
    match e with
    | NullTerm | OutExh =>
      let n := wit - p in
      if n <? Z.of_nat limit then w'' <- store w' (p + n) 0 ;; Ok (w'', n, false) else Ok (w', n, false)
    | InExh => Abort
    | _ => Ok (w', -1, true)
    end
  end.

(** mbsrtowcs, ansi/generic/wchar.cpp:106-144.
    Result: wide memory, return value, new *mbsp (None = null), *stp, EILSEQ *)
Definition mbsrtowcs (fuel : nat) (m w : mem) (wcs : option Z) (mbs : Z) (limit : nat) (st : mbstate)
  : res (mem * Z * option Z * mbstate * bool) :=
  match wcs with
  | None =>
    '(e, n) <- dlen_loop fuel m mbs 0 st 0 ;;
    match e with
    | NullTerm => Ok (w, n, Some mbs, st, false)
    | Illegal | InUnder => Ok (w, -1, Some mbs, st, true)
    | _ => Abort
    end
  | Some p =>
    '(e, it, st', w', wit) <- decode_wtranscode fuel m mbs 0 w p (p + Z.of_nat limit) st ;;
    match e with
    | NullTerm =>
      let n := wit - p in
      w'' <- (if n <? Z.of_nat limit then store w' (p + n) 0 else Ok w') ;; Ok (w'', n, None, mb_init, false)
    | InExh | OutExh => Ok (w', wit - p, Some it, st', false)
    | InUnder | Illegal => Ok (w', -1, Some mbs, st', true)
    | OutOver => Abort
    end
  end.

(** the bytes built by utf8_charcode::encode_state::operator(), charcode.cpp:153-175; [None] is illegal_input.
    static_cast<char> is the value modulo 256 in this representation. *)
Definition cont (v : Z) : Z := Z.lor 128 (Z.land v 63).
Definition enc_bytes (wc : Z) : option (list Z) :=
  if wc <=? 127 then Some [wc mod 256]
  else if wc <=? 2047 then Some [Z.lor 192 (Z.shiftr wc 6) mod 256; cont wc]
  else if wc <=? 65535 then Some [Z.lor 224 (Z.shiftr wc 12) mod 256; cont (Z.shiftr wc 6); cont wc]
  else if wc <=? 1114111 then
    Some [Z.lor 240 (Z.shiftr wc 18) mod 256; cont (Z.shiftr wc 12); cont (Z.shiftr wc 6); cont wc]
  else None.

(** the push helper, charcode.cpp:142-150: memory, nseq.it, success *)
Fixpoint push (m : mem) (it en : Z) (bs : list Z) : res (mem * Z * bool) :=
  match bs with
  | [] => Ok (m, it, true)
  | b :: bs' => if it =? en then Ok (m, it, false)
                else m1 <- store m it b ;; push m1 (it + 1) en bs'
  end.

(** encode_state::operator(), charcode.cpp:135-182 *)
Definition estep (m : mem) (it en : Z) (wc : Z) : res (status * mem * Z) :=
  match enc_bytes wc with
  | None => Ok (Illegal, m, it)
  | Some bs => '(m1, it', ok) <- push m it en bs ;; Ok (if (ok : bool) then InExh else OutOver, m1, it')
  end.

(** encode_wtranscode, charcode.cpp:297-323: status, memory, nseq.it (committed), wseq.it.
    __ensure(!st.__progress) is the first test.  [eit] is encode_nseq.it and [nit] nseq.it; both are equal at
    the loop head, so only one is carried. *)
Fixpoint eloop (fuel : nat) (m : mem) (it en : Z) (w : mem) (wit wen : Z) : res (status * mem * Z * Z) :=
  match fuel with
  | O => Fuel
  | S f =>
    if (it =? en) || (wit =? wen) then Ok (if wit =? wen then InExh else OutExh, m, it, wit)
    else cp <- load w wit ;;
      if cp =? 0 then Ok (NullTerm, m, it, wit)
      else '(e, m1, it') <- estep m it en cp ;;
        match e with
        | InExh => eloop f m1 it' en w (wit + 1) wen
        | _ => Ok (e, m1, it, wit)
        end
  end.
Definition encode_wtranscode (fuel : nat) (m : mem) (it en : Z) (w : mem) (wit wen : Z) (st : mbstate)
  : res (status * mem * Z * Z) :=
  if negb (fst st =? 0) then Abort else eloop fuel m it en w wit wen.

(** encode_wtranscode_length, charcode.cpp:329-350; temp has MB_LEN_MAX = 4 bytes (ansi/include/limits.h:9), which no
    encoding exceeds, so only the number of bytes matters *)
Fixpoint elen_loop (fuel : nat) (w : mem) (wit wen : Z) (n : Z) : res (status * Z) :=
  match fuel with
  | O => Fuel
  | S f =>
    if wit =? wen then Ok (InExh, n)
    else cp <- load w wit ;;
      if cp =? 0 then Ok (NullTerm, n)
      else match enc_bytes cp with
           | None => Ok (Illegal, n)
           | Some bs => elen_loop f w (wit + 1) wen (n + Z.of_nat (length bs))
           end
  end.

(** wcrtomb, charcode.cpp:413-434 (and ansi/generic/wchar.cpp:97-104), mbs not null: memory, return value, *stp, EILSEQ *)
Definition wcrtomb (m : mem) (mbs wc : Z) (st : mbstate) : res (mem * Z * mbstate * bool) :=
  '(e, m1, it, _) <- encode_wtranscode 2 m mbs (mbs + 4) (upd (fun _ => None) 0 wc) 0 1 st ;;
  match e with
  | InExh => Ok (m1, it - mbs, mb_init, false)
  | NullTerm => m2 <- store m1 mbs 0 ;; Ok (m2, 1, mb_init, false)
  | Illegal => Ok (m1, -1, st, true)
  | _ => Abort
  end.

(** wcsrtombs, ansi/generic/wchar.cpp:186-224 (wcstombs, stdlib.cpp:543-546 calls it with its own state):
    memory, return value, new *wcsp, *stp, EILSEQ *)
Definition wcsrtombs (fuel : nat) (m w : mem) (mbs : option Z) (wcs : Z) (limit : nat) (st : mbstate)
  : res (mem * Z * option Z * mbstate * bool) :=
  match mbs with
  | None =>
    if negb (fst st =? 0) then Abort else
    '(e, n) <- elen_loop fuel w wcs 0 0 ;;
    match e with
    | NullTerm => Ok (m, n, Some wcs, st, false)
    | Illegal | InUnder => Ok (m, -1, Some wcs, st, true)
    | _ => Abort
    end
  | Some p =>
    '(e, m1, it, wit) <- encode_wtranscode fuel m p (p + Z.of_nat limit) w wcs 0 st ;;
    match e with
    | NullTerm =>
      let n := it - p in
      m2 <- (if n <? Z.of_nat limit then store m1 (p + n) 0 else Ok m1) ;; Ok (m2, n, None, mb_init, false)
    | InUnder | OutExh => Ok (m1, it - p, Some wit, st, false)
    | Illegal => Ok (m1, -1, Some wcs, st, true)
    | _ => Abort
    end
  end.

(** wcsnrtombs, ansi/generic/wchar.cpp:226-269, with a non-null destination *)
Definition wcsnrtombs (fuel : nat) (m w : mem) (p : Z) (wcs : Z) (wlimit limit : nat) (st : mbstate)
  : res (mem * Z * option Z * mbstate * bool) :=
  '(e, m1, it, wit) <- encode_wtranscode fuel m p (p + Z.of_nat limit) w wcs (wcs + Z.of_nat wlimit) st ;;
  match e with
  | NullTerm =>
    let n := it - p in
    m2 <- (if n <? Z.of_nat limit then store m1 (p + n) 0 else Ok m1) ;; Ok (m2, n, None, mb_init, false)
  | Illegal => Ok (m1, -1, Some wcs, st, true)
  | _ => Ok (m1, it - p, Some wit, st, false)
  end.
