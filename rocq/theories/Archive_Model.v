(** Model of the reader of locale files: findLocaleRecord and findLocaleArchiveRecord (options/internal/generic/locale.cpp:352-414 and 546-573),
    parseCategoryInfo (:416-434) and the layout and parsers in options/internal/include/mlibc/locale-archive-parsing.hpp.  A file is the list of its
    bytes; a read that is not inside it is undefined behaviour.  Not modelled: how the file is mapped, alignment, parsers other than those of
    strings, and what is stored in the locale object. *)
From Verif Require Import Base.
Open Scope Z_scope.

Definition W32 : Z := 4294967296.
Definition W64 : Z := 18446744073709551616.
Definition size (f : list Z) : Z := Z.of_nat (length f).
Definition byte (f : list Z) (i : Z) : Z := nth (Z.to_nat i) f 0.
(** a uint32_t, little endian *)
Definition rd32 (f : list Z) (o : Z) : res Z :=
  if (0 <=? o) && (o + 4 <=? size f) then Ok (byte f o + 256 * (byte f (o + 1) + 256 * (byte f (o + 2) + 256 * byte f (o + 3)))) else UB.
Definition slice (f : list Z) (o n : Z) : list Z := firstn (Z.to_nat n) (skipn (Z.to_nat o) f).
(** strnlen, and the string it ends *)
Fixpoint cstr (l : list Z) : list Z := match l with [] => [] | c :: r => if c =? 0 then [] else c :: cstr r end.

(** nameHashVal<uint32_t>, locale-archive-parsing.hpp:70-80 *)
Definition rotate (h : Z) : Z := Z.lor (Z.land (Z.shiftl h 9) (W32 - 1)) (Z.shiftr h 23).
Fixpoint hash_go (l : list Z) (h : Z) : Z := match l with [] => h | c :: r => hash_go r ((rotate h + c) mod W32) end.
Definition name_hash (l : list Z) : Z := let h := hash_go l (size l mod W32) in if h =? 0 then W32 - 1 else h.

(** LocaleArchive, locale-archive-parsing.hpp:18-59: sizes of Header and LocaleRecord *)
Definition header_size : Z := 56.
Definition record_size : Z := 108.

(** locale.cpp:384-410: [None] for an empty entry, [Some None] for null_opt *)
Fixpoint probe (fuel : nat) (f : list Z) (tb n : Z) (e : list Z) (h idx incr : Z) : res (option (option Z)) :=
  match fuel with
  | O => Fuel
  | S k =>
      hv <- rd32 f (tb + 12 * idx) ;;
      no <- rd32 f (tb + 12 * idx + 4) ;;
      lo <- rd32 f (tb + 12 * idx + 8) ;;
      if no =? 0 then Ok None
      else if size f <=? no then Ok (Some None)
      else
        let nm := cstr (skipn (Z.to_nat no) f) in
        if (hv =? h) && (if list_eq_dec Z.eq_dec e nm then true else false) then
          if lo =? 0 then Ok (Some None)
          else if (size f - record_size) mod W64 <? lo then Ok (Some None)
          else Ok (Some (Some lo))
        else
          let i := (idx + incr) mod W32 in
          probe k f tb n e h (if n <=? i then i - n else i) incr
  end.
(** :379-411 *)
Fixpoint search (fuel : nat) (f : list Z) (tb n : Z) (l : list (list Z)) : res (option Z) :=
  match l with
  | [] => Ok None
  | e :: r =>
      let h := name_hash e in
      x <- probe fuel f tb n e h (h mod n) (1 + h mod (n - 2)) ;;
      match x with Some o => Ok o | None => search fuel f tb n r end
  end.
(** :352-414; the list of names is the one of Locale_Model.candidates *)
Definition find_record (fuel : nat) (f : list Z) (names : list (list Z)) : res (option Z) :=
  if size f <? header_size then Ok None
  else
    tb <- rd32 f 8 ;;
    n <- rd32 f 16 ;;
    if (n <=? 2) || (size f <? tb) || (size f - tb <? 12 * n) then Ok None
    else search fuel f tb n names.

(** :559-571: the bytes of a category *)
Definition category_bytes (f : list Z) (rec c : Z) : res (option (list Z)) :=
  off <- rd32 f (rec + 4 + 8 * c) ;;
  len <- rd32 f (rec + 4 + 8 * c + 4) ;;
  if (off =? 0) || (len =? 0) then Ok None
  else if (size f <? off) || (size f - off <? len) then Ok None
  else Ok (Some (slice f off len)).
Definition lookup_category (fuel : nat) (f : list Z) (names : list (list Z)) (c : Z) : res (option (list Z)) :=
  r <- find_record fuel f names ;;
  match r with None => Ok None | Some rec => category_bytes f rec c end.

(** categoryMagic, locale-archive-parsing.hpp:82-89 *)
Definition magic (c : Z) : Z := if c =? 3 then Z.lxor 537202708 c else if c =? 0 then Z.lxor 537462560 c else Z.lxor 537071893 c.
(** parseCategoryInfo, locale.cpp:416-434: the number of items *)
Definition elements (c : Z) (r : list Z) : res (option Z) :=
  if size r <? 8 then Ok None
  else
    m <- rd32 r 0 ;;
    if negb (m =? magic c) then Ok None
    else
      n <- rd32 r 4 ;;
      if size r <? 8 + 4 * n then Ok None else Ok (Some n).
(** apply_parsers, locale-archive-parsing.hpp:161-185: item [i] of [n] *)
Definition item (r : list Z) (n i : Z) : res (option (list Z)) :=
  if negb (i <? n) then Ok None
  else
    o <- rd32 r (8 + 4 * i) ;;
    if size r <? o then Ok None
    else
      len <- (if i + 1 =? n then Ok (size r - o) else o' <- rd32 r (8 + 4 * (i + 1)) ;; Ok ((o' - o) mod W32)) ;;
      if size r <? (o + len) mod W64 then Ok None
      else if (o + len <=? size r) then Ok (Some (slice r o len)) else UB.
(** parse_string :92-96 *)
Definition parse_string (d : list Z) : list Z := firstn (Nat.min (length (cstr d) + 1) (length d)) d.
