(** Model of the character classification and case mapping functions: options/ansi/generic/ctype.cpp (isalpha ...
    iscntrl, iswalpha ... iswcntrl, wctype, iswctype, tolower, toupper, towlower, towupper), options/internal/generic/
    ctype.cpp (tolower_l), charset.cpp (the table lookups), charcode.hpp:65-83 (promote) and the tables of the C locale
    in c-locale-defaults.cpp.
    A locale is the data the functions read from it; the C locale is the concrete one of locale-defaults.cpp:43-110.
    wint_t and codepoint are 32-bit unsigned.  Reading a table outside its bounds is [UB].  Little-endian byte order. *)
From Verif Require Import Base.
From Verif Require Utf8_Model.
Open Scope Z_scope.

(** the fields of nl_ctype (locale.hpp:126-178) that are read *)
Record locale := {
  l_ascii : bool;             (** codeset() == "ANSI_X3.4-1968" *)
  l_class : list Z;           (** _NL_CTYPE_CLASS, bytes *)
  l_tolower : list Z;         (** _NL_CTYPE_TOLOWER *)
  l_toupper : list Z;         (** _NL_CTYPE_TOUPPER *)
  l_names : list (list Z);    (** class_names(), split at the null bytes *)
  l_class_off : Z;            (** class_offset() *)
  l_map_off : Z;              (** map_offset() *)
  l_table : Z -> list Z       (** class_table(index), locale.hpp:129-139 *)
}.

(** span operator[] *)
Definition at_ (t : list Z) (i : Z) : res Z :=
  if i <? 0 then UB else match nth_error t (Z.to_nat i) with Some v => Ok v | None => UB end.

(** enum class class_bits, charset.cpp:8-21 *)
Inductive cls := Upper | Lower | Alpha | Digit | Xdigit | Space | Print | Graph | Blank | Cntrl | Punct | Alnum.

Definition cls_no (c : cls) : Z :=
  match c with
  | Upper => 0 | Lower => 1 | Alpha => 2 | Digit => 3 | Xdigit => 4 | Space => 5 | Print => 6 | Graph => 7
  | Blank => 8 | Cntrl => 9 | Punct => 10 | Alnum => 11
  end.

(** ctype_class_bit, charset.cpp:23-31 *)
Definition class_bit (c : cls) : Z :=
  if cls_no c <? 8 then Z.shiftl (Z.shiftl 1 (cls_no c)) 8 else Z.shiftr (Z.shiftl 1 (cls_no c)) 8.

(** wctype_table_lookup, charset.cpp:34-56 *)
Definition wctype_lookup (t : list Z) (wc : Z) : res Z :=
  shift1 <- at_ t 0 ;;
  let index1 := Z.shiftr wc shift1 in
  bound <- at_ t 1 ;;
  if index1 <? bound then
    lookup1 <- at_ t (5 + index1) ;;
    if negb (lookup1 =? 0) then
      shift2 <- at_ t 2 ;;
      mask2 <- at_ t 3 ;;
      let index2 := Z.land (Z.shiftr wc shift2) mask2 in
      lookup2 <- at_ t (lookup1 / 4 + index2) ;;
      if negb (lookup2 =? 0) then
        mask3 <- at_ t 4 ;;
        let index3 := Z.land (Z.shiftr wc 5) mask3 in
        lookup3 <- at_ t (lookup2 / 4 + index3) ;;
        Ok (Z.land (Z.shiftr lookup3 (Z.land wc 31)) 1)
      else Ok 0
    else Ok 0
  else Ok 0.

(** wctrans_table_lookup, charset.cpp:59-80 (wc + lookup3 wraps: lookup3 may be negative) *)
Definition wctrans_lookup (t : list Z) (wc : Z) : res Z :=
  shift1 <- at_ t 0 ;;
  let index1 := Z.shiftr wc shift1 in
  bound <- at_ t 1 ;;
  if index1 <? bound then
    lookup1 <- at_ t (5 + index1) ;;
    if negb (lookup1 =? 0) then
      shift2 <- at_ t 2 ;;
      mask2 <- at_ t 3 ;;
      let index2 := Z.land (Z.shiftr wc shift2) mask2 in
      lookup2 <- at_ t (lookup1 / 4 + index2) ;;
      if negb (lookup2 =? 0) then
        mask3 <- at_ t 4 ;;
        let index3 := Z.land wc mask3 in
        lookup3 <- at_ t (lookup2 / 4 + index3) ;;
        Ok ((wc + lookup3) mod 2 ^ 32)
      else Ok wc
    else Ok wc
  else Ok wc.

(** ctype_class()[i]: the byte span read as uint16_t, locale.hpp:66-71, 141-143 *)
Definition class16 (l : locale) (i : Z) : res Z :=
  a <- at_ (l_class l) (2 * i) ;; b <- at_ (l_class l) (2 * i + 1) ;; Ok (a + 256 * b).

(** ctype_class_check, charset.cpp:82-90 *)
Definition class_check (l : locale) (k : cls) (c : Z) : res Z :=
  if c <=? 127 then v <- class16 l (c + 128) ;; Ok (Z.land v (class_bit k))
  else wctype_lookup (l_table l (l_class_off l + cls_no k)) c.

(** charset::is_alpha ... is_upper, charset.cpp:103-147: conversion to bool *)
Definition is_class (l : locale) (k : cls) (c : Z) : res bool :=
  v <- class_check l k c ;; Ok (negb (v =? 0)).

(** polymorphic_charcode::promote, charcode.hpp:65-83, of the active locale's encoding (charcode.cpp:357-363);
    [uc] is the char converted to unsigned char.  [None]: the result is not input_exhausted.  For the ASCII encoding
    (charcode.cpp:18-26) every unit is its own code point; for UTF-8 the decode loop (charcode.cpp:202-232) reads one
    unit and leaves the code point incomplete or rejects it. *)
Definition promote (ascii : bool) (uc : Z) : option Z :=
  if uc <=? 127 then Some uc
  else if ascii then Some uc
  else match Utf8_Model.dstep Utf8_Model.mb_init uc with
       | None => None
       | Some (pr, cp) => if pr =? 0 then Some cp else None
       end.

(** isalpha, isdigit, ..., iscntrl, ansi/generic/ctype.cpp:13-107; the argument is converted to char *)
Definition isclass (l : locale) (k : cls) (nc : Z) : res bool :=
  match promote (l_ascii l) (nc mod 256) with
  | None => Ok false
  | Some cp => is_class l k cp
  end.

(** isascii, ansi/generic/ctype.cpp:109-115 *)
Definition isascii (l : locale) (nc : Z) : bool :=
  match promote (l_ascii l) (nc mod 256) with
  | None => false
  | Some cp => cp <=? 127
  end.

(** iswalpha, ..., iswcntrl, ansi/generic/ctype.cpp:121-215 (wide_charcode::promote is the identity) *)
Definition iswclass (l : locale) (k : cls) (wc : Z) : res bool := is_class l k wc.

(** charset::wctype, charset.cpp:161-179: the index of the name, 0 if there is none *)
Fixpoint wctype_from (names : list (list Z)) (off i : Z) (name : list Z) : Z :=
  match names with
  | [] => 0
  | n :: ns => if list_eq_dec Z.eq_dec name n then off + i else wctype_from ns off (i + 1) name
  end.
Definition wctype (l : locale) (name : list Z) : Z := wctype_from (l_names l) (l_class_off l) 0 name.

(** charset::iswctype, charset.cpp:186-193 *)
Definition iswctype (l : locale) (wc t : Z) : res bool :=
  if (t =? 0) || (wc =? 4294967295) then Ok false
  else v <- wctype_lookup (l_table l t) wc ;; Ok (negb (v =? 0)).

(** the conversion of a uint32_t to int *)
Definition to_int (v : Z) : Z := if v <? 2 ^ 31 then v else v - 2 ^ 32.

(** tolower, toupper, ansi/generic/ctype.cpp:233-241 *)
Definition tolower (l : locale) (c : Z) : res Z :=
  if (-128 <=? c) && (c <? 256) then v <- at_ (l_tolower l) (c + 128) ;; Ok (to_int v) else Ok c.
Definition toupper (l : locale) (c : Z) : res Z :=
  if (-128 <=? c) && (c <? 256) then v <- at_ (l_toupper l) (c + 128) ;; Ok (to_int v) else Ok c.

(** charset::to_lower, to_upper (charset.cpp:149-159); towlower, towupper, ansi/generic/ctype.cpp:247-261 *)
Definition towlower (l : locale) (wc : Z) : res Z := wctrans_lookup (l_table l (l_map_off l + 1)) wc.
Definition towupper (l : locale) (wc : Z) : res Z := wctrans_lookup (l_table l (l_map_off l)) wc.

(** mlibc::tolower_l, options/internal/generic/ctype.cpp:38-44.  The encoding is the active locale's, the table that of
    the argument. *)
Definition tolower_l (ascii : bool) (l : locale) (nc : Z) : res Z :=
  match promote ascii (nc mod 256) with
  | None => Ok 0
  | Some cp => v <- towlower l cp ;; Ok (to_int v)
  end.

(** cLocaleCtypeClass, c-locale-defaults.cpp:5-70 *)
Definition c_class : list Z :=
  [0; 0; 0; 0; 0; 0; 0; 0; 0; 0; 0; 0; 0; 0; 0; 0; 0; 0; 0; 0; 0; 0; 0; 0; 0; 0; 0; 0; 0; 0; 0; 0; 0; 0; 0; 0; 0; 0;
    0; 0; 0; 0; 0; 0; 0; 0; 0; 0; 0; 0; 0; 0; 0; 0; 0; 0; 0; 0; 0; 0; 0; 0; 0; 0; 0; 0; 0; 0; 0; 0; 0; 0; 0; 0; 0; 0;
    0; 0; 0; 0; 0; 0; 0; 0; 0; 0; 0; 0; 0; 0; 0; 0; 0; 0; 0; 0; 0; 0; 0; 0; 0; 0; 0; 0; 0; 0; 0; 0; 0; 0; 0; 0; 0; 0;
    0; 0; 0; 0; 0; 0; 0; 0; 0; 0; 0; 0; 0; 0; 0; 0; 0; 0; 0; 0; 0; 0; 0; 0; 0; 0; 0; 0; 0; 0; 0; 0; 0; 0; 0; 0; 0; 0;
    0; 0; 0; 0; 0; 0; 0; 0; 0; 0; 0; 0; 0; 0; 0; 0; 0; 0; 0; 0; 0; 0; 0; 0; 0; 0; 0; 0; 0; 0; 0; 0; 0; 0; 0; 0; 0; 0;
    0; 0; 0; 0; 0; 0; 0; 0; 0; 0; 0; 0; 0; 0; 0; 0; 0; 0; 0; 0; 0; 0; 0; 0; 0; 0; 0; 0; 0; 0; 0; 0; 0; 0; 0; 0; 0; 0;
    0; 0; 0; 0; 0; 0; 0; 0; 0; 0; 0; 0; 0; 0; 0; 0; 0; 0; 0; 0; 0; 0; 0; 0; 0; 0; 0; 0; 2; 0; 2; 0; 2; 0; 2; 0; 2; 0;
    2; 0; 2; 0; 2; 0; 2; 0; 3; 32; 2; 32; 2; 32; 2; 32; 2; 32; 2; 0; 2; 0; 2; 0; 2; 0; 2; 0; 2; 0; 2; 0; 2; 0; 2; 0;
    2; 0; 2; 0; 2; 0; 2; 0; 2; 0; 2; 0; 2; 0; 2; 0; 2; 0; 1; 96; 4; 192; 4; 192; 4; 192; 4; 192; 4; 192; 4; 192; 4;
    192; 4; 192; 4; 192; 4; 192; 4; 192; 4; 192; 4; 192; 4; 192; 4; 192; 8; 216; 8; 216; 8; 216; 8; 216; 8; 216; 8;
    216; 8; 216; 8; 216; 8; 216; 8; 216; 4; 192; 4; 192; 4; 192; 4; 192; 4; 192; 4; 192; 4; 192; 8; 213; 8; 213; 8;
    213; 8; 213; 8; 213; 8; 213; 8; 197; 8; 197; 8; 197; 8; 197; 8; 197; 8; 197; 8; 197; 8; 197; 8; 197; 8; 197; 8;
    197; 8; 197; 8; 197; 8; 197; 8; 197; 8; 197; 8; 197; 8; 197; 8; 197; 8; 197; 4; 192; 4; 192; 4; 192; 4; 192; 4;
    192; 4; 192; 8; 214; 8; 214; 8; 214; 8; 214; 8; 214; 8; 214; 8; 198; 8; 198; 8; 198; 8; 198; 8; 198; 8; 198; 8;
    198; 8; 198; 8; 198; 8; 198; 8; 198; 8; 198; 8; 198; 8; 198; 8; 198; 8; 198; 8; 198; 8; 198; 8; 198; 8; 198; 4;
    192; 4; 192; 4; 192; 4; 192; 2; 0; 0; 0; 0; 0; 0; 0; 0; 0; 0; 0; 0; 0; 0; 0; 0; 0; 0; 0; 0; 0; 0; 0; 0; 0; 0; 0;
    0; 0; 0; 0; 0; 0; 0; 0; 0; 0; 0; 0; 0; 0; 0; 0; 0; 0; 0; 0; 0; 0; 0; 0; 0; 0; 0; 0; 0; 0; 0; 0; 0; 0; 0; 0; 0; 0;
    0; 0; 0; 0; 0; 0; 0; 0; 0; 0; 0; 0; 0; 0; 0; 0; 0; 0; 0; 0; 0; 0; 0; 0; 0; 0; 0; 0; 0; 0; 0; 0; 0; 0; 0; 0; 0; 0;
    0; 0; 0; 0; 0; 0; 0; 0; 0; 0; 0; 0; 0; 0; 0; 0; 0; 0; 0; 0; 0; 0; 0; 0; 0; 0; 0; 0; 0; 0; 0; 0; 0; 0; 0; 0; 0; 0;
    0; 0; 0; 0; 0; 0; 0; 0; 0; 0; 0; 0; 0; 0; 0; 0; 0; 0; 0; 0; 0; 0; 0; 0; 0; 0; 0; 0; 0; 0; 0; 0; 0; 0; 0; 0; 0; 0;
    0; 0; 0; 0; 0; 0; 0; 0; 0; 0; 0; 0; 0; 0; 0; 0; 0; 0; 0; 0; 0; 0; 0; 0; 0; 0; 0; 0; 0; 0; 0; 0; 0; 0; 0; 0; 0; 0;
    0; 0; 0; 0; 0; 0; 0; 0; 0; 0; 0; 0; 0; 0; 0; 0; 0; 0; 0; 0; 0; 0; 0; 0; 0; 0; 0; 0; 0; 0; 0; 0; 0; 0; 0; 0; 0; 0;
    0; 0].

(** cLocaleCtypeToUpper, c-locale-defaults.cpp:161-210 *)
Definition c_toupper : list Z :=
  [128; 129; 130; 131; 132; 133; 134; 135; 136; 137; 138; 139; 140; 141; 142; 143; 144; 145; 146; 147; 148; 149;
    150; 151; 152; 153; 154; 155; 156; 157; 158; 159; 160; 161; 162; 163; 164; 165; 166; 167; 168; 169; 170; 171;
    172; 173; 174; 175; 176; 177; 178; 179; 180; 181; 182; 183; 184; 185; 186; 187; 188; 189; 190; 191; 192; 193;
    194; 195; 196; 197; 198; 199; 200; 201; 202; 203; 204; 205; 206; 207; 208; 209; 210; 211; 212; 213; 214; 215;
    216; 217; 218; 219; 220; 221; 222; 223; 224; 225; 226; 227; 228; 229; 230; 231; 232; 233; 234; 235; 236; 237;
    238; 239; 240; 241; 242; 243; 244; 245; 246; 247; 248; 249; 250; 251; 252; 253; 254; 4294967295; 0; 1; 2; 3; 4;
    5; 6; 7; 8; 9; 10; 11; 12; 13; 14; 15; 16; 17; 18; 19; 20; 21; 22; 23; 24; 25; 26; 27; 28; 29; 30; 31; 32; 33;
    34; 35; 36; 37; 38; 39; 40; 41; 42; 43; 44; 45; 46; 47; 48; 49; 50; 51; 52; 53; 54; 55; 56; 57; 58; 59; 60; 61;
    62; 63; 64; 65; 66; 67; 68; 69; 70; 71; 72; 73; 74; 75; 76; 77; 78; 79; 80; 81; 82; 83; 84; 85; 86; 87; 88; 89;
    90; 91; 92; 93; 94; 95; 96; 65; 66; 67; 68; 69; 70; 71; 72; 73; 74; 75; 76; 77; 78; 79; 80; 81; 82; 83; 84; 85;
    86; 87; 88; 89; 90; 123; 124; 125; 126; 127; 128; 129; 130; 131; 132; 133; 134; 135; 136; 137; 138; 139; 140;
    141; 142; 143; 144; 145; 146; 147; 148; 149; 150; 151; 152; 153; 154; 155; 156; 157; 158; 159; 160; 161; 162;
    163; 164; 165; 166; 167; 168; 169; 170; 171; 172; 173; 174; 175; 176; 177; 178; 179; 180; 181; 182; 183; 184;
    185; 186; 187; 188; 189; 190; 191; 192; 193; 194; 195; 196; 197; 198; 199; 200; 201; 202; 203; 204; 205; 206;
    207; 208; 209; 210; 211; 212; 213; 214; 215; 216; 217; 218; 219; 220; 221; 222; 223; 224; 225; 226; 227; 228;
    229; 230; 231; 232; 233; 234; 235; 236; 237; 238; 239; 240; 241; 242; 243; 244; 245; 246; 247; 248; 249; 250;
    251; 252; 253; 254; 255].

(** cLocaleCtypeToLower, c-locale-defaults.cpp:212-261 *)
Definition c_tolower : list Z :=
  [128; 129; 130; 131; 132; 133; 134; 135; 136; 137; 138; 139; 140; 141; 142; 143; 144; 145; 146; 147; 148; 149;
    150; 151; 152; 153; 154; 155; 156; 157; 158; 159; 160; 161; 162; 163; 164; 165; 166; 167; 168; 169; 170; 171;
    172; 173; 174; 175; 176; 177; 178; 179; 180; 181; 182; 183; 184; 185; 186; 187; 188; 189; 190; 191; 192; 193;
    194; 195; 196; 197; 198; 199; 200; 201; 202; 203; 204; 205; 206; 207; 208; 209; 210; 211; 212; 213; 214; 215;
    216; 217; 218; 219; 220; 221; 222; 223; 224; 225; 226; 227; 228; 229; 230; 231; 232; 233; 234; 235; 236; 237;
    238; 239; 240; 241; 242; 243; 244; 245; 246; 247; 248; 249; 250; 251; 252; 253; 254; 4294967295; 0; 1; 2; 3; 4;
    5; 6; 7; 8; 9; 10; 11; 12; 13; 14; 15; 16; 17; 18; 19; 20; 21; 22; 23; 24; 25; 26; 27; 28; 29; 30; 31; 32; 33;
    34; 35; 36; 37; 38; 39; 40; 41; 42; 43; 44; 45; 46; 47; 48; 49; 50; 51; 52; 53; 54; 55; 56; 57; 58; 59; 60; 61;
    62; 63; 64; 97; 98; 99; 100; 101; 102; 103; 104; 105; 106; 107; 108; 109; 110; 111; 112; 113; 114; 115; 116; 117;
    118; 119; 120; 121; 122; 91; 92; 93; 94; 95; 96; 97; 98; 99; 100; 101; 102; 103; 104; 105; 106; 107; 108; 109;
    110; 111; 112; 113; 114; 115; 116; 117; 118; 119; 120; 121; 122; 123; 124; 125; 126; 127; 128; 129; 130; 131;
    132; 133; 134; 135; 136; 137; 138; 139; 140; 141; 142; 143; 144; 145; 146; 147; 148; 149; 150; 151; 152; 153;
    154; 155; 156; 157; 158; 159; 160; 161; 162; 163; 164; 165; 166; 167; 168; 169; 170; 171; 172; 173; 174; 175;
    176; 177; 178; 179; 180; 181; 182; 183; 184; 185; 186; 187; 188; 189; 190; 191; 192; 193; 194; 195; 196; 197;
    198; 199; 200; 201; 202; 203; 204; 205; 206; 207; 208; 209; 210; 211; 212; 213; 214; 215; 216; 217; 218; 219;
    220; 221; 222; 223; 224; 225; 226; 227; 228; 229; 230; 231; 232; 233; 234; 235; 236; 237; 238; 239; 240; 241;
    242; 243; 244; 245; 246; 247; 248; 249; 250; 251; 252; 253; 254; 255].

(** cLocaleClassUpper, c-locale-defaults.cpp:263-268 *)
Definition c_upper_tab : list Z :=
  [7; 1; 6; 1; 1; 24; 0; 32; 134217726; 0].

(** cLocaleClassLower, c-locale-defaults.cpp:270-275 *)
Definition c_lower_tab : list Z :=
  [7; 1; 6; 1; 1; 24; 0; 32; 0; 134217726].

(** cLocaleClassAlpha, c-locale-defaults.cpp:277-282 *)
Definition c_alpha_tab : list Z :=
  [7; 1; 6; 1; 1; 24; 0; 32; 134217726; 134217726].

(** cLocaleClassDigit, c-locale-defaults.cpp:284-289 *)
Definition c_digit_tab : list Z :=
  [6; 1; 6; 0; 1; 24; 28; 0; 67043328].

(** cLocaleClassXdigit, c-locale-defaults.cpp:291-296 *)
Definition c_xdigit_tab : list Z :=
  [7; 1; 7; 0; 3; 24; 28; 0; 67043328; 126; 126].

(** cLocaleClassSpace, c-locale-defaults.cpp:298-303 *)
Definition c_space_tab : list Z :=
  [6; 1; 6; 0; 1; 24; 28; 15872; 1].

(** cLocaleClassPrint, c-locale-defaults.cpp:305-310 *)
Definition c_print_tab : list Z :=
  [7; 1; 7; 0; 3; 24; 28; 0; 4294967295; 4294967295; 2147483647].

(** cLocaleClassGraph, c-locale-defaults.cpp:312-317 *)
Definition c_graph_tab : list Z :=
  [7; 1; 7; 0; 3; 24; 28; 0; 4294967294; 4294967295; 2147483647].

(** cLocaleClassBlank, c-locale-defaults.cpp:319-324 *)
Definition c_blank_tab : list Z :=
  [6; 1; 6; 0; 1; 24; 28; 512; 1].

(** cLocaleClassCntrl, c-locale-defaults.cpp:326-331 *)
Definition c_cntrl_tab : list Z :=
  [7; 1; 7; 0; 3; 24; 28; 4294967295; 0; 0; 2147483648].

(** cLocaleClassPunct, c-locale-defaults.cpp:333-338 *)
Definition c_punct_tab : list Z :=
  [7; 1; 7; 0; 3; 24; 28; 0; 4227923966; 4160749569; 2013265921].

(** cLocaleClassAlnum, c-locale-defaults.cpp:340-345 *)
Definition c_alnum_tab : list Z :=
  [7; 1; 7; 0; 3; 24; 28; 0; 67043328; 134217726; 134217726].

(** cLocaleMapToUpper, c-locale-defaults.cpp:347-359 *)
Definition c_map_upper : list Z :=
  [7; 1; 5; 3; 31; 24; 0; 0; 0; 40; 0; 4294967264; 4294967264; 4294967264; 4294967264; 4294967264; 4294967264;
    4294967264; 4294967264; 4294967264; 4294967264; 4294967264; 4294967264; 4294967264; 4294967264; 4294967264;
    4294967264; 4294967264; 4294967264; 4294967264; 4294967264; 4294967264; 4294967264; 4294967264; 4294967264;
    4294967264; 4294967264; 0; 0; 0; 0; 0].

(** cLocaleMapToLower, c-locale-defaults.cpp:361-373 *)
Definition c_map_lower : list Z :=
  [7; 1; 5; 3; 31; 24; 0; 0; 40; 0; 0; 32; 32; 32; 32; 32; 32; 32; 32; 32; 32; 32; 32; 32; 32; 32; 32; 32; 32; 32;
    32; 32; 32; 32; 32; 32; 32; 0; 0; 0; 0; 0].

(** members 72 to 85 of the C locale's nl_ctype: _NL_CTYPE_EXTRA_MAP_1 .. 14 (nl_item.h:91-104,
    locale-defaults.cpp:96-109); all others are left empty *)
Definition c_table (i : Z) : list Z :=
  if i =? 72 then c_upper_tab else
  if i =? 73 then c_lower_tab else
  if i =? 74 then c_alpha_tab else
  if i =? 75 then c_digit_tab else
  if i =? 76 then c_xdigit_tab else
  if i =? 77 then c_space_tab else
  if i =? 78 then c_print_tab else
  if i =? 79 then c_graph_tab else
  if i =? 80 then c_blank_tab else
  if i =? 81 then c_cntrl_tab else
  if i =? 82 then c_punct_tab else
  if i =? 83 then c_alnum_tab else
  if i =? 84 then c_map_upper else
  if i =? 85 then c_map_lower else
  [].

(** defaultCtypeClassNames, locale-defaults.cpp:5-16 *)
Definition c_names : list (list Z) :=
  [[117; 112; 112; 101; 114];
   [108; 111; 119; 101; 114];
   [97; 108; 112; 104; 97];
   [100; 105; 103; 105; 116];
   [120; 100; 105; 103; 105; 116];
   [115; 112; 97; 99; 101];
   [112; 114; 105; 110; 116];
   [103; 114; 97; 112; 104];
   [98; 108; 97; 110; 107];
   [99; 110; 116; 114; 108];
   [112; 117; 110; 99; 116];
   [97; 108; 110; 117; 109]].

(** nl_ctype::nl_ctype, locale-defaults.cpp:43-110 *)
Definition c_locale : locale :=
  {| l_ascii := true; l_class := c_class; l_tolower := c_tolower; l_toupper := c_toupper; l_names := c_names;
     l_class_off := 72; l_map_off := 84; l_table := c_table |}.
