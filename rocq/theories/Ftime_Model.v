(** Model of strftime, options/internal/include/mlibc/time.hpp:78-467 (the char version), and asctime_r,
    options/ansi/generic/time.cpp:974-990.
    The format is the list of its characters without the terminating null; dest is memory.  What the locale supplies
    (nl_langinfo_l and tolower_l) is a parameter.  The formatter behind snprintf is not part of the repository: the
    conversions of int, string and character arguments used here give the text ISO C prescribes; snprintf's
    handling of the buffer is that of Snprintf_Model.v. *)
From Verif Require Import Base Time_Model Snprintf_Model.
Open Scope Z_scope.

(** struct tm with tm_gmtoff and tm_zone *)
Record ftm := { f_tm : tm; f_gmtoff : Z; f_zone : list Z }.
(** nl_langinfo_l(ABDAY_1 + i), DAY_1, ABMON_1, MON_1, AM_STR, PM_STR, D_T_FMT, D_FMT, T_FMT and tolower_l *)
Record locale := {
  l_abday : Z -> list Z; l_day : Z -> list Z; l_abmon : Z -> list Z; l_mon : Z -> list Z;
  l_am : list Z; l_pm : list Z; l_dt : list Z; l_d : list Z; l_t : list Z;
  l_lower : Z -> Z }.

(** ISO C 7.21.6.1: the digits of n (of at most [k] + 1 digits) *)
Fixpoint digits (k : nat) (n : Z) : list Z :=
  match k with
  | O => [48 + n]
  | S k' => if n <? 10 then [48 + n] else digits k' (n / 10) ++ [48 + n mod 10]
  end.
(** "%.Nd": at least N digits *)
Definition precd (prec : nat) (n : Z) : list Z :=
  let s := digits 10 (Z.abs n) in
  (if n <? 0 then [45] else []) ++ repeat 48 (prec - length s) ++ s.
(** "%Nd": at least N characters *)
Definition widthd (width : nat) (n : Z) : list Z :=
  let s := precd 1 n in repeat 32 (width - length s) ++ s.
(** "%0Nd" *)
Definition zerod (width : nat) (n : Z) : list Z :=
  let s := digits 10 (Z.abs n) in let g := if n <? 0 then [45] else [] in
  g ++ repeat 48 (width - length g - length s) ++ s.

(** tm_hour on the 12-hour clock, time.hpp:311-315, 331-335, 404-408 *)
Definition hour12 (h : Z) : Z := let h := if h =? 0 then 12 else h in if h >? 12 then h - 12 else h.

(** the text of one conversion, time.hpp:156-452; [None]: %c, %x, %X or a character without a case *)
Definition conversion (l : locale) (x : ftm) (d : Z) : res (option (list Z)) :=
  let t := f_tm x in
  let ret s := Ok (Some s) in
  let half := if tm_hour t <? 12 then l_am l else l_pm l in
  if d =? 89 then y <- i32 (1900 + tm_year t) ;; ret (precd 1 y)
  else if d =? 109 then n <- i32 (tm_mon t + 1) ;; ret (precd 2 n)
  else if d =? 100 then ret (precd 2 (tm_mday t))
  else if d =? 122 then
    let mi := Z.quot (f_gmtoff x) 60 in
    let diff := Z.quot mi 60 * 100 + Z.rem mi 60 in
    ret ((if diff >=? 0 then 43 else 45) :: zerod 4 (Z.abs diff))
  else if d =? 90 then ret (f_zone x)
  else if d =? 72 then ret (precd 2 (tm_hour t))
  else if d =? 77 then ret (precd 2 (tm_min t))
  else if d =? 83 then ret (precd 2 (tm_sec t))
  else if d =? 82 then ret (precd 2 (tm_hour t) ++ [58] ++ precd 2 (tm_min t))
  else if d =? 84 then ret (precd 2 (tm_hour t) ++ [58] ++ precd 2 (tm_min t) ++ [58] ++ precd 2 (tm_sec t))
  else if d =? 70 then
    y <- i32 (1900 + tm_year t) ;; mo <- i32 (tm_mon t + 1) ;;
    ret (precd 1 y ++ [45] ++ precd 2 mo ++ [45] ++ precd 2 (tm_mday t))
  else if d =? 68 then
    mo <- i32 (tm_mon t + 1) ;; y <- i32 (tm_year t + 1900) ;;
    ret (precd 2 mo ++ [47] ++ precd 2 (tm_mday t) ++ [47] ++ precd 2 (Z.rem y 100))
  else if d =? 97 then
    if (tm_wday t <? 0) || (tm_wday t >? 6) then Abort else ret (l_abday l (tm_wday t))
  else if (d =? 98) || (d =? 66) || (d =? 104) then
    if (tm_mon t <? 0) || (tm_mon t >? 11) then Abort
    else ret (if d =? 66 then l_mon l (tm_mon t) else l_abmon l (tm_mon t))
  else if d =? 101 then ret (widthd 2 (tm_mday t))
  else if d =? 108 then ret (widthd 2 (hour12 (tm_hour t)))
  else if d =? 107 then ret (widthd 2 (tm_hour t))
  else if d =? 73 then ret (precd 2 (hour12 (tm_hour t)))
  else if d =? 112 then ret half
  else if d =? 80 then ret (map (l_lower l) half)
  else if d =? 67 then y <- i32 (1900 + tm_year t) ;; ret (precd 2 (Z.quot y 100))
  else if d =? 121 then y <- i32 (1900 + tm_year t) ;; ret (precd 2 (Z.rem y 100))
  else if d =? 106 then n <- i32 (tm_yday t + 1) ;; ret (precd 3 n)
  else if d =? 65 then ret (l_day l (tm_wday t))
  else if d =? 114 then
    ret (precd 2 (hour12 (tm_hour t)) ++ [58] ++ precd 2 (tm_min t) ++ [58] ++ precd 2 (tm_sec t) ++ [32] ++ half)
  else if d =? 37 then ret [37]
  else if d =? 110 then ret [10]
  else if d =? 116 then ret [9]
  else if d =? 85 then n <- i32 (tm_yday t + 7) ;; n <- i32 (n - tm_wday t) ;; ret (zerod 2 (Z.quot n 7))
  else Ok None.

(** the characters behind %O and %E that are accepted, time.hpp:124-126, 141 *)
Definition valid_O : list Z := [66;98;100;101;72;73;109;77;83;117;85;86;119;87;121].
Definition valid_E : list Z := [99;67;120;88;121;89].
Definition mem_z (c : Z) (l : list Z) : bool := existsb (Z.eqb c) l.

(** what the loop does next *)
Inductive step :=
| Next (m : mem) (k : nat)    (** go on with p = dest + k *)
| Return (m : mem) (n : nat).

Section Strftime.
  Variables (l : locale) (x : ftm) (dest : Z) (max : nat).
  (** the recursive call for %c, %x and %X *)
  Variable again : mem -> list Z -> res (mem * nat).

  (** chunk = nprintf(p, space, ...); if(chunk >= space) return 0; p += chunk *)
  Definition put (m : mem) (k : nat) (text : list Z) : res step :=
    '(m1, chunk) <- vsnprintf m (dest + Z.of_nat k) (max - k) (map PChar text) ;;
    if (max - k <=? chunk)%nat then Ok (Return m1 0) else Ok (Next m1 (k + chunk)).
  (** the switch, time.hpp:156-456 *)
  Definition directive (m : mem) (k : nat) (d : Z) : res step :=
    r <- conversion l x d ;;
    match r with
    | Some text => put m k text
    | None =>
      if d =? 99 then '(m1, n) <- again m (l_dt l) ;; Ok (Return m1 n)
      else if d =? 120 then '(m1, n) <- again m (l_d l) ;; Ok (Return m1 n)
      else if d =? 88 then '(m1, n) <- again m (l_t l) ;; Ok (Return m1 n)
      else Abort
    end.
  (** '%' and the character [c] copied as they are, time.hpp:131-137, 146-152 *)
  Definition copy2 (m : mem) (k : nat) (c : Z) : res mem :=
    m1 <- store m (dest + Z.of_nat k) 37 ;; store m1 (dest + Z.of_nat k + 1) c.

  (** the loop, time.hpp:108-459, and the end, 461-466 *)
  Fixpoint loop (m : mem) (k : nat) (fmt : list Z) : res (mem * nat) :=
    match fmt with
    | [] => if (k =? max)%nat then Ok (m, 0%nat) else m1 <- store m (dest + Z.of_nat k) 0 ;; Ok (m1, k)
    | c :: r =>
      if (max <? k)%nat then Abort
      else if negb (c =? 37) then
        if (k =? max)%nat then Ok (m, 0%nat)
        else m1 <- store m (dest + Z.of_nat k) c ;; loop m1 (k + 1) r
      else match r with
           | [] => s <- put m k [37] ;; match s with Next m1 k1 => loop m1 k1 r | Return m1 n => Ok (m1, n) end
           | d :: r1 =>
             if (d =? 79) || (d =? 69) then
               match r1 with
               | [] => m1 <- copy2 m k d ;; loop m1 (k + 2) r1
               | e :: r2 =>
                 if mem_z e (if d =? 79 then valid_O else valid_E) then
                   s <- directive m k e ;; match s with Next m1 k1 => loop m1 k1 r2 | Return m1 n => Ok (m1, n) end
                 else m1 <- copy2 m k d ;; loop m1 (k + 2) r1
               end
             else s <- directive m k d ;; match s with Next m1 k1 => loop m1 k1 r1 | Return m1 n => Ok (m1, n) end
           end
    end.
End Strftime.

(** strftime; [depth] bounds the nesting of %c, %x, %X (a locale whose format contains %c itself recurses for ever) *)
Fixpoint strftime (depth : nat) (l : locale) (m : mem) (dest : Z) (max : nat) (fmt : list Z) (x : ftm) : res (mem * nat) :=
  match depth with
  | O => Fuel
  | S depth' => loop l x dest max (fun m f => strftime depth' l m dest max f x) m 0 fmt
  end.

(** the C locale, options/internal/generic/locale-defaults.cpp:122-164 *)
Definition day_names : list (list Z) :=
  [[83;117;110;100;97;121]; [77;111;110;100;97;121]; [84;117;101;115;100;97;121]; [87;101;100;110;101;115;100;97;121];
   [84;104;117;114;115;100;97;121]; [70;114;105;100;97;121]; [83;97;116;117;114;100;97;121]].
Definition month_names : list (list Z) :=
  [[74;97;110;117;97;114;121]; [70;101;98;114;117;97;114;121]; [77;97;114;99;104]; [65;112;114;105;108]; [77;97;121]; [74;117;110;101];
   [74;117;108;121]; [65;117;103;117;115;116]; [83;101;112;116;101;109;98;101;114]; [79;99;116;111;98;101;114];
   [78;111;118;101;109;98;101;114]; [68;101;99;101;109;98;101;114]].
Definition name_of (ns : list (list Z)) (i : Z) : list Z := nth (Z.to_nat i) ns [].
Definition c_locale : locale := {|
  l_abday := fun i => firstn 3 (name_of day_names i); l_day := name_of day_names;
  l_abmon := fun i => firstn 3 (name_of month_names i); l_mon := name_of month_names;
  l_am := [65;77]; l_pm := [80;77];
  l_dt := [37;97;32;37;98;32;37;101;32;37;72;58;37;77;58;37;83;32;37;89];
  l_d := [37;109;47;37;100;47;37;121]; l_t := [37;72;58;37;77;58;37;83];
  l_lower := fun c => if (65 <=? c) && (c <=? 90) then c + 32 else c |}.

(** asctime_r, options/ansi/generic/time.cpp:974-990: sprintf stores the text and a null, whatever the size of the buffer;
    an index outside the tables of names is [UB] *)
Definition asctime_r (m : mem) (buf : Z) (t : tm) : res mem :=
  if (tm_wday t <? 0) || (tm_wday t >? 6) || (tm_mon t <? 0) || (tm_mon t >? 11) then UB
  else
    y <- i32 (tm_year t + 1900) ;;
    store_list m buf
      (firstn 3 (name_of day_names (tm_wday t)) ++ [32] ++ firstn 3 (name_of month_names (tm_mon t)) ++ widthd 3 (tm_mday t) ++ [32] ++
       precd 2 (tm_hour t) ++ [58] ++ precd 2 (tm_min t) ++ [58] ++ precd 2 (tm_sec t) ++ [32] ++ precd 1 y ++ [10] ++ [0]).
