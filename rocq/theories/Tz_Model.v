(** Model of time zones: the TZ variable, DST rules, zone files and localtime_r, options/ansi/generic/time.cpp.
    A pointer into the TZ string is the list of the bytes from there up to and including the terminating null byte;
    reading behind it is [UB].  isalpha and isdigit are those of the C locale (C78).  long and time_t have 64 bits. *)
From Verif Require Import Base Time_Model.
Open Scope Z_scope.

Definition alpha (c : Z) : bool := ((65 <=? c) && (c <=? 90)) || ((97 <=? c) && (c <=? 122)).
Definition digit (c : Z) : bool := (48 <=? c) && (c <=? 57).
Definition peek (s : list Z) : res Z := match s with [] => UB | c :: _ => Ok c end.

(** the loop of getnum, time.cpp:137-144, in an unsigned type of [w] bits *)
Fixpoint getnum_loop (w max : Z) (s : list Z) (num : Z) : res (option (Z * list Z)) :=
  match s with
  | [] => UB
  | c :: s' =>
    let num := (num * 10 + (c - 48)) mod 2 ^ w in
    if num >? max then Ok None
    else c' <- peek s' ;;
         if digit c' then getnum_loop w max s' num else Ok (Some (num, s'))
  end.
(** getnum, time.cpp:132-149; [None]: nullptr *)
Definition getnum (w min max : Z) (s : list Z) : res (option (Z * list Z)) :=
  c <- peek s ;;
  if negb (digit c) then Ok None
  else r <- getnum_loop w max s 0 ;;
       match r with
       | None => Ok None
       | Some (num, s') => if num <? min then Ok None else Ok (Some (num, s'))
       end.

(** a call that may return nullptr *)
Definition andthen {A B} (r : res (option A)) (k : A -> res (option B)) : res (option B) :=
  match r with Ok (Some a) => k a | Ok None => Ok None | UB => UB | Abort => Abort | Fuel => Fuel end.

(** getoffset, time.cpp:154-191 *)
Definition getoffset (s : list Z) : res (option (Z * list Z)) :=
  c <- peek s ;;
  let negative := c =? 45 in
  let s := if (c =? 45) || (c =? 43) then tl s else s in
  andthen (getnum 32 0 167 s) (fun '(h, s) =>
  c <- peek s ;;
  andthen
    (if c =? 58 then
       andthen (getnum 32 0 59 (tl s)) (fun '(mi, s) =>
       c <- peek s ;;
       if c =? 58 then
         andthen (getnum 32 0 60 (tl s)) (fun '(sec, s) => Ok (Some (h * 3600 + mi * 60 + sec, s)))
       else Ok (Some (h * 3600 + mi * 60, s)))
     else Ok (Some (h * 3600, s)))
    (fun '(off, s) => Ok (Some (if negative then - off else off, s)))).

(** struct Rule, time.cpp:193-206 *)
Inductive date_rule :=
| Julian (day : Z)
| DayOfYear (day : Z)
| MonthWeek (month week day : Z).
Record rule := { r_date : date_rule; r_time : Z }.

(** getrule, time.cpp:211-249 *)
Definition getdate (s : list Z) : res (option (date_rule * list Z)) :=
  c <- peek s ;;
  if c =? 74 then andthen (getnum 16 1 365 (tl s)) (fun '(d, s) => Ok (Some (Julian d, s)))
  else if c =? 77 then
    andthen (getnum 8 1 12 (tl s)) (fun '(mo, s) =>
    c <- peek s ;; if negb (c =? 46) then Ok None else
    andthen (getnum 8 1 5 (tl s)) (fun '(wk, s) =>
    c <- peek s ;; if negb (c =? 46) then Ok None else
    andthen (getnum 16 0 6 (tl s)) (fun '(d, s) => Ok (Some (MonthWeek mo wk d, s)))))
  else if digit c then andthen (getnum 16 0 365 s) (fun '(d, s) => Ok (Some (DayOfYear d, s)))
  else Ok None.
Definition getrule (s : list Z) : res (option (rule * list Z)) :=
  andthen (getdate s) (fun '(d, s) =>
  c <- peek s ;;
  if c =? 47 then andthen (getoffset (tl s)) (fun '(t, s) => Ok (Some ({| r_date := d; r_time := t |}, s)))
  else Ok (Some ({| r_date := d; r_time := 7200 |}, s))).

(** the loops that read a zone name, time.cpp:276-305 and 344-374; [None] is the error return; [name] is what has been
    read so far *)
Fixpoint name_loop (quoted : bool) (max : nat) (s : list Z) (name : list Z) : res (option (list Z * list Z)) :=
  match s with
  | [] => UB
  | c :: s' =>
    if c =? 0 then Ok (Some (name, s))
    else if (max <? length name)%nat then Ok None
    else if alpha c then name_loop quoted max s' (name ++ [c])
    else if quoted && ((c =? 43) || (c =? 45) || digit c) then name_loop quoted max s' (name ++ [c])
    else if (length name <? 3)%nat then Ok None
    else if quoted then (if c =? 62 then Ok (Some (name, s')) else Ok None)
    else Ok (Some (name, s))
  end.
(** the optional opening bracket, time.cpp:269-273, 338-342 *)
Definition getname (max : nat) (s : list Z) : res (option (list Z * list Z)) :=
  c <- peek s ;;
  if c =? 60 then name_loop true max (tl s) [] else name_loop false max s [].

(** the memcpy of the name and its terminator into a buffer of max + 1 bytes, time.cpp:314-315, 326-327, 377-378 *)
Definition put_name (max : nat) (name : list Z) : res (list Z) :=
  if (length name + 1 <=? max + 1)%nat then Ok name else UB.

(** what tzset leaves in the variables daylight, timezone, tzname, tt_infos[1].tt_gmtoff and rules.  [z_rules]: [None]
    means the type TZFILE.  After an error in the part for summer time the code may leave half of a rule behind; rules
    are not read while daylight is 0, so they are left out then. *)
Record tzstate := {
  z_daylight : bool;
  z_timezone : Z;
  z_std : list Z;
  z_dst : list Z;
  z_dstoff : Z;
  z_rules : option (rule * rule) }.
Definition no_rules : option (rule * rule) := None.

(** TZ_DEFAULT_RULE_STRING, time.cpp:33: ",M3.2.0,M11.1.0" *)
Definition default_rules : list Z := [44; 77; 51; 46; 50; 46; 48; 44; 77; 49; 49; 46; 49; 46; 48; 0].

(** the part of parse_tz behind the alternate offset, time.cpp:388-415 *)
Definition parse_rules (s : list Z) : res (option (rule * rule)) :=
  c <- peek s ;;
  let s := if c =? 0 then default_rules else s in
  c <- peek s ;;
  if negb (c =? 44) then Ok None else
  andthen (getrule (tl s)) (fun '(r0, s) =>
  c <- peek s ;; if negb (c =? 44) then Ok None else
  andthen (getrule (tl s)) (fun '(r1, s) =>
  c <- peek s ;; if negb (c =? 0) then Ok None else Ok (Some (r0, r1)))).

(** parse_tz, time.cpp:261-416; [None]: it returned true. *)
Definition parse_tz (s : list Z) (max : nat) : res (option tzstate) :=
  c <- peek s ;;
  let s := if c =? 58 then tl s else s in
  andthen (getname max s) (fun '(name, s) =>
  andthen (getoffset s) (fun '(off, s) =>
  n0 <- put_name max name ;;
  c <- peek s ;;
  if c =? 0 then
    n1 <- put_name max name ;;
    Ok (Some {| z_daylight := false; z_timezone := off; z_std := n0; z_dst := n1; z_dstoff := 0; z_rules := no_rules |})
  else
    let stop n1 := Ok (Some {| z_daylight := false; z_timezone := off; z_std := n0; z_dst := n1; z_dstoff := 0; z_rules := no_rules |}) in
    r <- getname max s ;;
    match r with
    | None => stop []
    | Some (name1, s) =>
      n1 <- put_name max name1 ;;
      c <- peek s ;;
      r <- (if negb (c =? 0) && negb (c =? 44) then getoffset s else Ok (Some (off - 3600, s))) ;;
      match r with
      | None => stop n1
      | Some (off1, s) =>
        r <- parse_rules s ;;
        match r with
        | None => stop n1
        | Some rs => Ok (Some {| z_daylight := true; z_timezone := off; z_std := n0; z_dst := n1; z_dstoff := - off1; z_rules := Some rs |})
        end
      end
    end)).

(** is_leap_year, time.cpp:713-715 *)
Definition is_leap_year (y : Z) : bool := (Z.rem y 4 =? 0) && (negb (Z.rem y 100 =? 0) || (Z.rem y 400 =? 0)).

Definition tm0 (year mon mday yday : Z) : tm :=
  {| tm_sec := 0; tm_min := 0; tm_hour := 0; tm_mday := mday; tm_mon := mon; tm_year := year - 1900; tm_wday := 0; tm_yday := yday |}.

(** time_from_rule, time.cpp:719-765.  mktime is timegm (time.cpp:71-73), which leaves the structure as it is. *)
Definition time_from_rule (r : rule) (year : Z) : res Z :=
  match r_date r with
  | Julian d =>
    let day := if is_leap_year year && (d - 1 >=? 60) then d else d - 1 in
    timegm (tm0 year 0 0 day)
  | DayOfYear d => timegm (tm0 year 0 0 d)
  | MonthWeek mo wk d =>
    let t := tm0 year (mo - 1) 1 0 in
    _ <- timegm t ;;
    let first_wday := tm_wday t in
    let day := 1 + Z.rem (7 + d - first_wday) 7 + (wk - 1) * 7 in
    let t := tm0 year (mo - 1) day 0 in
    _ <- timegm t ;;
    let day := if (wk =? 5) && negb (tm_mon t =? mo - 1) then day - 7 else day in
    timegm (tm0 year (mo - 1) day 0)
  end.

(** is_in_dst, time.cpp:768-788; the transitions are stored in int *)
Definition is_in_dst (r0 r1 : rule) (t : Z) : res bool :=
  '(year, _, _) <- civil_from_days (Z.quot t 86400) ;;
  a <- time_from_rule r0 year ;; let start := to_i32 a in
  b <- time_from_rule r1 year ;; let fin := to_i32 b in
  if start <=? fin then Ok ((start <=? t) && (t <? fin)) else Ok ((start <=? t) || (t <? fin)).

(** ** Zone files.  A file is the list of its bytes, mapped as a whole; reading behind it is [UB]. *)
Definition byte (f : list Z) (i : Z) : res Z :=
  if i <? 0 then UB else match nth_error f (Z.to_nat i) with Some v => Ok v | None => UB end.
Definition be32 (f : list Z) (i : Z) : res Z :=
  a <- byte f i ;; b <- byte f (i + 1) ;; c <- byte f (i + 2) ;; d <- byte f (i + 3) ;;
  Ok (((a * 256 + b) * 256 + c) * 256 + d).
Definition be32s (f : list Z) (i : Z) : res Z := v <- be32 f i ;; Ok (to_i32 v).
Fixpoint cstring (f : list Z) : res (list Z) :=
  match f with [] => UB | c :: f' => if c =? 0 then Ok [] else s <- cstring f' ;; Ok (c :: s) end.

(** the header checks, time.cpp:480-504 and 811-830: tzh_timecnt (offset 32) and tzh_typecnt (36); struct tzfile has 44
    bytes.  [None]: not a valid file *)
Definition tz_header (f : list Z) : res (option (Z * Z)) :=
  m0 <- byte f 0 ;; m1 <- byte f 1 ;; m2 <- byte f 2 ;; m3 <- byte f 3 ;; v <- byte f 4 ;;
  timecnt <- be32 f 32 ;; typecnt <- be32 f 36 ;; _ <- be32 f 40 ;;
  if negb ((m0 =? 84) && (m1 =? 90) && (m2 =? 105) && (m3 =? 102)) then Ok None
  else if negb ((v =? 0) || (v =? 50) || (v =? 51)) then Ok None
  else Ok (Some (timecnt, typecnt)).
(** entry i of the ttinfo table (packed, 6 bytes): tt_gmtoff, tt_isdst, tt_abbrind *)
Definition ttinfo_at (f : list Z) (timecnt i : Z) : res (Z * Z * Z) :=
  let p := 44 + timecnt * 4 + timecnt + i * 6 in
  o <- be32s f p ;; d <- byte f (p + 4) ;; a <- byte f (p + 5) ;; Ok (o, d, a).
Definition abbrev_at (f : list Z) (timecnt typecnt i : Z) : res (list Z) :=
  cstring (skipn (Z.to_nat (44 + timecnt * 4 + timecnt + typecnt * 6 + i)) f).

(** the loop of parse_tzfile, time.cpp:506-535: found_std and found_dst are whether the results are present.
    [i] counts down from typecnt to 1 *)
Fixpoint types_loop (f : list Z) (timecnt typecnt : Z) (i : nat) (tzone : Z) (std dst : option (list Z))
  : res (Z * option (list Z) * option (list Z)) :=
  match i with
  | O => Ok (tzone, std, dst)
  | S i' =>
    '(o, d, a) <- ttinfo_at f timecnt (Z.of_nat i) ;;
    '(tz1, std1) <- (match std with
                     | None => if d =? 0 then s <- abbrev_at f timecnt typecnt a ;; Ok (- o, Some s) else Ok (tzone, None)
                     | Some _ => Ok (tzone, std)
                     end) ;;
    '(tz2, dst1) <- (match dst with
                     | None => if negb (d =? 0) then s <- abbrev_at f timecnt typecnt a ;; Ok (- o, Some s) else Ok (tz1, None)
                     | Some _ => Ok (tz1, dst)
                     end) ;;
    match std1, dst1 with
    | Some _, Some _ => Ok (tz2, std1, dst1)
    | _, _ => types_loop f timecnt typecnt i' tz2 std1 dst1
    end
  end.
(** parse_tzfile, time.cpp:465-541, on the contents of the file; [old] is the state before (its names and timezone stay
    if no entry is found); [None]: it returned true *)
Definition parse_tzfile (f : list Z) (old : tzstate) : res (option tzstate) :=
  h <- tz_header f ;;
  match h with
  | None => Ok None
  | Some (timecnt, typecnt) =>
    if typecnt =? 0 then Ok None
    else
      '(tz, std, dst) <- types_loop f timecnt typecnt (Z.to_nat typecnt) (z_timezone old) None None ;;
      Ok (Some {| z_daylight := match dst with Some _ => true | None => false end; z_timezone := tz;
                  z_std := match std with Some s => s | None => z_std old end;
                  z_dst := match dst with Some s => s | None => z_dst old end;
                  z_dstoff := z_dstoff old; z_rules := None |})
  end.

(** parse_tzfile_path, time.cpp:429-463, with the value of TZDIR; "/etc/localtime" and "/usr/share/zoneinfo" *)
Definition etc_localtime : list Z := [47; 101; 116; 99; 47; 108; 111; 99; 97; 108; 116; 105; 109; 101].
Definition zoneinfo : list Z := [47; 117; 115; 114; 47; 115; 104; 97; 114; 101; 47; 122; 111; 110; 101; 105; 110; 102; 111].
Definition tzfile_path (tzdir : option (list Z)) (tz : list Z) : list Z :=
  let tz := if hd 0 tz =? 58 then tl tz else tz in
  if hd 0 tz =? 47 then tz
  else if hd 0 tz =? 46 then etc_localtime
  else match tzdir with
       | Some d => if hd 0 d =? 47 then d ++ [47] ++ tz else zoneinfo ++ [47] ++ tz
       | None => zoneinfo ++ [47] ++ tz
       end.

(** the environment: TZ, TZDIR and the files (no file: [None]) *)
Record tzenv := { e_tz : option (list Z); e_tzdir : option (list Z); e_file : list Z -> option (list Z) }.
Definition utc0 : list Z := [85; 84; 67; 48].

(** do_tzset, time.cpp:546-583; [max] is tz_name_max.  malloc is assumed to succeed. *)
Definition do_tzset (e : tzenv) (max : nat) (old : tzstate) : res tzstate :=
  let tz := match e_tz e with None => etc_localtime | Some s => match s with [] => utc0 | _ => s end end in
  r <- parse_tz (tz ++ [0]) max ;;
  match r with
  | Some z => Ok z
  | None =>
    r <- (match e_file e (tzfile_path (e_tzdir e) tz) with None => Ok None | Some f => parse_tzfile f old end) ;;
    match r with
    | Some z => Ok z
    | None =>
      r <- parse_tz (utc0 ++ [0]) max ;;
      match r with Some z => Ok z | None => Abort end
    end
  end.

(** the search for the last transition, time.cpp:832-846: index, or -1 *)
Fixpoint transition_loop (f : list Z) (t : Z) (i : Z) (k : nat) : res Z :=
  match k with
  | O => Ok (-1)
  | S k' =>
    ttime <- be32s f (44 + i * 4) ;;
    if negb (i =? 0) && (ttime >? t) then Ok (i - 1) else transition_loop f t (i + 1) k'
  end.
(** unix_local_from_gmt_tzfile, time.cpp:790-876: offset, dst, name; [None]: -1 *)
Definition tzfile_lookup (f : list Z) (t : Z) : res (option (Z * bool * list Z)) :=
  h <- tz_header f ;;
  match h with
  | None => Ok None
  | Some (timecnt, typecnt) =>
    index <- transition_loop f t 0 (Z.to_nat timecnt) ;;
    ty <- (if index >=? 0 then byte f (44 + timecnt * 4 + index) else Ok 0) ;;
    if typecnt =? 0 then Abort
    else '(o, d, a) <- ttinfo_at f timecnt ty ;;
         s <- abbrev_at f timecnt typecnt a ;;
         Ok (Some (o, negb (d =? 0), s))
  end.

(** unix_local_from_gmt, time.cpp:881-902: offset, dst, zone name.  [None]: failure *)
Definition unix_local_from_gmt (e : tzenv) (max : nat) (old : tzstate) (t : Z) : res (option (Z * bool * list Z)) :=
  z <- do_tzset e max old ;;
  let standard := Ok (Some (- z_timezone z, false, z_std z)) in
  if z_daylight z then
    match z_rules z with
    | None =>
      (let tz := match e_tz e with None => etc_localtime | Some s => match s with [] => etc_localtime | _ => s end end in
       match e_file e (tzfile_path (e_tzdir e) tz) with None => Ok None | Some f => tzfile_lookup f t end)
    | Some (r0, r1) =>
      d <- is_in_dst r0 r1 t ;;
      if (d : bool) then Ok (Some (z_dstoff z, true, z_dst z)) else standard
    end
  else standard.

(** localtime_r, time.cpp:935-971: the broken-down time, tm_isdst, tm_gmtoff and tm_zone.  The conversion of the
    shifted time is the text of gmtime_r. *)
Definition localtime_r (e : tzenv) (max : nat) (old : tzstate) (t : Z) : res (tm * bool * Z * list Z) :=
  r <- unix_local_from_gmt e max old t ;;
  match r with
  | None => Abort
  | Some (off, dst, zone) =>
    l <- i64 (t + off) ;;
    x <- gmtime_r l ;;
    Ok (x, dst, off, zone)
  end.
