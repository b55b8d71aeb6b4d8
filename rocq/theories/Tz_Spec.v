(** The POSIX format of TZ, and the format of zone files (RFC 8536, version 1 data block). *)
From Verif Require Import Base Time_Spec Tz_Model.
Open Scope Z_scope.

Definition letter (c : Z) : Prop := 65 <= c <= 90 \/ 97 <= c <= 122.
Definition is_dec (c : Z) : Prop := 48 <= c <= 57.
(** the number a string of decimal digits stands for *)
Definition dec (s : list Z) : Z := fold_left (fun a c => 10 * a + (c - 48)) s 0.
Definition num_text (lo hi v : Z) (s : list Z) : Prop := s <> [] /\ Forall is_dec s /\ dec s = v /\ lo <= v <= hi.

(** a zone name: three to max letters, or in angle brackets three to max letters, digits, plus and minus signs *)
Inductive name_text (max : nat) : list Z -> list Z -> Prop :=
| name_plain n : Forall letter n -> (3 <= length n <= max)%nat -> name_text max n n
| name_quoted n : Forall (fun c => letter c \/ is_dec c \/ c = 43 \/ c = 45) n -> (3 <= length n <= max)%nat ->
    name_text max n (60 :: n ++ [62]).

(** hh[:mm[:ss]] *)
Inductive clock_text : Z -> list Z -> Prop :=
| clock_h h s : num_text 0 167 h s -> clock_text (h * 3600) s
| clock_hm h s mi s1 : num_text 0 167 h s -> num_text 0 59 mi s1 -> clock_text (h * 3600 + mi * 60) (s ++ 58 :: s1)
| clock_hms h s mi s1 sec s2 : num_text 0 167 h s -> num_text 0 59 mi s1 -> num_text 0 60 sec s2 ->
    clock_text (h * 3600 + mi * 60 + sec) (s ++ 58 :: s1 ++ 58 :: s2).
(** [+-]hh[:mm[:ss]] *)
Inductive offset_text : Z -> list Z -> Prop :=
| off_plain v s : clock_text v s -> offset_text v s
| off_plus v s : clock_text v s -> offset_text v (43 :: s)
| off_minus v s : clock_text v s -> offset_text (- v) (45 :: s).

(** Jn, n, Mm.n.d *)
Inductive date_text : date_rule -> list Z -> Prop :=
| date_julian d s : num_text 1 365 d s -> date_text (Julian d) (74 :: s)
| date_day d s : num_text 0 365 d s -> date_text (DayOfYear d) s
| date_month m s w s1 d s2 : num_text 1 12 m s -> num_text 1 5 w s1 -> num_text 0 6 d s2 ->
    date_text (MonthWeek m w d) (77 :: s ++ 46 :: s1 ++ 46 :: s2).
(** date[/time]; the default is 02:00:00 *)
Inductive rule_text : rule -> list Z -> Prop :=
| rule_default d s : date_text d s -> rule_text {| r_date := d; r_time := 7200 |} s
| rule_time d s t s1 : date_text d s -> offset_text t s1 -> rule_text {| r_date := d; r_time := t |} (s ++ 47 :: s1).

(** std offset, without summer time; a colon may precede it *)
Inductive std_text (max : nat) (name : list Z) (off : Z) : list Z -> Prop :=
| std_only n o : name_text max name n -> offset_text off o -> std_text max name off (n ++ o)
| std_colon n o : name_text max name n -> offset_text off o -> std_text max name off (58 :: n ++ o).

(** std offset dst [offset] [,rule,rule]; the offset defaults to one hour ahead, the rules to the second Sunday of March and the first of
    November *)
Definition american : rule * rule :=
  ({| r_date := MonthWeek 3 2 0; r_time := 7200 |}, {| r_date := MonthWeek 11 1 0; r_time := 7200 |}).
Inductive dst_text (max : nat) (name : list Z) (stdoff off : Z) (r0 r1 : rule) : list Z -> Prop :=
| dst_text_intro n o rs : name_text max name n -> (o = [] /\ off = stdoff - 3600 \/ offset_text off o) ->
    (rs = [] /\ (r0, r1) = american \/ exists a b, rule_text r0 a /\ rule_text r1 b /\ rs = 44 :: a ++ 44 :: b) ->
    dst_text max name stdoff off r0 r1 (n ++ o ++ rs).

(** [x] is the date and time of day of [l] seconds after the epoch *)
Definition shows (l : Z) (x : Time_Model.tm) : Prop :=
  date (Z.to_nat (l / 86400)) = (Time_Model.tm_year x + 1900, Time_Model.tm_mon x + 1, Time_Model.tm_mday x) /\
  Time_Model.tm_hour x * 3600 + Time_Model.tm_min x * 60 + Time_Model.tm_sec x = l mod 86400 /\
  0 <= Time_Model.tm_sec x < 60 /\ 0 <= Time_Model.tm_min x < 60 /\ 0 <= Time_Model.tm_hour x < 24 /\
  Time_Model.tm_wday x = (4 + l / 86400) mod 7.
Definition weekday_of (n : nat) : Z := (4 + Z.of_nat n) mod 7.

(** ** Zone files *)
Definition big4 (v : Z) : list Z := [v / 16777216 mod 256; v / 65536 mod 256; v / 256 mod 256; v mod 256].
(** a local time type: offset from UTC, summer time or not, index of the abbreviation *)
Definition type_bytes (ty : Z * bool * Z) : list Z := let '(o, d, a) := ty in big4 o ++ [if d then 1 else 0; a].
Record zone := { transitions : list Z; kinds : list Z; types : list (Z * bool * Z); abbrevs : list Z }.
(** magic, version, 15 reserved bytes and six counts *)
Definition zone_file (z : zone) (f : list Z) : Prop :=
  exists version reserved gmtcnt stdcnt leapcnt rest, In version [0; 50; 51] /\ length reserved = 15%nat /\
  f = [84; 90; 105; 102; version] ++ reserved ++ big4 gmtcnt ++ big4 stdcnt ++ big4 leapcnt ++
      big4 (Z.of_nat (length (transitions z))) ++ big4 (Z.of_nat (length (types z))) ++
      big4 (Z.of_nat (length (abbrevs z))) ++
      flat_map big4 (transitions z) ++ kinds z ++ flat_map type_bytes (types z) ++ abbrevs z ++ rest.
Definition in_i32 (v : Z) : Prop := -2147483648 <= v <= 2147483647.
Definition wf_zone (z : zone) : Prop :=
  types z <> [] /\ length (kinds z) = length (transitions z) /\ Forall in_i32 (transitions z) /\
  Forall (fun k => 0 <= k < Z.of_nat (length (types z))) (kinds z) /\
  Forall (fun '(o, _, a) => in_i32 o /\ 0 <= a) (types z) /\
  Z.of_nat (length (transitions z)) < 4294967296 /\ Z.of_nat (length (types z)) < 4294967296.
(** the abbreviation at index [a]: up to the next null byte *)
Definition abbrev (z : zone) (a : Z) (s : list Z) : Prop :=
  exists r, skipn (Z.to_nat a) (abbrevs z) = s ++ 0 :: r /\ Forall (fun c => c <> 0) s.
