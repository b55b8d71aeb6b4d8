(** What ISO C and POSIX say strftime stores. *)
From Verif Require Import Base Time_Model Ftime_Model.
Open Scope Z_scope.

(** a number as two or three digits *)
Definition two (n : Z) : list Z := [48 + n / 10; 48 + n mod 10].
Definition three (n : Z) : list Z := [48 + n / 100; 48 + n / 10 mod 10; 48 + n mod 10].
(** two characters, the first a space if the number has one digit only *)
Definition padded (n : Z) : list Z := [if n <? 10 then 32 else 48 + n / 10; 48 + n mod 10].
(** a number in decimal without leading zeros *)
Definition value (s : list Z) : Z := fold_left (fun a c => 10 * a + (c - 48)) s 0.
Definition plain_number (n : Z) (s : list Z) : Prop :=
  s <> [] /\ Forall (fun c => 48 <= c <= 57) s /\ value s = n /\ (hd 0 s = 48 -> s = [48]).

(** the ranges ISO C gives for the members of struct tm; years 0 to 9999; an offset below 100 hours *)
Definition ftm_ok (x : ftm) : Prop :=
  let t := f_tm x in
  0 <= tm_sec t <= 60 /\ 0 <= tm_min t <= 59 /\ 0 <= tm_hour t <= 23 /\ 1 <= tm_mday t <= 31 /\ 0 <= tm_mon t <= 11 /\
  -1900 <= tm_year t <= 8099 /\ 0 <= tm_wday t <= 6 /\ 0 <= tm_yday t <= 365 /\ -360000 < f_gmtoff x < 360000.

(** the days of the year up to day [yday] that are Sundays, if day [yday] has weekday [wday] *)
Definition sundays (yday wday : Z) : Z :=
  Z.of_nat (length (filter (fun i => (wday - (yday - Z.of_nat i)) mod 7 =? 0) (seq 0 (S (Z.to_nat yday))))).

(** the hour on a 12-hour clock: 12, 1, 2, ..., 11, 12, 1, ..., 11 *)
Definition clock12 (h : Z) : Z := (h + 11) mod 12 + 1.

(** the text of the conversion %d *)
Inductive field (l : locale) (x : ftm) : Z -> list Z -> Prop :=
| f_year s : plain_number (1900 + tm_year (f_tm x)) s -> field l x 89 s                              (** %Y *)
| f_century : field l x 67 (two ((1900 + tm_year (f_tm x)) / 100))                                   (** %C *)
| f_yy : field l x 121 (two ((1900 + tm_year (f_tm x)) mod 100))                                     (** %y *)
| f_month : field l x 109 (two (tm_mon (f_tm x) + 1))                                                (** %m *)
| f_mday : field l x 100 (two (tm_mday (f_tm x)))                                                    (** %d *)
| f_mday_e : field l x 101 (padded (tm_mday (f_tm x)))                                               (** %e *)
| f_yday : field l x 106 (three (tm_yday (f_tm x) + 1))                                              (** %j *)
| f_week : field l x 85 (two (sundays (tm_yday (f_tm x)) (tm_wday (f_tm x))))                        (** %U *)
| f_hour : field l x 72 (two (tm_hour (f_tm x)))                                                     (** %H *)
| f_hour_k : field l x 107 (padded (tm_hour (f_tm x)))                                               (** %k *)
| f_hour12 : field l x 73 (two (clock12 (tm_hour (f_tm x))))                                         (** %I *)
| f_hour12_l : field l x 108 (padded (clock12 (tm_hour (f_tm x))))                                   (** %l *)
| f_minute : field l x 77 (two (tm_min (f_tm x)))                                                    (** %M *)
| f_second : field l x 83 (two (tm_sec (f_tm x)))                                                    (** %S *)
| f_am : tm_hour (f_tm x) < 12 -> field l x 112 (l_am l)                                             (** %p *)
| f_pm : 12 <= tm_hour (f_tm x) -> field l x 112 (l_pm l)
| f_am_lower : tm_hour (f_tm x) < 12 -> field l x 80 (map (l_lower l) (l_am l))                      (** %P *)
| f_pm_lower : 12 <= tm_hour (f_tm x) -> field l x 80 (map (l_lower l) (l_pm l))
| f_abday : field l x 97 (l_abday l (tm_wday (f_tm x)))                                              (** %a *)
| f_day : field l x 65 (l_day l (tm_wday (f_tm x)))                                                  (** %A *)
| f_abmon : field l x 98 (l_abmon l (tm_mon (f_tm x)))                                               (** %b *)
| f_abmon_h : field l x 104 (l_abmon l (tm_mon (f_tm x)))                                            (** %h *)
| f_mon : field l x 66 (l_mon l (tm_mon (f_tm x)))                                                   (** %B *)
| f_east : 0 <= f_gmtoff x -> field l x 122 (43 :: two (f_gmtoff x / 3600) ++ two (f_gmtoff x / 60 mod 60))        (** %z *)
| f_west : f_gmtoff x <= -60 -> field l x 122 (45 :: two (- f_gmtoff x / 3600) ++ two (- f_gmtoff x / 60 mod 60))
| f_zone_name : field l x 90 (f_zone x)                                                              (** %Z *)
| f_percent : field l x 37 [37] | f_newline : field l x 110 [10] | f_tab : field l x 116 [9]
(** %R is %H:%M, %T is %H:%M:%S, %D is %m/%d/%y, %F is %Y-%m-%d, %r is %I:%M:%S %p *)
| f_R a b : field l x 72 a -> field l x 77 b -> field l x 82 (a ++ [58] ++ b)
| f_T a b c : field l x 72 a -> field l x 77 b -> field l x 83 c -> field l x 84 (a ++ [58] ++ b ++ [58] ++ c)
| f_D a b c : field l x 109 a -> field l x 100 b -> field l x 121 c -> field l x 68 (a ++ [47] ++ b ++ [47] ++ c)
| f_F a b c : field l x 89 a -> field l x 109 b -> field l x 100 c -> field l x 70 (a ++ [45] ++ b ++ [45] ++ c)
| f_r a b c d : field l x 73 a -> field l x 77 b -> field l x 83 c -> field l x 112 d -> field l x 114 (a ++ [58] ++ b ++ [58] ++ c ++ [32] ++ d).

(** the text of a format; %O and %E before a conversion that allows them change nothing (the locale has no alternative
    symbols and no era) *)
Inductive formatted (l : locale) (x : ftm) : list Z -> list Z -> Prop :=
| fmt_end : formatted l x [] []
| fmt_char c r o : c <> 37 -> formatted l x r o -> formatted l x (c :: r) (c :: o)
| fmt_field d s r o : field l x d s -> formatted l x r o -> formatted l x (37 :: d :: r) (s ++ o)
| fmt_alt d s r o : In d [66;98;100;101;72;73;109;77;83;85;121] -> field l x d s -> formatted l x r o -> formatted l x (37 :: 79 :: d :: r) (s ++ o)
| fmt_era d s r o : In d [67;121;89] -> field l x d s -> formatted l x r o -> formatted l x (37 :: 69 :: d :: r) (s ++ o).

(** formats in which %O and %E come only before a conversion that allows them *)
Inductive proper (O E : list Z) : list Z -> Prop :=
| p_end : proper O E []
| p_last : proper O E [37]
| p_char c r : c <> 37 -> proper O E r -> proper O E (c :: r)
| p_field d r : d <> 79 -> d <> 69 -> proper O E r -> proper O E (37 :: d :: r)
| p_alt d r : In d O -> proper O E r -> proper O E (37 :: 79 :: d :: r)
| p_era d r : In d E -> proper O E r -> proper O E (37 :: 69 :: d :: r).
