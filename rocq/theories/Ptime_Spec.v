(** What POSIX says strptime reads and stores. *)
From Verif Require Import Base Time_Model.
Open Scope Z_scope.

(** ** Texts *)
Definition space (c : Z) : Prop := c = 32 \/ 9 <= c <= 13.
Definition numeral (c : Z) : Prop := 48 <= c <= 57.
Definition letter (c : Z) : Prop := 65 <= c <= 90 \/ 97 <= c <= 122.
(** the text is at its end or goes on with a character that is not one of [P] *)
Definition no_more (P : Z -> Prop) (l : list Z) : Prop := match l with [] => True | c :: _ => ~ P c end.
(** the number a text of digits stands for *)
Definition value (s : list Z) : Z := fold_left (fun a c => 10 * a + (c - 48)) s 0.
(** up to [w] characters: white space and the digits of [v]; then something that is not a digit *)
Definition reads_number (w : nat) (inp rest : list Z) (v : Z) : Prop := exists ws ds,
  inp = ws ++ ds ++ rest /\ Forall space ws /\ ds <> [] /\ Forall numeral ds /\ no_more numeral rest /\ (length ws + length ds <= w)%nat /\ v = value ds.
(** equal but for the case of ASCII letters *)
Definition lower_case (c : Z) : Z := if (65 <=? c) && (c <=? 90) then c + 32 else c.
Definition same_text (a b : list Z) : Prop := map lower_case a = map lower_case b.

Definition days : list (list Z) :=
  [[83;117;110;100;97;121]; [77;111;110;100;97;121]; [84;117;101;115;100;97;121]; [87;101;100;110;101;115;100;97;121];
   [84;104;117;114;115;100;97;121]; [70;114;105;100;97;121]; [83;97;116;117;114;100;97;121]].
Definition months : list (list Z) :=
  [[74;97;110;117;97;114;121]; [70;101;98;114;117;97;114;121]; [77;97;114;99;104]; [65;112;114;105;108]; [77;97;121]; [74;117;110;101];
   [74;117;108;121]; [65;117;103;117;115;116]; [83;101;112;116;101;109;98;101;114]; [79;99;116;111;98;101;114];
   [78;111;118;101;109;98;101;114]; [68;101;99;101;109;98;101;114]].
(** the name with index [i], in full, or its first three letters if no further letter follows *)
Definition reads_name (names : list (list Z)) (inp rest : list Z) (i : Z) : Prop := exists s n,
  inp = s ++ rest /\ 0 <= i /\ nth_error names (Z.to_nat i) = Some n /\ (same_text s n \/ same_text s (firstn 3 n) /\ no_more letter rest).

(** ** What a conversion stores: the members of struct tm, in their encoding there *)
Inductive assign :=
| Sec (v : Z) | Minute (v : Z) | Hour (v : Z) | Am | Pm | Mday (v : Z) | Mon (v : Z) | Wday (v : Z) | Yday (v : Z)
| Year (v : Z) | Year2 (v : Z) | Century (v : Z).    (** the whole year, its last two digits, the others *)

(** [simple d inp rest a]: the conversion %d reads [inp] up to [rest] and stores [a] *)
Inductive simple : Z -> list Z -> list Z -> list assign -> Prop :=
| s_percent r : simple 37 (37 :: r) r []                                                                         (** %% *)
| s_day d inp rest i : In d [97; 65] -> reads_name days inp rest i -> simple d inp rest [Wday i]                  (** %a %A *)
| s_month d inp rest i : In d [98; 66; 104] -> reads_name months inp rest i -> simple d inp rest [Mon i]          (** %b %B %h *)
| s_century inp rest v : reads_number 2 inp rest v -> simple 67 inp rest [Century v]                              (** %C *)
| s_mday d inp rest v : In d [100; 101] -> reads_number 2 inp rest v -> 1 <= v <= 31 -> simple d inp rest [Mday v]  (** %d %e *)
| s_hour inp rest v : reads_number 2 inp rest v -> 0 <= v <= 23 -> simple 72 inp rest [Hour v]                    (** %H *)
| s_hour12 inp rest v : reads_number 2 inp rest v -> 1 <= v <= 12 -> simple 73 inp rest [Hour v]                  (** %I *)
| s_yday inp rest v : reads_number 2 inp rest v -> 1 <= v <= 366 -> simple 106 inp rest [Yday (v - 1)]            (** %j *)
| s_mon inp rest v : reads_number 2 inp rest v -> 1 <= v <= 12 -> simple 109 inp rest [Mon (v - 1)]               (** %m *)
| s_min inp rest v : reads_number 2 inp rest v -> 0 <= v <= 59 -> simple 77 inp rest [Minute v]                   (** %M *)
| s_white d ws rest : In d [110; 116] -> Forall space ws -> ws <> [] -> no_more space rest -> simple d (ws ++ rest) rest []  (** %n %t *)
| s_am s rest : same_text s [65; 77] -> simple 112 (s ++ rest) rest [Am]                                          (** %p *)
| s_pm s rest : same_text s [80; 77] -> simple 112 (s ++ rest) rest [Pm]
| s_sec inp rest v : reads_number 2 inp rest v -> 0 <= v <= 60 -> simple 83 inp rest [Sec v]                      (** %S *)
| s_wday inp rest v : reads_number 1 inp rest v -> 0 <= v <= 6 -> simple 119 inp rest [Wday v]                    (** %w *)
| s_year2 inp rest v : reads_number 2 inp rest v -> simple 121 inp rest [Year2 v]                                 (** %y *)
| s_year inp rest v : reads_number 4 inp rest v -> simple 89 inp rest [Year v].                                   (** %Y *)

(** [reads F f inp rest as]: the format [f] reads [inp] up to [rest] and stores [as], if [F] says so for the conversions *)
Inductive reads (F : Z -> list Z -> list Z -> list assign -> Prop) : list Z -> list Z -> list Z -> list assign -> Prop :=
| r_end inp : reads F [] inp inp []
| r_space c f ws inp rest s : space c -> Forall space ws -> no_more space inp -> reads F f inp rest s -> reads F (c :: f) (ws ++ inp) rest s
| r_char c f inp rest s : c <> 37 -> ~ space c -> reads F f inp rest s -> reads F (c :: f) (c :: inp) rest s
| r_conv d f inp mid rest s1 s2 : F d inp mid s1 -> reads F f mid rest s2 -> reads F (37 :: d :: f) inp rest (s1 ++ s2).

(** %D is %m/%d/%y, %r is %I:%M:%S %p, %R is %H:%M, %T is %H:%M:%S, %F is %Y-%m-%d *)
Definition composites : list (Z * list Z) :=
  [(68, [37;109;47;37;100;47;37;121]); (114, [37;73;58;37;77;58;37;83;32;37;112]); (82, [37;72;58;37;77]);
   (84, [37;72;58;37;77;58;37;83]); (70, [37;89;45;37;109;45;37;100])].
Inductive conv : Z -> list Z -> list Z -> list assign -> Prop :=
| c_simple d inp rest s : simple d inp rest s -> conv d inp rest s
| c_composite d f ws inp rest s : In (d, f) composites -> Forall space ws -> inp <> [] -> no_more space inp -> reads simple f inp rest s -> conv d (ws ++ inp) rest s.

(** ** The result *)
(** members that are stored as they are, one after the other; %p adjusts the hour read before *)
Definition store1 (t : tm) (a : assign) : tm :=
  match a with
  | Sec v => {| tm_sec := v; tm_min := tm_min t; tm_hour := tm_hour t; tm_mday := tm_mday t; tm_mon := tm_mon t; tm_year := tm_year t; tm_wday := tm_wday t; tm_yday := tm_yday t |}
  | Minute v => {| tm_sec := tm_sec t; tm_min := v; tm_hour := tm_hour t; tm_mday := tm_mday t; tm_mon := tm_mon t; tm_year := tm_year t; tm_wday := tm_wday t; tm_yday := tm_yday t |}
  | Hour v => {| tm_sec := tm_sec t; tm_min := tm_min t; tm_hour := v; tm_mday := tm_mday t; tm_mon := tm_mon t; tm_year := tm_year t; tm_wday := tm_wday t; tm_yday := tm_yday t |}
  | Am => {| tm_sec := tm_sec t; tm_min := tm_min t; tm_hour := tm_hour t mod 12; tm_mday := tm_mday t; tm_mon := tm_mon t; tm_year := tm_year t; tm_wday := tm_wday t; tm_yday := tm_yday t |}
  | Pm => {| tm_sec := tm_sec t; tm_min := tm_min t; tm_hour := tm_hour t mod 12 + 12; tm_mday := tm_mday t; tm_mon := tm_mon t; tm_year := tm_year t; tm_wday := tm_wday t; tm_yday := tm_yday t |}
  | Mday v => {| tm_sec := tm_sec t; tm_min := tm_min t; tm_hour := tm_hour t; tm_mday := v; tm_mon := tm_mon t; tm_year := tm_year t; tm_wday := tm_wday t; tm_yday := tm_yday t |}
  | Mon v => {| tm_sec := tm_sec t; tm_min := tm_min t; tm_hour := tm_hour t; tm_mday := tm_mday t; tm_mon := v; tm_year := tm_year t; tm_wday := tm_wday t; tm_yday := tm_yday t |}
  | Wday v => {| tm_sec := tm_sec t; tm_min := tm_min t; tm_hour := tm_hour t; tm_mday := tm_mday t; tm_mon := tm_mon t; tm_year := tm_year t; tm_wday := v; tm_yday := tm_yday t |}
  | Yday v => {| tm_sec := tm_sec t; tm_min := tm_min t; tm_hour := tm_hour t; tm_mday := tm_mday t; tm_mon := tm_mon t; tm_year := tm_year t; tm_wday := tm_wday t; tm_yday := v |}
  | Year _ | Year2 _ | Century _ => t
  end.
Definition stored (t : tm) (s : list assign) : tm := fold_left store1 s t.

Definition is_year (a : assign) : bool := match a with Year _ | Year2 _ | Century _ => true | _ => false end.
Definition is_mon (a : assign) : bool := match a with Mon _ => true | _ => false end.
Definition is_mday (a : assign) : bool := match a with Mday _ => true | _ => false end.
Definition is_wday (a : assign) : bool := match a with Wday _ => true | _ => false end.
Definition is_yday (a : assign) : bool := match a with Yday _ => true | _ => false end.
(** the year that results: years 69 to 99 are 1969 to 1999, years 00 to 68 are 2000 to 2068, if there is no century *)
Inductive year_of : list assign -> Z -> Prop :=
| y_whole v : year_of [Year v] v
| y_two v : v < 69 -> year_of [Year2 v] (2000 + v)
| y_two_old v : 69 <= v -> year_of [Year2 v] (1900 + v)
| y_century c v : year_of [Century c; Year2 v] (100 * c + v)
| y_century_last c v : year_of [Year2 v; Century c] (100 * c + v)
| y_century_only c : year_of [Century c] (100 * c).

(** ** Formats that can be read back: %Y %m %d %e %H %M %S %a %A %b %h %B *)
Definition convs : list Z := [89; 109; 100; 101; 72; 77; 83; 97; 65; 98; 104; 66].
(** conversions with a character between them that is no digit and no letter *)
Inductive tidy : list Z -> list Z -> Prop :=
| t_one d : In d convs -> tidy [37; d] [d]
| t_next d c f ds : In d convs -> c <> 37 -> ~ numeral c -> ~ letter c -> tidy f ds -> tidy (37 :: d :: c :: f) (d :: ds).

(** the member of struct tm the conversion is about *)
Definition member (d : Z) (t : tm) : Z :=
  if d =? 89 then tm_year t
  else if (d =? 109) || (d =? 98) || (d =? 104) || (d =? 66) then tm_mon t
  else if (d =? 100) || (d =? 101) then tm_mday t
  else if d =? 72 then tm_hour t
  else if d =? 77 then tm_min t
  else if d =? 83 then tm_sec t
  else tm_wday t.
