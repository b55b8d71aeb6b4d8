(** Model of strptime, options/posix/generic/time.cpp:15-508.
    The input and the format are the lists of their characters without the terminating null; input_index and
    format_index are the remaining parts of them.  Both comparisons with the input behind its end are comparisons with
    the null byte and fail.  nl_langinfo and tolower are parameters (Ftime_Model.locale); sscanf is that of Scanf_Model.v. *)
From Verif Require Import Base Time_Model Scanf_Model.
From Verif Require Ftime_Model.
Open Scope Z_scope.

(** the members of *tm that strptime sets, and strptime_internal_state (time.cpp:94-107) *)
Record st := {
  sec : Z; min : Z; hour : Z; mday : Z; mon : Z; year : Z; wday : Z; yday : Z;
  has_century : bool; has_year : bool; has_month : bool; has_mday : bool; has_yday : bool; has_wday : bool;
  full_year : bool; century : Z;
  rest : list Z }.

Definition set_rest (s : st) (r : list Z) : st :=
  {| sec := sec s; min := min s; hour := hour s; mday := mday s; mon := mon s; year := year s; wday := wday s; yday := yday s;
     has_century := has_century s; has_year := has_year s; has_month := has_month s; has_mday := has_mday s; has_yday := has_yday s; has_wday := has_wday s;
     full_year := full_year s; century := century s; rest := r |}.
Definition set_sec (s : st) (v : Z) : st :=
  {| sec := v; min := min s; hour := hour s; mday := mday s; mon := mon s; year := year s; wday := wday s; yday := yday s;
     has_century := has_century s; has_year := has_year s; has_month := has_month s; has_mday := has_mday s; has_yday := has_yday s; has_wday := has_wday s;
     full_year := full_year s; century := century s; rest := rest s |}.
Definition set_min (s : st) (v : Z) : st :=
  {| sec := sec s; min := v; hour := hour s; mday := mday s; mon := mon s; year := year s; wday := wday s; yday := yday s;
     has_century := has_century s; has_year := has_year s; has_month := has_month s; has_mday := has_mday s; has_yday := has_yday s; has_wday := has_wday s;
     full_year := full_year s; century := century s; rest := rest s |}.
Definition set_hour (s : st) (v : Z) : st :=
  {| sec := sec s; min := min s; hour := v; mday := mday s; mon := mon s; year := year s; wday := wday s; yday := yday s;
     has_century := has_century s; has_year := has_year s; has_month := has_month s; has_mday := has_mday s; has_yday := has_yday s; has_wday := has_wday s;
     full_year := full_year s; century := century s; rest := rest s |}.
Definition set_mday (s : st) (v : Z) : st :=
  {| sec := sec s; min := min s; hour := hour s; mday := v; mon := mon s; year := year s; wday := wday s; yday := yday s;
     has_century := has_century s; has_year := has_year s; has_month := has_month s; has_mday := true; has_yday := has_yday s; has_wday := has_wday s;
     full_year := full_year s; century := century s; rest := rest s |}.
Definition set_mon (s : st) (v : Z) : st :=
  {| sec := sec s; min := min s; hour := hour s; mday := mday s; mon := v; year := year s; wday := wday s; yday := yday s;
     has_century := has_century s; has_year := has_year s; has_month := true; has_mday := has_mday s; has_yday := has_yday s; has_wday := has_wday s;
     full_year := full_year s; century := century s; rest := rest s |}.
Definition set_yday (s : st) (v : Z) : st :=
  {| sec := sec s; min := min s; hour := hour s; mday := mday s; mon := mon s; year := year s; wday := wday s; yday := v;
     has_century := has_century s; has_year := has_year s; has_month := has_month s; has_mday := has_mday s; has_yday := true; has_wday := has_wday s;
     full_year := full_year s; century := century s; rest := rest s |}.
Definition set_wday (s : st) (v : Z) (flag : bool) : st :=
  {| sec := sec s; min := min s; hour := hour s; mday := mday s; mon := mon s; year := year s; wday := v; yday := yday s;
     has_century := has_century s; has_year := has_year s; has_month := has_month s; has_mday := has_mday s; has_yday := has_yday s; has_wday := flag || has_wday s;
     full_year := full_year s; century := century s; rest := rest s |}.
Definition set_century (s : st) (v : Z) : st :=
  {| sec := sec s; min := min s; hour := hour s; mday := mday s; mon := mon s; year := year s; wday := wday s; yday := yday s;
     has_century := true; has_year := has_year s; has_month := has_month s; has_mday := has_mday s; has_yday := has_yday s; has_wday := has_wday s;
     full_year := full_year s; century := v; rest := rest s |}.
Definition set_year (s : st) (v : Z) : st :=
  {| sec := sec s; min := min s; hour := hour s; mday := mday s; mon := mon s; year := v; wday := wday s; yday := yday s;
     has_century := has_century s; has_year := true; has_month := has_month s; has_mday := has_mday s; has_yday := has_yday s; has_wday := has_wday s;
     full_year := full_year s; century := century s; rest := rest s |}.
(** case 'Y', time.cpp:341-353 *)
Definition set_full (s : st) (v : Z) : st :=
  {| sec := sec s; min := min s; hour := hour s; mday := mday s; mon := mon s; year := v - 1900; wday := wday s; yday := yday s;
     has_century := true; has_year := true; has_month := has_month s; has_mday := has_mday s; has_yday := has_yday s; has_wday := has_wday s;
     full_year := true; century := Z.quot v 100; rest := rest s |}.

(** month_to_day, time.cpp:15-31 *)
Definition month_to_day (m : Z) : Z :=
  if (0 <=? m) && (m <=? 11) then nth (Z.to_nat m) [0;31;59;90;120;151;181;212;243;273;304;334] 0 else -1.
(** is_leapyear, time.cpp:33-35 *)
Definition is_leapyear (y : Z) : bool := (Z.rem y 4 =? 0) && (negb (Z.rem y 100 =? 0) || (Z.rem y 400 =? 0)).
(** month_and_year_to_day_in_year, time.cpp:37-43 *)
Definition day_in_year (m y : Z) : Z := if is_leapyear y && (m <? 2) then month_to_day m + 1 else month_to_day m.
(** target_determination, time.cpp:45-62 *)
Definition target (m : Z) : Z :=
  if (0 <=? m) && (m <=? 11) then nth (Z.to_nat m) [3;14;14;4;9;6;11;8;5;10;7;12] 0 else -1.
(** doom_determination, time.cpp:64-79 *)
Definition doom (y : Z) : Z :=
  let anchor := 2 + Z.rem (5 * Z.rem (Z.quot y 100) 4) 7 in
  let yr := Z.rem y 100 in
  let yr := if Z.rem yr 2 =? 0 then yr else yr + 11 in
  let yr := Z.quot yr 2 in
  let yr := if Z.rem yr 2 =? 0 then yr else yr + 11 in
  7 - Z.rem yr 7 + anchor.
(** day_determination, time.cpp:81-92 *)
Definition day_determination (d m y : Z) : Z :=
  let t := if is_leapyear y && (m <? 2) then target m + 1 else target m in
  Z.rem (doom y + Z.rem (d - t) 7) 7.

(** sscanf(input, "%d%n", &product, &n) with both 0 before, e.g. time.cpp:127-128 *)
Definition to_int (v : Z) : Z := if v <? 2 ^ 31 then v else v - 2 ^ 32.
Definition scan_number (l : list Z) : res (Z * Z) :=
  '(_, outs) <- sscanf l [37; 100; 37; 110] ;;
  match outs with
  | [SInt _ v; SInt _ n] => Ok (to_int v, to_int n)
  | _ => Ok (0, 0)
  end.
(** the two checks of a directive that reads a number of at most [width] characters; [None]: return nullptr *)
Definition number (width : Z) (s : st) : res (option (Z * st)) :=
  '(v, n) <- scan_number (rest s) ;;
  if (n =? 0) || (width <? n) then Ok None else Ok (Some (v, set_rest s (skipn (Z.to_nat n) (rest s)))).
(** matchNumericRange, time.cpp:126-137 *)
Definition in_range (lo hi : Z) (s : st) : res (option (Z * st)) :=
  r <- number 2 s ;;
  match r with
  | None => Ok None
  | Some (v, s1) => if (v <? lo) || (v >? hi) then Ok None else Ok (Some (v, s1))
  end.

Fixpoint skip (l : list Z) : list Z := match l with c :: r => if is_space c then skip r else l | [] => [] end.

(** !strncasecmp(input, name, strlen(name)): the input behind the name *)
Fixpoint has_prefix (lower : Z -> Z) (name inp : list Z) : option (list Z) :=
  match name, inp with
  | [], _ => Some inp
  | c :: name', d :: inp' => if lower c =? lower d then has_prefix lower name' inp' else None
  | _ :: _, [] => None
  end.
(** matchLanginfoItem, time.cpp:112-124: the first of [k] items from number [i] on that matches *)
Fixpoint match_item (lower : Z -> Z) (items : Z -> list Z) (i : Z) (k : nat) (inp : list Z) : option (Z * list Z) :=
  match k with
  | O => None
  | S k' => match has_prefix lower (items i) inp with Some r => Some (i, r) | None => match_item lower items (i + 1) k' inp end
  end.

Section Internal.
  Variable l : Ftime_Model.locale.
  (** the call of strptime_internal with another format *)
  Variable again : list Z -> st -> res (option st).
  Let lower := Ftime_Model.l_lower l.

  Definition on (r : res (option (Z * st))) (k : Z -> st -> st) : res (option st) :=
    x <- r ;; match x with None => Ok None | Some (v, s) => Ok (Some (k v s)) end.
  Definition name_of2 (a b : Z -> list Z) (k : nat) (s : st) (set : Z -> st -> st) : res (option st) :=
    match match_item lower a 0 k (rest s) with
    | Some (i, r) => Ok (Some (set i (set_rest s r)))
    | None => match match_item lower b 0 k (rest s) with
              | Some (i, r) => Ok (Some (set i (set_rest s r)))
              | None => Ok None
              end
    end.

  (** the switch, time.cpp:161-453 *)
  Definition directive (d : Z) (s : st) : res (option st) :=
    if d =? 37 then match rest s with c :: r => if c =? 37 then Ok (Some (set_rest s r)) else Ok None | [] => Ok None end
    else if (d =? 97) || (d =? 65) then name_of2 (Ftime_Model.l_day l) (Ftime_Model.l_abday l) 7 s (fun v s => set_wday s v true)
    else if (d =? 98) || (d =? 66) || (d =? 104) then name_of2 (Ftime_Model.l_mon l) (Ftime_Model.l_abmon l) 12 s (fun v s => set_mon s v)
    else if d =? 67 then on (number 2 s) (fun v s => set_century s v)
    else if (d =? 100) || (d =? 101) then on (in_range 1 31 s) (fun v s => set_mday s v)
    else if d =? 68 then again [37;109;47;37;100;47;37;121] s
    else if d =? 72 then on (in_range 0 23 s) (fun v s => set_hour s v)
    else if d =? 73 then on (in_range 1 12 s) (fun v s => set_hour s v)
    else if d =? 106 then on (in_range 1 366 s) (fun v s => set_yday s (v - 1))
    else if d =? 109 then on (in_range 1 12 s) (fun v s => set_mon s (v - 1))
    else if d =? 77 then on (in_range 0 59 s) (fun v s => set_min s v)
    else if (d =? 110) || (d =? 116) then
      match rest s with c :: _ => if is_space c then Ok (Some (set_rest s (skip (rest s)))) else Ok None | [] => Ok None end
    else if d =? 112 then
      match has_prefix lower (Ftime_Model.l_am l) (rest s) with
      | Some r => Ok (Some (set_rest (set_hour s (Z.rem (hour s) 12)) r))
      | None => match has_prefix lower (Ftime_Model.l_pm l) (rest s) with
                | Some r => Ok (Some (set_rest (set_hour s (Z.rem (hour s) 12 + 12)) r))
                | None => Ok (Some s)
                end
      end
    else if d =? 114 then again [37;73;58;37;77;58;37;83;32;37;112] s
    else if d =? 82 then again [37;72;58;37;77] s
    else if d =? 83 then on (in_range 0 60 s) (fun v s => set_sec s v)
    else if d =? 84 then again [37;72;58;37;77;58;37;83] s
    else if d =? 119 then on (number 1 s) (fun v s => set_wday s v true)
    else if d =? 121 then on (number 2 s) (fun v s => set_year s (if v <? 69 then v + 100 else v))
    else if d =? 89 then on (number 4 s) (fun v s => set_full s v)
    else if d =? 70 then again [37;89;45;37;109;45;37;100] s
    else if d =? 117 then on (in_range 1 7 s) (fun v s => set_wday s (v - 1) false)
    else if Ftime_Model.mem_z d [99;85;87;120;88;103;71;86;122;90;115;69;79] then Abort
    else Ok None.

  (** the loop, time.cpp:146-455 *)
  Fixpoint loop (f : list Z) (s : st) : res (option st) :=
    match f with
    | [] => Ok (Some s)
    | c :: r =>
      if negb (c =? 37) then
        if is_space c then loop r (set_rest s (skip (rest s)))
        else match rest s with
             | b :: q => if c =? b then loop r (set_rest s q) else Ok None
             | [] => Ok None
             end
      else match r with
           | [] => Ok None
           | d :: r1 => x <- directive d s ;; match x with None => Ok None | Some s1 => loop r1 s1 end
           end
    end.
  (** strptime_internal, time.cpp:110-458 *)
  Definition internal (f : list Z) (s : st) : res (option st) :=
    let s := set_rest s (skip (rest s)) in
    match rest s with [] => Ok None | _ => loop f s end.
End Internal.

(** strptime, time.cpp:462-508; the formats of nested calls contain no further ones *)
Definition finish (s : st) : st :=
  let s := if has_century s && negb (full_year s) then
             let y := century s * 100 + (if has_year s then (if year s >=? 100 then year s - 100 else year s) else 0) in
             set_year s (y - 1900)
           else s in
  let s := if has_month s && negb (has_yday s) then
             let day := if has_year s then day_in_year (mon s) (year s) else month_to_day (mon s) in
             set_yday s (day + mday s - 1)
           else s in
  if has_year s && negb (has_wday s) then
    if negb (has_month s) && negb (has_mday s) then set_wday s (day_determination 0 0 (year s + 1900)) true
    else if has_month s && has_mday s then set_wday s (day_determination (mday s) (mon s) (year s + 1900)) true
    else s
  else s.
Definition strptime (l : Ftime_Model.locale) (inp fmt : list Z) (t : tm) : res (option (tm * list Z)) :=
  let s0 := {| sec := tm_sec t; min := tm_min t; hour := tm_hour t; mday := tm_mday t; mon := tm_mon t; year := tm_year t; wday := tm_wday t; yday := tm_yday t;
               has_century := false; has_year := false; has_month := false; has_mday := false; has_yday := false; has_wday := false;
               full_year := false; century := 0; rest := inp |} in
  r <- internal l (internal l (fun _ _ => Fuel)) fmt s0 ;;
  match r with
  | None => Ok None
  | Some s => let s := finish s in
    Ok (Some ({| tm_sec := sec s; tm_min := min s; tm_hour := hour s; tm_mday := mday s; tm_mon := mon s; tm_year := year s; tm_wday := wday s; tm_yday := yday s |}, rest s))
  end.
