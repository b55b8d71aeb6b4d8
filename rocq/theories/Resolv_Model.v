(** Model of get_nameserver (options/posix/generic/resolv_conf.cpp:8-40), which finds the server that host names are looked up with.
    The file is the list of its bytes, without zero bytes; reading does not fail.  A line that was read is the list of its characters before the terminating zero byte. *)
From Verif Require Import Base.

(** isspace for the characters of ASCII; other bytes are taken to be no white space *)
Definition isspace (c : Z) : bool := ((c =? 32) || ((9 <=? c) && (c <=? 13)))%Z.
(** fgets(line, k + 1, file): the line, the rest of the file, and whether its end was met (feof) *)
Fixpoint fgets (k : nat) (f : list Z) : list Z * list Z * bool :=
  match k with
  | 0 => ([], f, false)
  | S k =>
    match f with
    | [] => ([], [], true)
    | c :: f => if (c =? 10)%Z then ([c], f, false) else let '(l, r, e) := fgets k f in (c :: l, r, e)
    end
  end.
(** resolv_conf.cpp:19: getc until a newline or the end *)
Fixpoint skip (f : list Z) : list Z := match f with [] => [] | c :: f => if (c =? 10)%Z then f else skip f end.
(** resolv_conf.cpp:25: strncmp(line, "nameserver", 10) *)
Definition keyword : list Z := [110; 97; 109; 101; 115; 101; 114; 118; 101; 114]%Z.
Definition has_keyword (line : list Z) : bool := if list_eq_dec Z.eq_dec (firstn 10 line) keyword then true else false.
(** resolv_conf.cpp:27-28 *)
Fixpoint drop_space (l : list Z) : list Z := match l with [] => [] | c :: l' => if isspace c then drop_space l' else l end.
Fixpoint word (l : list Z) : list Z := match l with [] => [] | c :: l => if isspace c then [] else c :: word l end.
(** resolv_conf.cpp:15-34: the name, empty if none was found *)
Fixpoint scan (fuel : nat) (f : list Z) : res (list Z) :=
  match fuel with
  | 0 => Fuel
  | S fuel =>
    let '(line, rest, eof) := fgets 127 f in
    if match line with [] => true | _ => false end then Ok []
    else if negb (existsb (Z.eqb 10) line) && negb eof then scan fuel (skip rest)
    else if has_keyword line && isspace (nth 10 line 0%Z) then Ok (word (drop_space (skipn 11 line)))
    else scan fuel rest
  end.
(** resolv_conf.cpp:8-40; the argument is None if there is no file *)
Definition get_nameserver (file : option (list Z)) : res (option (list Z)) :=
  match file with
  | None => Ok None
  | Some f => name <- scan (S (length f)) f ;; Ok (match name with [] => None | _ => Some name end)
  end.
