(** Model of the protocol database, options/posix/generic/netdb.cpp:19-175, 596-661, 731-733.  The file is the list of its bytes and can be opened; a read
    gives all that fits.  frg::string_view is not in the repository: its functions are those of lists, to_number takes decimal digits, without overflow.
    The memory of the result is not modelled. *)
From Verif Require Import Base Hosts_Model Users_Model.
Open Scope Z_scope.

Record proto := { p_name : list Z; p_proto : Z; p_aliases : list (list Z) }.
Definition blank (c : Z) : bool := (c =? 32) || (c =? 9).
(** skipLeadingWhitespace, netdb.cpp:95-98 *)
Fixpoint skip_blanks (l : list Z) : list Z := match l with [] => [] | c :: r => if blank c then skip_blanks r else l end.
(** find_first_of({" \t"}) and the two sub_strings; the second part is empty if there is no blank *)
Fixpoint until_blank (l : list Z) : list Z * list Z := match l with [] => ([], []) | c :: r => if blank c then ([], l) else let '(w, t) := until_blank r in (c :: w, t) end.
Definition to_number (l : list Z) : option Z := if forallb is_digit l then Some (fold_left (fun a c => 10 * a + (c - 48)) l 0) else None.
(** netdb.cpp:143-158 *)
Fixpoint aliases (n : nat) (l : list Z) : list (list Z) :=
  match n with
  | O => []
  | S n => match l with [] => [] | c :: r => if blank c then aliases n r else let '(w, t) := until_blank l in w :: aliases n t end
  end.
(** one line, netdb.cpp:100-158: None for continue *)
Definition parse (line : list Z) : option proto :=
  let l := match cut 35 line with Some (a, _) => a | None => line end in
  match skip_blanks l with
  | [] => None
  | l =>
      let '(name, l) := until_blank l in
      match skip_blanks l with
      | [] => None
      | l =>
          let '(d, l) := until_blank l in
          match l with
          | [] => None
          | _ =>
              match to_number d with
              | None => None
              | Some v => match skip_blanks l with [] => None | l => Some {| p_name := name; p_proto := v; p_aliases := aliases (S (length l)) l |} end
              end
          end
      end
  end.
(** readLine, netdb.cpp:63-90: None at the end of the file; the offset stays the same inside the loop *)
Fixpoint read_line (n : nat) (file : list Z) (off : nat) (line : list Z) : res (option (list Z)) :=
  match n with
  | O => Fuel
  | S n =>
      match firstn 256 (skipn off file) with
      | [] => Ok None
      | chunk => match cut 10 chunk with Some (a, _) => Ok (Some (line ++ a)) | None => read_line n file off (line ++ chunk) end
      end
  end.
(** findProto, netdb.cpp:56-175: the entry and the new offset *)
Fixpoint find_proto (n : nat) (file : list Z) (want : proto -> bool) (off : nat) : res (option proto * nat) :=
  match n with
  | O => Fuel
  | S n =>
      r <- read_line n file off [] ;;
      match r with
      | None => Ok (None, off)
      | Some line =>
          let off := (off + (length line + 1))%nat in
          match parse line with
          | Some e => if want e then Ok (Some e, off) else find_proto n file want off
          | None => find_proto n file want off
          end
      end
  end.
(** protoFd, protoFdOffset, protoFdStayopen *)
Record st := { fd : bool; off : nat; stay : bool }.
Definition init : st := {| fd := false; off := 0; stay := false |}.
(** openProtoFd, netdb.cpp:24-37 *)
Definition open_fd (stayopen : bool) (s : st) : st :=
  if fd s then (if stayopen then {| fd := true; off := off s; stay := true |} else s) else {| fd := true; off := off s; stay := stayopen |}.
(** endprotoent, netdb.cpp:193-198 *)
Definition endprotoent (s : st) : st := {| fd := false; off := off s; stay := stay s |}.
Definition setprotoent (stayopen : bool) (s : st) : st := open_fd stayopen s.
Definition finish (s : st) (off' : nat) : st := let s := {| fd := fd s; off := off'; stay := stay s |} in if stay s then s else endprotoent s.
Fixpoint bytes_eq (a b : list Z) : bool := match a, b with [], [] => true | x :: a, y :: b => (x =? y) && bytes_eq a b | _, _ => false end.
(** getprotobyname, getprotobynumber, getprotoent, netdb.cpp:596-661 *)
Definition getprotobyname (n : nat) (file name : list Z) (s : st) : res (option proto * st) :=
  let s := open_fd false s in '(e, o) <- find_proto n file (fun e => bytes_eq name (p_name e)) 0 ;; Ok (e, finish s o).
Definition getprotobynumber (n : nat) (file : list Z) (num : Z) (s : st) : res (option proto * st) :=
  let s := open_fd false s in '(e, o) <- find_proto n file (fun e => num =? p_proto e) 0 ;; Ok (e, finish s o).
Definition getprotoent (n : nat) (file : list Z) (s : st) : res (option proto * st) :=
  let s := open_fd false s in '(e, o) <- find_proto n file (fun _ => true) (off s) ;; Ok (e, finish s o).
(** the calls of a program, and the entries getprotoent returns *)
Inductive call := Get | Set_ (stayopen : bool) | End_.
Fixpoint run (n : nat) (file : list Z) (cs : list call) (s : st) : res (list (option proto) * st) :=
  match cs with
  | [] => Ok ([], s)
  | Get :: cs => '(e, s) <- getprotoent n file s ;; '(l, s) <- run n file cs s ;; Ok (e :: l, s)
  | Set_ b :: cs => run n file cs (setprotoent b s)
  | End_ :: cs => run n file cs (endprotoent s)
  end.
