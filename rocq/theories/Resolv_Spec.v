(** /etc/resolv.conf as its user sees it: lines, some of which name a server. *)
From Verif Require Import Base Resolv_Model.

(** the lines of a file, the last one with or without a newline *)
Fixpoint lines (f : list Z) : list (list Z) :=
  match f with
  | [] => []
  | c :: f => if (c =? 10)%Z then [] :: lines f else match lines f with [] => [[c]] | l :: ls => (c :: l) :: ls end
  end.
(** lines of more than 126 bytes are not looked at *)
Definition short (l : list Z) : bool := length l <=? 126.
(** a line with "nameserver" alone or followed by white space *)
Definition entry (l : list Z) : bool := has_keyword l && match nth_error l 10 with None => true | Some c => isspace c end.
(** the first word after "nameserver", empty if there is none *)
Definition server (l : list Z) : list Z := word (drop_space (skipn 10 l)).
(** the server of the first entry *)
Definition first_server (f : list Z) : option (list Z) :=
  match find entry (filter short (lines f)) with
  | None => None
  | Some l => match server l with [] => None | s => Some s end
  end.
