(** The pattern language of fnmatch (POSIX, Shell and Utilities 2.13), stated on the structure of
    patterns instead of their text, and the text of such a pattern. *)
From Verif Require Import Base Utf8_Spec Fnm_Model.
Open Scope Z_scope.

(** a member of a bracket expression: a character, a range, a character class *)
Inductive item := One (c : Z) | Rng (a b : Z) | Cls (name : list Z).

(** a piece of a pattern: an ordinary character, a character after a backslash, [?], [*], and a
    bracket expression, which may be negated, with '!' or '^' *)
Inductive elem := Chr (c : Z) | Esc (c : Z) | Any | Star | Brk (neg : option Z) (l : list item).

(** ** The text of a pattern *)
Definition show_item (i : item) : list Z :=
  match i with
  | One c => utf8 c
  | Rng a b => utf8 a ++ 45 :: utf8 b
  | Cls name => 91 :: 58 :: name ++ [58; 93]
  end.

Definition show_elem (e : elem) : list Z :=
  match e with
  | Chr c => utf8 c
  | Esc c => 92 :: utf8 c
  | Any => [63]
  | Star => [42]
  | Brk None l => 91 :: concat (map show_item l) ++ [93]
  | Brk (Some n) l => 91 :: n :: concat (map show_item l) ++ [93]
  end.

Definition show (ps : list elem) : list Z := concat (map show_elem ps).

(** the bytes of a string of characters *)
Definition text (w : list Z) : list Z := concat (map utf8 w).

(** ** What it matches *)

(** [c] is [k], or, if case does not matter, [k] in the other case *)
Definition other (f : flags) (lc : locale) (k : Z) : Z := if f_fold f then casefold lc k else k.

Definition in_item (lc : locale) (k : Z) (i : item) : Prop :=
  match i with
  | One c => k = c
  | Rng a b => a <= k <= b
  | Cls name => cls lc name k = true
  end.

Definition hit (f : flags) (lc : locale) (e : elem) (k : Z) : Prop :=
  let among l := exists i, In i l /\ (in_item lc k i \/ in_item lc (other f lc k) i) in
  match e with
  | Chr c | Esc c => k = c \/ other f lc k = c
  | Any => True
  | Star => False
  | Brk None l => among l
  | Brk (Some _) l => ~ among l
  end.

Inductive glob (f : flags) (lc : locale) : list elem -> list Z -> Prop :=
| glob_nil : glob f lc [] []
| glob_one e ps k w : hit f lc e k -> glob f lc ps w -> glob f lc (e :: ps) (k :: w)
| glob_star ps u w : glob f lc ps w -> glob f lc (Star :: ps) (u ++ w).

(** a leading period has to be matched by a period at the beginning of the pattern *)
Definition plain (f : flags) (ps : list elem) (w : list Z) : Prop :=
  f_period f = true -> hd_error w = Some 46 ->
  hd_error ps = Some (Chr 46) \/ hd_error ps = Some (Esc 46).

Definition matches1 (f : flags) (lc : locale) (ps : list elem) (w : list Z) : Prop :=
  plain f ps w /\ glob f lc ps w.

(** the components between slashes *)
Definition slash (e : elem) : bool :=
  match e with Chr c | Esc c => c =? 47 | _ => false end.

Fixpoint split {A : Type} (sep : A -> bool) (l : list A) : list (list A) :=
  match l with
  | [] => [[]]
  | x :: r =>
      if sep x then [] :: split sep r
      else match split sep r with c :: cs => (x :: c) :: cs | [] => [[x]] end
  end.

(** the meaning of fnmatch: with FNM_PATHNAME the components match one by one; with
    FNM_LEADING_DIR a part of the string before a slash is enough *)
Definition matches (f : flags) (lc : locale) (ps : list elem) (w : list Z) : Prop :=
  if f_path f then
    exists n, Forall2 (matches1 f lc) (split slash ps) (firstn n (split (Z.eqb 47) w)) /\
              (f_lead f = false -> length (split (Z.eqb 47) w) <= n)%nat
  else
    matches1 f lc ps w \/ (f_lead f = true /\ exists u v, w = u ++ 47 :: v /\ matches1 f lc ps u).

(** ** Which texts are patterns *)
Definition char (c : Z) : Prop := scalar c /\ c <> 0.

(** the first byte of what follows in a bracket expression *)
Definition next_byte (l : list item) : Z := hd 93 (concat (map show_item l)).

(** a character that can stand in a bracket expression before [rest]: not ']' or '-', except at
    the beginning, or '-' at the end; not '[' before '.', ':' or '='; not a backslash, unless
    backslashes are ordinary *)
Definition ok_one (f : flags) (first : bool) (c next : Z) : Prop :=
  char c /\ (c = 92 -> f_noesc f = true) /\
  (c = 93 -> first = true) /\ (c = 45 -> first = true \/ next = 93) /\
  (c = 91 -> is_z next = false).

Definition ok_item (f : flags) (first : bool) (i : item) (rest : list item) : Prop :=
  match i with
  | One c => ok_one f first c (next_byte rest)
  | Rng a b => ok_one f first a 45 /\ char b /\ a <= b < 128 /\ b <> 93 /\ b <> 45 /\
               (b = 92 -> f_noesc f = true) /\ (b = 91 -> is_z (next_byte rest) = false)
  | Cls name => name <> [] /\ (length name < 16)%nat /\
                Forall (fun c => 97 <= c <= 122) name
  end.

Fixpoint ok_items (f : flags) (first : bool) (l : list item) : Prop :=
  match l with
  | [] => True
  | i :: r => ok_item f first i r /\ ok_items f false r
  end.

Definition ok_elem (f : flags) (e : elem) : Prop :=
  match e with
  | Chr c => char c /\ c <> 42 /\ c <> 63 /\ c <> 91 /\ (c = 92 -> f_noesc f = true)
  | Esc c => char c /\ f_noesc f = false
  | Any | Star => True
  | Brk neg l => l <> [] /\ ok_items f true l /\
                 match neg with
                 | None => next_byte l <> 33 /\ next_byte l <> 94
                 | Some n => n = 33 \/ n = 94
                 end
  end.

(** an escaped period does not begin the pattern, or a component, if leading periods matter *)
Definition ok_period (f : flags) (ps : list elem) : Prop :=
  f_period f = true ->
  if f_path f then Forall (fun c => hd_error c <> Some (Esc 46)) (split slash ps)
  else hd_error ps <> Some (Esc 46).

Definition pattern (f : flags) (ps : list elem) : Prop := Forall (ok_elem f) ps /\ ok_period f ps.

(** towupper and towlower map characters to characters, and ']' and '-' have no other case *)
Definition ok_locale (lc : locale) : Prop := forall k, char k ->
  char (casefold lc k) /\ (casefold lc k = 93 -> k = 93) /\ (casefold lc k = 45 -> k = 45).
