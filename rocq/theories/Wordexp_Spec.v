(** What wordexp accepts: the words of the shell command language, without the parts that are only scanned. *)
From Verif Require Import Base.
From Verif Require Import Wordexp_Model.
Open Scope Z_scope.

(** text in which the brackets [o] [c] match; a backslash hides the next character *)
Inductive balanced (o c : Z) : list Z -> Prop :=
| b_nil : balanced o c []
| b_esc x t : balanced o c t -> balanced o c (92 :: x :: t)
| b_char x t : x <> 92 -> x <> o -> x <> c -> balanced o c t -> balanced o c (x :: t)
| b_nest t1 t2 : balanced o c t1 -> balanced o c t2 -> balanced o c (o :: t1 ++ c :: t2).
(** the text between backquotes *)
Inductive command : list Z -> Prop :=
| c_nil : command []
| c_esc x t : command t -> command (92 :: x :: t)
| c_char x t : x <> 92 -> x <> 96 -> command t -> command (x :: t).
(** outside quotes, between single quotes, between double quotes *)
Inductive mode := Plain | Single | Double.
(** what is left of a list of words in a mode.  [nocmd]: without command substitution. *)
Inductive words (nocmd : bool) : mode -> list Z -> Prop :=
| w_end : words nocmd Plain []
| w_char c r : ~ In c [92; 39; 34; 36; 96; 124; 38; 59; 60; 62; 123; 125; 40; 41; 10] -> words nocmd Plain r -> words nocmd Plain (c :: r)
| w_escape m c r : m <> Single -> words nocmd m r -> words nocmd m (92 :: c :: r)
| w_single r : words nocmd Single r -> words nocmd Plain (39 :: r)
| w_single_end r : words nocmd Plain r -> words nocmd Single (39 :: r)
| w_single_char c r : c <> 39 -> words nocmd Single r -> words nocmd Single (c :: r)
| w_double r : words nocmd Double r -> words nocmd Plain (34 :: r)
| w_double_end r : words nocmd Plain r -> words nocmd Double (34 :: r)
| w_double_char c r : ~ In c [92; 34; 36; 96] -> words nocmd Double r -> words nocmd Double (c :: r)
| w_dollar m r : m <> Single -> hd 0 r <> 40 -> hd 0 r <> 123 -> words nocmd m r -> words nocmd m (36 :: r)
| w_paren m t r : m <> Single -> balanced 40 41 t -> (nocmd = true -> hd 0 t = 40) -> words nocmd m r -> words nocmd m ([36; 40] ++ t ++ [41] ++ r)
| w_brace m t r : m <> Single -> balanced 123 125 t -> words nocmd m r -> words nocmd m ([36; 123] ++ t ++ [125] ++ r)
| w_command m t r : m <> Single -> nocmd = false -> command t -> words nocmd m r -> words nocmd m ([96] ++ t ++ [96] ++ r).
(** a few of the ways the shell comes to execute a command while it expands words *)
Inductive executes (cmd : list Z) : list Z -> Prop :=
| x_backquote r : executes cmd ([96] ++ cmd ++ [96] ++ r)
| x_dollar r : hd 0 cmd <> 40 -> executes cmd ([36; 40] ++ cmd ++ [41] ++ r)
| x_char c r : ~ In c [92; 39; 34; 36; 96; 124; 38; 59; 60; 62; 123; 125; 40; 41; 10] -> executes cmd r -> executes cmd (c :: r)
| x_single t r : ~ In 39 t -> executes cmd r -> executes cmd ([39] ++ t ++ [39] ++ r)
(** ${x-...}: the default is expanded too *)
| x_default x r : 97 <= x <= 122 -> executes cmd r -> executes cmd ([36; 123; x; 45] ++ r)
(** $((...)): so is an arithmetic expression *)
| x_arith r : executes cmd r -> executes cmd ([36; 40; 40] ++ r).

(** what the shell writes: the number of words and of characters in eight hexadecimal digits, the words with a 0 behind each *)
Definition digit16 (v : Z) : Z := if v <? 10 then 48 + v else 87 + v.
Fixpoint hex_digits (n : nat) (v : Z) : list Z := match n with O => [] | S n => hex_digits n (v / 16) ++ [digit16 (v mod 16)] end.
Definition joined (ws : list (list Z)) : list Z := concat (map (fun w => w ++ [0]) ws).
Definition shell_output (ws : list (list Z)) : list Z :=
  hex_digits 8 (Z.of_nat (length ws)) ++ hex_digits 8 (Z.of_nat (length (concat ws))) ++ joined ws.
Definition sane (ws : list (list Z)) : Prop := Forall (fun w => ~ In 0 w) ws /\ Z.of_nat (length ws) < 2 ^ 32 /\ Z.of_nat (length (concat ws)) < 2 ^ 32.
(** a pointer into the strings reads as the word *)
Definition reads (st : list Z) (c : cell) (w : list Z) : Prop := exists p rest, c = At p /\ skipn p st = w ++ [0] ++ rest.
(** the structure holds the words: nulls, pointers, a null *)
Definition holds (w : we) (k : nat) (ws : list (list Z)) : Prop :=
  wordc w = length ws /\ exists ps, wordv w = repeat Null k ++ ps ++ [Null] /\ Forall2 (reads (strings w)) ps ws.
