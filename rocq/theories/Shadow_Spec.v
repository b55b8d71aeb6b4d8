(** The shadow password file. *)
From Verif Require Import Base Hosts_Spec Shadow_Model.
Open Scope Z_scope.

(** the text of a number field: empty for -1, or decimal digits *)
Definition number_text (t : list Z) (v : Z) : Prop := (t = [] /\ v = -1) \/ (decimal t v /\ v < 2 ^ 63).
(** a line of the shadow file and the entry it stands for; what follows a newline does not matter *)
Definition shadow_line (l : list Z) (e : spwd) : Prop := exists a b c d f g h tail,
  ~ In 58 (sp_namp e) /\ ~ In 58 (sp_pwdp e) /\
  number_text a (sp_lstchg e) /\ number_text b (sp_min e) /\ number_text c (sp_max e) /\ number_text d (sp_warn e) /\ number_text f (sp_inact e) /\ number_text g (sp_expire e) /\
  (exists v, number_text h v /\ sp_flag e = v mod 2 ^ 64) /\
  (tail = [] \/ exists r, tail = 10 :: r) /\
  l = sp_namp e ++ [58] ++ sp_pwdp e ++ [58] ++ a ++ [58] ++ b ++ [58] ++ c ++ [58] ++ d ++ [58] ++ f ++ [58] ++ g ++ [58] ++ h ++ tail.
(** no run of digits stands for a number above the largest long *)
Definition moderate (l : list Z) : Prop := forall a t v b, l = a ++ t ++ b -> decimal t v -> v < 2 ^ 63.
Definition is_text (l : list Z) : Prop := forall c, In c l -> 0 < c < 256.

(** the lines of a file, each with its newline; the last one may have none *)
Inductive lines : list (list Z) -> list Z -> Prop :=
| l_end : lines [] []
| l_last t : ~ In 10 t -> t <> [] -> lines [t] t
| l_more t ls f : ~ In 10 t -> lines ls f -> lines ((t ++ [10]) :: ls) (t ++ [10] ++ f).
(** the line begins with the name and a colon *)
Definition begins (name l : list Z) : Prop := exists r, l = name ++ [58] ++ r.
(** The answer for a name with a buffer of [size] bytes: the first line of that name that is an entry.  ERANGE if a line of that name before it does
    not fit, or is the last one and has no newline. *)
Inductive answer (name : list Z) (size : nat) : list (list Z) -> Z * option spwd -> Prop :=
| a_none : answer name size [] (0, None)
| a_other l ls r : ~ begins name l -> answer name size ls r -> answer name size (l :: ls) r
| a_bad t ls r : begins name (t ++ [10]) -> (length (t ++ [10%Z]) < size)%nat -> (forall e, ~ shadow_line (t ++ [10]) e) -> answer name size ls r -> answer name size ((t ++ [10]) :: ls) r
| a_found t ls e : begins name (t ++ [10]) -> (length (t ++ [10%Z]) < size)%nat -> shadow_line (t ++ [10]) e -> answer name size ((t ++ [10]) :: ls) (0, Some e)
| a_range l ls : begins name l -> (size <= length l)%nat \/ ~ In 10 l -> answer name size (l :: ls) (ERANGE, None).

(** the entries that putspent can write: plain text; numbers -1 or not negative; the last one an unsigned int but for 2^32-1, or all ones for "none" *)
Definition plain (s : list Z) : Prop := ~ In 58 s /\ ~ In 10 s.
Definition long_field (v : Z) : Prop := -1 <= v < 2 ^ 63.
Definition printable (e : spwd) : Prop := plain (sp_namp e) /\ plain (sp_pwdp e) /\ long_field (sp_lstchg e) /\ long_field (sp_min e) /\ long_field (sp_max e) /\ long_field (sp_warn e) /\
  long_field (sp_inact e) /\ long_field (sp_expire e) /\ (0 <= sp_flag e < 2 ^ 32 - 1 \/ sp_flag e = 2 ^ 64 - 1).
