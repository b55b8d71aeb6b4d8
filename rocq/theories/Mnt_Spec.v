(** The format of fstab and mtab: fsname, dir, type and opts, then optionally two numbers, with blanks between; comments and blank lines are skipped. *)
From Verif Require Import Base Hosts_Spec Mnt_Model.
Open Scope Z_scope.

Definition blank (c : Z) : Prop := c = 32 \/ c = 9.
Definition gap (b : list Z) : Prop := Forall blank b /\ b <> [].
Definition wordy (w : list Z) : Prop := Forall (fun c => 33 <= c <= 126) w /\ w <> [].
(** the text of a number *)
Inductive int_text : list Z -> Z -> Prop :=
| i_plain ds v : decimal ds v -> v < 2 ^ 31 -> int_text ds v
| i_plus ds v : decimal ds v -> v < 2 ^ 31 -> int_text (43 :: ds) v
| i_minus ds v : decimal ds v -> v <= 2 ^ 31 -> int_text (45 :: ds) (- v).

(** the line has all six fields; behind them there may be more, behind a blank *)
Inductive full : list Z -> mnt -> Prop :=
| full_i b0 m b1 b2 b3 b4 t5 b5 t6 rest : Forall blank b0 -> wordy (fsname m) -> hd 0 (fsname m) <> 35 -> gap b1 -> wordy (dir m) -> gap b2 -> wordy (type_ m) -> gap b3 -> wordy (opts m) -> gap b4 ->
    int_text t5 (freq m) -> gap b5 -> int_text t6 (passno m) -> (rest = [] \/ exists c r, rest = c :: r /\ blank c) ->
    full (b0 ++ fsname m ++ b1 ++ dir m ++ b2 ++ type_ m ++ b3 ++ opts m ++ b4 ++ t5 ++ b5 ++ t6 ++ rest) m.
(** the line ends after the options; the numbers are 0 *)
Inductive bare : list Z -> mnt -> Prop :=
| bare_i b0 m b1 b2 b3 b4 : Forall blank b0 -> wordy (fsname m) -> hd 0 (fsname m) <> 35 -> gap b1 -> wordy (dir m) -> gap b2 -> wordy (type_ m) -> gap b3 -> wordy (opts m) -> Forall blank b4 ->
    freq m = 0 -> passno m = 0 -> bare (b0 ++ fsname m ++ b1 ++ dir m ++ b2 ++ type_ m ++ b3 ++ opts m ++ b4) m.
Definition comment (l : list Z) : Prop := exists b r, l = b ++ 35 :: r /\ Forall blank b.
Definition empty (l : list Z) : Prop := Forall blank l.

Inductive listed : list (list Z) -> list mnt -> Prop :=
| l_nil : listed [] []
| l_full l m ls ms : full l m -> listed ls ms -> listed (l :: ls) (m :: ms)
| l_bare l m ls ms : bare l m -> listed ls ms -> listed (l :: ls) (m :: ms)
| l_comment l ls ms : comment l -> listed ls ms -> listed (l :: ls) ms
| l_empty l ls ms : empty l -> listed ls ms -> listed (l :: ls) ms.
Definition text (ls : list (list Z)) : list Z := concat (map (fun l => l ++ [10]) ls).
(** lines of printable ASCII and tabs that fit into the buffer with newline and null byte *)
Definition fits (size : option nat) (l : list Z) : Prop :=
  Forall (fun c => c = 9 \/ 32 <= c <= 126) l /\ Z.of_nat (length l) < 2 ^ 31 - 2 /\ match size with Some b => (length l + 2 <= b)%nat | None => True end.
(** no commented-out line can leave its numbers to an entry that has none *)
Definition separate (ls : list (list Z)) : Prop := (forall l, In l ls -> ~ comment l) \/ (forall l m, In l ls -> ~ bare l m).

(** options are separated by commas *)
Definition option_in (opt : list Z) (os : list Z) : Prop :=
  exists a b, os = a ++ opt ++ b /\ (a = [] \/ exists x, a = x ++ [44]) /\ (b = [] \/ exists x c, b = c :: x /\ (c = 44 \/ c = 61)).
(** what addmntent may be given *)
Definition proper (m : mnt) : Prop :=
  wordy (fsname m) /\ hd 0 (fsname m) <> 35 /\ wordy (dir m) /\ wordy (type_ m) /\ wordy (opts m) /\ - 2 ^ 31 <= freq m < 2 ^ 31 /\ - 2 ^ 31 <= passno m < 2 ^ 31.
