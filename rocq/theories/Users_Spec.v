(** The user and group files. *)
From Verif Require Import Base Hosts_Spec.
Open Scope Z_scope.

(** the text of a field *)
Definition field (s : list Z) : Prop := forall c, In c s -> 0 < c < 256 /\ c <> 58 /\ c <> 10.

(** a line of the user file: name, password, user and group number, full name, directory and shell between colons *)
Record user := { u_name : list Z; u_pass : list Z; u_uid : Z; u_gid : Z; u_full : list Z; u_dir : list Z; u_shell : list Z }.
Definition user_line (u : user) (l : list Z) : Prop := exists uid gid, decimal uid (u_uid u) /\ decimal gid (u_gid u) /\
  u_uid u < 2 ^ 31 /\ u_gid u < 2 ^ 31 /\
  field (u_name u) /\ field (u_pass u) /\ field (u_full u) /\ field (u_dir u) /\ field (u_shell u) /\
  l = u_name u ++ [58] ++ u_pass u ++ [58] ++ uid ++ [58] ++ gid ++ [58] ++ u_full u ++ [58] ++ u_dir u ++ [58] ++ u_shell u ++ [10].
(** a line of the group file: name, password, group number, the members between commas *)
Record grp := { g_name : list Z; g_pass : list Z; g_gid : Z; g_members : list (list Z) }.
Inductive joined : list (list Z) -> list Z -> Prop :=
| j_none : joined [] []
| j_one s : joined [s] s
| j_more s r t : r <> [] -> joined r t -> joined (s :: r) (s ++ [44] ++ t).
Definition group_line (g : grp) (l : list Z) : Prop := exists gid ms, decimal gid (g_gid g) /\ g_gid g < 2 ^ 31 /\
  field (g_name g) /\ field (g_pass g) /\ (forall s, In s (g_members g) -> field s /\ s <> [] /\ ~ In 44 s) /\ joined (g_members g) ms /\
  l = g_name g ++ [58] ++ g_pass g ++ [58] ++ gid ++ [58] ++ ms ++ [10].

(** A file: lines of at most 511 bytes; the lines of no user (group), such as empty lines and comments, have not as many colons. *)
Definition colons (l : list Z) : nat := count_occ Z.eq_dec l 58.
Definition other_line (low high : nat) (l : list Z) : Prop := (exists t, l = t ++ [10] /\ ~ In 10 t) /\ (colons l < low \/ high < colons l)%nat.
Inductive user_file : list user -> list Z -> Prop :=
| uf_end : user_file [] []
| uf_user u l us f : user_line u l -> (length l <= 511)%nat -> user_file us f -> user_file (u :: us) (l ++ f)
| uf_other l us f : other_line 6 7 l -> (length l <= 511)%nat -> user_file us f -> user_file us (l ++ f).
Inductive group_file : list grp -> list Z -> Prop :=
| gf_end : group_file [] []
| gf_group g l gs f : group_line g l -> (length l <= 511)%nat -> group_file gs f -> group_file (g :: gs) (l ++ f)
| gf_other l gs f : (exists t, l = t ++ [10] /\ ~ In 10 t) -> (colons l < 2)%nat -> (length l <= 511)%nat -> group_file gs f -> group_file gs (l ++ f).

(** the first element with a property *)
Inductive first {A} (P : A -> Prop) : list A -> option A -> Prop :=
| f_none : first P [] None
| f_here x l : P x -> first P (x :: l) (Some x)
| f_later x l r : ~ P x -> first P l r -> first P (x :: l) r.

(** the number of a decimal text *)
Definition reads_numbers (to_number : list Z -> option Z) : Prop := forall l v, decimal l v -> v < 2 ^ 31 -> to_number l = Some v.

(** a pointer stored in memory, low byte first *)
Definition ptr_at (m : mem) (a p : Z) : Prop := forall i, 0 <= i < 8 -> m (a + i) = Some (p / 2 ^ (8 * i) mod 256).
(** an array of pointers to strings, with a null pointer behind it; all of it between [lo] and [hi] *)
Inductive strings_at (m : mem) (lo hi : Z) : Z -> list (list Z) -> Prop :=
| sa_end a : lo <= a -> a + 8 <= hi -> ptr_at m a 0 -> strings_at m lo hi a []
| sa_cons a p s r : lo <= a -> a + 8 <= hi -> ptr_at m a p -> lo <= p -> p + Z.of_nat (length s) + 1 <= hi -> str_at m p s -> strings_at m lo hi (a + 8) r ->
    strings_at m lo hi a (s :: r).
