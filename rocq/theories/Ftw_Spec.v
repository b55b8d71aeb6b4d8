(** What a user of nftw expects: the file tree, the order of the calls, the arguments of each call. *)
From Verif Require Import Base Ftw_Model.
Open Scope Z_scope.

(** an object of the file system, as the walk may meet it *)
Inductive what :=
| Dir          (** a directory that can be read *)
| Unreadable   (** a directory that may not be opened *)
| Loop         (** a directory that is one of the directories above it (reached through a symbolic link) *)
| File         (** not a directory, not a symbolic link *)
| Symlink      (** a symbolic link, not followed *)
| Dangling     (** a symbolic link to nothing *)
| Hidden.      (** an object whose status may not be asked for *)
Inductive tree := T (w : what) (dev ino : Z) (kids : list (list Z * tree)).

Definition slash : Z := 47.
(** the path of an entry of a directory *)
Definition dir_prefix (p : list Z) : list Z := if last p 0 =? slash then p else p ++ [slash].
Definition join (p n : list Z) : list Z := dir_prefix p ++ n.
Definition list_Z_eq_dec : forall a b : list Z, {a = b} + {a <> b} := list_eq_dec Z.eq_dec.
Definition proper (n : list Z) : bool := if in_dec list_Z_eq_dec n [[46]; [46; 46]] then false else true.

Section FS.
Variables stat lstat : list Z -> stat_t + Z.
Variable open : list Z -> option Z.
Variable entries : list Z -> list (list Z).

(** what the system calls say about the object at a path; [follow]: symbolic links are followed *)
Definition sees (follow : bool) (p : list Z) (w : what) (d i : Z) : Prop :=
  let look := if follow then stat p else lstat p in
  match w with
  | Dir | Loop => look = inl (DIR, d, i) /\ open p = None
  | Unreadable => look = inl (DIR, d, i) /\ open p = Some EACCES
  | File => look = inl (OTHER, d, i)
  | Symlink => follow = false /\ look = inl (LNK, d, i)
  | Dangling => follow = true /\ look = inr ENOENT /\ exists m, lstat p = inl (m, d, i)
  | Hidden => look = inr EACCES /\ d = 0 /\ i = 0
  end.
(** the tree is what the file system holds at the path; no path in it is too long *)
Inductive holds (follow : bool) : list Z -> tree -> Prop :=
| holds_T : forall p w d i kids,
    sees follow p w d i ->
    (w = Dir -> map fst kids = filter proper (entries p)) ->
    (w <> Dir -> kids = []) ->
    (forall n t, In (n, t) kids -> Z.of_nat (length p) + Z.of_nat (length n) < PATH_MAX) ->
    (forall n t, In (n, t) kids -> holds follow (join p n) t) ->
    holds follow p (T w d i kids).
End FS.

(** the objects marked [Loop] are those that are among the directories above *)
Inductive marked : list (Z * Z) -> tree -> Prop :=
| marked_T : forall up w d i kids,
    (w = Loop <-> In (d, i) up) ->
    (forall n t, In (n, t) kids -> marked ((d, i) :: up) t) ->
    marked up (T w d i kids).
Inductive loop_free : tree -> Prop :=
| loop_free_T : forall w d i kids, w <> Loop -> (forall n t, In (n, t) kids -> loop_free t) -> loop_free (T w d i kids).

(** the part of the tree on the device of its root (FTW_MOUNT) *)
Definition other_device (d : Z) (t : tree) : bool := match t with T Hidden _ _ _ => false | T _ d' _ _ => negb (d' =? d) end.
Fixpoint one_device (t : tree) : tree :=
  match t with
  | T w d i kids => T w d i (flat_map (fun nt : list Z * tree => if other_device d (snd nt) then [] else [(fst nt, one_device (snd nt))]) kids)
  end.
(** the part of the tree at most [n] levels below its root *)
Fixpoint top_levels (n : nat) (t : tree) : tree :=
  match t with
  | T w d i kids => T w d i (match n with O => [] | S m => map (fun nt : list Z * tree => (fst nt, top_levels m (snd nt))) kids end)
  end.
Fixpoint height (t : tree) : nat :=
  match t with T _ _ _ kids => fold_right (fun nt h => Nat.max (S (height (snd nt))) h) 0%nat kids end.

(** the calls for a whole tree, a directory before what is in it ... *)
Definition type_of (w : what) : typeflag :=
  match w with Dir | Loop => FTW_D | Unreadable => FTW_DNR | File => FTW_F | Symlink => FTW_SL | Dangling => FTW_SLN | Hidden => FTW_NS end.
Fixpoint preorder (level base : Z) (p : list Z) (t : tree) : list event :=
  match t with
  | T w d i kids =>
      {| e_path := p; e_dev := d; e_ino := i; e_type := type_of w; e_level := level; e_base := base |}
      :: flat_map (fun nt : list Z * tree => preorder (level + 1) (Z.of_nat (length (dir_prefix p))) (join p (fst nt)) (snd nt)) kids
  end.
(** ... and after it (FTW_DEPTH); a directory met again is left out *)
Definition type_of_depth (w : what) : typeflag := match w with Dir | Loop => FTW_DP | _ => type_of w end.
Fixpoint postorder (level base : Z) (p : list Z) (t : tree) : list event :=
  match t with
  | T Loop _ _ _ => []
  | T w d i kids =>
      flat_map (fun nt : list Z * tree => postorder (level + 1) (Z.of_nat (length (dir_prefix p))) (join p (fst nt)) (snd nt)) kids
      ++ [{| e_path := p; e_dev := d; e_ino := i; e_type := type_of_depth w; e_level := level; e_base := base |}]
  end.
(** the calls are made until one returns something else than 0 *)
Fixpoint until_nonzero (fn : list event -> event -> Z) (past evs : list event) : Z * list event :=
  match evs with
  | [] => (0, past)
  | e :: r => let v := fn past e in if v =? 0 then until_nonzero fn (past ++ [e]) r else (v, past ++ [e])
  end.
(** where the last component of a path begins *)
Definition last_component (p : list Z) (b : Z) : Prop :=
  exists dirs name slashes, p = dirs ++ name ++ slashes /\ b = Z.of_nat (length dirs) /\ ~ In slash name /\
    (forall c, In c slashes -> c = slash) /\ (dirs = [] \/ last dirs 0 = slash) /\ (name = [] -> dirs = []).
