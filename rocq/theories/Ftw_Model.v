(** Model of ftw and nftw, options/posix/generic/ftw.cpp.  The file system does not change during the walk: stat, lstat, open and the entries
    of a directory are functions of the path.  A path is the list of its bytes.  fdopendir and readdir are assumed to succeed on a directory
    that was opened.  The callback sees the calls made before, so it can be any program; it does not touch the file system.  Recorded: the
    calls of the callback and the number of descriptors opened and not closed.  FTW_CHDIR is not implemented by the code. *)
From Verif Require Import Base.
Open Scope Z_scope.

Inductive mode := DIR | LNK | OTHER.
Definition stat_t : Type := (mode * Z * Z)%type.   (** st_mode, st_dev, st_ino *)
Definition ENOENT : Z := 2.
Definition EACCES : Z := 13.
Definition PATH_MAX : Z := 4096.   (** limits.h:70 *)

(** typeflag, ftw.h *)
Inductive typeflag := FTW_F | FTW_D | FTW_DNR | FTW_DP | FTW_NS | FTW_SL | FTW_SLN.
(** one call of the callback: the path, st_dev and st_ino, the type, the level and the base *)
Record event := { e_path : list Z; e_dev : Z; e_ino : Z; e_type : typeflag; e_level : Z; e_base : Z }.
Record flags := { phys : bool; mount : bool; depth : bool }.
(** struct history without the chain: device, inode, level, base *)
Record hist := { h_dev : Z; h_ino : Z; h_level : Z; h_base : Z }.

(** ftw.cpp:31: the length without a slash at the end *)
Definition stem (path : list Z) : nat := let l := length path in if (match l with O => false | S k => nth k path 0 =? 47 end) then (l - 1)%nat else l.
(** ftw.cpp:76-80; the byte behind the path is 0 *)
Fixpoint back_slash (path : list Z) (k : nat) : nat := match k with O => O | S k' => if nth k path 0 =? 47 then back_slash path k' else k end.
Fixpoint back_name (path : list Z) (k : nat) : nat := match k with O => O | S k' => if nth k' path 0 =? 47 then k else back_name path k' end.
Definition root_base (path : list Z) : Z := Z.of_nat (back_name path (back_slash path (stem path))).
(** ftw.cpp:106-108 *)
Definition is_dot (name : list Z) : bool := match name with [46] => true | [46; 46] => true | _ => false end.

(** what the walk has done: the calls of the callback, the open descriptors *)
Definition walked : Type := (list event * Z)%type.
Definition dir_type (t : typeflag) : bool := match t with FTW_D | FTW_DP => true | _ => false end.
Definition is_ns (t : typeflag) : bool := match t with FTW_NS => true | _ => false end.

Section Ftw.
(** the system calls: an error is [inr] of its number; open: [None] on success *)
Variables stat lstat : list Z -> stat_t + Z.
Variable open : list Z -> option Z.
Variable entries : list Z -> list (list Z).
(** the callback: the earlier calls, the call, what it returns *)
Variable fn : list event -> event -> Z.
Variable fl : flags.

(** ftw.cpp:41-60: [None]: return -1 *)
Definition classify (path : list Z) : option (typeflag * Z * Z) :=
  match (if phys fl then lstat path else stat path) with
  | inr e =>
      match (if negb (phys fl) && (e =? ENOENT) then lstat path else inr e) with
      | inl (_, d, i) => Some (FTW_SLN, d, i)
      | inr e' => if negb (e' =? EACCES) then None else Some (FTW_NS, 0, 0)
      end
  | inl (DIR, d, i) => Some (if depth fl then FTW_DP else FTW_D, d, i)
  | inl (LNK, d, i) => Some (if phys fl then FTW_SL else FTW_SLN, d, i)
  | inl (OTHER, d, i) => Some (FTW_F, d, i)
  end.

(** ftw.cpp:104-123: the loop over the entries; [walk] is the recursive call.  The paths are built in one buffer of PATH_MAX + 1 bytes, of which
    a call changes only what follows its own path; the model passes the child's path as a value. *)
Fixpoint each (walk : list Z -> walked -> Z * walked) (path : list Z) (names : list (list Z)) (s : walked) : Z * walked :=
  match names with
  | [] => (0, s)
  | name :: r =>
      if is_dot name then each walk path r s
      else if PATH_MAX - Z.of_nat (length path) <=? Z.of_nat (length name) then (-1, s)
      else
        let '(v, s') := walk (firstn (stem path) path ++ 47 :: name) s in
        if v =? 0 then each walk path r s' else (v, s')
  end.

(** do_nftw, ftw.cpp:30-136; [h]: the chain of the directories above *)
Fixpoint do_nftw (fd_limit : nat) (h : list hist) (path : list Z) (s : walked) : Z * walked :=
  match classify path with
  | None => (-1, s)
  | Some (type, d, i) =>
      if mount fl && negb (is_ns type) && (match h with x :: _ => negb (d =? h_dev x) | [] => false end) then (0, s)
      else
        let n := {| h_dev := d; h_ino := i; h_level := (match h with x :: _ => h_level x + 1 | [] => 0 end); h_base := Z.of_nat (stem path) + 1 |} in
        let base := match h with x :: _ => h_base x | [] => root_base path end in
        let err := if dir_type type then open path else None in
        let opened := dir_type type && (match err with None => true | Some _ => false end) in
        let type := if dir_type type && (match err with Some e => e =? EACCES | None => false end) then FTW_DNR else type in
        (** open, and close(dfd) if there is no descriptor left *)
        let s := if opened && negb (fd_limit =? 0)%nat then (fst s, snd s + 1) else s in
        let e := {| e_path := path; e_dev := d; e_ino := i; e_type := type; e_level := h_level n; e_base := base |} in
        let '(r, s) := if negb (depth fl) then (fn (fst s) e, (fst s ++ [e], snd s)) else (0, s) in
        if negb (r =? 0) then (r, s)
        else if existsb (fun x => (h_dev x =? d) && (h_ino x =? i)) h then (0, s)
        else
          let '(r, s) :=
            match fd_limit with
            | S k =>
                if dir_type type then
                  if opened then
                    let '(r, s') := each (do_nftw k (n :: h)) path (entries path) s in
                    (r, (fst s', snd s' - 1))        (** closedir *)
                  else (-1, s)
                else (0, s)
            | O => (0, s)
            end in
          if negb (r =? 0) then (r, s)
          else if depth fl then (fn (fst s) e, (fst s ++ [e], snd s)) else (0, s)
  end.
(** nftw, ftw.cpp:169-197; ftw, 140-167, is the same without flags *)
Definition nftw (path : list Z) (fd_limit : Z) : Z * walked :=
  if fd_limit <=? 0 then (0, ([], 0))
  else if PATH_MAX <? Z.of_nat (length path) then (-1, ([], 0))
  else do_nftw (Z.to_nat fd_limit) [] path ([], 0).
End Ftw.
