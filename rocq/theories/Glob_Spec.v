(** What glob has to find.  A pattern is components with slashes between them, quoted or not.  A component is plain text, or has a *, a ? or a
    bracket expression in it, or ends in a quoting backslash with nothing behind it, which matches nothing. *)
From Coq Require Import Sorted Permutation.
From Verif Require Import Base Glob_Model.
Open Scope Z_scope.

Inductive class := Plain (text : list Z) | Magic | Dangling.
(** [esc]: a backslash quotes; [opened]: a [ came before *)
Fixpoint classify (esc opened : bool) (c : list Z) : class :=
  let more x k := match k with Plain t => Plain (x :: t) | k => k end in
  match c with
  | [] => Plain []
  | x :: r =>
      if (x =? 42) || (x =? 63) || (opened && (x =? 93)) then Magic
      else if esc && (x =? 92) then
        match r with
        | [] => Dangling
        | y :: r => if opened && (y =? 93) then Magic else more y (classify esc opened r)
        end
      else more x (classify esc (opened || (x =? 91)) r)
  end.

(** [c] is the first component of the pattern: it ends at the end, at a slash, or at the backslash that quotes a slash *)
Definition paired (c : list Z) : Prop := exists d k, c = d ++ repeat 92 (2 * k) /\ (forall e, d <> e ++ [92]).
Definition first_of (esc : bool) (pat c rest : list Z) : Prop :=
  pat = c ++ rest /\ c <> [] /\ ~ In 47 c /\
  (rest = [] \/ (exists r, rest = 47 :: r /\ (esc = true -> paired c)) \/ (esc = true /\ exists r, rest = 92 :: 47 :: r /\ paired c)).

(** The directory that a prefix of a path is *)
Definition here (p : list Z) : list Z := match p with [] => [46] | _ => p end.
Definition dirlike (p : list Z) : Prop := p = [] \/ exists s, p = s ++ [47].
Definition entries (sys : fs) (p : list Z) : list (list Z * Z) := match listing sys (here p) with inr es => es | inl _ => [] end.

(** The names a component may stand for: those that fnmatch accepts; with GLOB_PERIOD, . and .. in the middle of a path only if the pattern has
    the period *)
Definition named (fl : flags) (fnm : bool -> bool -> list Z -> list Z -> bool) (c rest n : list Z) : Prop :=
  fnm (f_noescape fl) (negb (f_period fl)) c n = true /\
  (rest <> [] -> f_period fl = true -> In n [[46]; [46; 46]] -> fnm (f_noescape fl) true c n = true).

Inductive expands (sys : fs) (fl : flags) (fnm : bool -> bool -> list Z -> list Z -> bool) : list Z -> list Z -> list Z -> Prop :=
  | ex_end p : expands sys fl fnm p [] p
  | ex_slash p r q : expands sys fl fnm (p ++ [47]) r q -> expands sys fl fnm p (47 :: r) q
  | ex_quoted p r q : f_noescape fl = false -> expands sys fl fnm (p ++ [47]) r q -> expands sys fl fnm p (92 :: 47 :: r) q
  | ex_plain p pat c rest t q : first_of (negb (f_noescape fl)) pat c rest -> classify (negb (f_noescape fl)) false c = Plain t ->
      expands sys fl fnm (p ++ t) rest q -> expands sys fl fnm p pat q
  | ex_magic p pat c rest n ty q : first_of (negb (f_noescape fl)) pat c rest -> classify (negb (f_noescape fl)) false c = Magic ->
      In (n, ty) (entries sys p) -> named fl fnm c rest n -> expands sys fl fnm (p ++ n) rest q -> expands sys fl fnm p pat q.

(** The directories that have to be read for the pattern *)
Inductive scans (sys : fs) (fl : flags) (fnm : bool -> bool -> list Z -> list Z -> bool) : list Z -> list Z -> list Z -> Prop :=
  | sc_slash p r d : scans sys fl fnm (p ++ [47]) r d -> scans sys fl fnm p (47 :: r) d
  | sc_quoted p r d : f_noescape fl = false -> scans sys fl fnm (p ++ [47]) r d -> scans sys fl fnm p (92 :: 47 :: r) d
  | sc_plain p pat c rest t d : first_of (negb (f_noescape fl)) pat c rest -> classify (negb (f_noescape fl)) false c = Plain t ->
      scans sys fl fnm (p ++ t) rest d -> scans sys fl fnm p pat d
  | sc_here p pat c rest : first_of (negb (f_noescape fl)) pat c rest -> classify (negb (f_noescape fl)) false c = Magic ->
      len p + len c < PATH_MAX -> scans sys fl fnm p pat p
  | sc_below p pat c rest n ty d : first_of (negb (f_noescape fl)) pat c rest -> classify (negb (f_noescape fl)) false c = Magic ->
      In (n, ty) (entries sys p) -> named fl fnm c rest n -> In ty [0; DT_DIR; DT_LNK] -> scans sys fl fnm (p ++ n) rest d -> scans sys fl fnm p pat d.

(** What is asked of fnmatch: the text in front of the first special character is part of the name *)
Definition honest (fnm : bool -> bool -> list Z -> list Z -> bool) : Prop := forall ne per c r n t,
  classify (negb ne) false (c ++ [93]) = Plain (t ++ [93]) -> fnm ne per (c ++ r) n = true -> len t <= len n.

(** What a file system is: the listed names exist, they are names, and their types are right *)
Definition coherent (sys : fs) : Prop := forall p n ty, dirlike p -> In (n, ty) (entries sys p) ->
  n <> [] /\ ~ In 47 n /\ lstat sys (p ++ n) = 0 /\
  (ty = DT_DIR -> forall k, lstat sys (p ++ n ++ repeat 47 k) = 0) /\
  (ty <> 0 -> ty <> DT_DIR -> ty <> DT_LNK -> forall r, lstat sys (p ++ n ++ 47 :: r) <> 0) /\
  (ty = DT_DIR -> forall k, stat_dir sys (p ++ n ++ repeat 47 k) = Some true) /\
  (ty <> 0 -> ty <> DT_DIR -> ty <> DT_LNK -> stat_dir sys (p ++ n) = Some false).
(** ... where stat succeeds for what exists only, and the empty path does not exist *)
Definition sober (sys : fs) : Prop := (forall p d, stat_dir sys p = Some d -> lstat sys p = 0) /\ lstat sys [] <> 0.
Definition distinct (sys : fs) : Prop := forall p, dirlike p -> NoDup (map fst (entries sys p)).

(** With GLOB_MARK directories end in a slash *)
Definition marked (sys : fs) (fl : flags) (q : list Z) : list Z :=
  if f_mark fl then match stat_dir sys q with Some true => if last q 0 =? 47 then q else q ++ [47] | _ => q end else q.

(** [l] is exactly the paths of the pattern that exist *)
Definition the_paths (sys : fs) (fl : flags) (fnm : bool -> bool -> list Z -> list Z -> bool) (p pat : list Z) (l : list (list Z)) : Prop :=
  NoDup l /\ forall x, In x l <-> exists q, expands sys fl fnm p pat q /\ lstat sys q = 0 /\ len q < PATH_MAX /\ x = marked sys fl q.

Definition before (a b : list Z) : Prop :=
  (exists r, b = a ++ r) \/ exists p x y r s, a = p ++ x :: r /\ b = p ++ y :: s /\ x < y.
(** [path] has something in it that is not a directory, where there should be one *)
Definition no_directory (sys : fs) (path : list Z) : Prop := exists p n ty s, dirlike p /\ In (n, ty) (entries sys p) /\ ~ In ty [0; DT_DIR; DT_LNK] /\ path = p ++ n ++ 47 :: s.
(** an error that the caller has to hear of *)
Definition failure (sys : fs) (path : list Z) (e : Z) : Prop := listing sys (here path) = inl e \/ (lstat sys path = e /\ e <> 0 /\ e <> ENOENT).

(** What the search under [p] has to give: nothing but paths that exist and match; all of them if there was no error; an error only if the caller
    asked for it; with GLOB_ERR, none if a directory could not be read or a file not be examined *)
Definition searched (sys : fs) (fl : flags) (fnm : bool -> bool -> list Z -> list Z -> bool) (errf : list Z -> Z -> bool) (p pat : list Z) (e : Z) (l : list (list Z)) : Prop :=
  (NoDup l /\ forall x, In x l -> exists q, expands sys fl fnm p pat q /\ lstat sys q = 0 /\ len q < PATH_MAX /\ x = marked sys fl q) /\
  (e = 0 -> the_paths sys fl fnm p pat l) /\
  (e = 0 -> f_err fl = true -> (forall d, scans sys fl fnm p pat d -> exists es, listing sys (here d) = inr es) /\
     (forall q, expands sys fl fnm p pat q -> len q < PATH_MAX -> lstat sys q = 0 \/ lstat sys q = ENOENT \/ no_directory sys q)) /\
  (e <> 0 -> e = GLOB_ABORTED /\ exists path er, failure sys path er /\ (errf path er = true \/ f_err fl = true)).

(** The vector: [offs] null pointers, the names, a null pointer *)
Definition holding (offs : nat) (names : list (list Z)) : globt := Globt (length names) (Some (repeat None offs ++ map Some names ++ [None])) offs.
Definition offsets (fl : flags) (g : globt) : nat := if f_dooffs fl then gl_offs g else O.
Definition told (errfunc : option (list Z -> Z -> bool)) : list Z -> Z -> bool := match errfunc with Some f => f | None => fun _ _ => false end.
(** What glob returns if [l] was found and the search ended with [e] *)
Definition outcome (pat : list Z) (fl : flags) (offs : nat) (e : Z) (l : list (list Z)) : Z * globt :=
  match l, f_nocheck fl with
  | [], false => (GLOB_NOMATCH, Globt 0 None offs)
  | [], true => (e, holding offs [pat])
  | _, _ => (e, holding offs l)
  end.
Definition in_order (fl : flags) (l : list (list Z)) : Prop := f_nosort fl = false -> StronglySorted before l.
Definition quote (s : list Z) : list Z := flat_map (fun c => [92; c]) s.
Definition appending (fl : flags) : flags := Flags true (f_dooffs fl) (f_err fl) (f_mark fl) (f_nocheck fl) (f_noescape fl) (f_nosort fl) (f_period fl) (f_tilde fl).
