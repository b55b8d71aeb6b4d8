(** Path resolution, independently of realpath: POSIX base definitions, 4.16. *)
From Verif Require Import Base Realpath_Model.
Open Scope Z_scope.

(** the components of a path name: "a//b/" has the components "a", "", "b" and "" *)
Fixpoint split (s : list Z) : list (list Z) :=
  match s with
  | [] => [[]]
  | c :: r => if c =? 47 then [] :: split r
              else match split r with x :: xs => (c :: x) :: xs | [] => [[c]] end
  end.

(** a file name *)
Definition name (n : list Z) : Prop :=
  n <> [] /\ n <> [46] /\ n <> [46; 46] /\ ~ In 47 n /\ ~ In 0 n.

(** the absolute path name of a file, given the names on the way to it *)
Definition render (cs : list (list Z)) : list Z := concat (map (cons 47) cs).
Definition pathname (cs : list (list Z)) : list Z := match cs with [] => [47] | _ => render cs end.

Definition absolute (p : list Z) : Prop := exists q, p = 47 :: q.
Definition start (base : list (list Z)) (p : list Z) : list (list Z) :=
  match p with c :: _ => if c =? 47 then [] else base | [] => base end.

Definition is_dir (fs : list Z -> node) (base : list (list Z)) : Prop := base = [] \/ fs (render base) = Dir.

(** [resolve fs base segs o]: resolving the components [segs] from the directory [base] ends at the file [inl cs], or
    fails with the error [inr e].  Nothing is said about a file that is not a directory and is used as one through ".",
    ".." or a trailing slash; nor about a resolution that never ends. *)
Inductive resolve (fs : list Z -> node) : list (list Z) -> list (list Z) -> list (list Z) + Z -> Prop :=
| r_done base : resolve fs base [] (inl base)
| r_dot base s rest o :
    s = [] \/ s = [46] -> is_dir fs base -> resolve fs base rest o -> resolve fs base (s :: rest) o
| r_up base rest o :
    is_dir fs base -> resolve fs (removelast base) rest o -> resolve fs base ([46; 46] :: rest) o
| r_file base n rest o :
    name n -> fs (render (base ++ [n])) = Dir \/ fs (render (base ++ [n])) = Other ->
    resolve fs (base ++ [n]) rest o -> resolve fs base (n :: rest) o
| r_err base n rest e :
    name n -> fs (render (base ++ [n])) = Err e -> resolve fs base (n :: rest) (inr e)
| r_link base n rest t o :
    name n -> fs (render (base ++ [n])) = Link t ->
    resolve fs (start base t) (split t ++ rest) o -> resolve fs base (n :: rest) o.

(** a path with no ".", "..", symbolic link or missing file in it *)
Definition canonical (fs : list Z -> node) (cs : list (list Z)) : Prop :=
  Forall name cs /\
  forall pre post, cs = pre ++ post -> pre <> [] -> fs (render pre) = Dir \/ fs (render pre) = Other.

(** The symbolic links that realpath handles.
    [walk fs base segs b]: following [segs] from [base] leads to [b] without meeting a relative link *)
Inductive walk (fs : list Z -> node) : list (list Z) -> list (list Z) -> list (list Z) -> Prop :=
| w_done base : walk fs base [] base
| w_dot base s rest b : s = [] \/ s = [46] -> walk fs base rest b -> walk fs base (s :: rest) b
| w_up base rest b : walk fs (removelast base) rest b -> walk fs base ([46; 46] :: rest) b
| w_file base n rest b :
    name n -> fs (render (base ++ [n])) = Dir \/ fs (render (base ++ [n])) = Other ->
    walk fs (base ++ [n]) rest b -> walk fs base (n :: rest) b
| w_link base n rest cs k b :
    name n -> fs (render (base ++ [n])) = Link (render cs ++ repeat 47 k) ->
    walk fs cs rest b -> walk fs base (n :: rest) b.

Definition relative_link (fs : list Z -> node) (base : list (list Z)) (n : list Z) : Prop :=
  exists t, fs (render (base ++ [n])) = Link t /\ ~ absolute t.

(** every link has a text of 1 to 512 bytes; that of an absolute one is canonical (a trailing slash aside) and not "/";
    that of a relative one leads through no further relative link, except that its last component may be one *)
Definition tame (fs : list Z -> node) : Prop :=
  forall base n t, Forall name base -> name n -> fs (render (base ++ [n])) = Link t ->
    t <> [] /\ (length t <= Z.to_nat 512)%nat /\ ~ In 0 t /\
    (absolute t -> exists cs k, cs <> [] /\ t = render cs ++ repeat 47 k /\ canonical fs cs) /\
    (~ absolute t -> forall pre m post b,
        split t = pre ++ m :: post -> post <> [] -> walk fs base pre b -> ~ relative_link fs b m).

(** a path must fit in PATH_MAX bytes *)
Definition limited (o : list (list Z) + Z) : list Z + Z :=
  match o with
  | inl cs => if Z.of_nat (length (pathname cs)) <? 4096 then inl (pathname cs) else inr 36
  | inr e => inr e
  end.
