(** What locale names mean, and what setlocale promises. *)
From Verif Require Import Base Locale_Model.
Open Scope Z_scope.

(** language[_territory][.codeset][@modifier] *)
Definition part (sep : Z) (o : option (list Z)) : list Z := match o with Some x => sep :: x | None => [] end.
Definition spelled (lang : list Z) (terr cs md : option (list Z)) : list Z := lang ++ part 95 terr ++ part 46 cs ++ part 64 md.
Definition is_part (without : list Z) (o : option (list Z)) : Prop :=
  match o with Some x => x <> [] /\ forall c, In c x -> ~ In c without | None => True end.
Definition proper_name (lang : list Z) (terr cs md : option (list Z)) : Prop :=
  (forall c, In c lang -> ~ In c [95; 46; 64]) /\ is_part [46; 64] terr /\ is_part [64] cs /\ is_part [] md.

(** a codeset without punctuation and in lower case, "iso" in front of a number *)
Definition digit (c : Z) : bool := (48 <=? c) && (c <=? 57).
Definition letter (c : Z) : bool := (65 <=? c) && (c <=? 90) || (97 <=? c) && (c <=? 122).
Definition lower (c : Z) : Z := if (65 <=? c) && (c <=? 90) then c + 32 else c.
Definition normal (cs : list Z) : list Z := (if forallb digit cs then [105; 115; 111] else []) ++ map lower (filter (fun c => letter c || digit c) cs).

(** what a name may stand for, best first: with its territory before without, then with its modifier before without, then with its codeset as it is
    spelled, normalised, and without *)
Definition with_without (o : option (list Z)) : list (option (list Z)) := match o with Some x => [Some x; None] | None => [None] end.
Definition codesets (o : option (list Z)) : list (option (list Z)) :=
  match o with
  | None => [None]
  | Some c =>
      (if list_eq_dec Z.eq_dec c (normal c) then [] else [Some c]) ++ (if list_eq_dec Z.eq_dec (normal c) [] then [] else [Some (normal c)]) ++ [None]
  end.
Definition variants (lang : list Z) (terr cs md : option (list Z)) : list (list Z) :=
  flat_map (fun t => flat_map (fun m => map (fun c => spelled lang t c m) (codesets cs)) (with_without md)) (with_without terr).

(** the first element of [l] for which [f] has something *)
Definition first_of {A B} (f : A -> option B) (l : list A) (b : B) : Prop :=
  exists l1 a l2, l = l1 ++ a :: l2 /\ f a = Some b /\ forall x, In x l1 -> f x = None.

(** LC_CTYPE=...;LC_NUMERIC=...;...;LC_IDENTIFICATION=... *)
Definition piece (f : Z -> list Z) (c : Z) : list Z := lc c ++ [61] ++ f c.
Definition composite (f : Z -> list Z) : list Z := piece f 0 ++ flat_map (fun c => [59] ++ piece f c) (tl all_cats).
Definition category (c : Z) : Prop := In c all_cats.

(** the codeset is what follows the first dot, up to the at sign or the end *)
Definition codeset_in (n before c rest : list Z) : Prop :=
  n = before ++ [46] ++ c ++ rest /\ ~ In 46 before /\ ~ In 64 before /\ ~ In 64 c /\ (rest = [] \/ exists r, rest = 64 :: r).
(** a name that can be part of a composite: not empty and without semicolon.  Normalising its codeset twice is normalising it once (not so for
    "8859-1", which gives 88591 and then iso88591) *)
Definition plain (n : list Z) : Prop :=
  n <> [] /\ ~ In 59 n /\ forall before c rest, codeset_in n before c rest -> normal (normal c) = normal c.

(** a name with the value [v c] for category [c] *)
Definition spells (n : list Z) (v : Z -> list Z) : Prop :=
  (plain n /\ forall c, v c = n) \/ (n = composite v /\ forall c, category c -> plain (v c)).

Section Spec.
  Variable cdata : Z -> Z.
  Variable archive : option (list Z -> option (Z -> option Z)).
  Variable paths : list (list Z).
  Variable file : list Z -> Z -> option Z.

  (** every locale in the archive has all categories; there is no directory for the names that are built in, or without name *)
  Definition sane : Prop :=
    (forall a e rec c, archive = Some a -> a e = Some rec -> category c -> rec c <> None) /\
    (forall lp e c, e = [] \/ e = name_C \/ e = name_POSIX -> file (path lp e c) c = None).

  (** what the name [n] gives for category [c] *)
  Definition stands_for (c : Z) (n : list Z) : option (list Z * Z) :=
    if is_c n then Some (name_C, cdata c) else find_category archive paths file c n.

  (** the arguments of setlocale: a null pointer, an empty string, a plain name, or for LC_ALL a composite of plain names *)
  Definition acceptable (c : Z) (o : option (list Z)) : Prop :=
    match o with
    | None => True
    | Some n => n = [] \/ plain n \/ c = LC_ALL /\ exists f, n = composite f /\ forall k, category k -> plain (f k)
    end.
  Definition acceptable_env (getenv : list Z -> option (list Z)) : Prop :=
    forall v n, getenv v = Some n -> n = [] \/ plain n.

  (** the global locale after a history of calls; [ok]: none of them failed *)
  Inductive reached : bool -> locale -> Prop :=
  | at_start : reached true (c_locale cdata)
  | after_call : forall ok g c name getenv r g', reached ok g -> acceptable c name -> acceptable_env getenv ->
      setlocale cdata archive paths file getenv g c name = Ok (r, g') -> reached (ok && match r with Some _ => true | None => false end) g'.

  (** what the environment asks for *)
  Definition var (getenv : list Z -> option (list Z)) (v : list Z) : option (list Z) := match getenv v with Some [] => None | x => x end.
  Definition wanted (getenv : list Z -> option (list Z)) (c : Z) : list Z :=
    match var getenv (lc LC_ALL), var getenv (lc c), var getenv name_LANG with
    | Some n, _, _ => n
    | None, Some n, _ => n
    | None, None, Some n => n
    | None, None, None => name_C
    end.
End Spec.
