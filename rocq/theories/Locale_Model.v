(** Model of setlocale (options/ansi/generic/locale.cpp:11-109), newlocale (options/posix/generic/posix_locale.cpp:7-15) and the part of
    options/internal/generic/locale.cpp that finds locales by name.  Strings are lists of bytes.  The two databases are parameters: the archive is
    the map from names to records that its hash table stands for (the table itself, :347-402, is not modelled), a file is its contents after
    parseCategoryInfo (:404-507), one number for the whole of a category.  They do not change.  The locale objects are values: who points to them
    is not modelled, nor are nl_langinfo and the data itself. *)
From Verif Require Import Base.
Open Scope Z_scope.

(** internal/generic/locale.cpp:40-54 *)
Definition lc_names : list (list Z) :=
  [ [76; 67; 95; 67; 84; 89; 80; 69] (* LC_CTYPE *)
  ; [76; 67; 95; 78; 85; 77; 69; 82; 73; 67] (* LC_NUMERIC *)
  ; [76; 67; 95; 84; 73; 77; 69] (* LC_TIME *)
  ; [76; 67; 95; 67; 79; 76; 76; 65; 84; 69] (* LC_COLLATE *)
  ; [76; 67; 95; 77; 79; 78; 69; 84; 65; 82; 89] (* LC_MONETARY *)
  ; [76; 67; 95; 77; 69; 83; 83; 65; 71; 69; 83] (* LC_MESSAGES *)
  ; [76; 67; 95; 65; 76; 76] (* LC_ALL *)
  ; [76; 67; 95; 80; 65; 80; 69; 82] (* LC_PAPER *)
  ; [76; 67; 95; 78; 65; 77; 69] (* LC_NAME *)
  ; [76; 67; 95; 65; 68; 68; 82; 69; 83; 83] (* LC_ADDRESS *)
  ; [76; 67; 95; 84; 69; 76; 69; 80; 72; 79; 78; 69] (* LC_TELEPHONE *)
  ; [76; 67; 95; 77; 69; 65; 83; 85; 82; 69; 77; 69; 78; 84] (* LC_MEASUREMENT *)
  ; [76; 67; 95; 73; 68; 69; 78; 84; 73; 70; 73; 67; 65; 84; 73; 79; 78] (* LC_IDENTIFICATION *) ].
Definition lc (c : Z) : list Z := nth (Z.to_nat c) lc_names [].
Definition LC_CTYPE : Z := 0.
Definition LC_MESSAGES : Z := 5.
Definition LC_ALL : Z := 6.
(** the categories in the order of their numbers, without LC_ALL *)
Definition all_cats : list Z := [0; 1; 2; 3; 4; 5; 7; 8; 9; 10; 11; 12].
(** options/internal/include/bits/locale.h:44 *)
Definition LC_ALL_MASK : Z := 8127.
Definition EINVAL : Z := 22.
Definition ENOENT : Z := 2.
Definition name_C : list Z := [67].
Definition name_POSIX : list Z := [80; 79; 83; 73; 88].
Definition name_LANG : list Z := [76; 65; 78; 71].
Definition sys_messages : list Z := [76; 67; 95; 77; 69; 83; 83; 65; 71; 69; 83; 47; 83; 89; 83; 95; 76; 67; 95; 77; 69; 83; 83; 65; 71; 69; 83].

Definition same (a b : list Z) : bool := if list_eq_dec Z.eq_dec a b then true else false.
Definition is_c (n : list Z) : bool := same n name_C || same n name_POSIX.
(** the bytes in front of the first one that [stop] accepts, and the rest from there on *)
Fixpoint cut (stop : Z -> bool) (l : list Z) : list Z * list Z :=
  match l with
  | [] => ([], [])
  | c :: r => if stop c then ([], l) else let '(a, b) := cut stop r in (c :: a, b)
  end.
Definition nonempty (l : list Z) : option (list Z) := match l with [] => None | _ => Some l end.

(** :64-84; isalpha_l, isdigit_l and tolower_l in the C locale *)
Definition isdigit (c : Z) : bool := (48 <=? c) && (c <=? 57).
Definition isupper (c : Z) : bool := (65 <=? c) && (c <=? 90).
Definition isalpha (c : Z) : bool := isupper c || ((97 <=? c) && (c <=? 122)).
Fixpoint keep (l : list Z) : list Z :=
  match l with
  | [] => []
  | c :: r => if isalpha c then (if isupper c then c + 32 else c) :: keep r else if isdigit c then c :: keep r else keep r
  end.
Definition normalize (codeset : list Z) : list Z := (if forallb isdigit codeset then [105; 115; 111] else []) ++ keep codeset.

(** :87-135 *)
Definition parse (name : list Z) : list Z * option (list Z) * option (list Z) * option (list Z) :=
  let '(lang, r) := cut (fun c => (c =? 95) || (c =? 46) || (c =? 64)) name in
  match r with
  | [] => (lang, None, None, None)
  | c :: r1 =>
      let '(terr, sep, r2) :=
        if c =? 95 then
          let '(t, r) := cut (fun c => (c =? 46) || (c =? 64)) r1 in
          match r with [] => (nonempty t, None, []) | c2 :: r2 => (nonempty t, Some c2, r2) end
        else (None, Some c, r1) in
      match sep with
      | None => (lang, terr, None, None)
      | Some s =>
          if s =? 46 then
            let '(cs, r3) := cut (fun c => c =? 64) r2 in
            match r3 with [] => (lang, terr, nonempty cs, None) | _ :: r4 => (lang, terr, nonempty cs, nonempty r4) end
          else (lang, terr, None, nonempty r2)
      end
  end.

(** :138-262: twelve ifs, each with one name *)
Definition build (p : list Z * option (list Z) * option (list Z) * option (list Z)) : list (list Z) :=
  let '(lang, terr, cs, md) := p in
  let norm := match cs with Some c => normalize c | None => [] end in
  let n1 := match norm with [] => [] | _ => [norm] end in
  let c1 := match cs with Some c => if same c norm then [] else [c] | None => [] end in
  let t1 := match terr with Some t => [t] | None => [] end in
  let m1 := match md with Some m => [m] | None => [] end in
  flat_map (fun t => flat_map (fun c => map (fun m => lang ++ 95 :: t ++ 46 :: c ++ 64 :: m) m1) c1) t1 ++
  flat_map (fun t => flat_map (fun n => map (fun m => lang ++ 95 :: t ++ 46 :: n ++ 64 :: m) m1) n1) t1 ++
  flat_map (fun t => map (fun m => lang ++ 95 :: t ++ 64 :: m) m1) t1 ++
  flat_map (fun t => map (fun c => lang ++ 95 :: t ++ 46 :: c) c1) t1 ++
  flat_map (fun t => map (fun n => lang ++ 95 :: t ++ 46 :: n) n1) t1 ++
  map (fun t => lang ++ 95 :: t) t1 ++
  flat_map (fun m => map (fun c => lang ++ 46 :: c ++ 64 :: m) c1) m1 ++
  flat_map (fun m => map (fun n => lang ++ 46 :: n ++ 64 :: m) n1) m1 ++
  map (fun m => lang ++ 64 :: m) m1 ++
  map (fun c => lang ++ 46 :: c) c1 ++
  map (fun n => lang ++ 46 :: n) n1 ++
  [lang].
Definition candidates (name : list Z) : list (list Z) := build (parse name).

(** :265-304.  The value of a category is a piece of the string, or (if the string ends after the name of the category) a view that starts behind the
    end of the string and has the length SIZE_MAX: sub_string(size + 1, -1), whose bounds check from + size <= length wraps *)
Inductive view := Val (v : list Z) | Wild.
Fixpoint parse_composite (cs : list Z) (s : list Z) : option (list (Z * view)) :=
  match cs with
  | [] => None
  | c :: r =>
      let '(nm, rest) := cut (fun x => x =? 61) s in
      if negb (same nm (lc c)) then None
      else match rest with
           | [] => match r with [] => Some [(c, Wild)] | _ => None end
           | _ :: v =>
               let '(val, rest') := cut (fun x => x =? 59) v in
               match val with
               | [] => None
               | _ =>
                   match rest' with
                   | [] => match r with [] => Some [(c, Val val)] | _ => None end
                   | _ :: s' => match parse_composite r s' with Some l => Some ((c, Val val) :: l) | None => None end
                   end
               end
           end
  end.

Fixpoint first_some {A B} (f : A -> option B) (l : list A) : option B :=
  match l with [] => None | a :: r => match f a with Some b => Some b | None => first_some f r end end.

(** struct localeinfo, options/internal/include/mlibc/locale.hpp:217-239: the name for LC_ALL, and name and data of each category *)
Record locale := Loc { all_name : list Z; cat : Z -> list Z * Z }.
Definition set_cat (l : locale) (c : Z) (v : list Z * Z) : locale := Loc (all_name l) (fun x => if x =? c then v else cat l x).

(** :523-548: the path of the file of a category *)
Definition path (lp e : list Z) (c : Z) : list Z := lp ++ 47 :: e ++ 47 :: (if c =? LC_MESSAGES then sys_messages else lc c).

(** :677-696: the name for LC_ALL *)
Fixpoint compose (cs : list Z) (f : Z -> list Z) : list Z :=
  match cs with
  | [] => []
  | [c] => lc c ++ 61 :: f c
  | c :: r => lc c ++ 61 :: f c ++ 59 :: compose r f
  end.
Definition update_name (l : locale) : locale :=
  let f := fun c => fst (cat l c) in
  Loc (if forallb (fun c => same (f LC_CTYPE) (f c)) all_cats then f LC_CTYPE else compose all_cats f) (cat l).

(** locale.hpp:217-231: a new object has the C locale *)
Section Locale.
  Variable cdata : Z -> Z.                                        (** the C locale's data *)
  Variable archive : option (list Z -> option (Z -> option Z)).   (** name, then category *)
  Variable paths : list (list Z).                                 (** locpaths *)
  Variable file : list Z -> Z -> option Z.                        (** path and category *)

  Definition c_locale : locale := Loc name_C (fun c => (name_C, cdata c)).

  (** findLocaleArchiveRecord :551-581 with findLocaleRecord :362-401 *)
  Definition from_archive (c : Z) (name : list Z) : option (list Z * Z) :=
    match archive with
    | None => None
    | Some a =>
        match first_some a (candidates name) with
        | None => None
        | Some rec => match rec c with Some d => Some (name, d) | None => None end
        end
    end.
  (** findLocaleFileRecord :509-549 *)
  Definition from_file (c : Z) (name : list Z) : option (list Z * Z) :=
    first_some (fun lp => first_some (fun e => match file (path lp e c) c with Some d => Some (e, d) | None => None end) (candidates name)) paths.
  Definition find_category (c : Z) (name : list Z) : option (list Z * Z) :=
    match from_archive c name with Some x => Some x | None => from_file c name end.

  (** applyCategory :700-770; the names C and POSIX copy the C locale with its name.  resetCategory :622-641 does the same *)
  Definition apply_category (c : Z) (name : list Z) (l : locale) : option locale :=
    if is_c name then Some (set_cat l c (name_C, cdata c))
    else match find_category c name with Some v => Some (set_cat l c v) | None => None end.

  (** loadLocale :776-836, the loop over the bits of the mask, lowest first: whether it succeeded, and the object *)
  Fixpoint load_cats (cs : list Z) (value : Z -> view) (l : locale) : res (bool * locale) :=
    match cs with
    | [] => Ok (true, l)
    | c :: r =>
        match value c with
        | Wild => UB
        | Val n =>
            match apply_category c n l with
            | Some l' => load_cats r value l'
            | None => Ok (false, l)
            end
        end
    end.
  Fixpoint lookup (c : Z) (l : list (Z * view)) : view :=
    match l with [] => Val [] | (k, v) :: r => if k =? c then v else lookup c r end.
  (** loadLocale: the errno and the object, [base] with its changes if there was an error.  [None] is a null pointer *)
  Definition load_locale (mask : Z) (name : list Z) (base : option locale) : res (Z * locale) :=
    let old := match base with Some b => b | None => c_locale end in
    if negb (Z.land mask LC_ALL_MASK =? mask) then Ok (EINVAL, old)
    else if is_c name && (mask =? LC_ALL_MASK) then Ok (0, c_locale)
    else
      let composite := parse_composite all_cats name in
      '(ok, l) <- load_cats (filter (Z.testbit mask) all_cats) (fun c => match composite with Some p => lookup c p | None => Val name end) old ;;
      if ok : bool then Ok (0, update_name l) else Ok (ENOENT, l).

  (** getCategoryLocaleName :601-620: __builtin_unreachable for other numbers *)
  Definition category_name (l : locale) (c : Z) : res (list Z) :=
    if c =? LC_ALL then Ok (all_name l) else if (0 <=? c) && (c <=? 12) then Ok (fst (cat l c)) else UB.

  Section Env.
    Variable getenv : list Z -> option (list Z).
    Definition env (v : list Z) : option (list Z) := match getenv v with Some [] => None | x => x end.

    (** ansi/generic/locale.cpp:26-57: the variables of the categories; the result also has the categories that were set *)
    Fixpoint apply_env (cs done : list Z) (l : locale) : bool * list Z * locale :=
      match cs with
      | [] => (true, done, l)
      | c :: r =>
          match env (lc c) with
          | None => apply_env r done l
          | Some n =>
              match apply_category c n l with
              | Some l' => apply_env r (c :: done) l'
              | None => (false, done, l)
              end
          end
      end.
    (** :38-44 and 59-87: LANG, or C, for the others *)
    Fixpoint apply_lang (cs done : list Z) (n : list Z) (l : locale) : bool * locale :=
      match cs with
      | [] => (true, l)
      | c :: r =>
          if existsb (Z.eqb c) done then apply_lang r done n l
          else match apply_category c n l with
               | Some l' => apply_lang r done n l'
               | None => (false, l)
               end
      end.

    (** setlocale, ansi/generic/locale.cpp:11-109, with the global locale [g]: what it returns, and the global locale after it.  A category that is
        none is undefined behaviour in category_name (:617) or as an index (lcNames[category], :763 and :523) *)
    Definition setlocale (g : locale) (c : Z) (name : option (list Z)) : res (option (list Z) * locale) :=
      let finish (l : locale) := n <- category_name l c ;; Ok (Some n, l) in
      let load (n : list Z) :=
        '(e, l) <- load_locale LC_ALL_MASK n (Some g) ;;
        if e =? 0 then finish (update_name l) else Ok (None, l) in
      match name with
      | None => finish g
      | Some [] =>
          match env (lc LC_ALL), c =? LC_ALL with
          | Some n, true => load n
          | _, _ =>
              let '(ok, done, l) := apply_env all_cats [] g in
              if negb ok then Ok (None, l)
              else let '(ok, l) := apply_lang all_cats done (match env name_LANG with Some n => n | None => name_C end) l in
                   if negb ok then Ok (None, l) else finish (update_name l)
          end
      | Some n =>
          if c =? LC_ALL then load n
          else if negb ((0 <=? c) && (c <=? 12)) then UB
          else match apply_category c n g with
               | None => Ok (None, g)
               | Some l => finish (update_name l)
               end
      end.
  End Env.

  (** newlocale, posix_locale.cpp:7-15: the errno, and the object *)
  Definition newlocale (mask : Z) (name : list Z) (base : option locale) : res (Z * locale) := load_locale mask name base.
End Locale.
