(** Model of glob and globfree, options/posix/musl-generic-regex/glob.c.
    The file system is a parameter that does not change during the call: lstat, stat and the listing of a directory (or the errno).  Errors of
    readdir and a lack of memory are left out.  fnmatch is a parameter (its correctness is C70), and so are the home directories of
    expand_tilde.  The buffer is the list of the bytes in front of [pos]; the pattern is a list without null bytes, and the null byte that do_glob
    puts over the separator for fnmatch is the end of the component here.  The sorted vector is that of an insertion sort: strcmp is a total order
    on the names, so every correct sort (qsort: C17) gives this vector.  The flags are booleans. *)
From Verif Require Import Base.
Open Scope Z_scope.

Record flags := Flags { f_append : bool; f_dooffs : bool; f_err : bool; f_mark : bool; f_nocheck : bool; f_noescape : bool; f_nosort : bool; f_period : bool; f_tilde : bool }.
(** options/posix/include/glob.h:27-29, options/ansi/include/limits.h:70, options/posix/include/dirent.h:19-27 *)
Definition GLOB_ABORTED : Z := 1.
Definition GLOB_NOMATCH : Z := 2.
Definition PATH_MAX : Z := 4096.
Definition DT_DIR : Z := 4.
Definition DT_REG : Z := 8.
Definition DT_LNK : Z := 10.
Definition ENOENT : Z := 2.

Record fs := FS {
  lstat : list Z -> Z;                              (** 0, or the errno *)
  stat_dir : list Z -> option bool;                 (** stat: is it a directory? *)
  listing : list Z -> Z + list (list Z * Z)         (** opendir and readdir: the errno, or names and types *)
}.

Section Glob.
  Variable sys : fs.
  Variable fl : flags.
  (** fnmatch(pattern, name, flags) == 0; the flags are FNM_NOESCAPE and FNM_PERIOD *)
  Variable fnm : bool -> bool -> list Z -> list Z -> bool.
  Variable errfunc : list Z -> Z -> bool.

  Definition len (l : list Z) : Z := Z.of_nat (length l).

  (** append, glob.c:21-34: what is stored *)
  Definition stored (name : list Z) (mark : bool) : list Z :=
    if mark then match rev name with c :: _ => if c =? 47 then name else name ++ [47] | [] => name end else name.

  (** glob.c:44 *)
  Fixpoint slashes (buf pat : list Z) : list Z * list Z :=
    match pat with
    | c :: r => if (len buf + 1 <? PATH_MAX) && (c =? 47) then slashes (buf ++ [c]) r else (buf, pat)
    | [] => (buf, pat)
    end.

  (** glob.c:46-87, the literal prefix.  [comp]: the pattern from the last separator on; [cur]: the pattern from [i] on; [lit]: the [j] bytes stored
      behind [pos] *)
  Inductive prefix := Nothing | Whole (buf : list Z) | At (buf comp : list Z).
  Fixpoint literal (comp cur buf lit : list Z) (br over : bool) : prefix :=
    match cur with
    | [] => if over then Nothing else Whole (buf ++ lit)
    | c :: r =>
        if (c =? 42) || (c =? 63) || (br && (c =? 93)) then At buf comp
        else
          let store (d : Z) (r : list Z) (br : bool) (go : list Z -> list Z -> list Z -> bool -> bool -> prefix) :=
            if d =? 47 then
              if over then Nothing
              else if len buf + len lit + 1 <? PATH_MAX then go r (buf ++ lit ++ [47]) [] false false else Nothing
            else if len buf + len lit + 1 <? PATH_MAX then go comp buf (lit ++ [d]) br over
            else if br then go comp buf lit br true
            else Nothing in
          if c =? 91 then store c r true (fun comp buf lit br over => literal comp r buf lit br over)
          else if (c =? 92) && negb (f_noescape fl) then
            match r with
            | [] => Nothing
            | d :: r' => if br && (d =? 93) then At buf comp else store d r' br (fun comp buf lit br over => literal comp r' buf lit br over)
            end
          else store c r br (fun comp buf lit br over => literal comp r buf lit br over)
    end.

  (** glob.c:88-111 *)
  Definition finish (buf : list Z) (ty : Z) : Z * list (list Z) :=
    let ty := if f_mark fl && ((ty =? 0) || (ty =? DT_LNK)) then match stat_dir sys buf with Some true => DT_DIR | Some false => DT_REG | None => ty end else ty in
    let e := lstat sys buf in
    if (ty =? 0) && negb (e =? 0) then
      if negb (e =? ENOENT) && (errfunc buf e || f_err fl) then (GLOB_ABORTED, []) else (0, [])
    else (0, [stored buf (f_mark fl && (ty =? DT_DIR))]).

  (** glob.c:112-122: the component and what is left behind it *)
  Fixpoint to_slash (pat : list Z) : list Z * list Z :=
    match pat with c :: r => if c =? 47 then ([], pat) else let '(a, b) := to_slash r in (c :: a, b) | [] => ([], []) end.
  Fixpoint run (l : list Z) : nat := match l with c :: r => if c =? 92 then S (run r) else O | [] => O end.
  Definition component (pat : list Z) : list Z * list Z :=
    let '(a, b) := to_slash pat in
    match b with
    | [] => (a, b)
    | _ => if negb (f_noescape fl) && Nat.odd (run (rev a)) then (removelast a, 92 :: b) else (a, b)
    end.
  Definition dots (n : list Z) : bool := match n with [a] => a =? 46 | [a; b] => (a =? 46) && (b =? 46) | _ => false end.

  (** glob.c:130-159, the entries of a directory; [sub] is the recursive call *)
  Fixpoint each (sub : list Z -> Z -> res (Z * list (list Z))) (buf comp rest : list Z) (es : list (list Z * Z)) : res (Z * list (list Z)) :=
    match es with
    | [] => Ok (0, [])
    | (n, ty) :: es =>
        let more := match rest with [] => false | _ => true end in
        if more && negb (ty =? 0) && negb (ty =? DT_DIR) && negb (ty =? DT_LNK) then each sub buf comp rest es
        else if PATH_MAX - len buf <=? len n then each sub buf comp rest es
        else if negb (fnm (f_noescape fl) (negb (f_period fl)) comp n) then each sub buf comp rest es
        else if more && f_period fl && dots n && negb (fnm (f_noescape fl) true comp n) then each sub buf comp rest es
        else
          '(e, l) <- sub (buf ++ n) ty ;;
          if negb (e =? 0) then Ok (e, l) else '(e, l') <- each sub buf comp rest es ;; Ok (e, l ++ l')
    end.

  (** do_glob, glob.c:36-166: the result and the names that were appended *)
  Fixpoint do_glob (fuel : nat) (buf : list Z) (ty : Z) (pat : list Z) : res (Z * list (list Z)) :=
    match fuel with
    | O => Fuel
    | S k =>
        let ty := if (ty =? 0) && negb (f_mark fl) then DT_REG else ty in
        let ty := match pat with [] => ty | _ => if ty =? DT_DIR then ty else 0 end in
        let '(buf, pat) := slashes buf pat in
        match literal pat pat buf [] false false with
        | Nothing => Ok (0, [])
        | Whole buf' => Ok (finish buf' (match pat with [] => ty | _ => 0 end))
        | At buf pat =>
            let '(comp, rest) := component pat in
            match listing sys (match buf with [] => [46] | _ => buf end) with
            | inl e => if errfunc buf e || f_err fl then Ok (GLOB_ABORTED, []) else Ok (0, [])
            | inr es => each (fun buf ty => do_glob k buf ty rest) buf comp rest es
            end
        end
    end.
End Glob.

(** sort, glob.c:182-185: strcmp *)
Fixpoint leb (a b : list Z) : bool :=
  match a, b with
  | [], _ => true
  | _ :: _, [] => false
  | x :: a, y :: b => if x =? y then leb a b else x <? y
  end.
Fixpoint insert (x : list Z) (l : list (list Z)) : list (list Z) := match l with [] => [x] | y :: r => if leb x y then x :: l else y :: insert x r end.
Fixpoint sort (l : list (list Z)) : list (list Z) := match l with [] => [] | x :: r => insert x (sort r) end.

(** expand_tilde, glob.c:187-221, the pattern without its ~: the error, or the buffer and the rest of the pattern.  [home name]: $HOME or the
    directory of the user, the user itself for [] *)
Definition expand_tilde (home : list Z -> option (list Z)) (p : list Z) : Z + list Z * list Z :=
  let '(name, rest) := to_slash p in
  match home name with
  | None => inl GLOB_NOMATCH
  | Some h => if PATH_MAX - 2 <? len h then inl GLOB_NOMATCH else match rest with [] => inr (h, []) | c :: r => inr (h ++ [c], r) end
  end.

(** The memory of gl_pathv: none for NULL; cells are pointers to names or NULL *)
Record globt := Globt { gl_pathc : nat; gl_pathv : option (list (option (list Z))); gl_offs : nat }.

(** glob, glob.c:223-292 *)
Definition glob (sys : fs) (fnm : bool -> bool -> list Z -> list Z -> bool) (home : list Z -> option (list Z))
    (errfunc : option (list Z -> Z -> bool)) (pat : list Z) (fl : flags) (g : globt) : res (Z * globt) :=
  let offs := if f_dooffs fl then gl_offs g else O in
  let errfunc := match errfunc with Some f => f | None => fun _ _ => false end in
  let g := if f_append fl then g else Globt 0 None offs in
  '(error, found) <- match pat with
    | [] => Ok (0, [])
    | c :: p =>
        if f_tilde fl && (c =? 126) then
          match expand_tilde home p with
          | inl e => Ok (e, [])
          | inr (buf, s) => do_glob sys fl fnm errfunc (S (length pat)) buf 0 s
          end
        else do_glob sys fl fnm errfunc (S (length pat)) [] 0 pat
    end ;;
  match found, f_nocheck fl with
  | [], false => Ok (GLOB_NOMATCH, g)
  | _, _ =>
      let names := match found with [] => [pat] | _ => found end in
      let names := if f_nosort fl then names else sort names in
      let cells := map Some names ++ [None] in
      if f_append fl then
        let old := match gl_pathv g with Some v => v | None => [] end in
        (* the cells below offs + gl_pathc have been written before *)
        if Nat.leb (offs + gl_pathc g) (length old) then
          Ok (error, Globt (gl_pathc g + length names) (Some (firstn (offs + gl_pathc g) old ++ cells)) (gl_offs g))
        else UB
      else Ok (error, Globt (length names) (Some (repeat None offs ++ cells)) offs)
  end.

(** globfree, glob.c:294-302: the names that are freed *)
Definition globfree (g : globt) : res (list (list Z) * globt) :=
  let v := match gl_pathv g with Some v => v | None => [] end in
  let fix go (k : nat) (l : list (option (list Z))) : res (list (list Z)) :=
    match k with
    | O => Ok []
    | S k => match l with Some s :: l => r <- go k l ;; Ok (s :: r) | _ => UB end
    end in
  freed <- go (gl_pathc g) (skipn (gl_offs g) v) ;; Ok (freed, Globt 0 None (gl_offs g)).
