(** Model of wordexp, options/posix/generic/wordexp.cpp.  A string is the list of its characters from the pointer on, the terminating 0 included; a read
    behind it is undefined.  What the shell writes to the pipe and whether it exits with status 0 are given. *)
From Verif Require Import Base.
Open Scope Z_scope.

Definition WRDE_BADCHAR : Z := 1.
Definition WRDE_BADVAL : Z := 2.
Definition WRDE_CMDSUB : Z := 3.
Definition WRDE_NOSPACE : Z := 4.
Definition WRDE_SYNTAX : Z := 5.
(** * we_check, wordexp.cpp:212-305 *)
(** the loop behind a backquote, :238-242: what follows the closing one, None for WRDE_SYNTAX *)
Fixpoint backquote (s : list Z) : res (option (list Z)) :=
  match s with
  | [] => UB
  | c :: r =>
      if c =? 0 then Ok None
      else if c =? 96 then Ok (Some r)
      else if c =? 92 then match r with [] => UB | c :: r => if c =? 0 then Ok None else backquote r end
      else backquote r
  end.
(** the loops behind $( and ${, :266-276 and :279-289 *)
Fixpoint nested (o cl : Z) (s : list Z) (level : nat) : res (option (list Z)) :=
  match s with
  | [] => UB
  | c :: r =>
      if c =? 0 then Ok None
      else if c =? 92 then match r with [] => UB | c :: r => if c =? 0 then Ok None else nested o cl r level end
      else if c =? o then nested o cl r (S level)
      else if c =? cl then match level with S (S l) => nested o cl r (S l) | _ => Ok (Some r) end
      else nested o cl r level
  end.
(** | & ; < > { } ( ) newline *)
Definition bad (c : Z) : bool := existsb (Z.eqb c) [124; 38; 59; 60; 62; 123; 125; 40; 41; 10].
(** the main loop; [q], [s], [d] are quote, squote, dquote *)
Fixpoint check (n : nat) (nocmd q s d : bool) (words : list Z) : res Z :=
  match n with
  | O => Fuel
  | S n =>
      match words with
      | [] => UB
      | c :: w =>
          if c =? 0 then Ok (if q || s || d then WRDE_SYNTAX else 0)
          else if c =? 92 then check n nocmd (if s then q else negb q) s d w
          else if c =? 39 then check n nocmd false (if q || d then s else negb s) d w
          else if c =? 34 then check n nocmd false s (if q || s then d else negb d) w
          else if c =? 96 then
            if negb (q || s) && nocmd then Ok WRDE_CMDSUB
            else r <- backquote w ;; match r with None => Ok WRDE_SYNTAX | Some w => check n nocmd false s d w end
          else if bad c then if negb (q || s || d) then Ok WRDE_BADCHAR else check n nocmd false s d w
          else if c =? 36 then
            match w with
            | [] => UB
            | c :: w' =>
                if c =? 0 then check n nocmd false s d w'
                else if negb (q || s) && (c =? 40) then
                  match w' with
                  | [] => UB
                  | x :: _ =>
                      if nocmd && negb (x =? 40) then Ok WRDE_CMDSUB
                      else r <- nested 40 41 w' 1 ;; match r with None => Ok WRDE_SYNTAX | Some w => check n nocmd false s d w end
                  end
                else if negb (q || s) && (c =? 123) then
                  r <- nested 123 125 w' 1 ;; match r with None => Ok WRDE_SYNTAX | Some w => check n nocmd false s d w end
                else check n nocmd false s d w
            end
          else check n nocmd false s d w
      end
  end.
Definition we_check (n : nat) (nocmd : bool) (words : list Z) : res Z := check n nocmd false false false words.

(** * we_askshell, wordexp.cpp:59-204 *)
(** an entry of the vector: not written, null, or an offset into we_strings.  The pointers are moved along with the strings by realloc (:153-157), so
    their offsets stay.  Memory does not run out. *)
Inductive cell := Undef | Null | At (off : nat).
Record we := { wordc : nat; offs : nat; wordv : list cell; strings : list Z }.
(** strtol(buf, nullptr, 16) on eight characters; stops at the first one that is no digit.  Signs and blanks, which the shell does not write, are
    not modelled *)
Definition hexv (c : Z) : option Z := if (48 <=? c) && (c <=? 57) then Some (c - 48) else if (97 <=? c) && (c <=? 102) then Some (c - 87) else if (65 <=? c) && (c <=? 70) then Some (c - 55) else None.
Fixpoint hex (acc : Z) (l : list Z) : Z := match l with [] => acc | c :: r => match hexv c with Some v => hex (acc * 16 + v) r | None => acc end end.
(** an assignment to an element of the vector *)
Fixpoint put (v : list cell) (i : nat) (x : cell) : res (list cell) := match v, i with [], _ => UB | _ :: v, O => Ok (x :: v) | c :: v, S i => v <- put v i x ;; Ok (c :: v) end.
(** memchr(p, 0, nbytes) *)
Fixpoint zero_at (l : list Z) : option nat := match l with [] => None | c :: r => if c =? 0 then Some O else option_map S (zero_at r) end.
(** while (vofs < we->we_offs) we->we_wordv[vofs++] = nullptr *)
Fixpoint fill (n : nat) (v : list cell) (i : nat) : res (list cell) := match n with O => Ok v | S n => v <- put v i Null ;; fill n v (S i) end.
(** the loop at :192-200; [rest] is the string storage from p on, nbytes long *)
Fixpoint entries (nwords : nat) (v : list cell) (vofs p : nat) (rest : list Z) : res (option (list cell * nat)) :=
  match nwords with
  | O => Ok (Some (v, vofs))
  | S k =>
      v <- put v vofs (At p) ;;
      match zero_at rest with
      | None => Ok None
      | Some np => entries k v (S vofs) (p + np + 1) (skipn (np + 1) rest)
      end
  end.
Definition defined (c : cell) : bool := match c with Undef => false | _ => true end.
Definition emptied (w : we) : we := {| wordc := 0; offs := offs w; wordv := []; strings := [] |}.
(** [out]: what the shell writes before the end of file; [good]: exit status 0 *)
Definition we_askshell (w : we) (undef dooffs append : bool) (out : list Z) (good : bool) : res (we * Z) :=
  let err := if undef then WRDE_BADVAL else WRDE_SYNTAX in
  if (length out <? 16)%nat then Ok (w, err)
  else
    let nwords := Z.to_nat (hex 0 (firstn 8 out)) in
    let nbytes := (Z.to_nat (hex 0 (firstn 8 (skipn 8 out))) + nwords)%nat in
    let sofs := length (strings w) in
    let vofs := (wordc w + (if dooffs && append then offs w else 0))%nat in
    let size := (wordc w + nwords + 1 + (if dooffs then offs w else 0))%nat in
    let v := firstn size (wordv w ++ repeat Undef size) in
    if negb (forallb defined (firstn vofs v)) then UB
    else
      let data := firstn nbytes (skipn 16 out) in
      if negb (length data =? nbytes)%nat then Ok (w, err)
      else if negb good then Ok (w, err)
      else
        '(v, vofs) <- (if (vofs =? 0)%nat && dooffs then v <- fill (offs w) v 0 ;; Ok (v, offs w) else Ok (v, vofs)) ;;
        r <- entries nwords v vofs sofs data ;;
        match r with
        | None => Ok (w, WRDE_NOSPACE)
        | Some (v, vofs) => v <- put v vofs Null ;; Ok ({| wordc := wordc w + nwords; offs := offs w; wordv := v; strings := strings w ++ data |}, 0)
        end.
(** wordexp, wordexp.cpp:307-331; on an error wordfree empties the structure, so what we_askshell left in it does not matter *)
Definition wordexp (n : nat) (w : we) (words : list Z) (nocmd undef dooffs append reuse : bool) (out : list Z) (good : bool) : res (we * Z) :=
  let w := if reuse then emptied w else w in
  let w := if append then w else emptied w in
  e <- we_check n nocmd words ;;
  if negb (e =? 0) then Ok (emptied w, e)
  else
    '(w, e) <- we_askshell w undef dooffs append out good ;;
    if negb (e =? 0) then Ok (emptied w, e) else Ok (w, 0).
(** a call of wordexp with WRDE_APPEND after another: the text and what the shell wrote *)
Fixpoint appends (n : nat) (w : we) (nocmd undef dooffs : bool) (calls : list (list Z * list Z)) : res (we * Z) :=
  match calls with
  | [] => Ok (w, 0)
  | (text, out) :: r => '(w, e) <- wordexp n w text nocmd undef dooffs true false out true ;; if e =? 0 then appends n w nocmd undef dooffs r else Ok (w, e)
  end.
