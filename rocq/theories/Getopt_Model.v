(** Model of getopt and getopt_long, options/internal/generic/getopt.cpp.

    A string is the list of its bytes; the byte after the last is NUL and reading behind it is UB.
    argv is a list of strings, argc its length.  optarg points into one of the strings: it is
    represented by the text from there on.  Messages on stderr have no effect.  Left out: getopt_long_only,
    "W;" in the option string of getopt_long (outcome Abort), and optreset. *)
From Verif Require Export Base.
Open Scope Z_scope.

Notation str := (list Z) (only parsing).

(** glibc/include/getopt.h: struct option; [flag] is the address of a variable or none *)
Record longopt := LO { name : str; has_arg : Z; flag : option Z; val : Z }.

Inductive mode := Short | Long.

(** getopt.cpp:13-20; [stores] are the writes through flag pointers, latest first;
    [longindex] is the last index stored through the parameter of this name *)
Record state := St { argv : list str; optind : nat; optarg : option str; optopt : Z; optpos : nat;
                     stores : list (Z * Z); longindex : option nat }.

Definition w_argv x s := St x (optind s) (optarg s) (optopt s) (optpos s) (stores s) (longindex s).
Definition w_ind x s := St (argv s) x (optarg s) (optopt s) (optpos s) (stores s) (longindex s).
Definition w_arg x s := St (argv s) (optind s) x (optopt s) (optpos s) (stores s) (longindex s).
Definition w_opt x s := St (argv s) (optind s) (optarg s) x (optpos s) (stores s) (longindex s).
Definition w_pos x s := St (argv s) (optind s) (optarg s) (optopt s) x (stores s) (longindex s).
Definition w_store x s := St (argv s) (optind s) (optarg s) (optopt s) (optpos s) (x :: stores s) (longindex s).
Definition w_idx x s := St (argv s) (optind s) (optarg s) (optopt s) (optpos s) (stores s) (Some x).
Definition inc s := w_ind (S (optind s)) s.

(** s[i] *)
Definition at_ (s : str) (i : nat) : res Z :=
  match nth_error s i with Some b => Ok b | None => if (i =? length s)%nat then Ok 0 else UB end.

(** strchr: the index of the first [c]; that of the terminator for c = 0 *)
Fixpoint index (s : str) (c : Z) (i : nat) : option nat :=
  match s with
  | [] => if c =? 0 then Some i else None
  | b :: r => if b =? c then Some i else index r c (S i)
  end.

(** strncmp(arg, name, n) == 0 where n is at most the length of arg *)
Fixpoint prefix (n : nat) (a b : str) : bool :=
  match n, a, b with
  | O, _, _ => true
  | S n, x :: a, y :: b => (x =? y) && prefix n a b
  | S _, _, _ => false
  end.

Inductive found := One (k : nat) | Many | Nobody.

(** getopt.cpp:34-46 and 52-64: the only match from index [i] on *)
Fixpoint only (p : longopt -> bool) (l : list longopt) (i : nat) (r : found) : found :=
  match l with
  | [] => r
  | o :: l => if p o then match r with Nobody => only p l (S i) (One i) | _ => Many end
              else only p l (S i) r
  end.

(** getopt.cpp:28-70 *)
Definition longopt_find (arg : str) (n : nat) (l : list longopt) : found :=
  match only (fun o => prefix n arg (name o) && (length (name o) =? n)%nat) l 0 Nobody with
  | Nobody => only (fun o => prefix n arg (name o)) l 0 Nobody
  | r => r
  end.

(** getopt.cpp:72-127: [eq] is the text after '='; a result or none to go on with *)
Definition longopt_consume (eq : option str) (o : longopt) (colon : bool) (s : state) : res (option Z * state) :=
  let err := if colon then 58 else 63 in
  if has_arg o =? 1 then
    match eq with
    | Some v => Ok (None, inc (w_arg (Some v) s))
    | None =>
        match nth_error (argv s) (S (optind s)) with
        | Some v => Ok (None, inc (w_arg (Some v) (inc s)))
        | None => Ok (Some err, inc (w_opt (val o) s))
        end
    end
  else if has_arg o =? 2 then
    match eq with
    | Some v => Ok (None, inc (w_arg (Some v) s))
    | None => Ok (None, inc (w_arg None s))
    end
  else if negb (has_arg o =? 0) then Abort
  else
    match eq with
    | Some _ => Ok (Some err, inc s)
    | None => Ok (None, w_arg None (inc s))
    end.

(** getopt.cpp:143-147 *)
Definition is_option (a : str) : res bool :=
  b <- at_ a 0 ;;
  Ok ((b =? 45) && negb (if list_eq_dec Z.eq_dec a [45] then true else false)
      && negb (if list_eq_dec Z.eq_dec a [45; 45] then true else false)).

(** getopt.cpp:181-210: a word that begins with "--" *)
Definition long_word (l : list longopt) (colon : bool) (arg : str) (s : state) : res (Z * state) :=
  let arg := skipn 2 arg in
  let n := match index arg 61 0 with Some i => i | None => length arg end in
  let eq := match index arg 61 0 with Some i => Some (skipn (S i) arg) | None => None end in
  match longopt_find arg n l with
  | Nobody => Ok (63, inc s)
  | Many => Ok (63, inc s)
  | One k =>
      match nth_error l k with
      | None => UB
      | Some o =>
          '(r, s) <- longopt_consume eq o colon (w_idx k s) ;;
          match r with
          | Some e => Ok (e, s)
          | None => match flag o with None => Ok (val o, s) | Some p => Ok (0, w_store (p, val o) s) end
          end
      end
  end.

(** getopt.cpp:211-320: a word that begins with "-" *)
Definition short_word (m : mode) (optstring : str) (colon : bool) (arg : str) (s : state) : res (Z * state) :=
  let i := optpos s in
  c <- at_ arg i ;;
  match index optstring c 0 with
  | None => a1 <- at_ arg 1 ;; Ok (63, inc (w_opt a1 s))
  | Some k =>
      k1 <- at_ optstring (S k) ;;
      if match m with Short => false | Long => (c =? 87) && (k1 =? 59) end then Abort
      else if k1 =? 58 then
        k2 <- at_ optstring (S (S k)) ;;
        let required := negb (k2 =? 58) in
        n <- at_ arg (S i) ;;
        if negb (n =? 0) then Ok (c, inc (w_arg (Some (skipn (S i) arg)) s))
        else
          next <- match nth_error (argv s) (S (optind s)) with
                  | Some v => b <- at_ v 0 ;; Ok (if required && negb (b =? 45) then Some v else None)
                  | None => Ok None
                  end ;;
          match next with
          | Some v => Ok (c, inc (w_pos 1 (inc (w_arg (Some v) s))))
          | None =>
              if negb required then Ok (c, inc (w_arg None s))
              else Ok ((if colon then 58 else 63), w_opt c (w_pos 1 s))
          end
      else
        n <- at_ arg (S i) ;;
        if negb (n =? 0) then Ok (c, w_pos (S (optpos s)) s)
        else if negb (c =? 0) then Ok (c, inc s)
        else Ok (-1, w_arg None s)
  end.

(** getopt.cpp:163-170: the next word that is an option *)
Fixpoint skip_to (l : list str) (i : nat) : res (option nat) :=
  match l with
  | [] => Ok None
  | a :: l => o <- is_option a ;; if o then Ok (Some i) else skip_to l (S i)
  end.

(** getopt.cpp:22-326; [posix]: POSIXLY_CORRECT is in the environment *)
Definition internal (m : mode) (posix : bool) (optstring : str) (l : list longopt) (s : state) : res (Z * state) :=
  o0 <- at_ optstring 0 ;;
  let colon := o0 =? 58 in
  let stop := (o0 =? 43) || posix in
  let word arg s :=
    b <- at_ arg 1 ;;
    match m with
    | Long => if b =? 45 then long_word l colon arg s else short_word m optstring colon arg s
    | Short => short_word m optstring colon arg s
    end in
  match nth_error (argv s) (optind s) with
  | None => Ok (-1, w_arg None s)
  | Some arg =>
      o <- is_option arg ;;
      if o then word arg s
      else if list_eq_dec Z.eq_dec arg [45; 45] then Ok (-1, inc s)
      else if stop then Ok (-1, w_arg None s)
      else
        k <- skip_to (skipn (optind s) (argv s)) (optind s) ;;
        match k with
        | None => Ok (-1, w_arg None s)
        | Some k =>
            match nth_error (argv s) k with
            | None => UB
            | Some arg => word arg (w_ind k s)
            end
        end
  end.

Fixpoint set {A : Type} (l : list A) (i : nat) (x : A) : list A :=
  match l, i with
  | [], _ => []
  | _ :: r, O => x :: r
  | y :: r, S i => y :: set r i x
  end.

(** getopt.cpp:331-333 *)
Fixpoint shift {A : Type} (n dest : nat) (l : list A) : res (list A) :=
  match n with
  | O => Ok l
  | S n => match nth_error l (dest + n) with None => UB | Some x => shift n dest (set l (dest + S n) x) end
  end.

(** getopt.cpp:328-335 *)
Definition permute {A : Type} (l : list A) (dest src : nat) : res (list A) :=
  if (src <=? dest)%nat then Abort
  else match nth_error l src with
       | None => UB
       | Some tmp => l <- shift (src - dest) dest l ;; Ok (set l dest tmp)
       end.

Fixpoint repeat_permute {A : Type} (n : nat) (l : list A) (dest src : nat) : res (list A) :=
  match n with O => Ok l | S n => l <- permute l dest src ;; repeat_permute n l dest src end.

(** getopt.cpp:368-378: the first word from [i] on that begins with '-' and is longer *)
Fixpoint first_dash (l : list str) (i : nat) : res (option nat) :=
  match l with
  | [] => Ok None
  | a :: l =>
      b <- at_ a 0 ;;
      b1 <- (if b =? 45 then at_ a 1 else Ok 0) ;;
      if (b =? 45) && negb (b1 =? 0) then Ok (Some i) else first_dash l (S i)
  end.

(** getopt.cpp:345-391 *)
Definition getopt (m : mode) (posix : bool) (optstring : str) (l : list longopt) (s : state) : res (Z * state) :=
  let s := if (optind s =? 0)%nat then St (argv s) 1 None 0 1 (stores s) (longindex s) else s in
  let skipped := optind s in
  o0 <- at_ optstring 0 ;;
  start <- (if negb (o0 =? 43) && negb (o0 =? 45) then first_dash (skipn (optind s) (argv s)) (optind s)
            else Ok (Some (optind s))) ;;
  match start with
  | None => Ok (-1, w_arg None s)
  | Some i =>
      let resumed := i in
      '(ret, s) <- internal m posix optstring l (w_ind i s) ;;
      if (skipped <? resumed)%nat then
        argv' <- repeat_permute (optind s - resumed) (argv s) skipped (optind s - 1) ;;
        Ok (ret, w_ind (skipped + (optind s - resumed)) (w_argv argv' s))
      else Ok (ret, s)
  end.
