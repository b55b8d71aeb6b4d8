(** Model of the user and group files, options/posix/generic/pwd.cpp and grp.cpp.  A file is the list of its bytes (none is 0); a line is
    read with fgets into 512 bytes (Hosts_Model.fgets).  fopen, malloc and strndup are assumed to succeed and no stream has an error; what is
    leaked is not modelled.  Pointers have 8 bytes.  frg::string_view is not in the repository: find_first and sub_string are those of lists,
    operator[] on a default view dereferences a null pointer, to_number<int> is the parameter [to_number]. *)
From Verif Require Import Base Mem_Model Hosts_Model Inet_Model.
Open Scope Z_scope.

(** line.find_first(c, s) and the two sub_strings around it *)
Fixpoint cut (d : Z) (t : list Z) : option (list Z * list Z) :=
  match t with
  | [] => None
  | c :: r => if c =? d then Some ([], r) else match cut d r with Some (a, b) => Some (c :: a, b) | None => None end
  end.
(** pwd.cpp:75-77, grp.cpp:50-51 *)
Fixpoint chop (t : list Z) : list Z := match t with [] => [] | [c] => if c =? 10 then [] else [c] | c :: r => c :: chop r end.

(** bytes stored one after the other; stpcpy stores the string and its null byte *)
Fixpoint put (m : mem) (p : Z) (l : list Z) : res mem := match l with [] => Ok m | c :: r => m' <- store m p c ;; put m' (p + 1) r end.
Definition size_of (l : list Z) : Z := Z.of_nat (length l) + 1.

(** struct passwd, struct group *)
Record passwd := { pw_name : list Z; pw_passwd : list Z; pw_uid : Z; pw_gid : Z; pw_gecos : list Z; pw_dir : list Z; pw_shell : list Z }.
Record group := { gr_name : list Z; gr_passwd : list Z; gr_gid : Z; gr_mem : list (list Z) }.

(** pwd.cpp:89-106 with the size check of 185-188 and 246-249; [None]: ERANGE.  The addresses of name, directory, shell and password. *)
Definition pw_copy (m : mem) (buf size : Z) (e : passwd) : res (option (mem * (Z * Z * Z * Z))) :=
  let required := Z.of_nat (length (pw_name e)) + Z.of_nat (length (pw_dir e)) + Z.of_nat (length (pw_shell e)) + Z.of_nat (length (pw_passwd e)) + 4 in
  if size <? required then Ok None
  else
    m1 <- put m buf (pw_name e ++ [0]) ;;
    let pd := buf + size_of (pw_name e) in
    m2 <- put m1 pd (pw_dir e ++ [0]) ;;
    let ps := pd + size_of (pw_dir e) in
    m3 <- put m2 ps (pw_shell e ++ [0]) ;;
    let pp := ps + size_of (pw_shell e) in
    m4 <- put m3 pp (pw_passwd e ++ [0]) ;;
    if pp + size_of (pw_passwd e) - 1 <=? buf + size then Ok (Some (m4, (buf, pd, ps, pp))) else Abort.

(** pwd.cpp:277-289; [None]: -1.  fprintf with %s and %u as in Snprintf_*.v *)
Definition bad_field (s : list Z) : bool := existsb (fun c => (c =? 10) || (c =? 58)) s.
Definition putpwent (e : passwd) : option (list Z) :=
  if bad_field (pw_name e) || bad_field (pw_passwd e) || bad_field (pw_gecos e) || bad_field (pw_dir e) || bad_field (pw_shell e) then None
  else Some (pw_name e ++ 58 :: pw_passwd e ++ 58 :: num 10 (pw_uid e) ++ 58 :: num 10 (pw_gid e) ++ 58 :: pw_gecos e ++ 58 :: pw_dir e ++ 58 :: pw_shell e ++ [10]).

(** grp.cpp:34-56 on a view that is not the default one: the pieces; [acc] is the piece read so far *)
Fixpoint pieces (d : Z) (acc t : list Z) : list (list Z) :=
  match t with
  | [] => match acc with [] => [] | _ => [chop acc] end
  | c :: r => if c =? d then acc :: pieces d [] r else pieces d (acc ++ [c]) r
  end.
Definition walk_segments (v : option (list Z)) (d : Z) : res (list (list Z)) := match v with None => UB | Some t => Ok (pieces d [] t) end.

(** grp.cpp:168-172: the strings of the members; [a]: the next slot of gr_mem; [sd]: string_data.  A pointer stored at an address that is no
    multiple of its size is undefined behaviour. *)
Fixpoint put_members (m : mem) (a sd : Z) (l : list (list Z)) : res (mem * Z * Z) :=
  match l with
  | [] => Ok (m, a, sd)
  | s :: r => if a mod 8 =? 0 then m1 <- put m a (le_bytes 8 sd) ;; m2 <- put m1 sd (s ++ [0]) ;; put_members m2 (a + 8) (sd + size_of s) r else UB
  end.
Fixpoint members_size (l : list (list Z)) : Z := match l with [] => 0 | s :: r => size_of s + 8 + members_size r end.
(** grp.cpp:142-187; [None]: ERANGE; the addresses of gr_mem, gr_name and gr_passwd *)
Definition gr_copy (m : mem) (buf size : Z) (g : group) : res (option (mem * (Z * Z * Z))) :=
  let offset := (buf mod 8 + 7) / 8 * 8 in
  if size <? offset then Ok None
  else
    let buf := buf + offset in
    let size := size - offset in
    if size <? members_size (gr_mem g) + size_of (gr_name g) + 8 then Ok None
    else
      '(m1, a, sd) <- put_members m buf (buf + (Z.of_nat (length (gr_mem g)) + 1) * 8) (gr_mem g) ;;
      if a mod 8 =? 0 then
        m2 <- put m1 a (le_bytes 8 0) ;;
        m3 <- put m2 sd (gr_name g ++ [0]) ;;
        let pp := sd + size_of (gr_name g) in
        m4 <- put m3 pp (gr_passwd g ++ [0]) ;;
        if pp + size_of (gr_passwd g) <=? buf + size then Ok (Some (m4, (buf, sd, pp))) else Abort
      else UB.

(** grp.cpp:328-363; [None]: -1 *)
Fixpoint print_members (first : bool) (l : list (list Z)) : list Z :=
  match l with [] => [] | s :: r => (if first then [] else [44]) ++ s ++ print_members false r end.
Definition putgrent (g : group) : option (list Z) :=
  if bad_field (gr_name g) || bad_field (gr_passwd g) || existsb bad_field (gr_mem g) then None
  else Some (gr_name g ++ 58 :: gr_passwd g ++ 58 :: num 10 (gr_gid g) ++ 58 :: print_members true (gr_mem g) ++ [10]).

Section Number.
Variable to_number : list Z -> option Z.

(** pwd.cpp:38-44 *)
Fixpoint segments (n : nat) (t : list Z) : list (list Z) * list Z :=
  match n with
  | O => ([], t)
  | S k => match cut 58 t with None => ([], t) | Some (a, b) => let '(l, r) := segments k b in (a :: l, r) end
  end.
(** pwd.cpp:32-87 *)
Definition extract_pw (line : list Z) : option passwd :=
  let '(l, r) := segments 7 line in
  match cut 58 r with
  | Some _ => None
  | None =>
      match l ++ [r] with
      | name :: pass :: uid :: gid :: gecos :: dir :: shell :: _ =>
          match to_number uid, to_number gid with
          | Some u, Some g => Some {| pw_name := name; pw_passwd := pass; pw_uid := u; pw_gid := g; pw_gecos := gecos; pw_dir := dir; pw_shell := chop shell |}
          | _, _ => None
          end
      | _ => None
      end
  end.
(** the loops of pwd.cpp:151-159, 179-194, 212-220 and 240-255 *)
Fixpoint find_pw (n : nat) (cond : passwd -> bool) (file : list Z) : res (option passwd) :=
  match n with
  | O => Fuel
  | S k =>
      match fgets 511 file with
      | ([], _) => Ok None
      | (l, r) => match extract_pw l with Some e => if cond e then Ok (Some e) else find_pw k cond r | None => find_pw k cond r end
      end
  end.
Definition same (a b : list Z) : bool := if list_eq_dec Z.eq_dec a b then true else false.
Definition getpwnam (n : nat) (name : list Z) (file : list Z) : res (option passwd) := find_pw n (fun e => same (pw_name e) name) file.
Definition getpwuid (n : nat) (uid : Z) (file : list Z) : res (option passwd) := find_pw n (fun e => pw_uid e =? uid) file.
(** pwd.cpp:171-203 and 232-264: the status (0 or ERANGE) and what is found *)
Definition find_pw_r (n : nat) (cond : passwd -> bool) (file : list Z) (m : mem) (buf size : Z) : res (Z * option (passwd * mem * (Z * Z * Z * Z))) :=
  r <- find_pw n cond file ;;
  match r with
  | None => Ok (0, None)
  | Some e => c <- pw_copy m buf size e ;; match c with None => Ok (34, None) | Some (m', a) => Ok (0, Some (e, m', a)) end
  end.
Definition getpwnam_r (n : nat) (name file : list Z) (m : mem) (buf size : Z) := find_pw_r n (fun e => same (pw_name e) name) file m buf size.
Definition getpwuid_r (n : nat) (uid : Z) (file : list Z) (m : mem) (buf size : Z) := find_pw_r n (fun e => pw_uid e =? uid) file m buf size.
(** pwd.cpp:120-142 and 291-310: one line; the rest of the file *)
Definition fgetpwent (file : list Z) : option passwd * list Z :=
  match fgets 511 file with ([], r) => (None, r) | (l, r) => (extract_pw l, r) end.

(** grp.cpp:58-101; [None]: false *)
Definition extract_gr (line : list Z) : res (option group) :=
  segs <- walk_segments (Some line) 58 ;;
  if (4 <? length segs)%nat then Abort
  else
    match segs with
    | name :: pass :: gid :: r =>
        match to_number gid with
        | None => Ok None
        | Some g => mem <- walk_segments (match r with [] => None | m :: _ => Some m end) 44 ;; Ok (Some {| gr_name := name; gr_passwd := pass; gr_gid := g; gr_mem := mem |})
        end
    | _ => Ok None
    end.
(** grp.cpp:116-140; [None]: ESRCH *)
Fixpoint walk_gr (n : nat) (cond : group -> bool) (file : list Z) : res (option group) :=
  match n with
  | O => Fuel
  | S k =>
      match fgets 511 file with
      | ([], _) => Ok None
      | (l, r) => e <- extract_gr l ;; match e with Some g => if cond g then Ok (Some g) else walk_gr k cond r | None => walk_gr k cond r end
      end
  end.
Definition getgrnam (n : nat) (name file : list Z) : res (option group) := walk_gr n (fun g => same (gr_name g) name) file.
Definition getgrgid (n : nat) (gid : Z) (file : list Z) : res (option group) := walk_gr n (fun g => gr_gid g =? gid) file.
(** grp.cpp:233-250 and 267-285: the status (0, ESRCH or ERANGE) and what is found *)
Definition find_gr_r (n : nat) (cond : group -> bool) (file : list Z) (m : mem) (buf size : Z) : res (Z * option (group * mem * (Z * Z * Z))) :=
  r <- walk_gr n cond file ;;
  match r with
  | None => Ok (3, None)
  | Some g => c <- gr_copy m buf size g ;; match c with None => Ok (34, None) | Some (m', a) => Ok (0, Some (g, m', a)) end
  end.
Definition getgrnam_r (n : nat) (name file : list Z) (m : mem) (buf size : Z) := find_gr_r n (fun g => same (gr_name g) name) file m buf size.
Definition getgrgid_r (n : nat) (gid : Z) (file : list Z) (m : mem) (buf size : Z) := find_gr_r n (fun g => gr_gid g =? gid) file m buf size.
(** grp.cpp:194-216 and 365-383 *)
Definition fgetgrent (file : list Z) : res (option group * list Z) :=
  match fgets 511 file with ([], r) => Ok (None, r) | (l, r) => e <- extract_gr l ;; Ok (e, r) end.

(** grp.cpp:393-401 *)
Fixpoint collect (n : nat) (user : list Z) (limit count : Z) (out : list Z) (file : list Z) : res (Z * list Z) :=
  match n with
  | O => Fuel
  | S k =>
      match fgets 511 file with
      | ([], _) => Ok (count, out)
      | (l, r) =>
          e <- extract_gr l ;;
          match e with
          | None => collect k user limit count out r
          | Some g => if existsb (same user) (gr_mem g) then collect k user limit (count + 1) (if count + 1 <=? limit then out ++ [gr_gid g] else out) r
                      else collect k user limit count out r
          end
      end
  end.
(** grp.cpp:385-411: what is returned, what is stored in *ngroups, and the groups stored *)
Definition getgrouplist (n : nat) (user : list Z) (gid limit : Z) (file : list Z) : res (Z * Z * list Z) :=
  '(count, out) <- collect n user limit 1 (if 1 <=? limit then [gid] else []) file ;;
  Ok (if limit <? count then -1 else count, count, out).
End Number.
