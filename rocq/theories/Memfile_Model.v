(** Model of the streams in memory: open_memstream and fmemopen, options/posix/generic/posix-file-io.cpp:25-190 and
    options/posix/generic/posix_stdio.cpp:35-40, 164-167, below the unbuffered paths of abstract_file::read, write,
    seek, tell and flush (options/ansi/generic/file-io.cpp:111-146, 183-201, 290-346) and the loops of fread and
    fwrite for objects of one byte (options/ansi/generic/stdio.cpp:188-212 and 2450-2474).

    A buffer is the list of its bytes; access outside of it is UB.  A vector that would get longer than [vmax]
    bytes is UB too (frg::vector does not check its allocation).  Characters pushed back, the
    indicators for error and end of file and locking are left out; allocation succeeds. *)
From Verif Require Export Base.
Open Scope Z_scope.

Definition len (l : list Z) : Z := Z.of_nat (length l).

(** memcpy(dst + p, d, len d) into the buffer [b] *)
Definition copy_in (b : list Z) (p : Z) (d : list Z) : res (list Z) :=
  if (0 <=? p) && (p + len d <=? len b)
  then Ok (firstn (Z.to_nat p) b ++ d ++ skipn (Z.to_nat p + length d) b) else UB.

(** memcpy(dst, b + p, n) *)
Definition copy_out (b : list Z) (p n : Z) : res (list Z) :=
  if (0 <=? p) && (0 <=? n) && (p + n <=? len b) then Ok (firstn (Z.to_nat n) (skipn (Z.to_nat p) b)) else UB.

Definition wrap (v : Z) : Z := v mod 2 ^ 64.
Definition vmax : Z := 2 ^ 62.

(** frg::vector::resize(n, '\0') *)
Definition resize (b : list Z) (n : Z) : res (list Z) :=
  if (n <? 0) || (vmax <? n) then UB
  else Ok (if n <=? len b then firstn (Z.to_nat n) b else b ++ repeat 0 (Z.to_nat (n - len b))).

Inductive whence := Set_ | Cur | End_.

(** ** open_memstream *)
Record mstream := { mbuf : list Z; mpos : Z; mpub : option (list Z * Z) }.
(** posix-file-io.cpp:25-29; [mpub]: what *_bufloc points to and *_sizeloc *)
Definition m_open : mstream := {| mbuf := [0]; mpos := 0; mpub := None |}.

(** posix-file-io.cpp:57-67 *)
Definition m_write (s : mstream) (d : list Z) : res (mstream * Z) :=
  let top := wrap (mpos s + len d) in
  b <- (if len (mbuf s) <=? top then resize (mbuf s) (wrap (top + 1)) else Ok (mbuf s)) ;;
  let n := Z.min (wrap (len b - mpos s)) (len d) in
  b <- copy_in b (mpos s) (firstn (Z.to_nat n) d) ;;
  Ok ({| mbuf := b; mpos := mpos s + len d; mpub := mpub s |}, len d).

(** posix-file-io.cpp:69-91: the new position *)
Definition m_seek (s : mstream) (o : Z) (w : whence) : res (mstream * Z) :=
  match w with
  | Set_ | Cur =>
      let p := match w with Set_ => o | _ => mpos s + o end in
      b <- (if (0 <=? p) && (len (mbuf s) <=? p) then resize (mbuf s) (p + 1) else Ok (mbuf s)) ;;
      Ok ({| mbuf := b; mpos := p; mpub := mpub s |}, p)
  | End_ =>
      let p := if len (mbuf s) =? 0 then len (mbuf s) + o else len (mbuf s) - 1 + o in
      b <- resize (mbuf s) (wrap (p + 1)) ;;
      Ok ({| mbuf := b; mpos := p; mpub := mpub s |}, p)
  end.

(** post_flush, _update_ptrs, posix-file-io.cpp:31-35 and 93-96 *)
Definition m_flush (s : mstream) : mstream :=
  {| mbuf := mbuf s; mpos := mpos s; mpub := Some (mbuf s, wrap (len (mbuf s) - 1)) |}.

(** ** fmemopen *)
Record fstream := { fbuf : list Z; fpos : Z; fmax : Z; fupd : bool }.

Inductive mode := R | W | A | RP | WP | AP.
Definition update (m : mode) : bool := match m with RP | WP | AP => true | _ => false end.

(** strnlen of the buffer *)
Fixpoint until_nul (l : list Z) : Z := match l with [] => 0 | c :: r => if c =? 0 then 0 else 1 + until_nul r end.

(** posix-file-io.cpp:98-115 with parse_modestring, file-io.cpp:587-611; the caller gives the buffer *)
Definition f_open (b : list Z) (m : mode) : fstream :=
  match m with
  | A | AP => {| fbuf := b; fpos := until_nul b; fmax := until_nul b; fupd := update m |}
  | W | WP => {| fbuf := b; fpos := 0; fmax := 0; fupd := update m |}
  | R | RP => {| fbuf := b; fpos := 0; fmax := len b; fupd := update m |}
  end.

(** posix-file-io.cpp:125-136 *)
Definition f_read (s : fstream) (n : Z) : res (fstream * list Z) :=
  if ((0 <=? fpos s) && (fmax s <=? fpos s)) || (n =? 0) then Ok (s, [])
  else
    let k := Z.min (wrap (fmax s - fpos s)) n in
    d <- copy_out (fbuf s) (fpos s) k ;;
    Ok ({| fbuf := fbuf s; fpos := fpos s + k; fmax := fmax s; fupd := fupd s |}, d).

(** posix-file-io.cpp:138-161 *)
Definition f_write (s : fstream) (d : list Z) : res (fstream * Z) :=
  let k := Z.min (wrap (len (fbuf s) - fpos s)) (len d) in
  b <- copy_in (fbuf s) (fpos s) (firstn (Z.to_nat k) d) ;;
  let p := fpos s + k in
  let m := if fmax s <? p then p else fmax s in
  let null := if (len b <=? p) || fupd s then wrap (len b - 1) else p in
  b <- (if negb (len b =? 0) then copy_in b null [0] else Ok b) ;;
  Ok ({| fbuf := b; fpos := p; fmax := m; fupd := fupd s |}, k).

(** posix-file-io.cpp:163-190: none for EINVAL *)
Definition f_seek (s : fstream) (o : Z) (w : whence) : fstream * option Z :=
  let p := match w with Set_ => o | Cur => fpos s + o | End_ => fmax s + o end in
  if (p <? 0) || (len (fbuf s) <? p) then (s, None)
  else ({| fbuf := fbuf s; fpos := p; fmax := fmax s; fupd := fupd s |}, Some p).

(** ** the loops of stdio.cpp:194-212 and 2457-2474 *)
Fixpoint f_fwrite (fuel : nat) (s : fstream) (d : list Z) (done : Z) : res (fstream * Z) :=
  match fuel with
  | O => Fuel
  | S g =>
      match d with
      | [] => Ok (s, done)
      | _ => '(s, k) <- f_write s d ;;
             if k =? 0 then Ok (s, done) else f_fwrite g s (skipn (Z.to_nat k) d) (done + k)
      end
  end.
Fixpoint f_fread (fuel : nat) (s : fstream) (n : Z) (acc : list Z) : res (fstream * list Z) :=
  match fuel with
  | O => Fuel
  | S g =>
      if n =? 0 then Ok (s, acc)
      else '(s, d) <- f_read s n ;;
           match d with
           | [] => Ok (s, acc)
           | _ => f_fread g s (n - len d) (acc ++ d)
           end
  end.
Fixpoint m_fwrite (fuel : nat) (s : mstream) (d : list Z) (done : Z) : res (mstream * Z) :=
  match fuel with
  | O => Fuel
  | S g =>
      match d with
      | [] => Ok (s, done)
      | _ => '(s, k) <- m_write s d ;;
             if k =? 0 then Ok (s, done) else m_fwrite g s (skipn (Z.to_nat k) d) (done + k)
      end
  end.

(** ** histories *)
Inductive op := Write (d : list Z) | Read (n : Z) | Seek (o : Z) (w : whence) | Tell | Flush.
Inductive event := Wrote (n : Z) | Got (d : list Z) | Sought (ok : bool) | Told (p : Z) | Flushed (b : list Z) (size : Z).

(** fwrite, fseek, ftell and fflush of a stream opened by open_memstream (it cannot be read) *)
Definition m_op (s : mstream) (o : op) : res (mstream * event) :=
  match o with
  | Write d => '(s, n) <- m_fwrite (S (length d)) s d 0 ;; Ok (s, Wrote n)
  | Seek o w => '(s, p) <- m_seek s o w ;; Ok (s, Sought true)
  | Tell => '(s, p) <- m_seek s 0 Cur ;; Ok (s, Told p)
  | Flush => Ok (m_flush s, Flushed (mbuf s) (wrap (len (mbuf s) - 1)))
  | Read _ => Ok (s, Got [])
  end.
Fixpoint m_run (s : mstream) (ops : list op) : res (mstream * list event) :=
  match ops with
  | [] => Ok (s, [])
  | o :: r => '(s, e) <- m_op s o ;; '(s, es) <- m_run s r ;; Ok (s, e :: es)
  end.

(** the same for fmemopen; fflush has nothing to do, the event shows the buffer of the caller *)
Definition f_op (s : fstream) (o : op) : res (fstream * event) :=
  match o with
  | Write d => '(s, n) <- f_fwrite (S (length d)) s d 0 ;; Ok (s, Wrote n)
  | Read n => '(s, d) <- f_fread (S (Z.to_nat n)) s n [] ;; Ok (s, Got d)
  | Seek o w => let '(s, r) := f_seek s o w in Ok (s, Sought (match r with Some _ => true | None => false end))
  | Tell => let '(s, r) := f_seek s 0 Cur in Ok (s, Told (match r with Some p => p | None => -1 end))
  | Flush => Ok (s, Flushed (fbuf s) (fmax s))
  end.
Fixpoint f_run (s : fstream) (ops : list op) : res (fstream * list event) :=
  match ops with
  | [] => Ok (s, [])
  | o :: r => '(s, e) <- f_op s o ;; '(s, es) <- f_run s r ;; Ok (s, e :: es)
  end.
