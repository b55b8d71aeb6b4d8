(** Model of buffered streams: abstract_file (options/ansi/generic/file-io.cpp) and the byte-oriented
    functions on top of it (options/ansi/generic/stdio.cpp, file-io.cpp).
    Simplifications: locking, stream orientation and errno are not modelled; the buffer is allocated
    from the start (the allocator succeeds) and the stream's type and buffering mode are known from
    the start (_init_type and _init_bufmode succeed); the kernel side is the record [device] below. *)
From Coq Require Export ZArith List Bool Lia Arith.
Export ListNotations.
Open Scope nat_scope.

(** [d] written over [l] from position [o] on; a gap after the end of [l] is filled with zeros *)
Definition put (l : list Z) (o : nat) (d : list Z) : list Z :=
  match d with
  | [] => l
  | _ => firstn o (l ++ repeat 0%Z (o - length l)) ++ d ++ skipn (o + length d) l
  end.
(** the elements from [a] up to [b] *)
Definition slice (l : list Z) (a b : nat) : list Z := firstn (b - a) (skipn a l).

(** The open file: for a pipe-like device [content] is all its input and [kpos] how much of it has
    been read, and [output] what has been written to it; for a file, [content] is the contents and
    [kpos] the file offset. *)
Record device := { pipe : bool; content : list Z; kpos : nat; output : list Z }.

(** How the kernel answers a read or write: with an error, or by transferring at most that many
    bytes (but at least one, if it can). *)
Inductive answer := Err (e : positive) | Count (k : nat).

Inductive bmode := NoBuf | LineBuf | FullBuf.

(** struct __mlibc_file_base (options/ansi/include/stdio.h:25-60); [unget] is the pushed back bytes,
    from __unget_ptr up to __buffer_ptr; [io_mode] is true for 1; [answers]: the kernel's future
    answers (when there are none left it transfers all it can) *)
Record stream := { dev : device; answers : list answer; mode : bmode; buf : list Z; unget : list Z;
  offset : nat; io_offset : nat; valid_limit : nat; dirty_begin : nat; dirty_end : nat;
  io_mode : bool; eof : bool; err : bool }.

(** file-io.cpp:75 *)
Definition buffer_size : nat := Z.to_nat 4096.
(** file-io.cpp:47 *)
Definition unget_size : nat := 8.

Definition newline : Z := 10%Z.
Definition EINVAL : Z := 22%Z.
Definition ESPIPE : Z := 29%Z.

(** file-io.cpp:70-86 *)
Definition fresh (d : device) (m : bmode) (ans : list answer) : stream :=
  {| dev := d; answers := ans; mode := m; buf := repeat 0%Z buffer_size; unget := [];
     offset := 0; io_offset := 0; valid_limit := 0; dirty_begin := 0; dirty_end := 0;
     io_mode := false; eof := false; err := false |}.

(** assignments to single fields *)
Definition set_dev s d ans := {| dev := d; answers := ans; mode := mode s; buf := buf s; unget := unget s;
  offset := offset s; io_offset := io_offset s; valid_limit := valid_limit s; dirty_begin := dirty_begin s;
  dirty_end := dirty_end s; io_mode := io_mode s; eof := eof s; err := err s |}.
Definition set_buf s b := {| dev := dev s; answers := answers s; mode := mode s; buf := b; unget := unget s;
  offset := offset s; io_offset := io_offset s; valid_limit := valid_limit s; dirty_begin := dirty_begin s;
  dirty_end := dirty_end s; io_mode := io_mode s; eof := eof s; err := err s |}.
Definition set_unget s u := {| dev := dev s; answers := answers s; mode := mode s; buf := buf s; unget := u;
  offset := offset s; io_offset := io_offset s; valid_limit := valid_limit s; dirty_begin := dirty_begin s;
  dirty_end := dirty_end s; io_mode := io_mode s; eof := eof s; err := err s |}.
Definition set_pos s o i v := {| dev := dev s; answers := answers s; mode := mode s; buf := buf s; unget := unget s;
  offset := o; io_offset := i; valid_limit := v; dirty_begin := dirty_begin s;
  dirty_end := dirty_end s; io_mode := io_mode s; eof := eof s; err := err s |}.
Definition set_dirty s b e := {| dev := dev s; answers := answers s; mode := mode s; buf := buf s; unget := unget s;
  offset := offset s; io_offset := io_offset s; valid_limit := valid_limit s; dirty_begin := b;
  dirty_end := e; io_mode := io_mode s; eof := eof s; err := err s |}.
Definition set_iomode s m := {| dev := dev s; answers := answers s; mode := mode s; buf := buf s; unget := unget s;
  offset := offset s; io_offset := io_offset s; valid_limit := valid_limit s; dirty_begin := dirty_begin s;
  dirty_end := dirty_end s; io_mode := m; eof := eof s; err := err s |}.
Definition set_eof s e := {| dev := dev s; answers := answers s; mode := mode s; buf := buf s; unget := unget s;
  offset := offset s; io_offset := io_offset s; valid_limit := valid_limit s; dirty_begin := dirty_begin s;
  dirty_end := dirty_end s; io_mode := io_mode s; eof := e; err := err s |}.
Definition set_err s e := {| dev := dev s; answers := answers s; mode := mode s; buf := buf s; unget := unget s;
  offset := offset s; io_offset := io_offset s; valid_limit := valid_limit s; dirty_begin := dirty_begin s;
  dirty_end := dirty_end s; io_mode := io_mode s; eof := eof s; err := e |}.

(** The kernel transfers [clamp k n] of [n] bytes. *)
Definition clamp (k n : nat) : nat := if n =? 0 then 0 else max 1 (min k n).
Definition pull (s : stream) (n : nat) : (Z + nat) * list answer :=
  match answers s with
  | [] => (inr n, [])
  | Err e :: l => (inl (Z.pos e), l)
  | Count k :: l => (inr (clamp k n), l)
  end.

(** fd_file::io_read, :565-571, and the system call behind it *)
Definition io_read (s : stream) (n : nat) : stream * (Z + list Z) :=
  let d := dev s in
  match pull s (min n (length (content d) - kpos d)) with
  | (inl e, l) => (set_dev s d l, inl e)
  | (inr k, l) =>
      (set_dev s {| pipe := pipe d; content := content d; kpos := kpos d + k; output := output d |} l,
       inr (slice (content d) (kpos d) (kpos d + k)))
  end.
(** fd_file::io_write, :573-579 *)
Definition io_write (s : stream) (x : list Z) : stream * (Z + nat) :=
  let d := dev s in
  match pull s (length x) with
  | (inl e, l) => (set_dev s d l, inl e)
  | (inr k, l) =>
      (set_dev s
        (if pipe d then {| pipe := true; content := content d; kpos := kpos d; output := output d ++ firstn k x |}
         else {| pipe := false; content := put (content d) (kpos d) (firstn k x); kpos := kpos d + k;
                 output := output d |}) l,
       inr k)
  end.
Inductive whence := SeekSet | SeekCur | SeekEnd.
(** fd_file::io_seek, :581-585 *)
Definition io_seek (s : stream) (off : Z) (w : whence) : stream * (Z + Z) :=
  let d := dev s in
  if pipe d then (s, inl ESPIPE) else
  let target := match w with
    | SeekSet => off
    | SeekCur => Z.of_nat (kpos d) + off
    | SeekEnd => Z.of_nat (length (content d)) + off
    end%Z in
  if (target <? 0)%Z then (s, inl EINVAL) else
  (set_dev s {| pipe := false; content := content d; kpos := Z.to_nat target; output := output d |} (answers s),
   inr target).

(** In what follows [None] is a failed __ensure, a panic, or an access outside the buffer. *)

(** :402-411 *)
Fixpoint write_loop (fuel : nat) (s : stream) : option (stream * Z) :=
  if io_offset s <? dirty_end s then
    match fuel with
    | O => None
    | S f =>
        if buffer_size <? dirty_end s then None else
        match io_write s (slice (buf s) (io_offset s) (dirty_end s)) with
        | (s1, inl e) => Some (set_err s1 true, e)
        | (s1, inr k) =>
            if k =? 0 then None
            else write_loop f (set_dirty (set_pos s1 (offset s1) (io_offset s1 + k) (valid_limit s1))
                                         (dirty_begin s1 + k) (dirty_end s1))
        end
    end
  else Some (s, 0%Z).
(** abstract_file::_write_back, :379-414; the result is 0 or an error number.  The __ensure of line
    390 compares a size_t with 0 after testing for inequality, so it never fails. *)
Definition write_back (s : stream) : option (stream * Z) :=
  if dirty_begin s =? dirty_end s then Some (s, 0%Z) else
  if pipe (dev s) then
    if io_offset s =? dirty_begin s then write_loop buffer_size s else None
  else if io_offset s =? dirty_begin s then write_loop buffer_size s
  else match io_seek s (Z.of_nat (dirty_begin s) - Z.of_nat (io_offset s)) SeekCur with
       | (s1, inl e) => Some (s1, e)
       | (s1, inr _) => write_loop buffer_size (set_pos s1 (offset s1) (dirty_begin s1) (valid_limit s1))
       end.
(** abstract_file::_save_pos, :416-434 *)
Definition save_pos (s : stream) : stream * Z :=
  match pipe (dev s), mode s with
  | true, _ | _, NoBuf => (s, 0%Z)
  | _, _ =>
      match io_seek s (Z.of_nat (offset s) - Z.of_nat (io_offset s)) SeekCur with
      | (s1, inl e) => (set_err s1 true, e)
      | (s1, inr _) => (s1, 0%Z)
      end
  end.
(** abstract_file::_reset, :436-451 *)
Definition reset (s : stream) : option stream :=
  if pipe (dev s) && negb (offset s =? valid_limit s) then None else
  if negb (dirty_begin s =? dirty_end s) then None else
  Some (set_pos s 0 0 0).
(** abstract_file::purge, :284-290 *)
Definition purge (s : stream) : stream :=
  set_unget (set_dirty (set_pos s 0 0 0) (dirty_begin s) (dirty_begin s)) [].
(** abstract_file::flush, :296-306 *)
Definition flush (s : stream) : option (stream * Z) :=
  match (if dirty_end s =? dirty_begin s then Some (s, 0%Z) else write_back s) with
  | None => None
  | Some (s1, e) =>
      if negb (e =? 0)%Z then Some (s1, e) else
      let (s2, e2) := save_pos s1 in
      if negb (e2 =? 0)%Z then Some (s2, e2) else Some (purge s2, 0%Z)
  end.
(** _write_back and _reset, :154-157 and :206-209 *)
Definition recycle (s : stream) : option (stream * Z) :=
  match write_back s with
  | None => None
  | Some (s1, e) =>
      if negb (e =? 0)%Z then Some (s1, e)
      else match reset s1 with None => None | Some s2 => Some (s2, 0%Z) end
  end.

(** :176-184 return up to [n] bytes from the buffer, after the bytes [u] *)
Definition copy_out (s : stream) (u : list Z) (n : nat) : option (stream * (Z + list Z)) :=
  if negb (offset s <? valid_limit s) then None else
  let chunk := min (valid_limit s - offset s) n in
  if buffer_size <? offset s + chunk then None else
  Some (set_pos s (offset s + chunk) (io_offset s) (valid_limit s),
        inr (u ++ slice (buf s) (offset s) (offset s + chunk))).
(** :144-184 the buffered case; [u] are the pushed back bytes already stored *)
Definition read_buffered (s : stream) (u : list Z) (n : nat) : option (stream * (Z + list Z)) :=
  if io_mode s && negb (valid_limit s =? 0) then None else
  let s := set_iomode s false in
  if offset s =? valid_limit s then
    match recycle s with
    | None => None
    | Some (s1, e) =>
        if negb (e =? 0)%Z then Some (s1, inl e) else
        match io_read s1 buffer_size with
        | (s2, inl e) => Some (set_err s2 true, inl e)
        | (s2, inr x) =>
            if length x =? 0 then Some (set_eof s2 true, inr [])   (* :166-170 *)
            else copy_out (set_pos (set_buf s2 (put (buf s2) 0 x)) (offset s2) (length x) (length x)) u n
        end
    end
  else copy_out s u n.
(** abstract_file::read, :111-185; the result is an error number or the bytes stored *)
Definition read (s : stream) (n : nat) : option (stream * (Z + list Z)) :=
  if n =? 0 then None else
  let u := firstn n (unget s) in
  let s := set_unget s (skipn n (unget s)) in
  let n := n - length u in
  if n =? 0 then Some (s, inr u) else
  match mode s with
  | NoBuf =>
      match io_read s n with
      | (s1, inl e) => Some (set_err s1 true, inl e)
      | (s1, inr x) => Some (if length x =? 0 then set_eof s1 true else s1, inr (u ++ x))
      end
  | _ => read_buffered s u n
  end.

(** the position of the first newline, memchr *)
Fixpoint find_nl (x : list Z) : option nat :=
  match x with
  | [] => None
  | c :: x' => if (c =? newline)%Z then Some 0 else option_map S (find_nl x')
  end.

(** abstract_file::write, :187-257; the result is an error number or the number of bytes taken *)
Definition write (s : stream) (x : list Z) : option (stream * (Z + nat)) :=
  if length x =? 0 then None else
  match mode s with
  | NoBuf =>
      if negb (dirty_begin s =? dirty_end s) then None else
      match io_write s x with
      | (s1, inl e) => Some (set_err s1 true, inl e)
      | (s1, inr k) => Some (s1, inr k)
      end
  | m =>
      match (if offset s =? buffer_size then recycle s else Some (s, 0%Z)) with
      | None => None
      | Some (s1, e) =>
          if negb (e =? 0)%Z then Some (s1, inl e) else
          if negb (io_mode s1) && negb (valid_limit s1 =? 0) then None else
          let s2 := set_iomode s1 true in
          if negb (offset s2 <? buffer_size) then None else
          let chunk := min (buffer_size - offset s2) (length x) in
          let nl := match m with LineBuf => find_nl (firstn chunk x) | _ => None end in
          let chunk := match nl with Some i => i + 1 | None => chunk end in
          if chunk =? 0 then None else
          let s3 := set_buf s2 (put (buf s2) (offset s2) (firstn chunk x)) in
          let s4 :=
            if negb (dirty_begin s3 =? dirty_end s3)
            then set_dirty s3 (min (dirty_begin s3) (offset s3)) (max (dirty_end s3) (offset s3 + chunk))
            else set_dirty s3 (offset s3) (offset s3 + chunk) in
          let s5 := set_pos s4 (offset s4 + chunk) (io_offset s4) (max (offset s4 + chunk) (valid_limit s4)) in
          match nl with
          | Some _ =>
              match write_back s5 with
              | None => None
              | Some (s6, e) => if negb (e =? 0)%Z then Some (s6, inl (-1)%Z) else Some (s6, inr chunk)
              end
          | None => Some (s5, inr chunk)
          end
      end
  end.

(** abstract_file::unget, :259-274; the result is a (signed) char converted to int *)
Definition unget_char (s : stream) (c : Z) : stream * Z :=
  if unget_size <? length (unget s) + 1 then (s, (-1)%Z)
  else (set_unget s (c :: unget s), if (c <? 128)%Z then c else (c - 256)%Z).
(** abstract_file::tell, :308-317 *)
Definition tell (s : stream) : stream * (Z + Z) :=
  match io_seek s 0 SeekCur with
  | (s1, inl e) => (s1, inl e)
  | (s1, inr p) => (s1, inr (p + (Z.of_nat (offset s1) - Z.of_nat (io_offset s1)) - Z.of_nat (length (unget s1)))%Z)
  end.
(** abstract_file::seek, :319-346 *)
Definition seek (s : stream) (off : Z) (w : whence) : option (stream * Z) :=
  match write_back s with
  | None => None
  | Some (s1, e) =>
      if negb (e =? 0)%Z then Some (s1, e) else
      let off := match w with
        | SeekCur => off + (Z.of_nat (offset s1) - Z.of_nat (io_offset s1))
        | _ => off
        end%Z in
      match io_seek s1 off w with
      | (s2, inl e) => Some (set_err s2 true, e)
      | (s2, inr _) => Some (set_eof (purge s2) false, 0%Z)
      end
  end.

(** stdio.cpp:194-212 and 215-230: writes [x] piece by piece; the result is how many bytes were taken *)
Fixpoint write_all (fuel : nat) (s : stream) (x : list Z) (progress : nat) : option (stream * nat) :=
  if progress <? length x then
    match fuel with
    | O => None
    | S f =>
        match write s (skipn progress x) with
        | None => None
        | Some (s1, inl _) => Some (s1, progress)
        | Some (s1, inr k) => if k =? 0 then Some (s1, progress) else write_all f s1 x (progress + k)
        end
    end
  else Some (s, progress).
(** stdio.cpp:213-238, from object [i] on ([left] objects are left) *)
Fixpoint write_objects (left : nat) (s : stream) (size : nat) (x : list Z) (i : nat) : option (stream * nat) :=
  match left with
  | O => Some (s, i)
  | S l =>
      match write_all size s (slice x (i * size) (i * size + size)) 0 with
      | None => None
      | Some (s1, p) => if p <? size then Some (s1, i) else write_objects l s1 size x (i + 1)
      end
  end.
(** fwrite_unlocked_ignore_orientation, stdio.cpp:188-238 (fwrite, :2266-2275); [x] is the caller's
    array of [count] objects of [size] bytes *)
Definition fwrite (s : stream) (size count : nat) (x : list Z) : option (stream * nat) :=
  if (size =? 0) || (count =? 0) then Some (s, 0)
  else if size =? 1 then write_all count s (firstn count x) 0
  else write_objects count s size x 0.

(** stdio.cpp:2458-2471 and 2476-2489: the result is an error or the bytes stored *)
Fixpoint read_all (fuel : nat) (s : stream) (n : nat) (got : list Z) : option (stream * (Z + list Z)) :=
  if length got <? n then
    match fuel with
    | O => None
    | S f =>
        match read s (n - length got) with
        | None => None
        | Some (s1, inl e) => Some (s1, inl e)
        | Some (s1, inr x) => if length x =? 0 then Some (s1, inr got) else read_all f s1 n (got ++ x)
        end
    end
  else Some (s, inr got).
(** stdio.cpp:2475-2495 *)
Fixpoint read_objects (left : nat) (s : stream) (size : nat) (i : nat) (got : list Z) : option (stream * (nat * list Z)) :=
  match left with
  | O => Some (s, (i, got))
  | S l =>
      match read_all size s size [] with
      | None => None
      | Some (s1, inl e) => Some (s1, (0, got))
      | Some (s1, inr x) =>
          if length x <? size then Some (s1, (i, got ++ x)) else read_objects l s1 size (i + 1) (got ++ x)
      end
  end.
(** fread_unlocked, stdio.cpp:2450-2497: the number of objects and the bytes stored (after an error,
    only those of complete objects are given here) *)
Definition fread (s : stream) (size count : nat) : option (stream * (nat * list Z)) :=
  if (size =? 0) || (count =? 0) then Some (s, (0, []))
  else if size =? 1 then
    match read_all count s count [] with
    | None => None
    | Some (s1, inl e) => Some (s1, (0, []))
    | Some (s1, inr x) => Some (s1, (length x, x))
    end
  else read_objects count s size 0 [].

(** fgetc_unlocked, stdio.cpp:2442-2447 (fgetc, getc, getchar): the character or EOF *)
Definition fgetc (s : stream) : option (stream * Z) :=
  match fread s 1 1 with
  | None => None
  | Some (s1, (1, c :: _)) => Some (s1, c)
  | Some (s1, _) => Some (s1, (-1)%Z)
  end.
(** putc_unlocked, stdio.cpp:2103-2108 (putc, putchar) *)
Definition putc (s : stream) (c : Z) : option (stream * Z) :=
  match fwrite s 1 1 [(c mod 256)%Z] with
  | None => None
  | Some (s1, n) => Some (s1, if n =? 1 then c else (-1)%Z)
  end.
(** fputc_unlocked, stdio.cpp:2047-2052 *)
Definition fputc (s : stream) (c : Z) : option (stream * Z) :=
  match fwrite s 1 1 [(c mod 256)%Z] with
  | None => None
  | Some (s1, n) => Some (s1, if n =? 1 then 1%Z else (-1)%Z)
  end.

(** fgets_unlocked, stdio.cpp:2512-2540; [left] is max_size - 1 - i; the result is the string stored *)
Fixpoint fgets_loop (left : nat) (s : stream) (line : list Z) : option (stream * option (list Z)) :=
  match left with
  | O => Some (s, Some line)
  | S l =>
      match fgetc s with
      | None => None
      | Some (s1, c) =>
          if (c =? -1)%Z then Some (s1, match line with [] => None | _ => Some line end)
          else if (c =? newline)%Z then Some (s1, Some (line ++ [c]))
          else fgets_loop l s1 (line ++ [c])
      end
  end.
Definition fgets (s : stream) (max_size : nat) : option (stream * option (list Z)) :=
  if max_size =? 0 then None else fgets_loop (max_size - 1) s [].

(** getdelim, stdio.cpp:2331-2384 (getline): [cap] is the capacity, [has] says that there is a
    buffer; the result is the line stored.  reallocate succeeds. *)
Fixpoint getdelim_loop (fuel : nat) (s : stream) (delim : Z) (has : bool) (cap : Z) (line : list Z)
  : option (stream * option (list Z)) :=
  match fuel with
  | O => None
  | S f =>
      if has && (0 <? cap)%Z && (Z.of_nat (length line) <? cap - 1)%Z then
        match fgetc s with
        | None => None
        | Some (s1, c) =>
            if err s1 then Some (s1, None)
            else if (c =? -1)%Z then Some (s1, Some line)
            else if (c =? delim)%Z then Some (s1, Some (line ++ [c]))
            else getdelim_loop f s1 delim has cap (line ++ [c])
        end
      else getdelim_loop f s delim true (if (1024 <=? cap)%Z then cap * 2 else 1024)%Z line
  end.
Definition getdelim (s : stream) (delim : Z) (has : bool) (n : Z) : option (stream * option (list Z)) :=
  match fgetc s with
  | None => None
  | Some (s1, c) =>
      if (c =? -1)%Z || err s1 then Some (s1, None)
      else let (s2, _) := unget_char s1 c in
           getdelim_loop (2 * length (content (dev s2)) + 2 * length (unget s2) + 4) s2 delim has
             (if has then n else 512)%Z []
  end.

(** Calls and their results. *)
Inductive op :=
| Fwrite (size count : nat) (x : list Z) | Putc (c : Z) | Fputc (c : Z)
| Fread (size count : nat) | Fgetc | Fgets (max_size : nat) | Getdelim (delim : Z) (has : bool) (n : Z)
| Ungetc (c : Z) | Fflush | Fseek (off : Z) (w : whence) | Ftell | Rewind | Feof | Clearerr.
Inductive result := Num (z : Z) | Bytes (n : nat) (x : list Z) | Line (l : option (list Z)).

Definition step (s : stream) (o : op) : option (stream * result) :=
  match o with
  | Fwrite size count x => option_map (fun '(s1, n) => (s1, Num (Z.of_nat n))) (fwrite s size count x)
  | Putc c => option_map (fun '(s1, r) => (s1, Num r)) (putc s c)
  | Fputc c => option_map (fun '(s1, r) => (s1, Num r)) (fputc s c)
  | Fread size count => option_map (fun '(s1, (n, x)) => (s1, Bytes n x)) (fread s size count)
  | Fgetc => option_map (fun '(s1, r) => (s1, Num r)) (fgetc s)
  | Fgets n => option_map (fun '(s1, r) => (s1, Line r)) (fgets s n)
  | Getdelim d has n => option_map (fun '(s1, r) => (s1, Line r)) (getdelim s d has n)
  | Ungetc c =>                                       (* file-io.cpp:807-814 *)
      if (c =? -1)%Z then Some (s, Num (-1)) else
      let (s1, r) := unget_char s (c mod 256) in Some (s1, Num r)
  | Fflush =>                                         (* :753-771, for one stream *)
      option_map (fun '(s1, e) => (s1, Num (if e =? 0 then 0 else -1)%Z)) (flush s)
  | Fseek off w =>                                    (* :716-724 *)
      option_map (fun '(s1, e) => (s1, Num (if e =? 0 then 0 else -1)%Z)) (seek s off w)
  | Ftell =>                                          (* :726-735 *)
      let (s1, r) := tell s in Some (s1, Num (match r with inl _ => -1 | inr p => p end)%Z)
  | Rewind =>                                         (* :799-804 *)
      option_map (fun '(s1, _) => (set_err (set_eof s1 false) false, Num 0)) (seek s 0 SeekSet)
  | Feof => Some (s, Num (if eof s then 1 else 0)%Z)  (* stdio.cpp:2433-2435 *)
  | Clearerr => Some (set_err (set_eof s false) false, Num 0)
  end.

Fixpoint run (s : stream) (os : list op) : option (stream * list result) :=
  match os with
  | [] => Some (s, [])
  | o :: os' =>
      match step s o with
      | None => None
      | Some (s1, r) => option_map (fun '(s2, rs) => (s2, r :: rs)) (run s1 os')
      end
  end.
