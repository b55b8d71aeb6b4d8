(** Model of the directory streams of options/posix/generic/dirent.cpp.  struct dirent (dirent.h:30-35, 64-bit): d_ino at 0, d_off at 8, d_reclen at
    16, d_type at 18, d_name at 19; its size is 280 bytes.  The kernel is given by ReadEntries, a function of the number of the call and of the
    position of the descriptor: the bytes it writes and the new position, or an error.  lseek succeeds. *)
From Verif Require Import Base.
Open Scope Z_scope.

(** little-endian numbers *)
Fixpoint le (bs : list Z) : Z := match bs with [] => 0 | b :: r => b + 256 * le r end.
Definition signed64 (x : Z) : Z := if x <? 2 ^ 63 then x else x - 2 ^ 64.
(** [k] bytes at [n] of an object *)
Definition slice (n k : nat) (buf : list Z) : res (list Z) := if (n + k <=? length buf)%nat then Ok (firstn k (skipn n buf)) else UB.
Fixpoint strlen_of (buf : list Z) : res nat := match buf with [] => UB | b :: r => if b =? 0 then Ok 0%nat else n <- strlen_of r ;; Ok (S n) end.
Definition NAME_AT : nat := 19.
Definition BUFFER : nat := 2048.
Definition DIRENT_SIZE : nat := 280.

(** struct __mlibc_dir_struct, dirent.h:51-65, and the kernel's side of the descriptor: its position and the number of the calls made *)
Record dir := { ent_next : nat; ent_limit : nat; ent_buffer : list Z; current : list Z; seek_offset : Z; k_pos : Z; k_calls : nat }.

Section Dir.
Variable read_entries : nat -> Z -> (list Z * Z) + Z.

(** opendir, dirent.cpp:58-71, when the directory can be opened; frg::construct value-initialises the structure *)
Definition opendir : dir :=
  {| ent_next := 0; ent_limit := 0; ent_buffer := repeat 0 BUFFER; current := repeat 0 DIRENT_SIZE; seek_offset := 0; k_pos := 0; k_calls := 0 |}.

(** dirent.cpp:83-88 *)
Definition next_entry (d : dir) : res (list Z * dir) :=
  off <- slice (ent_next d + 8) 8 (ent_buffer d) ;;
  reclen <- slice (ent_next d + 16) 2 (ent_buffer d) ;;
  n <- strlen_of (skipn (ent_next d + NAME_AT) (ent_buffer d)) ;;
  bytes <- slice (ent_next d) (NAME_AT + n + 1) (ent_buffer d) ;;
  if (DIRENT_SIZE <? NAME_AT + n + 1)%nat then UB
  else
    let cur := bytes ++ skipn (NAME_AT + n + 1) (current d) in
    Ok (cur, {| ent_next := ent_next d + Z.to_nat (le reclen); ent_limit := ent_limit d; ent_buffer := ent_buffer d; current := cur;
                seek_offset := signed64 (le off); k_pos := k_pos d; k_calls := k_calls d |}).
(** readdir, dirent.cpp:73-89; the result is the contents of __current *)
Definition readdir (d : dir) : res (option (list Z) * dir) :=
  if (ent_limit d <? ent_next d)%nat then Abort
  else if (ent_next d =? ent_limit d)%nat then
    match read_entries (k_calls d) (k_pos d) with
    | inr _ => Abort
    | inl (bs, pos) =>
        let d' := {| ent_next := 0; ent_limit := length bs; ent_buffer := bs ++ skipn (length bs) (ent_buffer d); current := current d;
                     seek_offset := seek_offset d; k_pos := pos; k_calls := S (k_calls d) |} in
        if (BUFFER <? length bs)%nat then UB
        else if (length bs =? 0)%nat then Ok (None, d')
        else '(e, d'') <- next_entry d' ;; Ok (Some e, d'')
    end
  else '(e, d') <- next_entry d ;; Ok (Some e, d').
(** seekdir, dirent.cpp:203-207; rewinddir, 135-139, is the same with offset 0 *)
Definition seekdir (d : dir) (off : Z) : dir :=
  {| ent_next := 0; ent_limit := 0; ent_buffer := ent_buffer d; current := current d; seek_offset := off; k_pos := off; k_calls := k_calls d |}.
Definition rewinddir (d : dir) : dir := seekdir d 0.
(** telldir, dirent.cpp:209-211 *)
Definition telldir (d : dir) : Z := seek_offset d.

(** a program that uses a directory stream *)
Inductive op := Readdir | Telldir | Seekdir (off : Z) | Rewinddir.
Inductive out := Entry (e : option (list Z)) | Pos (p : Z) | Done.
Definition step (o : op) (d : dir) : res (out * dir) :=
  match o with
  | Readdir => '(e, d') <- readdir d ;; Ok (Entry e, d')
  | Telldir => Ok (Pos (telldir d), d)
  | Seekdir off => Ok (Done, seekdir d off)
  | Rewinddir => Ok (Done, rewinddir d)
  end.
Fixpoint run (ops : list op) (d : dir) : res (list out * dir) :=
  match ops with
  | [] => Ok ([], d)
  | o :: r => '(x, d') <- step o d ;; '(xs, d'') <- run r d' ;; Ok (x :: xs, d'')
  end.

(** scandir, dirent.cpp:141-195.  [select]: the number of the call, the entry and errno give the answer and the new errno.  [qsort]: the order of
    the array afterwards, [None] if there is no comparison.  Memory allocation succeeds.  The result: the return value, the array, errno and the
    number of descriptors left open. *)
Section Scandir.
Variable select : option (nat -> list Z -> Z -> bool * Z).
Variable qsort : option (list (list Z) -> list (list Z)).
(** dirent.cpp:155-177; [array]: the slots of the array, of which [count] are in use *)
Fixpoint scan (fuel : nat) (calls : nat) (d : dir) (array : list (option (list Z))) (count : nat) (errno : Z) : res (list (option (list Z)) * nat * Z * dir) :=
  match fuel with
  | O => Fuel
  | S fuel' =>
      '(e, d') <- readdir d ;;
      match e with
      | None => Ok (array, count, errno, d')
      | Some cur =>
          if negb (errno =? 0) then Ok (array, count, errno, d')
          else
            let '(keep, errno') := match select with Some f => f calls cur errno | None => (true, errno) end in
            if negb keep then scan fuel' (S calls) d' array count errno'
            else
              let array := if (length array <=? count)%nat then array ++ repeat None (2 * length array + 1 - length array) else array in
              reclen <- slice 16 2 cur ;;
              copy <- slice 0 (Z.to_nat (le reclen)) cur ;;
              if (count <? length array)%nat then
                scan fuel' (S calls) d' (firstn count array ++ Some copy :: skipn (S count) array) (S count) errno'
              else UB
      end
  end.
Fixpoint filled (l : list (option (list Z))) : res (list (list Z)) :=
  match l with [] => Ok [] | Some x :: r => xs <- filled r ;; Ok (x :: xs) | None :: _ => UB end.
Definition scandir (fuel : nat) (open_error : option Z) (errno : Z) : res (Z * list (list Z) * Z * Z) :=
  match open_error with
  | Some e => Ok (-1, [], e, 0)
  | None =>
      '(array, count, errno', _) <- scan fuel 0 opendir [] 0 0 ;;
      if negb (errno' =? 0) then Ok (-1, [], errno', 1)
      else
        l <- filled (firstn count array) ;;
        Ok (Z.of_nat count, match qsort with Some f => f l | None => l end, errno, 1)
  end.
End Scandir.
End Dir.
