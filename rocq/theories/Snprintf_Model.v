(** Model of the output sinks of snprintf, sprintf and asprintf, options/ansi/generic/stdio.cpp.
    The format interpreter (frg::printf_format) is not part of the repository: what it does is a parameter, namely the
    sequence of pieces it appends to the sink. *)
From Verif Require Import Base Mem_Model Str_Model.
Open Scope Z_scope.

(** one call of the sink's append: a character, or a string with src_max and dest_max *)
Inductive piece :=
| PChar (c : Z)
| PStr (str : Z) (src_max dest_max : nat).

(** LimitedPrinter<char>, stdio.cpp:567-676 *)
Record limited := { buffer : Z; limit : nat; count : nat }.
Definition remaining (s : limited) : nat := if (count s <? limit s)%nat then (limit s - count s)%nat else 0%nat.
Definition bump (s : limited) (n : nat) : limited := {| buffer := buffer s; limit := limit s; count := count s + n |}.

(** LimitedPrinter::append(Char) (574-578) and append(const char *, size_t, size_t) (617-623) *)
Definition append (m : mem) (s : limited) (p : piece) : res (mem * limited) :=
  match p with
  | PChar c =>
    m1 <- (if (count s <? limit s)%nat then store m (buffer s + Z.of_nat (count s)) c else Ok m) ;; Ok (m1, bump s 1)
  | PStr str src_max dest_max =>
    str_len <- strnlen m str src_max ;;
    let copy_len := Nat.min str_len (Nat.min dest_max (remaining s)) in
    '(m1, _) <- strncpy m (buffer s + Z.of_nat (count s)) str copy_len ;;
    Ok (m1, bump s str_len)
  end.
Fixpoint append_all (m : mem) (s : limited) (ps : list piece) : res (mem * limited) :=
  match ps with [] => Ok (m, s) | p :: ps' => '(m1, s1) <- append m s p ;; append_all m1 s1 ps' end.

(** vsnprintf, stdio.cpp:1809-1827; the count is returned as an int (assumed to fit) *)
Definition vsnprintf (m : mem) (buf : Z) (max_size : nat) (ps : list piece) : res (mem * nat) :=
  '(m1, s) <- append_all m {| buffer := buf; limit := (if (max_size =? 0)%nat then 0 else max_size - 1)%nat; count := 0 |} ps ;;
  if (max_size =? 0)%nat then Ok (m1, count s)
  else m2 <- store m1 (buffer s + Z.of_nat (Nat.min (max_size - 1) (count s))) 0 ;; Ok (m2, count s).

(** LimitedPrinter::append(const wchar_t *, size_t, size_t) on a narrow sink (638-651), used by %ls: how many bytes
    are stored and how far count advances, for characters whose encodings are the given byte strings (wcsnrtombs
    stores whole characters while they fit, C46) *)
Fixpoint fit (room : nat) (chars : list (list Z)) : list Z :=
  match chars with
  | [] => []
  | c :: cs => if (length c <=? room)%nat then c ++ fit (room - length c) cs else []
  end.
Fixpoint store_list (m : mem) (p : Z) (l : list Z) : res mem :=
  match l with [] => Ok m | c :: l' => m1 <- store m p c ;; store_list m1 (p + 1) l' end.
Definition append_wide (m : mem) (s : limited) (chars : list (list Z)) (dest_max : nat) : res (mem * limited) :=
  let total := length (concat chars) in
  m1 <- (if (count s <? limit s)%nat
         then store_list m (buffer s + Z.of_nat (count s)) (fit (Nat.min dest_max (remaining s)) chars) else Ok m) ;;
  Ok (m1, bump s (Nat.min total dest_max)).
(** snprintf(buf, max_size, "%ls", ...) *)
Definition vsnprintf_wide (m : mem) (buf : Z) (max_size : nat) (chars : list (list Z)) (dest_max : nat) : res (mem * nat) :=
  '(m1, s) <- append_wide m {| buffer := buf; limit := (if (max_size =? 0)%nat then 0 else max_size - 1)%nat; count := 0 |} chars dest_max ;;
  if (max_size =? 0)%nat then Ok (m1, count s)
  else m2 <- store m1 (buffer s + Z.of_nat (Nat.min (max_size - 1) (count s))) 0 ;; Ok (m2, count s).

(** ** asprintf: ResizePrinter, stdio.cpp:682-750, and vasprintf, 2396-2413.
    The buffer is the contents of the malloc'd block (its length is the field limit); malloc is assumed to succeed
    (the code aborts otherwise) and to return uninitialised bytes, here arbitrary values [junk]. *)
Record resize := { block : list Z; used : nat }.
Fixpoint set_nth (l : list Z) (i : nat) (x : Z) : option (list Z) :=
  match l, i with
  | [], _ => None
  | _ :: l', O => Some (x :: l')
  | y :: l', S i' => option_map (cons y) (set_nth l' i' x)
  end.
Section Resize.
  Variable junk : nat -> Z.
  (** expand, 688-699 *)
  Definition expand (s : resize) : res resize :=
    let limit := length (block s) in
    let s1 := if (used s =? limit)%nat then
                let new_limit := Nat.max (2 * limit) 16 in
                {| block := firstn (used s) (block s) ++ map junk (seq (used s) (new_limit - used s)); used := used s |}
              else s in
    if (used s1 <? length (block s1))%nat then Ok s1 else Abort.
  (** append(char), 701-705 *)
  Definition rappend (s : resize) (c : Z) : res resize :=
    s1 <- expand s ;;
    match set_nth (block s1) (used s1) c with
    | None => UB
    | Some b => Ok {| block := b; used := used s1 + 1 |}
    end.
  Fixpoint rappend_all (s : resize) (cs : list Z) : res resize :=
    match cs with [] => Ok s | c :: cs' => s1 <- rappend s c ;; rappend_all s1 cs' end.
  (** vasprintf on the output bytes [cs] (the string forms of append loop over append(char), 707-719): the block and
      the returned length *)
  Definition vasprintf (cs : list Z) : res (list Z * nat) :=
    s <- rappend_all {| block := []; used := 0 |} cs ;;
    s1 <- expand s ;;
    match set_nth (block s1) (used s1) 0 with None => UB | Some b => Ok (b, used s1) end.
End Resize.
