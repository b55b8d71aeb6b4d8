(** What the stream functions should do: the same calls on a file without any buffer. *)
From Verif Require Import Stdio_Model.

(** What was done last to the stream: C 7.21.5.3 requires a call of fflush or of a file positioning
    function between output and input, and of a file positioning function between input and
    output unless the input met the end of the file. *)
Inductive last := Neutral | Reading | Writing.

(** [i_data], [i_pos]: the file's contents and position (for a pipe: its input, and how much the
    program has read of it); [i_out]: all output to a pipe; [i_push]: characters pushed back;
    [i_eof]: end-of-file indicator; [i_err]: an fseek has failed since the last clearerr or rewind. *)
Record ideal := { i_pipe : bool; i_data : list Z; i_pos : nat; i_out : list Z; i_push : list Z;
                  i_eof : bool; i_err : bool; i_last : last }.

Definition opened (d : device) : ideal :=
  {| i_pipe := pipe d; i_data := content d; i_pos := kpos d; i_out := output d; i_push := [];
     i_eof := false; i_err := false; i_last := Neutral |}.

Definition is_byte (c : Z) : bool := ((0 <=? c) && (c <=? 255))%Z.
(** what the program reads next *)
Definition avail (i : ideal) : list Z := i_push i ++ skipn (i_pos i) (i_data i).
Definition is_writing (i : ideal) : bool := match i_last i with Writing => true | _ => false end.
Definition is_reading (i : ideal) : bool := match i_last i with Reading => true | _ => false end.

(** Reads up to [n] characters. *)
Definition taken (i : ideal) (n : nat) : list Z := firstn n (avail i).
Definition take (i : ideal) (n : nat) : ideal :=
  let x := taken i n in
  {| i_pipe := i_pipe i; i_data := i_data i;
     i_pos := i_pos i + (length x - length (i_push i)); i_out := i_out i;
     i_push := skipn n (i_push i);
     i_eof := i_eof i || (length x <? n); i_err := i_err i;
     i_last := if n <=? length (i_push i) then i_last i
               else if length x <? n then Neutral else Reading |}.
(** Writes [x]. *)
Definition emit (i : ideal) (x : list Z) : ideal :=
  {| i_pipe := i_pipe i;
     i_data := if i_pipe i then i_data i else put (i_data i) (i_pos i) x;
     i_pos := if i_pipe i then i_pos i else i_pos i + length x;
     i_out := if i_pipe i then i_out i ++ x else i_out i;
     i_push := i_push i; i_eof := i_eof i; i_err := i_err i;
     i_last := match x with [] => i_last i | _ => Writing end |}.
Definition with_last (i : ideal) (m : last) : ideal :=
  {| i_pipe := i_pipe i; i_data := i_data i; i_pos := i_pos i; i_out := i_out i; i_push := i_push i;
     i_eof := i_eof i; i_err := i_err i; i_last := m |}.
Definition with_flags (i : ideal) (eof err : bool) : ideal :=
  {| i_pipe := i_pipe i; i_data := i_data i; i_pos := i_pos i; i_out := i_out i; i_push := i_push i;
     i_eof := eof; i_err := err; i_last := i_last i |}.
Definition with_push (i : ideal) (p : list Z) : ideal :=
  {| i_pipe := i_pipe i; i_data := i_data i; i_pos := i_pos i; i_out := i_out i; i_push := p;
     i_eof := i_eof i; i_err := i_err i; i_last := i_last i |}.
Definition move_to (i : ideal) (p : nat) : ideal :=
  {| i_pipe := i_pipe i; i_data := i_data i; i_pos := p; i_out := i_out i; i_push := [];
     i_eof := false; i_err := i_err i; i_last := Neutral |}.

(** the characters of [l] up to and including the first [d], but at most [n] *)
Fixpoint upto (d : Z) (n : nat) (l : list Z) : list Z :=
  match n, l with
  | S m, c :: l' => if (c =? d)%Z then [c] else c :: upto d m l'
  | _, _ => []
  end.
(** Does the line [x], read with limit [n], end because the file does? *)
Definition cut_short (d : Z) (n : nat) (x : list Z) : bool :=
  (length x <? n) && negb (List.last x (-1)%Z =? d)%Z.
(** Reads a line; if it is cut short the call has met the end of the file. *)
Definition take_line (d : Z) (n : nat) (i : ideal) : ideal * list Z :=
  let x := upto d n (avail i) in
  (take i (if cut_short d n x then length x + 1 else length x), x).

Definition target (i : ideal) (off : Z) (w : whence) : Z :=
  match w with
  | SeekSet => off
  | SeekCur => Z.of_nat (i_pos i) + off
  | SeekEnd => Z.of_nat (length (i_data i)) + off
  end%Z.
Definition reposition (i : ideal) (off : Z) (w : whence) : ideal * Z :=
  if i_pipe i || (target i off w <? 0)%Z then (with_flags i (i_eof i) true, (-1)%Z)
  else (move_to i (Z.to_nat (target i off w)), 0%Z).

(** [ideal_step i o = Some (i', r)]: the call [o] is permitted and returns [r].  Besides the rule about
    changing between input and output the program must observe restrictions that C does not make;
    C57_*_refuted in Stdio_Props.v show what the code does without them:
    - a read of more than the characters pushed back is not made at the end of the file;
    - ungetc is not called with the end-of-file indicator set or with characters above 127;
    - no characters are pushed back at an fseek with SEEK_CUR (or at an fflush, where POSIX is
      not clear, or at output);
    - fflush is not called while reading from a pipe;
    - getdelim is not called after an fseek that failed;
    - fputc is not called (its result is wrong, it is otherwise the same as putc). *)
Definition ideal_step (i : ideal) (o : op) : option (ideal * result) :=
  match o with
  | Fwrite size count x =>
      if is_reading i || negb (length (i_push i) =? 0) || negb (length x =? size * count) || negb (forallb is_byte x) then None
      else Some (emit i x, Num (if size =? 0 then 0 else Z.of_nat count))
  | Putc c =>
      if is_reading i || negb (length (i_push i) =? 0) then None
      else Some (emit i [(c mod 256)%Z], Num c)
  | Fputc _ => None
  | Fread size count =>
      let n := size * count in
      if is_writing i
         || (negb (length (i_push i) =? 0) && (length (i_push i) <? n) && (length (i_data i) <=? i_pos i)) then None
      else if n =? 0 then Some (i, Bytes 0 [])
      else Some (take i n, Bytes (length (taken i n) / size) (taken i n))
  | Fgetc =>
      if is_writing i then None
      else Some (take i 1, Num (match avail i with [] => -1 | c :: _ => c end)%Z)
  | Fgets n =>
      if is_writing i || (n =? 0) then None
      else let (i', x) := take_line newline (n - 1) i in
           Some (i', Line (match x with [] => if n =? 1 then Some [] else None | _ => Some x end))
  | Getdelim d has n =>
      if is_writing i || i_err i || negb ((0 <=? d) && (d <=? 255))%Z then None
      else let (i', x) := take_line d (length (avail i) + 1) i in
           Some (i', Line (match x with [] => None | _ => Some x end))
  | Ungetc c =>
      if (c =? -1)%Z then Some (i, Num (-1))
      else if i_eof i || negb ((0 <=? c) && (c <? 128))%Z then None
      else if length (i_push i) <? 8 then Some (with_push i (c :: i_push i), Num c)
      else Some (i, Num (-1))
  | Fflush =>
      if negb (length (i_push i) =? 0) || (i_pipe i && is_reading i) then None
      else Some (with_last i Neutral, Num 0)
  | Fseek off w =>
      if match w with SeekCur => negb (length (i_push i) =? 0) | _ => false end then None
      else let (i', r) := reposition i off w in Some (i', Num r)
  | Ftell => Some (i, Num (if i_pipe i then -1 else Z.of_nat (i_pos i) - Z.of_nat (length (i_push i)))%Z)
  | Rewind => let (i', _) := reposition i 0 SeekSet in Some (with_flags i' false false, Num 0)
  | Feof => Some (i, Num (if i_eof i then 1 else 0)%Z)
  | Clearerr => Some (with_flags i false false, Num 0)
  end.
Fixpoint ideal_run (i : ideal) (os : list op) : option (ideal * list result) :=
  match os with
  | [] => Some (i, [])
  | o :: os' =>
      match ideal_step i o with
      | None => None
      | Some (i1, r) => option_map (fun '(i2, rs) => (i2, r :: rs)) (ideal_run i1 os')
      end
  end.

(** The kernel reports no errors. *)
Definition no_errors (l : list answer) : Prop := forall e, ~ In (Err e) l.
(** All bytes in the file are bytes. *)
Definition bytes (l : list Z) : Prop := forallb is_byte l = true.

(** [a] is what a call of fwrite that returned [r] has taken of its data: at least the objects it
    reports. *)
Definition accepted (o : op) (r : result) (a : list Z) : Prop :=
  match o, r with
  | Fwrite size count x, Num c =>
      exists k, a = firstn k x /\ (0 <= c)%Z /\ (c * Z.of_nat size <= Z.of_nat (length a))%Z
  | Fflush, _ => a = []
  | _, _ => False
  end.
(** [accepted] for every call of a history; [a] is everything taken, in order. *)
Fixpoint all_accepted (os : list op) (rs : list result) (a : list Z) : Prop :=
  match os, rs with
  | [], [] => a = []
  | o :: os', r :: rs' => exists a1 a2, a = a1 ++ a2 /\ accepted o r a1 /\ all_accepted os' rs' a2
  | _, _ => False
  end.
Definition only_writes (os : list op) : Prop :=
  forall o, In o os -> o = Fflush \/ exists size count x, o = Fwrite size count x /\ length x = size * count.

(** What a call writes, if there are no errors. *)
Definition written (o : op) : list Z :=
  match o with
  | Fwrite _ _ x => x
  | Putc c | Fputc c => [(c mod 256)%Z]
  | _ => []
  end.
Definition is_output (o : op) : Prop :=
  match o with
  | Fwrite size count x => length x = size * count
  | Putc _ | Fputc _ | Fflush => True
  | _ => False
  end.
(** What the calls of a history have read. *)
Definition got (r : result) : list Z := match r with Bytes _ x => x | _ => [] end.
