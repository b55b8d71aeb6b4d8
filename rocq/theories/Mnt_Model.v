(** Model of getmntent, getmntent_r, addmntent and hasmntopt, options/linux/generic/mntent.cpp.
    The stream is the list of the bytes ahead (none is 0) and its end-of-file indicator; read errors are left out.  The line is scanned by the
    model of sscanf (Scanf_Model.v), so the bytes have to be below 128 as they have to there; printf's %d is the decimal number (C01).  The line
    buffer is the list of its bytes with the null byte. *)
From Verif Require Import Base Hosts_Model.
From Verif Require Scanf_Model Inet_Model.
Open Scope Z_scope.

Record mnt := Mnt { fsname : list Z; dir : list Z; type_ : list Z; opts : list Z; freq : Z; passno : Z }.
Record stream := Stream { ahead : list Z; eof : bool }.

(** " %n%*s%n %n%*s%n %n%*s%n %n%*s%n %d %d", mntent.cpp:81 *)
Definition piece : list Z := [32; 37;110; 37;42;115; 37;110].
Definition fmt : list Z := piece ++ piece ++ piece ++ piece ++ [32; 37;100; 32; 37;100].

Definition to_int (v : Z) : Z := if v <? 2147483648 then v else v - 4294967296.
(** n[i] is the length if sscanf did not store it; mnt_freq and mnt_passno are left alone then *)
Definition stored_at (out : list Scanf_Model.stored) (i : nat) (default : Z) : Z :=
  match nth_error out i with Some (Scanf_Model.SInt _ v) => to_int v | _ => default end.

(** linebuf[i] = 0 *)
Definition cut_at (i : Z) (buf : list Z) : res (list Z) :=
  if (0 <=? i) && (i <? Z.of_nat (length buf)) then Ok (firstn (Z.to_nat i) buf ++ 0 :: skipn (S (Z.to_nat i)) buf) else UB.
Definition at_ (i : Z) (buf : list Z) : list Z := cstr (skipn (Z.to_nat i) buf).

(** mntent.cpp:70-95, one line with its newline: the line is skipped, or an entry; mnt_freq and mnt_passno *)
Definition one_line (line : list Z) (fr pa : Z) : res (option mnt * Z * Z) :=
  let len := Z.of_nat (length line) in
  '(_, out) <- Scanf_Model.sscanf line fmt ;;
  let n i := stored_at out i len in
  let fr := stored_at out 8 fr in
  let pa := stored_at out 9 pa in
  let buf := line ++ [0] in
  c <- match nth_error buf (Z.to_nat (n 0%nat)) with Some c => Ok c | None => UB end ;;
  if (c =? 35) || (n 1%nat =? len) then Ok (None, fr, pa)
  else
    buf <- cut_at (n 1%nat) buf ;; buf <- cut_at (n 3%nat) buf ;; buf <- cut_at (n 5%nat) buf ;; buf <- cut_at (n 7%nat) buf ;;
    Ok (Some (Mnt (at_ (n 0%nat) buf) (at_ (n 2%nat) buf) (at_ (n 4%nat) buf) (at_ (n 6%nat) buf) fr pa), fr, pa).

(** getline, or fgets into [size] bytes: the line, the stream behind it *)
Definition read_line (size : option nat) (s : stream) : list Z * stream :=
  let room := match size with None => S (length (ahead s)) | Some b => (b - 1)%nat end in
  let '(l, r) := fgets room (ahead s) in
  let full := Nat.leb room (length l) || match rev l with c :: _ => c =? 10 | [] => false end in
  (l, Stream r (eof s || negb full)).
(** fscanf(f, "%*[^\n]%*[\n]"), mntent.cpp:66 *)
Fixpoint drop_while (p : Z -> bool) (l : list Z) : list Z := match l with c :: r => if p c then drop_while p r else l | [] => [] end.
Definition skip_rest (s : stream) : stream :=
  match ahead s with
  | c :: _ => if c =? 10 then s else let r := drop_while (fun c => negb (c =? 10)) (ahead s) in
              match r with [] => Stream [] true | _ => let r := drop_while (fun c => c =? 10) r in Stream r (match r with [] => true | _ => eof s end) end
  | [] => Stream [] true
  end.
(** getmntent_r, mntent.cpp:45-98; [size]: none for getmntent.  [fuel] bounds the lines *)
Fixpoint get_loop (fuel : nat) (size : option nat) (fr pa : Z) (s : stream) : res (option mnt * stream) :=
  match fuel with
  | O => Fuel
  | S k =>
      let '(l, s) := read_line size s in
      if eof s then Ok (None, s)
      else if negb (existsb (fun c => c =? 10) l) then Ok (None, skip_rest s)
      else '(r, fr, pa) <- one_line l fr pa ;;
           match r with Some m => Ok (Some m, s) | None => get_loop k size fr pa s end
  end.
Definition getmntent (fuel : nat) (size : option nat) (s : stream) : res (option mnt * stream) := get_loop fuel size 0 0 s.
(** [k] calls in a row *)
Fixpoint calls (k fuel : nat) (size : option nat) (s : stream) : res (list (option mnt)) :=
  match k with O => Ok [] | S k => '(r, s) <- getmntent fuel size s ;; rs <- calls k fuel size s ;; Ok (r :: rs) end.

(** addmntent, mntent.cpp:26-33: what is added at the end of the file *)
Definition dec (z : Z) : list Z := if z <? 0 then 45 :: Inet_Model.num 10 (- z) else Inet_Model.num 10 z.
Definition addmntent (file : list Z) (m : mnt) : list Z :=
  file ++ fsname m ++ [9] ++ dir m ++ [9] ++ type_ m ++ [9] ++ opts m ++ [9] ++ dec (freq m) ++ [9] ++ dec (passno m) ++ [10].

(** hasmntopt, mntent.cpp:42-44: strstr (C07): the offset of the first occurrence *)
Fixpoint strstr (s t : list Z) : option nat :=
  if prefix t s then Some O else match s with [] => None | _ :: r => match strstr r t with Some i => Some (S i) | None => None end end.
Definition hasmntopt (m : mnt) (opt : list Z) : option nat := strstr (opts m) opt.
