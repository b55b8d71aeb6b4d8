(** A directory and its cursor. *)
From Verif Require Import Base Dirent_Model.
Open Scope Z_scope.

(** an entry: inode number, the position behind it, type, name *)
Record entry := { ino : Z; after : Z; typ : Z; name : list Z }.
Definition byte (b : Z) : Prop := 0 <= b < 256.
(** the record the kernel writes for an entry: it ends at any distance behind the name, and fits a struct dirent *)
Definition encodes (e : entry) (bs : list Z) : Prop :=
  exists i o r pad, bs = i ++ o ++ r ++ [typ e] ++ name e ++ [0] ++ pad /\ length i = 8%nat /\ length o = 8%nat /\ length r = 2%nat /\
    le i = ino e /\ signed64 (le o) = after e /\ le r = Z.of_nat (length bs) /\ (length bs <= 280)%nat /\ ~ In 0 (name e).
(** the user's view of a struct dirent *)
Fixpoint until0 (l : list Z) : list Z := match l with [] => [] | c :: r => if c =? 0 then [] else c :: until0 r end.
Definition fields (s : list Z) : entry :=
  {| ino := le (firstn 8 s); after := signed64 (le (firstn 8 (skipn 8 s))); typ := nth 18 s 0; name := until0 (skipn 19 s) |}.

Section Kernel.
Variable es : list entry.
(** the position of the [i]-th entry: 0, then the position behind the entry before *)
Definition position (i : nat) : Z := match i with O => 0 | S k => after (nth k es {| ino := 0; after := 0; typ := 0; name := [] |}) end.
(** the kernel returns some whole entries from a position on, at least one unless there are none left *)
Definition faithful (read_entries : nat -> Z -> (list Z * Z) + Z) : Prop :=
  forall c i, (i <= length es)%nat -> exists j recs,
    read_entries c (position i) = inl (concat recs, position j) /\ (i <= j <= length es)%nat /\ ((i < length es)%nat -> (i < j)%nat) /\
    Forall2 encodes (firstn (j - i) (skipn i es)) recs /\ (length (concat recs) <= 2048)%nat.

(** a program that uses positions it got from telldir: [Sought i] is a seekdir to the position of the [i]-th entry *)
Inductive request := Read | Tell | Seek (i : nat) | Rewind.
Inductive answer := Got (e : option entry) | At (p : Z) | Void.
Definition good_request (q : request) : Prop := match q with Seek i => (i <= length es)%nat | _ => True end.
Definition call (q : request) : op := match q with Read => Readdir | Tell => Telldir | Seek i => Seekdir (position i) | Rewind => Rewinddir end.
(** the cursor *)
Definition serve (q : request) (i : nat) : answer * nat :=
  match q with
  | Read => match nth_error es i with Some e => (Got (Some e), S i) | None => (Got None, i) end
  | Tell => (At (position i), i)
  | Seek j => (Void, j)
  | Rewind => (Void, 0%nat)
  end.
Fixpoint serve_all (qs : list request) (i : nat) : list answer :=
  match qs with [] => [] | q :: r => let '(a, i') := serve q i in a :: serve_all r i' end.
Definition seen (o : out) : answer := match o with Entry (Some s) => Got (Some (fields s)) | Entry None => Got None | Pos p => At p | Done => Void end.
End Kernel.

(** scandir: the function sees the number of the call, the entry and errno; it gives an answer and a new errno *)
Definition sees_fields (f : nat -> list Z -> Z -> bool * Z) (sel : nat -> entry -> Z -> bool * Z) : Prop := forall c s en, f c s en = sel c (fields s) en.
(** the entries chosen, in order *)
Fixpoint chosen (sel : nat -> entry -> Z -> bool * Z) (c : nat) (es : list entry) : list entry :=
  match es with [] => [] | e :: r => (if fst (sel c e 0) then [e] else []) ++ chosen sel (S c) r end.
