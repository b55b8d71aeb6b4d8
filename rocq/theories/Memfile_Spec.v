(** What a stream in memory has to do: it is a file with contents [s] and a position [p]. *)
From Verif Require Import Base Memfile_Model.
Open Scope Z_scope.

(** the contents after writing [d] at position [p]; a gap is filled with zeros *)
Definition put (s : list Z) (p : Z) (d : list Z) : list Z :=
  firstn (Z.to_nat p) s ++ repeat 0 (Z.to_nat (p - len s)) ++ d ++ skipn (Z.to_nat (p + len d)) s.

(** where a seek goes *)
Definition target (s : list Z) (p o : Z) (w : whence) : Z :=
  match w with Set_ => o | Cur => p + o | End_ => len s + o end.

(** ** open_memstream: the file grows; fflush stores a pointer to the contents with a terminator and the
    smaller of their length and the position *)
Inductive mfile : list Z * Z -> op -> list Z * Z -> event -> Prop :=
| mf_write s p d : d <> [] -> mfile (s, p) (Write d) (put s p d, p + len d) (Wrote (len d))
| mf_write_none s p : mfile (s, p) (Write []) (s, p) (Wrote 0)
| mf_seek s p o w : 0 <= target s p o w -> mfile (s, p) (Seek o w) (s, target s p o w) (Sought true)
| mf_seek_bad s p o w : target s p o w < 0 -> mfile (s, p) (Seek o w) (s, p) (Sought false)
| mf_tell s p : mfile (s, p) Tell (s, p) (Told p)
| mf_flush s p : mfile (s, p) Flush (s, p) (Flushed (s ++ [0]) (Z.min (len s) p)).

Inductive mfiles : list Z * Z -> list op -> list Z * Z -> list event -> Prop :=
| mf_nil f : mfiles f [] f []
| mf_cons f o f1 e ops f2 es : mfile f o f1 e -> mfiles f1 ops f2 es -> mfiles f (o :: ops) f2 (e :: es).

(** the histories that are treated: positions stay below 2^61; a seek goes to a position that is not negative and
    not before the end by way of SEEK_END; a position behind the end is followed by a write; fflush at the end *)
Definition m_ok (f : list Z * Z) (o : op) : Prop :=
  let '(s, p) := f in
  match o with
  | Write d => p + len d < 2 ^ 61
  | Seek o w => p <= len s /\ 0 <= target s p o w < 2 ^ 61 /\ (w = End_ -> 0 <= o)
  | Tell => True
  | Flush => p = len s
  | Read _ => False
  end.
Inductive m_oks : list Z * Z -> list op -> Prop :=
| mo_nil f : m_oks f []
| mo_cons f o ops : m_ok f o -> (forall f1 e, mfile f o f1 e -> m_oks f1 ops) -> m_oks f (o :: ops).

(** ** fmemopen: the file lies in a buffer of [N] bytes; [w]: it has been written to *)
Definition file : Type := list Z * Z * bool.

Definition starts (b : list Z) (m : mode) (f : file) : Prop :=
  match m with
  | R | RP => f = (b, 0, false)
  | W | WP => f = ([], 0, false)
  | A | AP => exists s r, f = (s, len s, false) /\ b = s ++ r /\ ~ In 0 s /\ (r = [] \/ hd 1 r = 0)
  end.

Inductive ffile (m : mode) (N : Z) : file -> op -> file -> event -> Prop :=
| ff_read s p w n d : d = firstn (Z.to_nat n) (skipn (Z.to_nat p) s) -> ffile m N (s, p, w) (Read n) (s, p + len d, w) (Got d)
| ff_write s p w d : d <> [] -> (match m with A | AP => p = len s | _ => True end) ->
    ffile m N (s, p, w) (Write d) (put s p d, p + len d, true) (Wrote (len d))
| ff_write_none s p w : ffile m N (s, p, w) (Write []) (s, p, w) (Wrote 0)
| ff_seek s p w o wh : 0 <= target s p o wh <= N -> ffile m N (s, p, w) (Seek o wh) (s, target s p o wh, w) (Sought true)
| ff_seek_bad s p w o wh : ~ 0 <= target s p o wh <= N -> ffile m N (s, p, w) (Seek o wh) (s, p, w) (Sought false)
| ff_tell s p w : ffile m N (s, p, w) Tell (s, p, w) (Told p)
| ff_flush s p w b : len b = N -> firstn (length s) b = s ->
    (* the contents are followed by a null byte, once they have been written through a stream only for writing *)
    (w = true -> update m = false -> nth (length s) b 1 = 0) ->
    ffile m N (s, p, w) Flush (s, p, w) (Flushed b (len s)).

Inductive ffiles (m : mode) (N : Z) : file -> list op -> file -> list event -> Prop :=
| ff_nil f : ffiles m N f [] f []
| ff_cons f o f1 e ops f2 es : ffile m N f o f1 e -> ffiles m N f1 ops f2 es -> ffiles m N f (o :: ops) f2 (e :: es).

(** the histories that are treated: a write leaves room for a null byte, starts within the contents (at their end
    if the stream is for appending) and, through a stream only for writing, reaches their end *)
Definition f_ok (m : mode) (N : Z) (f : file) (o : op) : Prop :=
  let '(s, p, _) := f in
  match o with
  | Write d => d = [] \/
      m <> R /\ len s < N /\ p + len d < N /\ p <= len s /\
      (update m = false -> len s <= p + len d) /\ (match m with A | AP => p = len s | _ => True end)
  | Read n => 0 <= n
  | _ => True
  end.
Inductive f_oks (m : mode) (N : Z) : file -> list op -> Prop :=
| fo_nil f : f_oks m N f []
| fo_cons f o ops : f_ok m N f o -> (forall f1 e, ffile m N f o f1 e -> f_oks m N f1 ops) -> f_oks m N f (o :: ops).
