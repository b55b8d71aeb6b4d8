(** DNS messages, RFC 1035. *)
From Verif Require Import Base.
Open Scope Z_scope.

(** the bytes [l] are at offset [i] of the message *)
Definition bytes_in (msg : list Z) (i : Z) (l : list Z) : Prop := 0 <= i /\ forall k b, nth_error l k = Some b -> nth_error msg (Z.to_nat i + k) = Some b.

(** section 4.1.4: the name with these labels is at offset [p], its encoding there ends at [q] *)
Inductive name_at (msg : list Z) : Z -> list (list Z) -> Z -> Prop :=
| n_root p : bytes_in msg p [0] -> name_at msg p [] (p + 1)
| n_label p l ls q : 1 <= Z.of_nat (length l) <= 63 -> bytes_in msg p (Z.of_nat (length l) :: l) -> name_at msg (p + 1 + Z.of_nat (length l)) ls q ->
    name_at msg p (l :: ls) q
| n_pointer p hi lo ls q : 0 <= hi < 64 -> 0 <= lo < 256 -> bytes_in msg p [192 + hi; lo] -> ls <> [] -> name_at msg (hi * 256 + lo) ls q ->
    name_at msg p ls (p + 2).

(** the name as text: a dot between two labels *)
Fixpoint dotted (ls : list (list Z)) : list Z :=
  match ls with [] => [] | [l] => l | l :: r => l ++ [46] ++ dotted r end.

(** resource records, section 4.1.3 and RFC 3596 *)
Inductive record :=
| A (owner : list (list Z)) (addr : list Z)
| AAAA (owner : list (list Z)) (addr : list Z)
| Cname (owner target : list (list Z))
| Ptr (owner target : list (list Z))
| Other.
Definition two_bytes (n : Z) : list Z := [n / 256; n mod 256].
(** a record of type [ty] with [len] bytes of data at [d] *)
Definition record_head (msg : list Z) (p : Z) (owner : list (list Z)) (ty len d : Z) : Prop := exists q class ttl,
  name_at msg p owner q /\ length class = 2%nat /\ length ttl = 4%nat /\ bytes_in msg q (two_bytes ty ++ class ++ ttl ++ two_bytes len) /\ d = q + 10 /\
  Forall (fun b => 0 <= b < 256) (class ++ ttl).
Inductive record_at (msg : list Z) : Z -> record -> Z -> Prop :=
| r_a p owner a d : record_head msg p owner 1 4 d -> length a = 4%nat -> bytes_in msg d a -> record_at msg p (A owner a) (d + 4)
| r_aaaa p owner a d : record_head msg p owner 28 16 d -> length a = 16%nat -> bytes_in msg d a -> record_at msg p (AAAA owner a) (d + 16)
| r_cname p owner target d len : record_head msg p owner 5 len d -> 0 <= len < 65536 -> name_at msg d target (d + len) -> record_at msg p (Cname owner target) (d + len)
| r_ptr p owner target d len : record_head msg p owner 12 len d -> 0 <= len < 65536 -> name_at msg d target (d + len) -> record_at msg p (Ptr owner target) (d + len)
| r_other p owner d ty len : record_head msg p owner ty len d -> 0 <= ty < 65536 -> 0 <= len < 65536 -> ~ In ty [1; 28; 5; 12] -> record_at msg p Other (d + len).
Inductive records (msg : list Z) : Z -> list record -> Prop :=
| rs_end p : records msg p []
| rs_cons p r rs q : record_at msg p r q -> records msg q rs -> records msg p (r :: rs).
Inductive question_list (msg : list Z) : nat -> Z -> Z -> Prop :=
| q_end p : question_list msg 0 p p
| q_cons n p ls q r x : name_at msg p ls q -> length x = 4%nat -> bytes_in msg q x -> question_list msg n (q + 4) r -> question_list msg (S n) p r.

(** a reply to the query with identification [id]: flags, number of questions, answers (section 4.1.1) *)
Definition reply (msg : list Z) (id flags : Z) (rs : list record) : Prop := exists nq rest p,
  0 <= flags < 65536 /\ 0 <= nq < 65536 /\ Z.of_nat (length rs) < 65536 /\ length rest = 4%nat /\
  bytes_in msg 0 (two_bytes id ++ two_bytes flags ++ two_bytes nq ++ two_bytes (Z.of_nat (length rs)) ++ rest) /\
  question_list msg (Z.to_nat nq) 12 p /\ records msg p rs.

(** the addresses in the answers, if IPv4 and IPv6 addresses are wanted or not *)
Fixpoint addresses (v4 v6 : bool) (rs : list record) : list (list Z * bool * list Z) :=
  match rs with
  | [] => []
  | A owner a :: r => (if v4 then [(dotted owner, false, a)] else []) ++ addresses v4 v6 r
  | AAAA owner a :: r => (if v6 then [(dotted owner, true, a)] else []) ++ addresses v4 v6 r
  | _ :: r => addresses v4 v6 r
  end.
(** the names with a canonical name; the last canonical name *)
Fixpoint renamed (rs : list record) : list (list Z) :=
  match rs with [] => [] | Cname owner _ :: r => dotted owner :: renamed r | _ :: r => renamed r end.
Fixpoint canonical (d : list Z) (rs : list record) : list Z :=
  match rs with [] => d | Cname _ target :: r => canonical (dotted target) r | _ :: r => canonical d r end.
