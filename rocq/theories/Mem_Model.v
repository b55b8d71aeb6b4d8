(** Model of options/internal/generic/essential.cpp (LP64, non-RISC-V variant) and mempcpy.
    Sizes are [nat], addresses are [Z]; a word load/store accesses its bytes in increasing address order. *)
From Verif Require Import Base.

(** alias_load<T> with sizeof(T) = n  (essential.cpp:5-12): the value is kept as its list of bytes *)
Fixpoint loadn (n : nat) (m : mem) (p : Z) : res (list Z) :=
  match n with
  | O => Ok []
  | S k => c <- load m p ;; l <- loadn k m (p + 1)%Z ;; Ok (c :: l)
  end.

(** alias_store<T>  (essential.cpp:14-19) *)
Fixpoint storen (l : list Z) (m : mem) (p : Z) : res mem :=
  match l with
  | [] => Ok m
  | c :: t => m1 <- store m p c ;; storen t m1 (p + 1)%Z
  end.

(** [k] successive alias_load of [w]-byte words, as in essential.cpp:27-34 *)
Fixpoint load_words (k w : nat) (m : mem) (p : Z) : res (list (list Z)) :=
  match k with
  | O => Ok []
  | S k' => v <- loadn w m p ;; vs <- load_words k' w m (p + Z.of_nat w)%Z ;; Ok (v :: vs)
  end.

(** successive alias_store of the words, as in essential.cpp:35-42 *)
Fixpoint store_words (w : nat) (vs : list (list Z)) (m : mem) (p : Z) : res mem :=
  match vs with
  | [] => Ok m
  | v :: t => m1 <- storen v m p ;; store_words w t m1 (p + Z.of_nat w)%Z
  end.

(** one block: [k] words are loaded, then stored (essential.cpp:27-42 for k=8, 46-53, 57-60, 64-65, 69-70, 74-75) *)
Definition copy_block (k w : nat) (m : mem) (d s : Z) : res mem :=
  vs <- load_words k w m s ;; store_words w vs m d.

(** while(n >= 8 * 8) loop, essential.cpp:26-44; returns the new memory, pointers and remaining n *)
Fixpoint fwd64 (fuel : nat) (m : mem) (d s : Z) (n : nat) : res (mem * Z * Z * nat) :=
  match fuel with
  | O => Fuel
  | S f =>
    if 64 <=? n then
      m1 <- copy_block 8 8 m d s ;;
      fwd64 f m1 (d + 64)%Z (s + 64)%Z (n - 64)
    else Ok (m, d, s, n)
  end.

(** the tail blocks "if(n >= k*w) {...; n -= k*w}", essential.cpp:45-77 *)
Definition fwd_if (k w : nat) (st : mem * Z * Z * nat) : res (mem * Z * Z * nat) :=
  let '(m, d, s, n) := st in
  if k * w <=? n then
    m1 <- copy_block k w m d s ;;
    Ok (m1, (d + Z.of_nat (k * w))%Z, (s + Z.of_nat (k * w))%Z, n - k * w)
  else Ok st.

(** forward_copy, essential.cpp:22-81 *)
Definition forward_copy (m : mem) (dest src : Z) (n : nat) : res (mem * Z) :=
  st <- fwd64 (S n) m dest src n ;;
  st <- fwd_if 4 8 st ;;
  st <- fwd_if 2 8 st ;;
  st <- fwd_if 1 8 st ;;
  st <- fwd_if 1 4 st ;;
  st <- fwd_if 1 2 st ;;
  let '(m1, d, s, r) := st in
  if r =? 0 then Ok (m1, dest)
  else c <- load m1 s ;; m2 <- store m1 d c ;; Ok (m2, dest).

(** memcpy, essential.cpp:96-98 *)
Definition memcpy (m : mem) (dest src : Z) (n : nat) : res (mem * Z) :=
  forward_copy m dest src n.

(** mempcpy, options/glibc/generic/string.cpp:72-74 *)
Definition mempcpy (m : mem) (dest src : Z) (n : nat) : res (mem * Z) :=
  '(m1, d) <- memcpy m dest src n ;; Ok (m1, (d + Z.of_nat n)%Z).

(** backward loop of memmove, essential.cpp:203-204: for(i = 0; i < size; i++) dest[size-i-1] = src[size-i-1];
    [k] is size - i *)
Fixpoint back_copy (k : nat) (m : mem) (d s : Z) : res mem :=
  match k with
  | O => Ok m
  | S k' => c <- load m (s + Z.of_nat k')%Z ;;
            m1 <- store m (d + Z.of_nat k')%Z c ;;
            back_copy k' m1 d s
  end.

(** memmove, essential.cpp:191-208 *)
Definition memmove (m : mem) (dest src : Z) (size : nat) : res (mem * Z) :=
  if ((dest <? src) || (src + Z.of_nat size <=? dest))%Z%bool then forward_copy m dest src size
  else if (src <? dest)%Z then m1 <- back_copy size m dest src ;; Ok (m1, dest)
  else Ok (m, dest).

(** memmove's comparisons are on uintptr_t; addresses are unbounded Z here, which is the same as long as
    src + size does not wrap (an object never wraps). *)

(** [w] little-endian bytes of the value [v] *)
Fixpoint le_bytes (w : nat) (v : Z) : list Z :=
  match w with
  | O => []
  | S k => (v mod 256)%Z :: le_bytes k (v / 256)%Z
  end.

(** pattern64, essential.cpp:117-125 *)
Definition pattern64 (b : Z) : Z :=
  (Z.lor b (Z.lor (Z.shiftl b 8) (Z.lor (Z.shiftl b 16) (Z.lor (Z.shiftl b 24) (Z.lor (Z.shiftl b 32)
   (Z.lor (Z.shiftl b 40) (Z.lor (Z.shiftl b 48) (Z.shiftl b 56))))))))%Z.

(** pattern32, essential.cpp:127-131 *)
Definition pattern32 (b : Z) : Z :=
  (Z.lor b (Z.lor (Z.shiftl b 8) (Z.lor (Z.shiftl b 16) (Z.shiftl b 24))))%Z.

(** pattern16, essential.cpp:133-135 *)
Definition pattern16 (b : Z) : Z := Z.lor b (Z.shiftl b 8).

(** while(n && (uintptr_t(curDest) & 7)), essential.cpp:112-115 *)
Fixpoint set_align (n : nat) (m : mem) (d byte : Z) : res (mem * Z * nat) :=
  match n with
  | O => Ok (m, d, O)
  | S k => if (d mod 8 =? 0)%Z then Ok (m, d, n)
           else m1 <- store m d byte ;; set_align k m1 (d + 1)%Z byte
  end.

(** [k] successive alias_store of the same [w]-byte pattern, e.g. essential.cpp:138-145 *)
Fixpoint set_block (k w : nat) (pat : Z) (m : mem) (d : Z) : res mem :=
  match k with
  | O => Ok m
  | S k' => m1 <- storen (le_bytes w pat) m d ;; set_block k' w pat m1 (d + Z.of_nat w)%Z
  end.

(** while(n >= 8 * 8), essential.cpp:137-147 *)
Fixpoint set64 (fuel : nat) (m : mem) (d pat : Z) (n : nat) : res (mem * Z * nat) :=
  match fuel with
  | O => Fuel
  | S f => if 64 <=? n then
             m1 <- set_block 8 8 pat m d ;; set64 f m1 (d + 64)%Z pat (n - 64)
           else Ok (m, d, n)
  end.

(** tail blocks, essential.cpp:148-171 *)
Definition set_if (k w : nat) (pat : Z) (st : mem * Z * nat) : res (mem * Z * nat) :=
  let '(m, d, n) := st in
  if k * w <=? n then
    m1 <- set_block k w pat m d ;; Ok (m1, (d + Z.of_nat (k * w))%Z, n - k * w)
  else Ok st.

(** memset, essential.cpp:107-175; "unsigned char byte = val" is val mod 256 *)
Definition memset (m : mem) (dest val : Z) (n : nat) : res (mem * Z) :=
  let byte := (val mod 256)%Z in
  st <- set_align n m dest byte ;;
  let '(m1, d, n1) := st in
  st <- set64 (S n1) m1 d (pattern64 byte) n1 ;;
  st <- set_if 4 8 (pattern64 byte) st ;;
  st <- set_if 2 8 (pattern64 byte) st ;;
  st <- set_if 1 8 (pattern64 byte) st ;;
  st <- set_if 1 4 (pattern32 byte) st ;;
  st <- set_if 1 2 (pattern16 byte) st ;;
  let '(m2, d2, r) := st in
  if r =? 0 then Ok (m2, dest)
  else m3 <- store m2 d2 byte ;; Ok (m3, dest).
