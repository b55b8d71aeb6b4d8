(** Model of writev where the system has no call for it (options/posix/generic/sys-uio.cpp:23-63) and of swab (options/posix/generic/unistd.cpp:774-781). *)
From Verif Require Import Base.
Open Scope Z_scope.

Definition EINVAL : Z := 22.
Definition SSIZE_MAX : Z := 9223372036854775807.
(** a struct iovec: its iov_len and the bytes that can be read from its iov_base on *)
Record iovec := iov { iov_len : Z; iov_base : list Z }.

(** sys-uio.cpp:39-45; None is the error *)
Fixpoint total (v : list iovec) (bytes : Z) : option Z :=
  match v with
  | [] => Some bytes
  | x :: v => if (SSIZE_MAX - bytes) mod 18446744073709551616 <? iov_len x then None else total v ((bytes + iov_len x) mod 18446744073709551616)
  end.
(** memcpy of copy bytes to offset bp of the buffer *)
Definition memcpy (buf : list Z) (bp : Z) (base : list Z) (copy : Z) : res (list Z) :=
  if (Z.of_nat (length base) <? copy) || (Z.of_nat (length buf) <? bp + copy) then UB
  else Ok (firstn (Z.to_nat bp) buf ++ firstn (Z.to_nat copy) base ++ skipn (Z.to_nat (bp + copy)) buf).
(** sys-uio.cpp:49-59 *)
Fixpoint gather (v : list iovec) (bp to_copy : Z) (buf : list Z) : res (list Z) :=
  match v with
  | [] => Ok buf
  | x :: v =>
    let copy := Z.min (iov_len x) to_copy in
    buf <- memcpy buf bp (iov_base x) copy ;;
    let to_copy := to_copy - copy in
    if to_copy =? 0 then Ok buf else gather v (bp + copy) to_copy buf
  end.
(** sys-uio.cpp:23-63: inl is an error; inr b means that the bytes b are given to write once and its answer is returned.
    The array has as many elements as the list; frg::vector::resize fills with zero bytes and gets its memory. *)
Definition writev (iovs : list iovec) (iovc : Z) : res (Z + list Z) :=
  if iovc =? 0 then Abort
  else if Z.of_nat (length iovs) <? iovc then UB
  else
    let v := firstn (Z.to_nat iovc) iovs in
    match total v 0 with
    | None => Ok (inl EINVAL)
    | Some bytes => b <- gather v 0 bytes (repeat 0 (Z.to_nat bytes)) ;; Ok (inr b)
    end.

(** unistd.cpp:777-780 *)
Fixpoint swab_loop (fuel : nat) (m : mem) (src dest n i : Z) : res mem :=
  match fuel with
  | O => Fuel
  | S fuel =>
    if (i <? n) && (1 <? n - i) then
      a <- load m (src + (i + 1)) ;;
      m <- store m (dest + i) a ;;
      b <- load m (src + i) ;;
      m <- store m (dest + (i + 1)) b ;;
      swab_loop fuel m src dest n (i + 2)
    else Ok m
  end.
(** unistd.cpp:774-781 *)
Definition swab (m : mem) (src dest n : Z) : res mem := swab_loop (S (Z.to_nat n)) m src dest n 0.
