(** Model of the byte order functions: options/internal/include/mlibc/bitutil.hpp, htonl, htons,
    ntohl, ntohs (options/posix/generic/arpa-inet.cpp:16-43) and ns_get16, ns_get32, ns_put16,
    ns_put32 (options/bsd/generic/arpa-nameser.cpp:7-25).  [little]: the target is little-endian;
    unsigned long has 64 bits. *)
From Verif Require Import Base.
Open Scope Z_scope.

(** byte [k] of [x], counted from the least significant one *)
Definition byte (k : Z) (x : Z) : Z := Z.land (Z.shiftr x (8 * k)) 255.

(** the compiler's __builtin_bswap16, 32 and 64, bitutil.hpp:14, 28, 42 *)
Definition bswap16 (x : Z) : Z := Z.lor (Z.shiftl (byte 0 x) 8) (byte 1 x).
Definition bswap32 (x : Z) : Z :=
  Z.lor (Z.shiftl (byte 0 x) 24) (Z.lor (Z.shiftl (byte 1 x) 16) (Z.lor (Z.shiftl (byte 2 x) 8) (byte 3 x))).
Definition bswap64 (x : Z) : Z :=
  Z.lor (Z.shiftl (bswap32 (Z.land x (2 ^ 32 - 1))) 32) (bswap32 (Z.shiftr x 32)).

(** bit_util<T>::be_to_host, bitutil.hpp:16-22, 30-36, 44-50 *)
Definition be_to_host16 (little : bool) (x : Z) : Z := if little then bswap16 x else x.
Definition be_to_host32 (little : bool) (x : Z) : Z := if little then bswap32 x else x.
Definition be_to_host64 (little : bool) (x : Z) : Z := if little then bswap64 x else x.

(** arpa-inet.cpp:16-22, 23-29, 30-36, 37-43 *)
Definition htonl (little : bool) (x : Z) : Z := if little then bswap32 x else x.
Definition htons (little : bool) (x : Z) : Z := if little then bswap16 x else x.
Definition ntohl (little : bool) (x : Z) : Z := if little then bswap32 x else x.
Definition ntohs (little : bool) (x : Z) : Z := if little then bswap16 x else x.

(** arpa-nameser.cpp:7-9; the shift is an int *)
Definition ns_get16 (m : mem) (cp : Z) : res Z :=
  a <- load m cp ;; b <- load m (cp + 1) ;; Ok (Z.lor (Z.shiftl a 8) b).
(** arpa-nameser.cpp:11-13 *)
Definition ns_get32 (m : mem) (cp : Z) : res Z :=
  a <- load m cp ;; b <- load m (cp + 1) ;; c <- load m (cp + 2) ;; d <- load m (cp + 3) ;;
  Ok (Z.lor (Z.lor (Z.lor (Z.shiftl a 24) (Z.shiftl b 16)) (Z.shiftl c 8)) d).
(** conversion to unsigned char *)
Definition u8 (x : Z) : Z := x mod 256.
(** arpa-nameser.cpp:15-18 *)
Definition ns_put16 (m : mem) (s cp : Z) : res mem :=
  m1 <- store m cp (u8 (Z.shiftr s 8)) ;; store m1 (cp + 1) (u8 s).
(** arpa-nameser.cpp:20-25 *)
Definition ns_put32 (m : mem) (l cp : Z) : res mem :=
  m1 <- store m cp (u8 (Z.shiftr l 24)) ;; m2 <- store m1 (cp + 1) (u8 (Z.shiftr l 16)) ;;
  m3 <- store m2 (cp + 2) (u8 (Z.shiftr l 8)) ;; store m3 (cp + 3) (u8 l).
