(** Model of wcslcat (options/posix/generic/wchar.cpp:630-657).  The destination is the array of wide characters that may be accessed, the source likewise; an index
    outside of either is undefined.  wcslen is counted by the same walk as the source. *)
From Verif Require Import Base.

(** wchar.cpp:635-636 *)
Fixpoint scan (dst : list Z) (n i : nat) : res nat :=
  match n with
  | 0 => Ok i
  | S n => match nth_error dst i with None => UB | Some c => if (c =? 0)%Z then Ok i else scan dst n (S i) end
  end.
Definition put (dst : list Z) (i : nat) (c : Z) : res (list Z) := if i <? length dst then Ok (firstn i dst ++ c :: skipn (S i) dst) else UB.
(** wcslen *)
Fixpoint walk (src : list Z) (k : nat) : res nat :=
  match src with [] => UB | c :: src => if (c =? 0)%Z then Ok k else walk src (S k) end.
(** wchar.cpp:646-655, k characters of the source were read *)
Fixpoint copy (src : list Z) (dst : list Z) (i n k : nat) : res (list Z * nat) :=
  match src with
  | [] => UB
  | c :: src =>
    if (c =? 0)%Z then dst <- put dst i 0 ;; Ok (dst, k)
    else if n =? 0 then copy src dst i n (S k)
    else dst <- put dst i c ;; copy src dst (S i) (n - 1) (S k)
  end.
(** the destination afterwards and the value returned *)
Definition wcslcat (dst src : list Z) (dstsize : nat) : res (list Z * nat) :=
  dstlen <- scan dst dstsize 0 ;;
  let n := dstsize - dstlen in
  if n =? 0 then k <- walk src 0 ;; Ok (dst, dstlen + k)
  else r <- copy src dst dstlen (n - 1) 0 ;; Ok (fst r, dstlen + snd r).
