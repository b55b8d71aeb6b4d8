(** Model of lsearch and lfind (options/posix/generic/search.cpp:265-311) and of insque and remque
    (options/posix/generic/search.cpp:333-357). *)
From Verif Require Import Base Mem_Model.
Open Scope Z_scope.

(** the loop common to lsearch (search.cpp:277-282) and lfind (search.cpp:303-307): [n] elements are left at [current].
    The comparison receives the bytes of the element; [t] numbers its calls.  Returns the address reached and whether
    the element there compares equal. *)
Fixpoint scan (n : nat) (cmp : nat -> list Z -> Z) (t : nat) (m : mem) (current : Z) (width : nat) : res (Z * bool) :=
  match n with
  | O => Ok (current, false)
  | S n' =>
    e <- loadn width m current ;;
    if cmp t e =? 0 then Ok (current, true)
    else scan n' cmp (S t) m (current + Z.of_nat width) width
  end.

(** lsearch; [nel] is *nelp, the result the memory, the new *nelp and the pointer returned *)
Definition lsearch (cmp : nat -> list Z -> Z) (m : mem) (key base : Z) (nel width : nat) : res (mem * nat * Z) :=
  '(current, hit) <- scan nel cmp 0 m base width ;;
  if (hit : bool) then Ok (m, nel, current)
  else '(m1, _) <- memcpy m current key width ;; Ok (m1, S nel, current).

Definition lfind (cmp : nat -> list Z -> Z) (m : mem) (base : Z) (nel width : nat) : res (option Z) :=
  '(current, hit) <- scan nel cmp 0 m base width ;;
  Ok (if (hit : bool) then Some current else None).

(** Queue elements: address -> (q_forw, q_back); a null link is [None] *)
Definition ptr := option Z.
Definition heap := Z -> option (ptr * ptr).
Definition get (h : heap) (p : ptr) : res (ptr * ptr) :=
  match p with None => UB | Some a => match h a with Some v => Ok v | None => UB end end.
Definition put (h : heap) (a : Z) (v : ptr * ptr) : heap := fun x => if x =? a then Some v else h x.
Definition set_forw (h : heap) (p : ptr) (v : ptr) : res heap :=
  '(_, b) <- get h p ;; match p with Some a => Ok (put h a (v, b)) | None => UB end.
Definition set_back (h : heap) (p : ptr) (v : ptr) : res heap :=
  '(f, _) <- get h p ;; match p with Some a => Ok (put h a (f, v)) | None => UB end.

(** insque, search.cpp:333-348 *)
Definition insque (h : heap) (e : Z) (pred : ptr) : res heap :=
  match pred with
  | None => h1 <- set_back h (Some e) None ;; set_forw h1 (Some e) None
  | Some p =>
    '(pf, _) <- get h pred ;;
    h1 <- set_forw h (Some e) pf ;;
    h2 <- set_back h1 (Some e) pred ;;
    h3 <- set_forw h2 pred (Some e) ;;
    '(ef, _) <- get h3 (Some e) ;;
    match ef with None => Ok h3 | Some _ => set_back h3 ef (Some e) end
  end.

(** remque, search.cpp:350-357: if (e->q_forw) e->q_forw->q_back = e->q_back; *)
Definition remque_forw (h : heap) (e : Z) : res heap :=
  '(f, _) <- get h (Some e) ;;
  match f with None => Ok h | Some _ => '(_, b) <- get h (Some e) ;; set_back h f b end.
(** if (e->q_back) e->q_back->q_forw = e->q_forw; *)
Definition remque_back (h : heap) (e : Z) : res heap :=
  '(_, b) <- get h (Some e) ;;
  match b with None => Ok h | Some _ => '(f, _) <- get h (Some e) ;; set_forw h b f end.
Definition remque (h : heap) (e : Z) : res heap := h1 <- remque_forw h e ;; remque_back h1 e.
