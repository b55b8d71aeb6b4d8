(** Model of the shadow password file, options/glibc/generic/shadow.cpp.  A string is the list of its bytes without the null byte at its end: reading
    at the end gives 0, stepping over the end is undefined.  The null bytes that the parser writes over the first two colons only end the two text
    fields.  A file is the list of its bytes (none is 0), read with fgets (Hosts_Model.fgets); no stream has an error.  The per-user files below
    /etc/tcb are given by [tcb]; the thread cancellation calls are not modelled. *)
From Verif Require Import Base Mem_Model Hosts_Model Inet_Model Users_Model.
Open Scope Z_scope.

Definition EINVAL : Z := 22.
Definition ERANGE : Z := 34.
Definition LONG_MAX : Z := 2 ^ 63 - 1.
Definition rd (s : list Z) : Z := match s with [] => 0 | c :: _ => c end.
Definition step (s : list Z) : res (list Z) := match s with [] => UB | _ :: r => Ok r end.

(** struct spwd, shadow.h *)
Record spwd := { sp_namp : list Z; sp_pwdp : list Z; sp_lstchg : Z; sp_min : Z; sp_max : Z; sp_warn : Z; sp_inact : Z; sp_expire : Z; sp_flag : Z }.

(** the loop of xatol, shadow.cpp:43-45: signed arithmetic that overflows is undefined *)
Fixpoint digits_from (x : Z) (s : list Z) : res (Z * list Z) :=
  match s with
  | c :: r => if is_digit c then if 10 * x + (c - 48) <=? LONG_MAX then digits_from (10 * x + (c - 48)) r else UB else Ok (x, s)
  | [] => Ok (x, s)
  end.
(** xatol, shadow.cpp:38-47 *)
Definition xatol (s : list Z) : res (Z * list Z) := if (rd s =? 58) || (rd s =? 10) || (rd s =? 0) then Ok (-1, s) else digits_from 0 s.
(** one number and the colon behind it, shadow.cpp:62-66 *)
Definition num_field (s : list Z) (k : Z -> list Z -> res (option spwd)) : res (option spwd) :=
  '(v, s) <- xatol s ;; if rd s =? 58 then s' <- step s ;; k v s' else Ok None.
(** __parsespent, shadow.cpp:49-104; the last number is stored as unsigned long *)
Definition parsespent (s : list Z) : res (option spwd) :=
  match cut 58 s with
  | None => Ok None
  | Some (name, s) =>
      match cut 58 s with
      | None => Ok None
      | Some (pwd, s) =>
          num_field s (fun lstchg s => num_field s (fun min s => num_field s (fun max s => num_field s (fun warn s => num_field s (fun inact s => num_field s (fun expire s =>
            '(flag, s) <- xatol s ;;
            if (rd s =? 10) || (rd s =? 0) then
              Ok (Some {| sp_namp := name; sp_pwdp := pwd; sp_lstchg := lstchg; sp_min := min; sp_max := max; sp_warn := warn; sp_inact := inact; sp_expire := expire;
                          sp_flag := flag mod 2 ^ 64 |})
            else Ok None))))))
      end
  end.

(** printf of a long with %.*ld and the two values of NUM, shadow.cpp:24-30 *)
Definition print_long (n : Z) : list Z := if n =? -1 then [] else if n <? 0 then 45 :: num 10 (- n) else num 10 n.
(** and with %.*u: the value as int, printed as unsigned *)
Definition as_int (n : Z) : Z := let u := n mod 2 ^ 32 in if 2 ^ 31 <=? u then u - 2 ^ 32 else u.
Definition print_flag (n : Z) : list Z := if as_int n =? -1 then [] else num 10 (as_int n mod 2 ^ 32).
(** putspent, shadow.cpp:26-34: what is written; the text pointers are not null *)
Definition putspent (e : spwd) : list Z :=
  sp_namp e ++ 58 :: sp_pwdp e ++ 58 :: print_long (sp_lstchg e) ++ 58 :: print_long (sp_min e) ++ 58 :: print_long (sp_max e) ++ 58 :: print_long (sp_warn e) ++
  58 :: print_long (sp_inact e) ++ 58 :: print_long (sp_expire e) ++ 58 :: print_flag (sp_flag e) ++ [10].

(** the loop of getspnam_r, shadow.cpp:156-172: the return value and the entry *)
Fixpoint search (n : nat) (name : list Z) (size : nat) (skip : bool) (file : list Z) : res (Z * option spwd) :=
  match n with
  | O => Fuel
  | S n =>
      let '(buf, file') := fgets (size - 1) file in
      match buf with
      | [] => Ok (0, None)
      | _ =>
          let whole := last buf 0 =? 10 in
          if skip || negb (prefix name buf) || negb (after (length name) buf =? 58) then search n name size (negb whole) file'
          else if negb whole then Ok (ERANGE, None)
          else e <- parsespent buf ;; match e with None => search n name size skip file' | Some e => Ok (0, Some e) end
      end
  end.
(** opening /etc/tcb/name/shadow and /etc/shadow: the contents, or errno; for the first also "not a regular file" (as an errno) *)
Inductive opened := Contents (l : list Z) | Errno (e : Z).
Definition ENOENT : Z := 2.
Definition ENOTDIR : Z := 20.
Definition NAME_MAX : Z := 255.
(** getspnam_r, shadow.cpp:110-176 *)
Definition getspnam_r (n : nat) (name : list Z) (size : nat) (tcb : opened) (shadow : opened) : res (Z * option spwd) :=
  if (rd name =? 46) || existsb (Z.eqb 47) name || (length name =? 0)%nat then Ok (EINVAL, None)
  else if (size <? length name + 100)%nat then Ok (ERANGE, None)
  else if 20 + NAME_MAX <=? 9 + Z.of_nat (length name) + 7 then Ok (EINVAL, None)
  else match tcb with
       | Contents f => search n name size false f
       | Errno e =>
           if negb (e =? ENOENT) && negb (e =? ENOTDIR) then Ok (e, None)
           else match shadow with
                | Errno e => if negb (e =? ENOENT) && negb (e =? ENOTDIR) then Ok (e, None) else Ok (0, None)
                | Contents f => search n name size false f
                end
       end.
(** getspnam, shadow.cpp:193-209: a buffer of 256 bytes *)
Definition getspnam (n : nat) (name : list Z) (tcb shadow : opened) : res (option spwd) := r <- getspnam_r n name 256 tcb shadow ;; Ok (snd r).
(** fgetspent, shadow.cpp:211-222: the next line, of any length *)
Definition fgetspent (file : list Z) : res (option spwd * list Z) :=
  let '(line, file') := fgets (S (length file)) file in
  match line with [] => Ok (None, file') | _ => e <- parsespent line ;; Ok (e, file') end.
(** sgetspent, shadow.cpp:235-244 *)
Definition sgetspent (s : list Z) : res (option spwd) := parsespent s.
