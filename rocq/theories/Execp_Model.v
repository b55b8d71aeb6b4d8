(** Model of execvpe (execvp, posix_spawnp), options/posix/generic/unistd.cpp:153-220.  [exec p] is the kernel's answer for a path: 0 if the program is started,
    an error number otherwise.  The argument vectors are passed on unchanged and not modelled; frg::string_view is not in the repository: find_first
    and sub_string are those of lists. *)
From Verif Require Import Base Users_Model.
Open Scope Z_scope.

Definition ENOENT : Z := 2.
Definition ENOTDIR : Z := 20.
Definition EACCES : Z := 13.
Inductive outcome := Started (path : list Z) | Failed (errno : Z).
Section Execp.
Variable exec : list Z -> Z.
(** the loop, unistd.cpp:183-219: [rest] is the part of the list from p on; the paths tried come with the outcome *)
Fixpoint tries (n : nat) (file rest : list Z) (res : Z) : Base.res (list (list Z) * outcome) :=
  match n with
  | O => Fuel
  | S n =>
      match rest with
      | [] => Ok ([], Failed res)
      | _ =>
          let '(dir, rest') := match cut 58 rest with Some (a, b) => (a, b) | None => (rest, []) end in
          let path := dir ++ [47] ++ file in
          let e := exec path in
          if e =? 0 then Ok ([path], Started path)
          else if (e =? ENOENT) || (e =? ENOTDIR) then '(l, o) <- tries n file rest' res ;; Ok (path :: l, o)
          else if e =? EACCES then '(l, o) <- tries n file rest' EACCES ;; Ok (path :: l, o)
          else Ok ([path], Failed e)
      end
  end.
(** "/bin:/usr/bin" *)
Definition default_path : list Z := [47; 98; 105; 110; 58; 47; 117; 115; 114; 47; 98; 105; 110].
Definition execvpe (n : nat) (file : list Z) (path : option (list Z)) : Base.res (list (list Z) * outcome) :=
  if existsb (Z.eqb 47) file then Ok ([file], if exec file =? 0 then Started file else Failed (exec file))
  else tries n file (match path with Some p => p | None => default_path end) ENOENT.
End Execp.

(** * The argument lists of execl, execle and execlp, unistd.cpp:87-149.  [va] is what the caller passed after the path: pointers, 0 for the null
    pointer; a read behind them is undefined.  The result is the contents of the array argv. *)
Definition arg (va : list Z) (i : nat) : res Z := match nth_error va i with Some a => Ok a | None => UB end.
(** execl, unistd.cpp:96-105: an array of 16; [av] is the array filled up to n *)
Fixpoint execl_loop (va : list Z) (av : list Z) : res (list Z) :=
  if (Nat.ltb (length av) 15)%nat then
    match va with
    | [] => UB
    | a :: va => if a =? 0 then Ok (av ++ [a] ++ [0]) else execl_loop va (av ++ [a])
    end
  else Abort.
Definition execl (va : list Z) : res (list Z) := match va with [] => UB | a0 :: va => execl_loop va [a0] end.
(** for(argc = 1; va_arg(ap, const char * ); argc++), unistd.cpp:115, 136 *)
Fixpoint argc_of (va : list Z) : res nat := match va with [] => UB | a :: va => if a =? 0 then Ok 1%nat else n <- argc_of va ;; Ok (S n) end.
(** for(i = 1; i <= argc; i++) argv[i] = va_arg(ap, char * ) *)
Fixpoint copy_args (n : nat) (va : list Z) : res (list Z * list Z) :=
  match n with
  | O => Ok ([], va)
  | S n => match va with [] => UB | a :: va => '(l, r) <- copy_args n va ;; Ok (a :: l, r) end
  end.
(** execle, unistd.cpp:111-128: argv and envp *)
Definition execle (va : list Z) : res (list Z * Z) :=
  match va with
  | [] => UB
  | a0 :: va => argc <- argc_of va ;; '(l, r) <- copy_args argc va ;; match r with [] => UB | e :: _ => Ok (a0 :: l, e) end
  end.
(** execlp, unistd.cpp:131-148 *)
Definition execlp (va : list Z) : res (list Z) :=
  match va with
  | [] => UB
  | a0 :: va => argc <- argc_of va ;; '(l, _) <- copy_args (argc - 1) va ;; Ok (a0 :: l ++ [0])
  end.
