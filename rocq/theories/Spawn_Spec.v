(** What posix_spawn promises. *)
From Verif Require Import Base Spawn_Model.
Open Scope Z_scope.

Section Spec.
Variables file world : Type.
Variable open_file : world -> list Z -> Z -> Z -> world * (file + Z).
Variable chdir : world -> list Z -> world + Z.
Variable fchdir : world -> desc file -> world + Z.
Variable sys : call -> Z.

(** the user's descriptors: the file and its close-on-exec flag *)
Definition files : Type := Z -> option (file * bool).
Definition put (u : files) (fd : Z) (v : option (file * bool)) : files := fun x => if x =? fd then v else u x.

(** a file action on the user's descriptors *)
Definition act (o : fdop) (s : files * world) : (files * world) + Z :=
  let '(u, w) := s in
  match o with
  | FClose fd => inl (put u fd None, w)
  | FDup2 fd src => match u src with Some (f, _) => inl (put u fd (Some (f, false)), w) | None => inr EBADF end
  | FOpen fd path oflag mode => match open_file w path oflag mode with (w', inl f) => inl (put u fd (Some (f, false)), w') | (_, inr e) => inr e end
  | FChdir path => match chdir w path with inl w' => inl (u, w') | inr e => inr e end
  | FFchdir fd => match u fd with Some (f, _) => match fchdir w (User file f) with inl w' => inl (u, w') | inr e => inr e end | None => inr EBADF end
  end.
Fixpoint act_all (ops : list fdop) (s : files * world) : (files * world) + Z :=
  match ops with [] => inl s | o :: r => match act o s with inl s' => act_all r s' | inr e => inr e end end.

(** the calls the attributes ask for, in order; ENOSYS of the scheduling calls is no error *)
Definition wanted (a : option attr) : list call :=
  match a with
  | None => []
  | Some a => (if f_setsid a then [SetSid] else []) ++ (if f_setpgroup a then [SetPgid] else []) ++
      (if f_setscheduler a then [SetScheduler] else if f_setschedparam a then [SetParam] else []) ++ (if f_resetids a then [SetGid; SetUid] else [])
  end.
Definition fails (c : call) : bool := negb (sys c =? 0) && negb (match c with SetScheduler | SetParam => sys c =? ENOSYS | _ => false end).
(** the state in which the program is started, or the first error *)
Definition expected (a : option attr) (ops : list fdop) (u : files) (w : world) : (files * world) + Z :=
  match find fails (wanted a) with Some c => inr (sys c) | None => act_all ops (u, w) end.

(** the descriptors of the started program: those without the close-on-exec flag *)
Definition inherited (u : files) (x : Z) : option (desc file) := match u x with Some (f, false) => Some (User file f) | _ => None end.
Definition mask_of (a : option attr) (mask : Z -> bool) : Z -> bool := match a with Some a => if f_setsigmask a then a_mask a else mask | None => mask end.
(** signals keep their default action or stay ignored, except those to be reset and those with a handler *)
Definition disp_of (a : option attr) (disp : Z -> disposition) (i : Z) : disposition :=
  match disp i with Ign => if match a with Some a => f_setsigdef a && a_def a i | None => false end then Dfl else Ign | _ => Dfl end.
(** the table holds the user's descriptors *)
Definition table_of (t : table file) (u : files) : Prop := forall x, get file t x = match u x with Some (f, b) => Some (User file f, b) | None => None end.
Definition no_cloexec (cloexec : Z -> bool) (o : fdop) : Prop := match o with FOpen _ _ oflag _ => cloexec oflag = false | _ => True end.
Definition proper (o : fdop) : Prop := match o with FChdir _ => True | _ => 0 <= op_fd o end.
End Spec.

(** a kernel's choice of descriptors for the examples: the lowest unused one *)
Definition lowest {file : Type} (t : table file) : Z :=
  match find (fun x => match get file t x with None => true | Some _ => false end) (map Z.of_nat (seq 0 (length t))) with
  | Some x => x
  | None => fold_right (fun e m => Z.max m (fst e + 1)) 0 t
  end.
