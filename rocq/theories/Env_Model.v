(** Model of getenv, putenv, setenv, unsetenv and clearenv, options/ansi/generic/environment.cpp:16-181.
    Strings are their contents without the NUL.  [env] is the array environ points to, without the null terminator;
    [own] says whether environ == vector.data(), in which case the vector holds the same pointers and the null.
    Simplified: putenv keeps the caller's string itself in the environment; here its contents at the time of the call. *)
From Verif Require Import Base.
Open Scope Z_scope.

Notation str := (list Z).
Record state := { env : list str; own : bool }.

(** frg::string_view::find_first('=') *)
Fixpoint find_eq (s : str) : option nat :=
  match s with
  | [] => None
  | c :: s' => if c =? 61 then Some 0%nat else option_map S (find_eq s')
  end.
Definition str_eqb (a b : str) : bool := if list_eq_dec Z.eq_dec a b then true else false.

(** find_environ_index, environment.cpp:20-36 *)
Fixpoint find_index (l : list str) (name : str) : option nat :=
  match l with
  | [] => None
  | s :: l' =>
    match find_eq s with
    | None => option_map S (find_index l' name)
    | Some k => if str_eqb (firstn k s) name then Some 0%nat else option_map S (find_index l' name)
    end
  end.

Fixpoint set_nth {A} (l : list A) (i : nat) (x : A) : list A :=
  match l, i with
  | [], _ => []
  | _ :: l', O => x :: l'
  | y :: l', S i' => y :: set_nth l' i' x
  end.

(** update_vector, environment.cpp:50-63 *)
Definition update_vector (s : state) : state := {| env := env s; own := true |}.

(** assign_variable, environment.cpp:65-83 *)
Definition assign (s : state) (name string : str) (overwrite : bool) : res state :=
  if own s then
    match find_index (env s) name with
    | Some k => Ok (if overwrite then {| env := set_nth (env s) k string; own := true |} else s)
    | None => Ok {| env := env s ++ [string]; own := true |}
    end
  else Abort.

(** unassign_variable, environment.cpp:85-101: swap with the last string, pop, overwrite by the null *)
Definition unassign (s : state) (name : str) : res state :=
  if own s then
    match find_index (env s) name with
    | None => Ok s
    | Some k =>
      match env s with
      | [] => Abort                                        (* vector.size() >= 2 *)
      | _ => Ok {| env := removelast (set_nth (env s) k (last (env s) [])); own := true |}
      end
    end
  else Abort.

(** getenv, environment.cpp:105-114 *)
Definition getenv (s : state) (name : str) : res (option str) :=
  match find_index (env s) name with
  | None => Ok None
  | Some k => let v := nth k (env s) [] in
              match find_eq v with None => Abort | Some e => Ok (Some (skipn (e + 1) v)) end
  end.

(** putenv, environment.cpp:118-131 *)
Definition putenv (s : state) (string : str) : res state :=
  match find_eq string with
  | None => unassign (update_vector s) string
  | Some e => assign (update_vector s) (firstn e string) string true
  end.

(** setenv, environment.cpp:141-160; the boolean is true for success, false for -1/EINVAL.  asprintf is taken to
    succeed and to produce name=value. *)
Definition setenv (s : state) (name value : str) (overwrite : bool) : res (state * bool) :=
  match find_eq name with
  | Some _ => Ok (s, false)
  | None => s' <- assign (update_vector s) name (name ++ 61 :: value) overwrite ;; Ok (s', true)
  end.

(** unsetenv, environment.cpp:162-166 *)
Definition unsetenv (s : state) (name : str) : res state := unassign (update_vector s) name.

(** clearenv, environment.cpp:168-173: "auto vector = get_vector()" copies the vector and clears the copy *)
Definition clearenv (s : state) : res state := Ok (update_vector s).

(** the user stores a new array in environ *)
Definition set_environ (l : list str) : state := {| env := l; own := false |}.
