(** Model of symbol scopes: Scope::appendObject, resolveSymbol, resolveGlobalOrLocal and _resolveNext (options/rtld/generic/
    linker.cpp:1691-1772), the assignment of scopes by dlopen (options/rtld/generic/main.cpp:728-798, linker.cpp:262-434, 1129-1175,
    1816-1826) and dlsym (main.cpp:808-885). Objects are numbers, [deps o] the dependencies of [o]; whether an object defines
    the symbol that is looked up ([def]) is the result of resolveInObject (see Symtab_Model.v). Files are always found. *)
From Verif Require Export Base Deps_Model.
Open Scope Z_scope.

(** [scope x]: None if not loaded, Some None for the global scope, Some (Some i) for a local one *)
Record sstate := { counter : Z; global : list Z; locals : Z -> list Z; scope : Z -> option (option Z); object_rts : Z -> Z; global_rts : Z -> Z }.
Definition loaded (s : sstate) (x : Z) : bool := match scope s x with Some _ => true | None => false end.

(** linker.cpp:1720-1728 *)
Definition append (l : list Z) (x : Z) : list Z := if mem_b x l then l else l ++ [x].

(** linker.cpp:1820-1826 *)
Fixpoint promote (bfs : list Z) (r : Z) (sc : option Z) (s : sstate) : sstate :=
  match bfs with
  | [] => s
  | x :: rest =>
      promote rest r sc
        match sc with
        | None => {| counter := counter s; global := append (global s) x; locals := locals s; scope := scope s; object_rts := object_rts s;
                     global_rts := fun y => if (y =? x) && (global_rts s x =? 0) then r else global_rts s y |}
        | Some i => {| counter := counter s; global := global s; locals := fun j => if j =? i then append (locals s i) x else locals s j; scope := scope s;
                       object_rts := object_rts s; global_rts := global_rts s |}
        end
  end.
(** main.cpp:728-798; [g], [noload]: the flags RTLD_GLOBAL and RTLD_NOLOAD. All objects that are not loaded yet get the scope and the rts of the
    object that needs them, which are those of the root. A new local scope is named by the rts. *)
Definition dlopen (fuel : nat) (deps : Z -> list Z) (root : Z) (g noload : bool) (s : sstate) : res sstate :=
  let r := counter s in
  let s := {| counter := r + 1; global := global s; locals := locals s; scope := scope s; object_rts := object_rts s; global_rts := global_rts s |} in
  if loaded s root && (global_rts s root =? 0) && g then
    Ok {| counter := counter s; global := append (global s) root; locals := locals s; scope := scope s; object_rts := object_rts s;
          global_rts := fun y => if y =? root then r else global_rts s y |}
  else if noload then Ok s
  else
    let sc := match scope s root with Some sc => sc | None => if g then None else Some r end in
    bfs <- buildLinkBfs fuel deps root ;;
    Ok (promote bfs r sc
      {| counter := counter s; global := global s; locals := locals s;
         scope := fun x => match scope s x with Some sc' => Some sc' | None => if mem_b x bfs then Some sc else None end;
         object_rts := fun x => match scope s x with Some _ => object_rts s x | None => if mem_b x bfs then r else object_rts s x end;
         global_rts := global_rts s |}).
Fixpoint dlopens (fuel : nat) (deps : Z -> list Z) (hist : list (Z * bool * bool)) (s : sstate) : res sstate :=
  match hist with
  | [] => Ok s
  | (root, g, noload) :: rest => s <- dlopen fuel deps root g noload s ;; dlopens fuel deps rest s
  end.
(** nothing is loaded; the program itself is the first object (main.cpp:621-667, with rts 1), in the global scope *)
Definition nothing : sstate :=
  {| counter := 1; global := []; locals := fun _ => []; scope := fun _ => None; object_rts := fun _ => 0; global_rts := fun _ => 0 |}.
Definition boot (fuel : nat) (deps : Z -> list Z) (main : Z) : res sstate := dlopen fuel deps main true false nothing.

(** linker.cpp:1750-1772; [main]: the main object; [skip]: Some skipRts with skipGlobalAfterRts *)
Fixpoint resolve (is_global copy : bool) (main : Z) (skip : option Z) (s : sstate) (def : Z -> bool) (l : list Z) : option Z :=
  match l with
  | [] => None
  | x :: l' =>
      if copy && (x =? main) then resolve is_global copy main skip s def l' else
      if match skip with Some r => r <? global_rts s x | None => false end then
        if is_global then None else resolve is_global copy main skip s def l'
      else if def x then Some x else resolve is_global copy main skip s def l'
  end.
(** linker.cpp:1730-1737 for a relocation of [x] *)
Definition scope_list (s : sstate) (sc : option Z) : list Z := match sc with None => global s | Some i => locals s i end.
Definition lookup (copy : bool) (main x : Z) (def : Z -> bool) (s : sstate) : option Z :=
  match resolve true copy main (Some (object_rts s x)) s def (global s) with
  | Some y => Some y
  | None => match scope s x with
            | None => None
            | Some sc => resolve (match sc with None => true | Some _ => false end) copy main (Some (object_rts s x)) s def (scope_list s sc)
            end
  end.
(** main.cpp:841: dlsym with RTLD_DEFAULT, of a caller without DF_SYMBOLIC *)
Definition dlsym_default (def : Z -> bool) (s : sstate) : option Z := resolve true false 0 None s def (global s).
(** linker.cpp:1691-1715 *)
Fixpoint find_after (x : Z) (l : list Z) : list Z :=
  match l with [] => [] | y :: l' => if y =? x then l' else find_after x l' end.
Fixpoint next_def (main : Z) (def : Z -> bool) (l : list Z) : option Z :=
  match l with [] => None | x :: l' => if x =? main then next_def main def l' else if def x then Some x else next_def main def l' end.
(** linker.cpp:1739-1748: dlsym with RTLD_NEXT from [origin] *)
Definition dlsym_next (main origin : Z) (def : Z -> bool) (s : sstate) : option Z :=
  match next_def main def (find_after origin (global s)) with
  | Some y => Some y
  | None => match scope s origin with None => None | Some sc => next_def main def (find_after origin (scope_list s sc)) end
  end.
(** main.cpp:858-880: dlsym with a handle *)
Fixpoint handle_loop (fuel : nat) (deps : Z -> list Z) (def : Z -> bool) (i : nat) (q set : list Z) : res (option Z) :=
  match fuel with
  | O => Fuel
  | S f =>
      match nth_error q i with
      | None => Ok None
      | Some current =>
          if def current then Ok (Some current) else
          let '(q, set) := push_new (deps current) set q in handle_loop f deps def (S i) q set
      end
  end.
Definition dlsym_handle (fuel : nat) (deps : Z -> list Z) (def : Z -> bool) (root : Z) : res (option Z) := handle_loop fuel deps def 0 [root] [root].
