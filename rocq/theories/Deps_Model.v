(** Model of the breadth-first lists of dependencies: Loader::_buildLinkBfs (options/rtld/generic/linker.cpp:
    1782-1814) and the queue of dlsym on a handle (options/rtld/generic/main.cpp:858-880). Objects are numbers,
    [deps o] the vector of its dependencies. *)
From Verif Require Export Base.
Open Scope Z_scope.

Definition mem_b (x : Z) (l : list Z) : bool := existsb (Z.eqb x) l.
(** linker.cpp:1807-1812, main.cpp:873-878 *)
Fixpoint push_new (ds set q : list Z) : list Z * list Z :=
  match ds with
  | [] => (q, set)
  | d :: ds' => if mem_b d set then push_new ds' set q else push_new ds' (d :: set) (q ++ [d])
  end.
(** linker.cpp:1792-1813: the loop over indices of the growing vector *)
Fixpoint bfs_loop (fuel : nat) (deps : Z -> list Z) (i : nat) (q set : list Z) : res (list Z) :=
  match fuel with
  | O => Fuel
  | S f =>
      match nth_error q i with
      | None => Ok q
      | Some current => let '(q, set) := push_new (deps current) set q in bfs_loop f deps (S i) q set
      end
  end.
(** linker.cpp:1782-1790: the root is pushed, but it is not put into the set *)
Definition buildLinkBfs (fuel : nat) (deps : Z -> list Z) (root : Z) : res (list Z) := bfs_loop fuel deps 0 [root] [].
(** main.cpp:861-863: here it is; the lookups along the way are in Scope_Model.v *)
Definition handle_queue (fuel : nat) (deps : Z -> list Z) (root : Z) : res (list Z) := bfs_loop fuel deps 0 [root] [root].
