(** The environment as a map from names to values. *)
From Verif Require Import Base Env_Model.
Open Scope Z_scope.

(** a name contains no '=' *)
Definition name_ok (n : str) : Prop := ~ In 61 n.

(** the strings of an environment in which no name is assigned twice *)
Definition unambiguous (l : list str) : Prop :=
  forall i j n v w, name_ok n -> nth_error l i = Some (n ++ 61 :: v) -> nth_error l j = Some (n ++ 61 :: w) -> i = j.

Definition map_ := str -> option str.
Definition assign_ (m : map_) (n : str) (v : option str) : map_ := fun x => if list_eq_dec Z.eq_dec x n then v else m x.

(** [l] lists exactly the variables of [m] *)
Definition lists (l : list str) (m : map_) : Prop :=
  forall n v, (name_ok n -> (In (n ++ 61 :: v) l <-> m n = Some v)) /\ (~ name_ok n -> m n = None).

Inductive op :=
| Setenv (name value : str) (overwrite : bool)
| Putenv (name value : str)                       (* putenv("name=value") *)
| PutenvName (name : str)                         (* putenv("name"), removes the variable *)
| Unsetenv (name : str)
| SetEnviron (l : list str).

Definition step (s : state) (o : op) : res state :=
  match o with
  | Setenv n v ow => '(s', _) <- setenv s n v ow ;; Ok s'
  | Putenv n v => putenv s (n ++ 61 :: v)
  | PutenvName n => putenv s n
  | Unsetenv n => unsetenv s n
  | SetEnviron l => Ok (set_environ l)
  end.
Fixpoint run (s : state) (ops : list op) : res state :=
  match ops with [] => Ok s | o :: ops' => s' <- step s o ;; run s' ops' end.

(** what the operations do to the map *)
Inductive map_step : map_ -> op -> map_ -> Prop :=
| MSet m n v ow : name_ok n -> map_step m (Setenv n v ow) (if ow then assign_ m n (Some v) else match m n with None => assign_ m n (Some v) | Some _ => m end)
| MSetBad m n v ow : ~ name_ok n -> map_step m (Setenv n v ow) m
| MPut m n v : name_ok n -> map_step m (Putenv n v) (assign_ m n (Some v))
| MPutName m n : name_ok n -> map_step m (PutenvName n) (assign_ m n None)
| MUnset m n : map_step m (Unsetenv n) (assign_ m n None)
| MEnviron m l m' : unambiguous l -> lists l m' -> map_step m (SetEnviron l) m'.
Inductive map_run : map_ -> list op -> map_ -> Prop :=
| MNil m : map_run m [] m
| MCons m o m1 ops m2 : map_step m o m1 -> map_run m1 ops m2 -> map_run m (o :: ops) m2.
