(** Specification of thread-specific data over the record of what happened (newest event first),
    after POSIX (pthread_key_create, pthread_getspecific). *)
From Verif Require Import Keys_Model.
Open Scope Z_scope.

(** the destructor given for the key [k] if it exists after the events [h] *)
Fixpoint created (h : list event) (k : Z) : option Z :=
  match h with
  | [] => None
  | ECreate _ d (Some k') :: h' => if k =? k' then Some d else created h' k
  | EDelete _ k' true :: h' => if k =? k' then None else created h' k
  | _ :: h' => created h' k
  end.
Definition live (h : list event) (k : Z) : Prop := created h k <> None.

(** the value of key [k] for thread [t] after the events [h]: the last one set since the key was
    created; null if none was, or if its destructor has been called with it since *)
Fixpoint specific (h : list event) (t k : Z) : Z :=
  match h with
  | [] => 0
  | ESet t' k' v true :: h' => if (t =? t') && (k =? k') then v else specific h' t k
  | ECall t' k' _ _ :: h' => if (t =? t') && (k =? k') then 0 else specific h' t k
  | ECreate _ _ (Some k') :: h' => if k =? k' then 0 else specific h' t k
  | EDelete _ k' true :: h' => if k =? k' then 0 else specific h' t k
  | _ :: h' => specific h' t k
  end.

(** [e] may follow the events [h] *)
Definition allowed (h : list event) (e : event) : Prop :=
  match e with
  | ECreate _ _ (Some k) => 0 <= k < 1024 /\ ~ live h k
  | ECreate _ _ None => forall k, 0 <= k < 1024 -> live h k
  | EDelete _ k ok => ok = true <-> live h k
  | ESet _ k _ ok => ok = true <-> live h k
  | EGet t k v => v = specific h t k
  | ECall t k d v =>
      v <> 0 /\ d <> 0 /\ created h k = Some d /\
      exists h1 h2, h = h1 ++ h2 /\ live h2 k /\ specific h2 t k = v /\
        ((forall u, ~ In (EDelete u k true) h1) -> specific h t k = v /\ created h2 k = Some d)
  | _ => True
  end.
Fixpoint explained (h : list event) : Prop :=
  match h with
  | [] => True
  | e :: h' => allowed h' e /\ explained h'
  end.

(** The clients: a destructor does not get or set the value of the very key it is called for (see
    C38_own_key_refuted), and no key slot is deleted 2^64 - 1 times. *)
Definition client_rule (s : state) (t : Z) (a : act) : bool :=
  match at_ s t, a with
  | XIn _ i, Get k => negb (k =? i)
  | XIn _ i, Set_ k _ => negb (k =? i)
  | _, Delete k => gen (slots s k) <? 2 ^ 64 - 1
  | _, _ => true
  end.

Definition reachable (s : state) : Prop :=
  exists sched, run (guarded client_rule step) sched init = Some s.
(** without the rule on destructors *)
Definition reachable_any (s : state) : Prop := exists sched, run step sched init = Some s.
