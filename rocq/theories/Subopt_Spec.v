(** The suboptions of a string, and the usual client of getsubopt. *)
From Verif Require Import Base Str_Spec Subopt_Model.
Open Scope Z_scope.

(** without the spaces and tabs at its front *)
Fixpoint trim (s : list Z) : list Z :=
  match s with c :: s' => if (c =? 32) || (c =? 9) then trim s' else s | [] => [] end.
(** the suboptions: the comma-separated fields, without blanks at their front, that are not empty *)
Definition suboptions (s : list Z) : list (list Z) :=
  filter (fun f => match f with [] => false | _ => true end) (map trim (fields [44] s)).
(** a suboption is a name and, after the first equals sign behind its first character, a value *)
Fixpoint cut (s : list Z) : list Z * option (list Z) :=
  match s with
  | [] => ([], None)
  | c :: s' => if c =? 61 then ([], Some s') else let (n, v) := cut s' in (c :: n, v)
  end.
Definition name (f : list Z) : list Z := match f with c :: f' => c :: fst (cut f') | [] => [] end.
Definition value (f : list Z) : option (list Z) := match f with c :: f' => snd (cut f') | [] => None end.
(** [r] is the position of [n] in [keys], -1 if it is not there *)
Definition is_index (n : list Z) (keys : list (list Z)) (r : Z) : Prop :=
  (r = -1 /\ ~ In n keys) \/
  (exists k, r = Z.of_nat k /\ nth_error keys k = Some n /\ forall j, (j < k)%nat -> nth_error keys j <> Some n).

(** while( *opt != '\0') { r = getsubopt(&opt, keys, &value); ... }: all values of (r, value) *)
Fixpoint parse (calls fuel : nat) (m : mem) (opt : Z) (keys : list Z) : res (mem * Z * list (Z * option Z)) :=
  match calls with
  | O => Fuel
  | S n =>
    x <- load m opt ;;
    if x =? 0 then Ok (m, opt, []) else
    '(m, o, v, r) <- getsubopt fuel m (Some opt) keys ;;
    match o with
    | None => UB
    | Some opt => '(m, opt, rs) <- parse n fuel m opt keys ;; Ok (m, opt, (r, v) :: rs)
    end
  end.
(** the keys are strings outside of the option string *)
Definition keys_at (m : mem) (p : Z) (s : list Z) (addrs : list Z) (keys : list (list Z)) : Prop :=
  Forall2 (fun a k => str_at m a k /\ disjoint p (length s + 1) a (length k + 1)) addrs keys.
(** a result (r, value) for the suboption [f] of the string [s] at [p] *)
Definition is_result (m : mem) (p : Z) (s : list Z) (keys : list (list Z)) (rv : Z * option Z) (f : list Z) : Prop :=
  is_index (name f) keys (fst rv) /\
  match value f with
  | None => snd rv = None
  | Some v => exists t, snd rv = Some t /\ str_at m t v /\ in_place p s t v
  end.
