(** Command lines and what getopt makes of them. *)
From Verif Require Import Base Getopt_Model.
Open Scope Z_scope.

(** ** Declarations *)

(** an option takes no argument, needs one, or may have one *)
Inductive kind := No | Required | Optional.

(** declared short options, and whether the option string begins with ':' or '+' *)
Record decl := Decl { letters : list (Z * kind); silent : bool; plus : bool }.

Definition letter (p : Z * kind) : list Z :=
  match snd p with No => [fst p] | Required => [fst p; 58] | Optional => [fst p; 58; 58] end.

(** the option string *)
Definition optstring (d : decl) : list Z :=
  (if plus d then [43] else if silent d then [58] else []) ++ concat (map letter (letters d)).

Definition wf_decl (d : decl) : Prop :=
  NoDup (map fst (letters d)) /\
  (forall c k, In (c, k) (letters d) -> 32 < c < 127 /\ c <> 58 /\ c <> 45 /\ c <> 63 /\ c <> 43 /\ c <> 59) /\
  (plus d = true -> silent d = false).

Definition kind_of (h : Z) : option kind :=
  if h =? 0 then Some No else if h =? 1 then Some Required else if h =? 2 then Some Optional else None.

(** the long option that [nm] stands for: the only one with this name, or the only one whose
    name begins with it *)
Definition begins (nm full : list Z) : Prop := exists r, full = nm ++ r.

Definition denotes (l : list longopt) (nm : list Z) (k : nat) (o : longopt) : Prop :=
  nth_error l k = Some o /\
  ((name o = nm /\ (forall j o', nth_error l j = Some o' -> name o' = nm -> j = k)) \/
   ((forall o', In o' l -> name o' <> nm) /\ begins nm (name o) /\
    (forall j o', nth_error l j = Some o' -> begins nm (name o') -> j = k))).

(** ** Command lines *)
Inductive arg :=
| Plain (c : Z)                        (* -c *)
| Joined (c : Z) (v : list Z)          (* -cVALUE *)
| Separate (c : Z) (v : list Z)        (* -c VALUE *)
| Unknown (c : Z)                      (* -c, not declared *)
| LPlain (i : nat) (o : longopt) (nm : list Z)   (* --name *)
| LJoined (i : nat) (o : longopt) (nm v : list Z)    (* --name=VALUE *)
| LSeparate (i : nat) (o : longopt) (nm v : list Z)  (* --name VALUE *)
| LUnknown (nm : list Z)               (* --name, not declared or ambiguous *)
| Cluster (cs : list Z)                (* -abc, letters without arguments *)
| Operand (w : list Z).

Definition words (a : arg) : list (list Z) :=
  match a with
  | Plain c | Unknown c => [[45; c]]
  | Joined c v => [45 :: c :: v]
  | Separate c v => [[45; c]; v]
  | LPlain _ _ nm | LUnknown nm => [45 :: 45 :: nm]
  | LJoined _ _ nm v => [45 :: 45 :: nm ++ 61 :: v]
  | LSeparate _ _ nm v => [45 :: 45 :: nm; v]
  | Cluster cs => [45 :: cs]
  | Operand w => [w]
  end.

Definition operand (a : arg) : bool := match a with Operand _ => true | _ => false end.

(** words that are not options *)
Definition bare (w : list Z) : Prop := Forall (fun b => 0 < b < 256) w /\ (hd 0 w <> 45 \/ w = [45]).

Definition text (w : list Z) : Prop := Forall (fun b => 0 < b < 256) w.

(** a name without '=' *)
Definition ok_name (nm : list Z) : Prop := text nm /\ ~ In 61 nm /\ nm <> [].

Definition ok_arg (m : mode) (d : decl) (l : list longopt) (a : arg) : Prop :=
  match a with
  | Plain c => exists k, In (c, k) (letters d) /\ k <> Required
  | Joined c v => (exists k, In (c, k) (letters d) /\ k <> No) /\ text v /\ v <> []
  | Separate c v => In (c, Required) (letters d) /\ text v /\ hd 0 v <> 45
  | Unknown c => 32 < c < 127 /\ ~ In c (map fst (letters d)) /\ c <> 58 /\ c <> 45 /\ c <> 43
  | LPlain i o nm => m = Long /\ ok_name nm /\ denotes l nm i o /\ exists k, kind_of (has_arg o) = Some k /\ k <> Required
  | LJoined i o nm v => m = Long /\ ok_name nm /\ denotes l nm i o /\ text v /\ exists k, kind_of (has_arg o) = Some k /\ k <> No
  | LSeparate i o nm v => m = Long /\ ok_name nm /\ denotes l nm i o /\ text v /\ kind_of (has_arg o) = Some Required
  | LUnknown nm => m = Long /\ ok_name nm /\ forall i o, ~ denotes l nm i o
  | Cluster cs => (2 <= length cs)%nat /\ forall c, In c cs -> In (c, No) (letters d)
  | Operand w => bare w
  end.

(** ** What the calls report *)

(** the value of a call; the argument, if the option takes one; a write through a flag pointer;
    the index of a long option; the
    letter that was not declared *)
Record event := Ev { returns : Z; argument : option (option (list Z)); sets : option (Z * Z);
                     which : option nat; offender : option Z }.

Definition long_event (i : nat) (o : longopt) (v : option (list Z)) : event :=
  match flag o with
  | None => Ev (val o) (Some v) None (Some i) None
  | Some p => Ev 0 (Some v) (Some (p, val o)) (Some i) None
  end.

Definition event_of (d : decl) (a : arg) : list event :=
  match a with
  | Plain c => [Ev c (if existsb (fun p => (fst p =? c) && match snd p with Optional => true | _ => false end) (letters d)
                      then Some None else None) None None None]
  | Joined c v | Separate c v => [Ev c (Some (Some v)) None None None]
  | Unknown c => [Ev 63 None None None (Some c)]
  | LPlain i o _ => [long_event i o None]
  | LJoined i o _ v | LSeparate i o _ v => [long_event i o (Some v)]
  | LUnknown _ => [Ev 63 None None None None]
  | Cluster cs => map (fun c => Ev c None None None None) cs
  | Operand _ => []
  end.

(** calls until one returns -1: the events, and the state then *)
Definition saw (e : event) (s s' : state) (r : Z) : Prop :=
  r = returns e /\ (forall v, argument e = Some v -> optarg s' = v) /\
  stores s' = match sets e with Some x => x :: stores s | None => stores s end /\
  longindex s' = match which e with Some i => Some i | None => longindex s end /\
  (forall c, offender e = Some c -> optopt s' = c).

Inductive calls (m : mode) (posix : bool) (os : list Z) (l : list longopt) : state -> list event -> state -> Prop :=
| calls_end s s' : getopt m posix os l s = Ok (-1, s') -> calls m posix os l s [] s'
| calls_next s s1 r e es s' : getopt m posix os l s = Ok (r, s1) -> saw e s s1 r ->
    calls m posix os l s1 es s' -> calls m posix os l s (e :: es) s'.

(** the state in which a program starts *)
Definition fresh (words : list (list Z)) : state := St words 1 None 0 1 [] None.

(** no option word follows a word with several letters *)
Definition clusters_last (args : list arg) : Prop :=
  forall a cs b, args = a ++ Cluster cs :: b -> forall x, In x b -> operand x = true.

Definition options (args : list arg) : list arg := filter (fun a => negb (operand a)) args.
Definition operands (args : list arg) : list arg := filter operand args.
Definition line (args : list arg) : list (list Z) := concat (map words args).
Definition events (d : decl) (args : list arg) : list event := concat (map (event_of d) args).
