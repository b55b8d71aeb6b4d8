(** What a user of thread attributes relies on: what was set last is what is got. *)
From Verif Require Import Base Tattr_Model.

(** calls that are about the processor set, the mask, the stack *)
Definition about_cpus (c : call) : Prop := match c with SetCpus _ _ => True | _ => False end.
Definition about_mask (c : call) : Prop := match c with SetMask _ => True | _ => False end.
Definition about_detach (c : call) : Prop := match c with SetDetach _ => True | _ => False end.
Definition about_stack (c : call) : Prop := match c with SetStack _ _ | SetStackSize _ | SetStackAddr _ => True | _ => False end.
Definition about_guard (c : call) : Prop := match c with SetGuard _ => True | _ => False end.
(** a processor set with no processors from byte n on *)
Definition fits (n : nat) (s : list Z) : Prop := forall i, n <= i -> nth i s 0%Z = 0%Z.
(** the calls that take away a processor set that is there *)
Definition takes_away (a : attr) (c : call) : bool :=
  match c with SetCpus None _ | SetCpus (Some []) _ => match cpus a with Some _ => true | None => false end | _ => false end.
Fixpoint taken_away (a : attr) (h : list call) : Z :=
  match h with [] => 0%Z | c :: h => ((if takes_away a c then 1 else 0) + taken_away (snd (exec a c)) h)%Z end.
