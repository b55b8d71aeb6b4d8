(** What syslog sends. *)
From Verif Require Import Base Hosts_Spec Syslog_Model.
Open Scope Z_scope.

(** what the calls so far have set *)
Definition ident_of (cs : list call) : list Z :=
  fold_left (fun a c => match c with Openlog (Some i) _ _ => firstn 31 i | Openlog None _ _ => [] | _ => a end) cs [].
Definition facility_of (cs : list call) : Z := fold_left (fun a c => match c with Openlog _ _ f => f | _ => a end) cs LOG_USER.
Definition mask_of (cs : list call) : Z := fold_left (fun a c => match c with Setlogmask m => m | _ => a end) cs 255.
Definition proper_call (c : call) : Prop := match c with Syslog _ time _ => length time = 15%nat | Openlog _ _ f => 0 <= f < 2 ^ 31 | _ => True end.

(** a number without leading zeros *)
Definition canonical (t : list Z) (n : Z) : Prop := decimal t n /\ (t = [48] \/ exists c r, t = c :: r /\ c <> 48).
(** the level of the message is enabled and the number is one of a level and a facility *)
Definition enabled (mask priority : Z) : Prop := 0 <= priority < 1024 /\ Z.testbit mask (priority mod 8) = true.
(** the facility of the message, or that of openlog *)
Definition full_priority (priority facility : Z) : Z := if priority / 8 =? 0 then Z.lor priority facility else priority.
(** one line: at most 1023 bytes, and a newline if there is none *)
Definition line (digits time ident text : list Z) : list Z :=
  let s := firstn 1023 ([60] ++ digits ++ [62] ++ time ++ [32] ++ ident ++ [58; 32] ++ text) in
  if last s 0 =? 10 then s else s ++ [10].
(** the errors of a daemon that has gone away *)
Definition lost (e : Z) : Prop := e = 111 \/ e = 104 \/ e = 107 \/ e = 32.

(** the descriptor of the last socket made, -1 once it is closed *)
Fixpoint current (ans : list event -> Z) (h : list event) : Z :=
  match h with [] => -1 | Socket :: _ => ans h | Close _ :: _ => -1 | _ :: r => current ans r end.
