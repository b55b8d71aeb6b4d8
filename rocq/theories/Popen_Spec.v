(** What popen leaves in the program and in the command. *)
From Verif Require Import Base Popen_Model.
Open Scope Z_scope.

(** the same actions for SIGINT and SIGQUIT and the same blocked signals *)
Definition same_signals (p q : proc) : Prop := on_int p = on_int q /\ on_quit p = on_quit q /\ forall s, blocked p s = blocked q s.
Definition same (p q : proc) : Prop := same_signals p q /\ forall fd, fds p fd = fds q fd.
Definition r : Z := 114.
Definition w : Z := 119.
Definition e : Z := 101.
(** pipe gave two new descriptors *)
Definition new_pipe (p : proc) (rd wr : Z) : Prop := fds p rd = None /\ fds p wr = None /\ rd <> wr.
(** the descriptors are those of [p] and one more *)
Definition with_fd (p : proc) (fd : Z) (v : obj * bool) (q : proc) : Prop := fds q fd = Some v /\ forall j, j <> fd -> fds q j = fds p j.
