(** What the layout of static TLS must satisfy. *)
From Verif Require Import Base Tls_Model.
Open Scope Z_scope.

Definition power_of_two (a : Z) : Prop := exists k, 0 <= k < 62 /\ a = 2 ^ k.
Definition wf_tobj (o : tobj) : Prop := 0 <= size o /\ power_of_two (align o) /\ size o + align o < 2 ^ 61.
Definition total (objs : list tobj) : Z := fold_right (fun o n => size o + align o + n) 0 objs.
(** the TCB's type: its size is a multiple of its alignment *)
Definition wf_tcb (sz al : Z) : Prop := power_of_two al /\ al < 2 ^ 32 /\ 0 < sz < 2 ^ 32 /\ (al | sz).
(** two pieces of memory (address and size) do not overlap *)
Definition apart (x y : Z * Z) : Prop := fst x + snd x <= fst y \/ fst y + snd y <= fst x.
Definition inside (x y : Z * Z) : Prop := fst y <= fst x /\ fst x + snd x <= fst y + snd y.
(** the blocks in the thread whose TCB is at [tcb] *)
Definition pieces (above : bool) (sz tcb : Z) (b : blocks) : list (Z * Z) := map (fun x => (block_address above sz tcb (snd x), size (fst x))) b.
