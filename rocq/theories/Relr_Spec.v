(** The RELR format (gABI, SHT_RELR): which words a table names. *)
From Verif Require Import Base Deps_Spec Relr_Model.
Open Scope Z_scope.

(** an even entry names the word at that offset; an odd entry is a bitmap, in which bit i+1 names the i-th of the 63 words
    after those covered so far *)
Fixpoint named (entries : list Z) (next : Z) : list Z :=
  match entries with
  | [] => []
  | e :: es =>
      if Z.even e then e :: named es (e + 8)
      else map (fun i => next + 8 * Z.of_nat i) (filter (fun i => Z.testbit e (Z.of_nat i + 1)) (seq 0 63)) ++ named es (next + 8 * 63)
  end.
(** a well-formed object: the table starts with an address, and its words are mapped, in the address space and named once *)
Definition words (o : obj) : list Z := map (fun t => base o + t) (named (table o) 0).
Definition wf_obj (m : wmem) (o : obj) : Prop :=
  Forall (fun e => 0 <= e < 2 ^ 64) (table o) /\ (match table o with [] => True | e :: _ => Z.even e = true end) /\
  NoDup (words o) /\ Forall (fun a => 0 < a < 2 ^ 64 /\ m a <> None) (words o).
(** exactly the words [ws] have [b] added *)
Definition shifted (m m' : wmem) (ws : list Z) (b : Z) : Prop :=
  forall a, (In a ws -> exists v, m a = Some v /\ m' a = Some ((v + b) mod 2 ^ 64)) /\ (~ In a ws -> m' a = m a).
