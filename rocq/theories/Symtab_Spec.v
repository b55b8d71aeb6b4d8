(** Well-formed hash tables as defined by the ELF gABI and by the GNU hash table format, and what a lookup
    must find. *)
From Verif Require Import Base Symtab_Model.
Open Scope Z_scope.

(** the hash function of the gABI (chapter 5, "Hash Table"), on unsigned characters *)
Definition elf_hash (s : list Z) : Z :=
  fold_left (fun h c =>
    let h := (h * 16 + c) mod 2 ^ 32 in
    let g := Z.land h 4026531840 in           (* 0xf0000000 *)
    Z.land (Z.lxor h (Z.shiftr g 24)) (Z.lnot g)) s 0.
(** dl_new_hash: h = h * 33 + c *)
Definition gnu_hash (s : list Z) : Z := fold_left (fun h c => (h * 33 + c) mod 2 ^ 32) s 5381.

(** the version wanted ([None]: no version given, as by dlsym) is provided by a symbol of version [v] *)
Definition provides (want : option version) (v : version) : Prop :=
  match want with
  | None => is_default v = true \/ is_global v = true \/ is_local v = true
  | Some w =>
      if is_local w || is_global w then is_default v = true \/ is_global v = true \/ is_local v = true
      else is_local v = false /\ is_global v = false /\ vname v = vname w
  end.
(** symbol [i] is defined, visible, has the name and a version that will do *)
Definition answers (o : object) (name : list Z) (want : option version) (i : Z) : Prop :=
  exists s v, getSymbolByIndex o i = Ok (s, v) /\ is_defined s = true /\ In (binding s) [1; 2; 10] /\
    st_name s = Some name /\ provides want v.
(** the symbols 1..n-1 have names and valid versions; versions carry the hash of their name *)
Definition name_of (o : object) (i : Z) (name : list Z) : Prop := exists s, symtab o i = Some s /\ st_name s = Some name.
Definition wf_symbols (o : object) (n : Z) : Prop :=
  forall i, 0 < i < n -> exists s v name, getSymbolByIndex o i = Ok (s, v) /\ st_name s = Some name /\
    (defines_versions o = true -> is_local v = false) /\
    (is_local v = false -> is_global v = false -> vhash v = elf_hash (vname v)).
Definition wf_want (want : option version) : Prop :=
  match want with None => True | Some w => is_local w = false -> is_global w = false -> vhash w = elf_hash (vname w) end.

(** the chain that starts with [index] consists of the symbols [l] *)
Fixpoint is_chain (o : object) (nb index : Z) (l : list Z) : Prop :=
  match l with
  | [] => index = 0
  | x :: l' => index = x /\ exists next, word o (2 + nb + x) = Some next /\ is_chain o nb next l'
  end.
(** a SysV table for [n] symbols: bucket [b] has the chain [chain b], and every symbol is in the chain of its hash *)
Definition wf_sysv (o : object) (n nb : Z) (chain : Z -> list Z) : Prop :=
  word o 0 = Some nb /\ 0 < nb /\
  (forall b, 0 <= b < nb -> NoDup (chain b) /\ (forall i, In i (chain b) -> 0 < i < n) /\
     exists first, word o (2 + b) = Some first /\ is_chain o nb first (chain b)) /\
  (forall i name, 0 < i < n -> name_of o i name -> In i (chain (elf_hash name mod nb))).

(** a GNU table: the symbols from [offset] on are grouped by bucket; bucket [b] has [count b] symbols
    from [first b] on; a chain word is the symbol's hash with the lowest bit set for the last one *)
Definition wf_gnu (o : object) (n nb offset bloom : Z) (first count : Z -> Z) : Prop :=
  word o 0 = Some nb /\ word o 1 = Some offset /\ word o 2 = Some bloom /\ 0 < nb /\ 0 < offset /\ n < 2 ^ 32 /\
  (forall b, 0 <= b < nb -> 0 <= count b /\
     word o (4 + bloom * addr_words o + b) = Some (if count b =? 0 then 0 else first b) /\
     (0 < count b -> offset <= first b /\ first b + count b <= n)) /\
  (forall i name, offset <= i < n -> name_of o i name ->
     let b := gnu_hash name mod nb in
     first b <= i < first b + count b /\
     word o (4 + bloom * addr_words o + nb + (i - offset)) =
       Some (2 * (gnu_hash name / 2) + if i =? first b + count b - 1 then 1 else 0)) /\
  (forall b i, 0 <= b < nb -> first b <= i < first b + count b -> exists name, name_of o i name /\ gnu_hash name mod nb = b) /\
  (** symbols that are not in the table are not defined here *)
  (forall i s v, 0 < i < offset -> getSymbolByIndex o i = Ok (s, v) -> is_defined s = false).
(** the result of a lookup in [n] symbols is right *)
Definition right (o : object) (n : Z) (name : list Z) (want : option version) (r : option Z) : Prop :=
  match r with
  | Some i => 0 < i < n /\ answers o name want i
  | None => forall i, 0 < i < n -> ~ answers o name want i
  end.
(** the names for which char's signedness does not matter *)
Definition plain (signed : bool) (name : list Z) : Prop := Forall (fun c => 0 <= c < if signed then 128 else 256) name.
