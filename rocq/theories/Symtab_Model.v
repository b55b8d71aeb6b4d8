(** Model of the symbol lookup of the dynamic linker: elf64Hash, gnuHash and resolveInObject
    (options/rtld/generic/linker.cpp:1575-1689), getSymbolByIndex (1211-1268) and SymbolVersion
    (linker.hpp:405-462). *)
From Verif Require Export Base.
Open Scope Z_scope.

(** linker.hpp:405-462; the versions with index 0 (local) and 1 (global) have no name *)
Record version := { is_local : bool; is_global : bool; is_default : bool; vname : list Z; vhash : Z }.
Definition version_of_index (i : Z) : version :=
  {| is_local := i =? 0; is_global := i =? 1; is_default := false; vname := []; vhash := 0 |}.
Definition make_default (v : version) : version :=
  {| is_local := is_local v; is_global := is_global v; is_default := true; vname := vname v; vhash := vhash v |}.
Fixpoint same_string (a b : list Z) : bool :=
  match a, b with
  | [], [] => true
  | x :: a', y :: b' => (x =? y) && same_string a' b'
  | _, _ => false
  end.
(** operator==, linker.hpp:442-447 *)
Definition version_eq (a b : version) : bool :=
  if is_local a || is_local b then is_local a && is_local b
  else if is_global a || is_global b then is_global a && is_global b
  else if negb (vhash a =? vhash b) then false
  else same_string (vname a) (vname b).

(** an entry of the symbol table: whether st_shndx is not SHN_UNDEF, the binding of st_info, the string that
    st_name refers to, None if st_name is 0 *)
Record sym := { is_defined : bool; binding : Z; st_name : option (list Z) }.

(** [word k]: the 32-bit word at index [k] from the start of the hash table, [symtab i]: the symbol with
    index [i], [versym i]: its entry in the version table if there is one, [known]: knownVersions,
    [defines_versions]: definedVersions.size() is not 0; [addr_words]: sizeof(elf_addr) / 4;
    None is an access outside of the tables *)
Record object := { word : Z -> option Z; symtab : Z -> option sym; versym : option (Z -> option Z);
                   known : Z -> option version; defines_versions : bool; addr_words : Z }.
Definition get {A} (x : option A) : res A := match x with Some a => Ok a | None => UB end.

(** linker.cpp:1211-1268 *)
Definition getSymbolByIndex (o : object) (i : Z) : res (sym * version) :=
  s <- get (symtab o i) ;;
  match versym o with
  | None => Ok (s, make_default (version_of_index 1))
  | Some vs =>
      x <- get (vs i) ;;
      let dflt := Z.land x 32768 =? 0 in
      let x := Z.land x 32767 in
      v <- (if negb (x =? 0) && negb (x =? 1)
            then match known o x with Some v => Ok v | None => Abort end
            else Ok (version_of_index x)) ;;
      Ok (s, if dflt then make_default v else v)
  end.

(** char to int, with [signed] the signedness of char *)
Definition char (signed : bool) (c : Z) : Z := if signed && (128 <=? c) then c - 256 else c.
Definition u32 (x : Z) : Z := x mod 2 ^ 32.
(** linker.cpp:1575-1587 *)
Fixpoint elf64Hash_loop (signed : bool) (s : list Z) (h : Z) : Z :=
  match s with
  | [] => h
  | c :: s' =>
      let h := u32 (u32 (Z.shiftl h 4) + u32 (char signed c)) in
      let g := Z.land h 4026531840 in
      let h := if negb (g =? 0) then Z.lxor h (Z.shiftr g 24) else h in
      elf64Hash_loop signed s' (Z.land h 268435455)
  end.
Definition elf64Hash (signed : bool) (s : list Z) : Z := elf64Hash_loop signed s 0.
(** linker.cpp:1589-1594 *)
Fixpoint gnuHash_loop (signed : bool) (s : list Z) (h : Z) : Z :=
  match s with
  | [] => h
  | c :: s' => gnuHash_loop signed s' (u32 (u32 (u32 (Z.shiftl h 5) + h) + u32 (char signed c)))
  end.
Definition gnuHash (signed : bool) (s : list Z) : Z := gnuHash_loop signed s 5381.

(** linker.cpp:1600-1609: STB_GLOBAL, STB_WEAK or STB_GNU_UNIQUE *)
Definition eligible (c : sym) : bool :=
  is_defined c && ((binding c =? 1) || (binding c =? 2) || (binding c =? 10)).
(** linker.cpp:1612-1635 *)
Definition correctVersion (o : object) (want : option version) (v : version) : res bool :=
  if defines_versions o && is_local v then Abort else
  match want with
  | None => Ok (is_default v || is_global v || is_local v)
  | Some w =>
      if (is_local w || is_global w) && (is_global v || is_default v || is_local v) then Ok true
      else Ok (version_eq w v)
  end.
(** the condition at linker.cpp:1645 and 1679; getString is at 1540-1544 *)
Definition matches (o : object) (name : list Z) (want : option version) (c : sym) (v : version) : res bool :=
  if eligible c then
    match st_name c with
    | None => Abort
    | Some n => if same_string n name then correctVersion o want v else Ok false
    end
  else Ok false.

(** linker.cpp:1643-1649; the symbol is represented by its index *)
Fixpoint sysv_loop (fuel : nat) (o : object) (name : list Z) (want : option version) (nb index : Z) : res (option Z) :=
  match fuel with
  | O => Fuel
  | S f =>
      if index =? 0 then Ok None else
      '(c, v) <- getSymbolByIndex o index ;;
      b <- matches o name want c v ;;
      if (b : bool) then Ok (Some index)
      else next <- get (word o (2 + nb + index)) ;; sysv_loop f o name want nb next
  end.
(** linker.cpp:1637-1651 *)
Definition lookup_sysv (signed : bool) (fuel : nat) (o : object) (name : list Z) (want : option version) : res (option Z) :=
  nb <- get (word o 0) ;;
  if nb =? 0 then UB else
  let bucket := elf64Hash signed name mod nb in
  index <- get (word o (2 + bucket)) ;;
  sysv_loop fuel o name want nb index.

(** linker.cpp:1674-1687 *)
Fixpoint gnu_loop (fuel : nat) (o : object) (name : list Z) (want : option version) (chains offset hash index : Z) : res (option Z) :=
  match fuel with
  | O => Fuel
  | S f =>
      chash <- get (word o (chains + u32 (index - offset))) ;;
      r <- (if Z.land chash 4294967294 =? Z.land hash 4294967294 then
              '(c, v) <- getSymbolByIndex o index ;; matches o name want c v
            else Ok false) ;;
      if (r : bool) then Ok (Some index)
      else if negb (Z.land chash 1 =? 0) then Ok None
      else gnu_loop f o name want chains offset hash (u32 (index + 1))
  end.
(** linker.cpp:1652-1688 *)
Definition lookup_gnu (signed : bool) (fuel : nat) (o : object) (name : list Z) (want : option version) : res (option Z) :=
  nb <- get (word o 0) ;;
  offset <- get (word o 1) ;;
  bloom <- get (word o 2) ;;
  let buckets := 4 + bloom * addr_words o in
  let chains := buckets + nb in
  let hash := gnuHash signed name in
  if nb =? 0 then UB else
  index <- get (word o (buckets + hash mod nb)) ;;
  if index =? 0 then Ok None else gnu_loop fuel o name want chains offset hash index.
