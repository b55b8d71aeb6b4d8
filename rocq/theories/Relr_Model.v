(** Model of relative relocation: the RELR part of Loader::_processStaticRelocations (options/rtld/generic/
    linker.cpp:2343-2372) and of Loader::linkObjects (1816-1900), on a 64-bit target. *)
From Verif Require Export Base Deps_Model.
Open Scope Z_scope.

(** memory as 64-bit words by address; None is not mapped *)
Definition wmem := Z -> option Z.
Definition w64 (x : Z) : Z := x mod 2 ^ 64.
(** [*a += base] *)
Definition add_to (m : wmem) (a b : Z) : res wmem :=
  match m a with
  | None => UB
  | Some v => Ok (fun x => if x =? a then Some (w64 (v + b)) else m x)
  end.
(** linker.cpp:2361-2366 *)
Fixpoint bitmap (fuel : nat) (m : wmem) (addr b i entry : Z) : res wmem :=
  match fuel with
  | O => Fuel
  | S f =>
      if entry =? 0 then Ok m else
      m <- (if negb (Z.land entry 1 =? 0) then add_to m (w64 (addr + 8 * i)) b else Ok m) ;;
      bitmap f m addr b (i + 1) (Z.shiftr entry 1)
  end.
(** linker.cpp:2346-2371; [addr] is 0 for the null pointer. The entries of the table are given by their values. *)
Fixpoint relr (entries : list Z) (m : wmem) (addr b : Z) : res wmem :=
  match entries with
  | [] => Ok m
  | e :: es =>
      if Z.land e 1 =? 0 then
        let addr := w64 (b + e) in
        if addr =? 0 then Abort else
        m <- add_to m addr b ;;
        relr es m (w64 (addr + 8)) b
      else
        m <- bitmap 64 m addr b 0 (Z.shiftr e 1) ;;
        relr es m (w64 (addr + 8 * 63)) b
  end.

(** an object: its base address, its RELR table and whether it has a dynamic section *)
Record obj := { base : Z; table : list Z; dynamic : bool }.
(** memory, wasLinked, objectRts (None: not loaded), rtsCounter *)
Record lstate := { memory : wmem; was_linked : Z -> bool; rts : Z -> option Z; counter : Z }.
(** linker.cpp:1829-1846; only RELR relocations *)
Fixpoint relocate (objs : Z -> obj) (link_rts : Z) (l : list Z) (s : lstate) : res lstate :=
  match l with
  | [] => Ok s
  | o :: l' =>
      let older := match rts s o with Some r => r <? link_rts | None => false end in
      if older then relocate objs link_rts l' s else
      if negb (dynamic (objs o)) then relocate objs link_rts l' s else
      if was_linked s o then Abort else
      m <- relr (table (objs o)) (memory s) 0 (base (objs o)) ;;
      relocate objs link_rts l' {| memory := m; was_linked := was_linked s; rts := rts s; counter := counter s |}
  end.
(** main.cpp:728-798: the objects that are not loaded yet get the new rts when they are found (linker.cpp:1129-1175),
    then linkObjects *)
Definition load (fuel : nat) (deps : Z -> list Z) (objs : Z -> obj) (root : Z) (s : lstate) : res lstate :=
  let r := counter s in
  bfs <- buildLinkBfs fuel deps root ;;
  let s := {| memory := memory s; was_linked := was_linked s; counter := r + 1;
              rts := fun x => match rts s x with Some t => Some t | None => if mem_b x bfs then Some r else None end |} in
  s <- relocate objs r bfs s ;;
  Ok {| memory := memory s; was_linked := fun x => if mem_b x bfs then true else was_linked s x; rts := rts s; counter := counter s |}.
Fixpoint loads (fuel : nat) (deps : Z -> list Z) (objs : Z -> obj) (roots : list Z) (s : lstate) : res lstate :=
  match roots with [] => Ok s | r :: rs => s <- load fuel deps objs r s ;; loads fuel deps objs rs s end.
Definition start (m : wmem) : lstate := {| memory := m; was_linked := fun _ => false; rts := fun _ => None; counter := 1 |}.
