(** Model of the layout of static thread-local storage: Loader::_buildTlsMaps (options/rtld/generic/linker.cpp:
    1902-2004), the alignment maximum of _buildLinkBfs (1801-1805) and the addresses of allocateTcb (1429-1461). *)
From Verif Require Export Base.
Open Scope Z_scope.

Definition w64 (x : Z) : Z := x mod 2 ^ 64.
(** an object's tlsSegmentSize, tlsAlignment and haveStaticTls *)
Record tobj := { size : Z; align : Z; static : bool }.
(** a static block: its object and tlsOffset *)
Definition blocks := list (tobj * Z).
(** initialPtr, initialLimit, tlsMaxAlignment and the blocks so far *)
Record tls := { ptr : Z; limit : Z; max_align : Z; placed : blocks }.

(** linker.cpp:1930-1932 and the same lines elsewhere *)
Definition round (p a : Z) : Z :=
  let misalign := Z.land p (w64 (a - 1)) in
  if negb (misalign =? 0) then w64 (p + w64 (a - misalign)) else p.
(** linker.cpp:1929-1944 and 1971-1986; the new initialPtr and the offset *)
Definition place (above : bool) (p : Z) (o : tobj) : Z * Z :=
  if above then let p := round p (align o) in (w64 (p + size o), p)
  else let p := round (w64 (p + size o)) (align o) in (p, w64 (- p)).

(** linker.cpp:1801-1805, in the initial link *)
Fixpoint maximum (objs : list tobj) (m : Z) : res Z :=
  match objs with
  | [] => Ok m
  | o :: os => if negb (Z.land (align o) (w64 (align o - 1)) =? 0) then Abort else maximum os (if m <? align o then align o else m)
  end.
(** linker.cpp:1912-1951 *)
Fixpoint place_initial (above : bool) (objs : list tobj) (p : Z) (b : blocks) : Z * blocks :=
  match objs with
  | [] => (p, b)
  | o :: os => if size o =? 0 then place_initial above os p b
               else let '(p, off) := place above p o in place_initial above os p (b ++ [(o, off)])
  end.
(** the initial link; tlsMaxAlignment is 16 before (linker.cpp:73); 1954: space for later objects *)
Definition initial (above : bool) (objs : list tobj) : res tls :=
  m <- maximum objs 16 ;;
  let '(p, b) := place_initial above objs 0 [] in
  Ok {| ptr := p; limit := w64 (p + 64); max_align := m; placed := b |}.
(** linker.cpp:1955-2001: a later link; objects with dynamic TLS get no static block *)
Fixpoint later (above : bool) (objs : list tobj) (t : tls) : res tls :=
  match objs with
  | [] => Ok t
  | o :: os =>
      if negb (Z.land (align o) (w64 (align o - 1)) =? 0) then Abort else
      if (size o =? 0) || negb (static o) then later above os t else
      let '(p, off) := place above (ptr t) o in
      if limit t <? p then Abort else
      later above os {| ptr := p; limit := limit t; max_align := max_align t; placed := placed t ++ [(o, off)] |}
  end.
Definition history (above : bool) (first more : list tobj) : res tls := t <- initial above first ;; later above more t.

(** linker.cpp:189-191 *)
Definition alignUp (a al : Z) : Z := Z.land (w64 (a + w64 (al - 1))) (w64 (Z.lnot (al - 1))).
(** linker.cpp:1431-1461; [sz] and [al] are sizeof(Tcb) and alignof(Tcb). The size to allocate, and for the allocation's
    address [a] the address of the TCB *)
Definition alloc_size (sz al : Z) (t : tls) : Z := w64 (limit t + sz + Z.max al (max_align t)).
Definition tcb_address (above : bool) (sz al : Z) (t : tls) (a : Z) : res Z :=
  if above then
    let '(tlsA, tcbA) :=
      if al <? max_align t then let x := alignUp (w64 (a + sz)) (max_align t) in (x, w64 (x - sz))
      else let x := alignUp a al in (w64 (x + sz), x) in
    if negb (Z.land tlsA (w64 (max_align t - 1)) =? 0) then Abort else
    if negb (tlsA =? w64 (tcbA + sz)) then Abort else
    if negb (Z.land tcbA (w64 (al - 1)) =? 0) then Abort else Ok tcbA
  else
    let tcbA := alignUp (w64 (a + limit t)) (Z.max al (max_align t)) in
    if negb (Z.land tcbA (w64 (al - 1)) =? 0) then Abort else Ok tcbA.
(** linker.cpp:1487-1491: the address of a block in the thread with that TCB *)
Definition block_address (above : bool) (sz tcb off : Z) : Z := if above then w64 (tcb + sz + off) else w64 (tcb + off).
