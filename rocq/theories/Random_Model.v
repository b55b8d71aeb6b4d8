(** Model of random, srandom, initstate and setstate (options/posix/generic/posix_stdlib.cpp:24-71 and
    127-174).  State arrays are numbered; array 0 is the table of lines 25-33.  An array is a list of
    32-bit words; [None] is an access outside of it.  Simplification: the arrays passed to
    initstate do not overlap, are aligned for uint32_t and only changed by these functions. *)
From Coq Require Export List ZArith Lia Bool Arith.
Export ListNotations.
Open Scope Z_scope.

(** posix_stdlib.cpp:25-33 *)
Definition init_table : list Z :=
  [0; 1481765933; 3232861391; 3417699910; 3338875177; 812669700; 553475508; 2592833400;
   1344887256; 2877900904; 1812158119; 2295183359; 3027751999; 1889772843; 2833562353; 4253237756;
   2330030041; 1949118330; 220137366; 1979932169; 1089957932; 1873226917; 2863153495; 1486937972;
   3343516516; 2924690628; 68706223; 1843638549; 212567592; 4030971812; 964776169; 928126551].

(** [x] points behind the first word of array [cur]; posix_stdlib.cpp:35-38 *)
Record state := { arrays : Z -> list Z; cur : Z; n : nat; i : nat; j : nat }.
(** [mem a]: the words of array [a] before it is used, arbitrary *)
Definition start (mem : Z -> list Z) : state :=
  {| arrays := fun a => if a =? 0 then init_table else mem a; cur := 0; n := 31; i := 3; j := 0 |}.

(** posix_stdlib.cpp:41-43 *)
Definition lcg31 (x : Z) : Z := Z.land ((1103515245 * x + 12345) mod 2 ^ 32) 2147483647.
(** posix_stdlib.cpp:45-47 *)
Definition lcg64 (x : Z) : Z := (6364136223846793005 * x + 1) mod 2 ^ 64.

(** replaces word [k] *)
Fixpoint set_nth (k : nat) (v : Z) (l : list Z) : option (list Z) :=
  match k, l with
  | _, [] => None
  | O, _ :: l' => Some (v :: l')
  | S k', c :: l' => option_map (cons c) (set_nth k' v l')
  end.
(** x[k - 1] *)
Definition get (s : state) (k : nat) : option Z := nth_error (arrays s (cur s)) k.
Definition set (s : state) (k : nat) (v : Z) : option state :=
  match set_nth k v (arrays s (cur s)) with
  | None => None
  | Some l => Some {| arrays := fun a => if a =? cur s then l else arrays s a;
                      cur := cur s; n := n s; i := i s; j := j s |}
  end.
Definition with_vars (s : state) (c : Z) (n' i' j' : nat) : state :=
  {| arrays := arrays s; cur := c; n := n'; i := i'; j := j' |}.

(** posix_stdlib.cpp:49-52: the result is the array *)
Definition savestate (s : state) : option (state * Z) :=
  let w := Z.lor (Z.lor (Z.shiftl (Z.of_nat (n s)) 16) (Z.shiftl (Z.of_nat (i s)) 8)) (Z.of_nat (j s)) in
  option_map (fun s' => (s', cur s)) (set s 0 w).
(** posix_stdlib.cpp:54-59 *)
Definition loadstate (s : state) (a : Z) : option state :=
  match nth_error (arrays s a) 0 with
  | None => None
  | Some w => Some (with_vars s a (Z.to_nat (Z.shiftr w 16)) (Z.to_nat (Z.land (Z.shiftr w 8) 255)) (Z.to_nat (Z.land w 255)))
  end.

(** posix_stdlib.cpp:61-77 *)
Definition random (s : state) : option (state * Z) :=
  match n s with
  | O =>
      match get s 1 with
      | None => None
      | Some v => option_map (fun s' => (s', lcg31 v)) (set s 1 (lcg31 v))
      end
  | _ =>
      match get s (1 + i s), get s (1 + j s) with
      | Some a, Some b =>
          let v := (a + b) mod 2 ^ 32 in
          match set s (1 + i s) v with
          | None => None
          | Some s1 =>
              Some (with_vars s1 (cur s1) (n s1)
                      (if (i s1 + 1 =? n s1)%nat then 0 else i s1 + 1)%nat
                      (if (j s1 + 1 =? n s1)%nat then 0 else j s1 + 1)%nat,
                    Z.shiftr v 1)
          end
      | _, _ => None
      end
  end.

(** the loop of srandom, posix_stdlib.cpp:139-142; [left] is n - k *)
Fixpoint fill (left : nat) (s : state) (seed : Z) (k : nat) : option state :=
  match left with
  | O => Some s
  | S l => let seed := lcg64 seed in
           match set s (1 + k) (Z.shiftr seed 32) with
           | None => None
           | Some s1 => fill l s1 seed (k + 1)
           end
  end.
(** posix_stdlib.cpp:128-145 *)
Definition srandom (s : state) (seed : Z) : option state :=
  match n s with
  | O => set s 1 seed
  | _ =>
      let s := with_vars s (cur s) (n s) (if (n s =? 31)%nat || (n s =? 7)%nat then 3 else 1)%nat 0 in
      match fill (n s) s seed 0 with
      | None => None
      | Some s1 =>
          match get s1 1 with
          | None => None
          | Some v => set s1 1 (Z.lor v 1)
          end
      end
  end.

(** posix_stdlib.cpp:147-166; the result is the previous array or null *)
Definition initstate (s : state) (seed : Z) (a : Z) (size : Z) : option (state * option Z) :=
  if size <? 8 then Some (s, None) else
  match savestate s with
  | None => None
  | Some (s, old) =>
      let n' := (if (size <? 32)%Z then 0 else if (size <? 64)%Z then 7 else if (size <? 128)%Z then 15
                 else if (size <? 256)%Z then 31 else 63)%nat in
      match srandom (with_vars s a n' (i s) (j s)) seed with
      | None => None
      | Some s => option_map (fun p => (fst p, Some old)) (savestate s)
      end
  end.
(** posix_stdlib.cpp:168-174 *)
Definition setstate (s : state) (a : Z) : option (state * option Z) :=
  match savestate s with
  | None => None
  | Some (s, old) => option_map (fun s => (s, Some old)) (loadstate s a)
  end.

Inductive op := Random | Srandom (seed : Z) | Initstate (seed : Z) (a : Z) (size : Z) | Setstate (a : Z).
Inductive result := Num (v : Z) | Array (a : option Z).
Definition step (s : state) (o : op) : option (state * result) :=
  match o with
  | Random => option_map (fun '(s, v) => (s, Num v)) (random s)
  | Srandom seed => option_map (fun s => (s, Num 0)) (srandom s seed)
  | Initstate seed a size => option_map (fun '(s, r) => (s, Array r)) (initstate s seed a size)
  | Setstate a => option_map (fun '(s, r) => (s, Array r)) (setstate s a)
  end.
Fixpoint run (s : state) (os : list op) : option (state * list result) :=
  match os with
  | [] => Some (s, [])
  | o :: os' =>
      match step s o with
      | None => None
      | Some (s1, r) => option_map (fun '(s2, rs) => (s2, r :: rs)) (run s1 os')
      end
  end.
