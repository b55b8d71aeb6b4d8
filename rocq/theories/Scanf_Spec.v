(** What sscanf has to do: directives, and how each of them matches an input. *)
From Verif Require Import Base Scanf_Model.
Open Scope Z_scope.

(** ** Directives *)
Inductive radix := Dec | Oct | Hex | Auto.              (* %d, %o, %x, %i *)
Inductive item := One (c : Z) | Range (lo hi : Z).

(** widths are given by their decimal digits, none for no width; [keep] is false for "%*" *)
Inductive directive :=
| Space (ws : list Z)                                   (* white space *)
| Lit (c : Z)                                           (* an ordinary character *)
| Percent                                               (* %% *)
| Int (r : radix) (t : ty) (keep : bool)
| Word (width : list Z) (keep : bool)                   (* %s *)
| Chars (width : list Z) (keep : bool)                  (* %c *)
| Set_ (neg : bool) (items : list item) (dash : bool) (width : list Z) (keep : bool)   (* %[...] *)
| Count (t : ty).                                       (* %n *)

(** their text *)
Definition mod_text (t : ty) : list Z :=
  match t with TChar => [104; 104] | TShort => [104] | TInt => [] | TLong => [108; 108] end.
Definition radix_char (r : radix) : Z := match r with Dec => 100 | Oct => 111 | Hex => 120 | Auto => 105 end.
Definition star (keep : bool) : list Z := if keep then [] else [42].
Definition item_text (i : item) : list Z := match i with One c => [c] | Range lo hi => [lo; 45; hi] end.

Definition text (d : directive) : list Z :=
  match d with
  | Space ws => ws
  | Lit c => [c]
  | Percent => [37; 37]
  | Int r t keep => 37 :: star keep ++ mod_text t ++ [radix_char r]
  | Word w keep => 37 :: star keep ++ w ++ [115]
  | Chars w keep => 37 :: star keep ++ w ++ [99]
  | Set_ neg items dash w keep =>
      37 :: star keep ++ w ++ 91 :: (if neg then [94] else []) ++ concat (map item_text items) ++ (if dash then [45] else []) ++ [93]
  | Count t => 37 :: mod_text t ++ [110]
  end.

Definition space (c : Z) : Prop := c = 32 \/ 9 <= c <= 13.

Definition ok_width (w : list Z) : Prop := Forall (fun c => 48 <= c <= 57) w /\ hd 49 w <> 48.
Definition ok_char (c : Z) : Prop := 0 < c < 128 /\ c <> 45 /\ c <> 93 /\ c <> 94.
Definition ok_item (i : item) : Prop := match i with One c => ok_char c | Range lo hi => ok_char lo /\ ok_char hi /\ lo <= hi end.

Definition ok_directive (d : directive) : Prop :=
  match d with
  | Space ws => Forall space ws /\ ws <> []
  | Lit c => 0 < c < 128 /\ c <> 37 /\ ~ space c
  | Word w keep | Chars w keep => ok_width w /\ (keep = false -> w = [])
  | Set_ _ items _ w keep => ok_width w /\ (keep = false -> w = []) /\ items <> [] /\ Forall ok_item items
  | _ => True
  end.

(** a scanset without '-' that has a range of characters above '-' *)
Definition no_dash (d : directive) : bool :=
  match d with
  | Set_ _ items false _ _ => existsb (fun i => match i with Range lo _ => 45 <? lo | _ => false end) items
  | _ => false
  end.

(** a %% that does not directly follow white space; [after]: there is white space in front of [ds] *)
Fixpoint bare_percent (after : bool) (ds : list directive) : bool :=
  match ds with
  | [] => false
  | d :: r => (match d with Percent => negb after | _ => false end) || bare_percent (match d with Space _ => true | _ => false end) r
  end.

(** ** Numbers *)
Definition digit_value (base c v : Z) : Prop :=
  (48 <= c <= 57 /\ v = c - 48 \/ 97 <= c <= 102 /\ v = c - 87 \/ 65 <= c <= 70 /\ v = c - 55) /\ v < base.

Inductive number (base : Z) : list Z -> Z -> Prop :=
| number_nil : number base [] 0
| number_snoc ds c a v : number base ds a -> digit_value base c v -> number base (ds ++ [c]) (a * base + v).

(** the input goes on with something that is not a digit *)
Definition stops (base : Z) (rest : list Z) : Prop := forall c r v, rest = c :: r -> ~ digit_value base c v.
Definition not_in (cs : list Z) (rest : list Z) : Prop := forall c r, rest = c :: r -> ~ In c cs.

(** [body] is the longest text of an unsigned number in the input [body ++ rest] *)
Inductive unsigned : radix -> list Z -> list Z -> Z -> Prop :=
| u_dec ds rest v : number 10 ds v -> ds <> [] -> stops 10 rest -> unsigned Dec ds rest v
| u_oct ds rest v : number 8 ds v -> ds <> [] -> stops 8 rest -> unsigned Oct ds rest v
| u_hex ds rest v : number 16 ds v -> ds <> [] -> stops 16 rest -> (ds = [48] -> not_in [120; 88] rest) -> unsigned Hex ds rest v
| u_hex0x x ds rest v : number 16 ds v -> ds <> [] -> stops 16 rest -> In x [120; 88] -> unsigned Hex (48 :: x :: ds) rest v
| u_auto_dec ds rest v : number 10 ds v -> ds <> [] -> hd 0 ds <> 48 -> stops 10 rest -> unsigned Auto ds rest v
| u_auto_oct ds rest v : number 8 ds v -> stops 8 rest -> (ds = [] -> not_in [120; 88; 98; 66] rest) -> unsigned Auto (48 :: ds) rest v
| u_auto_hex x ds rest v : number 16 ds v -> ds <> [] -> stops 16 rest -> In x [120; 88] -> unsigned Auto (48 :: x :: ds) rest v
| u_auto_bin x ds rest v : number 2 ds v -> ds <> [] -> stops 2 rest -> In x [98; 66] -> unsigned Auto (48 :: x :: ds) rest v.

(** there is no number at the head of the input *)
Definition bad_unsigned (r : radix) (inp : list Z) : Prop :=
  match r with
  | Dec => stops 10 inp
  | Oct => stops 8 inp
  | Hex => stops 16 inp \/ exists x r, inp = 48 :: x :: r /\ In x [120; 88] /\ stops 16 r
  | Auto => stops 10 inp \/ (exists x r, inp = 48 :: x :: r /\ In x [120; 88] /\ stops 16 r) \/
            (exists x r, inp = 48 :: x :: r /\ In x [98; 66] /\ stops 2 r)
  end.

Inductive signed_ : list Z -> Z -> Prop := (* a sign and its factor *)
| s_none : signed_ [] 1
| s_plus : signed_ [43] 1
| s_minus : signed_ [45] (-1).
Definition no_sign (inp : list Z) : Prop := not_in [43; 45] inp.

(** ** One directive *)
Inductive result := Go (o : option stored) (rest : list Z) | Mismatch | End.

(** the white space in front of an input *)
Definition spaces (ws rest : list Z) : Prop := Forall space ws /\ forall c r, rest = c :: r -> ~ space c.

(** the value of a width; 0 for none *)
Definition decimal (w : list Z) : Z := fold_left (fun a c => a * 10 + (c - 48)) w 0.

(** [x] is the longest sequence of characters satisfying [P] at the head of [x ++ rest], but not longer than [w] *)
Definition longest (P : Z -> Prop) (w : Z) (x rest : list Z) : Prop :=
  Forall P x /\
  (w = 0 /\ (forall c r, rest = c :: r -> ~ P c) \/
   w > 0 /\ (Z.of_nat (length x) < w /\ (forall c r, rest = c :: r -> ~ P c) \/ Z.of_nat (length x) = w)).

Definition member (neg : bool) (items : list item) (dash : bool) (c : Z) : Prop :=
  let inside := (exists i, In i items /\ match i with One x => c = x | Range lo hi => lo <= c <= hi end) \/ (dash = true /\ c = 45) in
  if neg then ~ inside else inside.

Definition keeps (keep : bool) (s : stored) : option stored := if keep then Some s else None.

(** [step d n inp res]: what the directive does with the input after [n] characters have been read *)
Inductive step : directive -> Z -> list Z -> result -> Prop :=
| st_space t n ws rest : spaces ws rest -> step (Space t) n (ws ++ rest) (Go None rest)
| st_lit c n rest : step (Lit c) n (c :: rest) (Go None rest)
| st_lit_bad c n b rest : b <> c -> step (Lit c) n (b :: rest) Mismatch
| st_lit_end c n : step (Lit c) n [] End
| st_percent n ws rest : spaces ws (37 :: rest) -> step Percent n (ws ++ 37 :: rest) (Go None rest)
| st_percent_bad n ws b rest : spaces ws (b :: rest) -> b <> 37 -> step Percent n (ws ++ b :: rest) Mismatch
| st_percent_end n ws : Forall space ws -> step Percent n ws End
| st_int r t keep n ws sg f body rest v : spaces ws (sg ++ body ++ rest) -> signed_ sg f -> unsigned r body rest v ->
    step (Int r t keep) n (ws ++ sg ++ body ++ rest) (Go (keeps keep (SInt t ((f * v) mod 2 ^ bits t))) rest)
| st_int_bad r t keep n ws sg f inp : spaces ws (sg ++ inp) -> sg ++ inp <> [] -> signed_ sg f -> (sg = [] -> no_sign inp) ->
    bad_unsigned r inp -> step (Int r t keep) n (ws ++ sg ++ inp) Mismatch
| st_int_end r t keep n ws : Forall space ws -> step (Int r t keep) n ws End
| st_word w keep n ws x rest : spaces ws (x ++ rest) -> x <> [] -> longest (fun c => ~ space c) (decimal w) x rest ->
    step (Word w keep) n (ws ++ x ++ rest) (Go (keeps keep (SBytes (x ++ [0]))) rest)
| st_word_end w keep n ws : Forall space ws -> step (Word w keep) n ws End
| st_chars w keep n x rest : x <> [] -> longest (fun _ => True) (match w with [] => 1 | _ => decimal w end) x rest ->
    step (Chars w keep) n (x ++ rest) (Go (keeps keep (SBytes x)) rest)
| st_chars_end w keep n : step (Chars w keep) n [] End
| st_set neg items dash w keep n x rest : x <> [] -> longest (member neg items dash) (decimal w) x rest ->
    step (Set_ neg items dash w keep) n (x ++ rest) (Go (keeps keep (SBytes (x ++ [0]))) rest)
| st_set_bad neg items dash w keep n c rest : ~ member neg items dash c -> step (Set_ neg items dash w keep) n (c :: rest) Mismatch
| st_set_end neg items dash w keep n : step (Set_ neg items dash w keep) n [] End
| st_count t n inp : step (Count t) n inp (Go (Some (SInt t (n mod 2 ^ bits t))) inp).

(** does a directive count as an assignment? *)
Definition counts (d : directive) : Z :=
  match d with Int _ _ true | Word _ true | Chars _ true | Set_ _ _ _ _ true => 1 | _ => 0 end.

(** ** All directives: the value returned and what is stored.  [k] assignments have been made and [n]
    characters been read *)
Inductive scans : list directive -> Z -> list Z -> Z -> Z -> list stored -> Prop :=
| sc_nil n inp k : scans [] n inp k k []
| sc_go d ds n used rest k o ret outs : step d n (used ++ rest) (Go o rest) ->
    scans ds (n + Z.of_nat (length used)) rest (k + counts d) ret outs ->
    scans (d :: ds) n (used ++ rest) k ret (match o with Some x => x :: outs | None => outs end)
| sc_mismatch d ds n inp k : step d n inp Mismatch -> scans (d :: ds) n inp k k []
| sc_end d ds n inp k : step d n inp End -> scans (d :: ds) n inp k (if k =? 0 then -1 else k) [].

Definition ascii (l : list Z) : Prop := Forall (fun c => 0 < c < 128) l.
Definition format (ds : list directive) : list Z := concat (map text ds).

(** the directives of a format: white space is one directive *)
Fixpoint ok_format (ds : list directive) : Prop :=
  match ds with
  | [] => True
  | d :: r => ok_directive d /\ match d, r with Space _, Space _ :: _ => False | _, _ => True end /\ ok_format r
  end.
