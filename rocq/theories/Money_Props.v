(** strfmon: the buffer, the width of a field, the sign of an amount. *)
From Verif Require Import Base Money_Model Money_Spec Money_Proof.
Open Scope Z_scope.

(** whatever the format, locale and amounts are, nothing is written outside the buffer; a result is its characters and a zero byte, inside the buffer *)
Theorem C107_buffer : forall l maxsize f args, 0 <= maxsize ->
  match strfmon l maxsize f args with
  | UB => False | Fuel => False | Abort => True
  | Ok (inl e) => e = 22 \/ e = 7
  | Ok (inr (len, w)) => exists t, w = t ++ [0] /\ len = Z.of_nat (length t) /\ len + 1 <= maxsize
  end.
Proof.
  intros l maxsize f args M. unfold strfmon. destruct (loop_safe l maxsize M (S (length f)) f args [] ltac:(lia)) as [A _].
  assert (ER : forall k f args out e, format_loop k l maxsize f args out = Ok (inl e) -> e = 22 \/ e = 7).
  { clear. induction k as [|k IH]; intros f args out e H; [discriminate|]. cbn [format_loop] in H. destruct f as [|c r]; [discriminate|]. destruct (negb (c =? 37)).
    - destruct (plain (c :: r)) as [a b]. destruct (append maxsize out a) as [[o|]| | |]; cbn [bind] in H; try discriminate; [now apply IH in H|]. injection H as <-. auto.
    - destruct (hd0 r =? 37).
      + destruct (append maxsize out [37]) as [[o|]| | |]; cbn [bind] in H; try discriminate; [now apply IH in H|]. injection H as <-. auto.
      + destruct (parse l r) as [[[o f']|]| | |]; cbn [bind] in H; try discriminate; [|injection H as <-; auto]. destruct (run maxsize out (conv l o (args 0%nat))) as [[o'|]| | |]; cbn [bind] in H; try discriminate; [now apply IH in H|]. injection H as <-. auto. }
  specialize (ER (S (length f)) f args []). destruct (format_loop (S (length f)) l maxsize f args []) as [[e|out]| | |]; try contradiction; cbn [bind]; auto.
  destruct (append_not_ub maxsize out [0] M) as [->|[-> F]]; cbn [bind]; [auto|]. exists out. split; [reflexivity|]. rewrite app_length in *. cbn [length] in *. lia.
Qed.
Print Assumptions C107_buffer.

(** a larger buffer gives the same result, if digits and separators are single characters *)
Theorem C107_size_partial : forall l m m' f args r, 0 <= m <= m' -> (forall i, single (args i)) -> strfmon l m f args = Ok (inr r) -> strfmon l m' f args = Ok (inr r).
Proof.
  intros l m m' f args r M SI H. unfold strfmon in *. destruct (loop_safe l m ltac:(lia) (S (length f)) f args [] ltac:(lia)) as [A _]. destruct (format_loop (S (length f)) l m f args []) as [[e|out]| | |] eqn:E; cbn [bind] in H; try discriminate.
  destruct (append_not_ub m out [0] ltac:(lia)) as [E1|[E1 F]]; rewrite E1 in H; cbn [bind] in H; [discriminate|]. rewrite app_length in F. cbn [length] in F.
  rewrite (loop_size l m m' ltac:(lia) ltac:(lia) (S (length f)) f args [] out ltac:(lia) SI E ltac:(lia)). cbn [bind]. rewrite append_fits by (rewrite app_length; cbn [length]; lia). exact H.
Qed.
Print Assumptions C107_size_partial.

(** otherwise a point of several bytes can be left out without an error: 12.5 becomes 125 in a buffer of six bytes *)
Theorem C107_point_refuted : exists l n, text n 1 true = [[49]; [50]; [226; 128; 164]; [53]] /\
  strfmon l 6 [37; 46; 49; 110] (fun _ => n) = Ok (inr (3, [49; 50; 53; 0])) /\ strfmon l 100 [37; 46; 49; 110] (fun _ => n) = Ok (inr (6, [49; 50; 226; 128; 164; 53; 0])).
Proof.
  exists (loc [43; 0] [45; 0] [226; 128; 164; 0] [] [] 2 2 (lay 1 0 1) (lay 1 0 1) (lay 1 0 1) (lay 1 0 1)), (numb false 12 (fun _ _ => [[49]; [50]; [226; 128; 164]; [53]]) (fun _ => 0)).
  split; [reflexivity|]. split; reflexivity.
Qed.
Print Assumptions C107_point_refuted.

(** text without % is copied; but two bytes more than needed are asked for *)
Theorem C107_plain_partial : forall l m f args, ~ In 37 f -> Z.of_nat (length f) + 3 <= m -> strfmon l m f args = Ok (inr (Z.of_nat (length f), f ++ [0])).
Proof. intros l m f args N M. rewrite plain_format by (auto; lia). destruct (Z.ltb_spec (Z.of_nat (length f) + 2) m); [reflexivity|lia]. Qed.
Print Assumptions C107_plain_partial.
Theorem C107_room_refuted : forall l f args, ~ In 37 f -> strfmon l (Z.of_nat (length f) + 1) f args = Ok (inl 7) /\ strfmon l (Z.of_nat (length f) + 2) f args = Ok (inl 7).
Proof.
  intros l f args N. rewrite !plain_format by (auto; lia). destruct (Z.ltb_spec (Z.of_nat (length f) + 2) (Z.of_nat (length f) + 1)); [lia|]. destruct (Z.ltb_spec (Z.of_nat (length f) + 2) (Z.of_nat (length f) + 2)); [lia|]. auto.
Qed.
Print Assumptions C107_room_refuted.

(** the field: the text of the conversion without a width, filled up to the width: before it with the fill character, or after it with spaces *)
Theorem C107_width_partial : forall l o n w, regular l o -> 0 <= integral n < 4294967296 -> printed n (strip (dec l)) -> 0 <= precision l o ->
  (forall p, lprec o = Some p -> extra n 0 <= extra n p) -> 0 <= w ->
  let t := shown_as l (with_width o None) n in
  exists k, Z.of_nat k = Z.max 0 (w - Z.of_nat (length t)) /\ shown_as l (with_width o (Some w)) n = if left o then t ++ repeat 32 k else repeat (padding o) k ++ t.
Proof. exact width_ok. Qed.
Print Assumptions C107_width_partial.

(** a left precision p puts fill characters directly before the digits, as many as p has digits and separators more *)
Theorem C107_left_partial : forall l o n p k, negative n = true -> 0 <= integral n < 4294967296 -> decimal_digits (integral n) k ->
  exists a b, shown_as l (with_left o None) n = a ++ concat (text n (precision l o) (group o)) ++ b /\
    shown_as l (with_left o (Some p)) n = a ++ repeat (padding o) (Z.to_nat (if k <? p then p - k + (if group o then extra n p - extra n 0 else 0) else 0)) ++ concat (text n (precision l o) (group o)) ++ b.
Proof. exact left_ok. Qed.
Print Assumptions C107_left_partial.

(** and this is what a format with a width gives *)
Theorem C107_field_partial : forall l m ds n, ds <> [] -> (forall d, In d ds -> 48 <= d <= 57) -> value ds < 18446744073709551616 ->
  let t := shown_as l (with_width opts0 (Some (value ds))) n in
  Z.of_nat (length t) + 3 <= m -> strfmon l m (37 :: ds ++ [110]) (fun _ => n) = Ok (inr (Z.of_nat (length t), t ++ [0])).
Proof. exact field_ok. Qed.
Print Assumptions C107_field_partial.

(** a format is its texts, percent signs and conversions one after the other, with the amounts in order *)
Theorem C107_sequence_partial : forall l m s args, proper s -> let t := characters l s args in Z.of_nat (length t) + 3 <= m -> strfmon l m (format_of s) args = Ok (inr (Z.of_nat (length t), t ++ [0])).
Proof. exact sequence_ok. Qed.
Print Assumptions C107_sequence_partial.

(** in the C locale widths up to 255 have no effect *)
Theorem C107_width_refuted : forall n w p, 0 <= w <= 255 -> 0 <= extra n 0 -> 0 <= p < 255 ->
  let o := op true false (Some w) None (Some p) 32 false normal false in shown_as C_locale o n = shown_as C_locale (with_width o None) n.
Proof.
  intros n w p W E P o. assert (Z0 : wfill C_locale o n = 0).
  { unfold wfill. change (width o) with (Some w). change (currency_length C_locale o) with 255. cbv iota. assert (0 <= num_len C_locale o n).
    { unfold num_len, extra_grouping, fractional_length. change (group o) with true. assert (0 <= text_length (integral n)). { unfold text_length. generalize (integral n mod 4294967296). generalize 10%nat. clear. induction n as [|k IH]; intros x; cbn [ndigits]; [lia|]. destruct (x / 10 =? 0); [lia|]. specialize (IH (x / 10)). lia. }
      assert (0 <= sign_length C_locale o n (fst (fst (signs C_locale o))) (snd (fst (signs C_locale o))) (snd (signs C_locale o))). { unfold sign_length. destruct (in_parentheses _ _); [destruct (negative n); [lia|destruct (some (lprec o)); lia]|]. destruct (negb (negative n) && _); [lia|]. destruct (negative n); [lia|]. destruct (some (lprec o)); lia. }
      destruct (Z.ltb_spec 0 (precision C_locale o)); lia. }
    change (lfill o n) with 0. destruct (Z.ltb_spec (255 + num_len C_locale o n + 0) w); [lia|reflexivity]. }
  unfold shown_as, conv. change (left o && some (width o)) with false. change (left (with_width o None) && some (width (with_width o None))) with false. rewrite Z0. reflexivity.
Qed.
Print Assumptions C107_width_refuted.

(** an empty positive sign of a locale file is counted as one character: with + the field is one character short *)
Theorem C107_empty_sign_refuted : exists l o n w, printed n (strip (dec l)) /\ pos_sign l = [0] /\ mode o = force_positive /\ width o = Some w /\ Z.of_nat (length (shown_as l o n)) = w - 1.
Proof.
  exists (loc [0] [45; 0] [46; 0] [36; 0] [85; 83; 68; 32; 0] 2 2 (lay 1 0 1) (lay 1 0 1) (lay 1 0 1) (lay 1 0 1)), (op true false (Some 20) None (Some 0) 32 false force_positive false),
    (numb false 5 (fun p _ => [53] :: if 0 <? p then [46] :: repeat [48] (Z.to_nat p) else []) (fun _ => 0)), 20.
  split; [|repeat split]. exists 1. split; [right; cbn; lia|]. split; [cbn; lia|]. intros p g P. cbn [text extra]. destruct (Z.ltb_spec 0 p).
  - cbn [concat app length]. assert (L : length (concat (repeat [48] (Z.to_nat p))) = Z.to_nat p) by (induction (Z.to_nat p); cbn; congruence). rewrite L. cbn [dec]. change (Z.of_nat (length (strip [46; 0]))) with 1. destruct g; lia.
  - cbn. destruct g; reflexivity.
Qed.
Print Assumptions C107_empty_sign_refuted.

(** a negative amount is shown with the negative sign of the locale, or in parentheses *)
Theorem C107_sign_partial : forall l o n s, regular l o -> negative n = true -> stored (neg_sign l) s ->
  (mode o <> parentheses -> sign_posn (if intf o then ilp l else lp l) <> 0 \/ mode o = force_positive -> exists a b, shown_as l o n = a ++ s ++ b) /\
  (mode o = parentheses -> exists a b c, shown_as l o n = a ++ [40] ++ b ++ [41] ++ c).
Proof. intros l o n s R NN ST. split; [intros; now apply sign_in|intros; now apply parentheses_in]. Qed.
Print Assumptions C107_sign_partial.

(** but not where the sign is at the currency symbol (positions 3 and 4) and this is suppressed: only the digits are left of a negative amount *)
Theorem C107_sign_refuted : forall l o n, suppress o = true -> mode o = normal -> lprec o = None -> width o = None ->
  (let p := sign_posn (if intf o then ilp l else lp l) in p = 3 \/ p = 4) -> shown_as l o n = concat (text n (precision l o) (group o)).
Proof. exact no_sign. Qed.
Print Assumptions C107_sign_refuted.

(** and the layout that a locale has for negative amounts is never used *)
Theorem C107_layout_refuted : forall ps ng d c ic f fi y iy y1 iy1 y2 iy2 o n, shown_as (loc ps ng d c ic f fi y y1 iy iy1) o n = shown_as (loc ps ng d c ic f fi y y2 iy iy2) o n.
Proof. reflexivity. Qed.
Print Assumptions C107_layout_refuted.

(** en_US: "[%*11n]" and "%!n" in nl_NL *)
Definition en_US : locale := loc [0] [45; 0] [46; 0] [36; 0] [85; 83; 68; 32; 0] 2 2 (lay 1 0 1) (lay 1 0 1) (lay 1 1 1) (lay 1 1 1).
Definition amount (neg : bool) : num := numb neg 123 (fun p _ => [49] :: [50] :: [51] :: if 0 <? p then [46] :: repeat [52] (Z.to_nat p) else []) (fun _ => 0).
Example c107_regular : regular en_US (op true false None None None 32 false normal false) /\ printed (amount true) (strip (dec en_US)) /\ single (amount true).
Proof.
  split; [|split].
  - repeat split; try (cbn; lia); [exists [45]|discriminate|exists [36]]; unfold stored; cbn; [|split; [|discriminate]]; (split; [intuition lia|]); right; (split; [reflexivity|discriminate]).
  - exists 3. split; [right; cbn; lia|]. split; [cbn; lia|]. intros p g P. cbn [text extra amount]. destruct (Z.ltb_spec 0 p).
    + cbn [concat app length]. assert (L : length (concat (repeat [52] (Z.to_nat p))) = Z.to_nat p) by (induction (Z.to_nat p); cbn; congruence). rewrite L. change (Z.of_nat (length (strip (dec en_US)))) with 1. destruct g; lia.
    + cbn. destruct g; reflexivity.
  - intros p g s H. cbn in H. destruct H as [<-|[<-|[<-|H]]]; auto. destruct (0 <? p); [|destruct H]. destruct H as [<-|H]; auto. apply repeat_spec in H. subst. auto.
Qed.
Example c107_en : strfmon en_US 100 [91; 37; 49; 49; 110; 93] (fun _ => amount true) = Ok (inr (13, [91; 32; 32; 32; 45; 36; 49; 50; 51; 46; 52; 52; 93; 0])).
Proof. reflexivity. Qed.
Example c107_nl : strfmon (loc [0] [45; 0] [44; 0] [36; 0] [0] 2 2 (lay 1 1 4) (lay 1 1 4) (lay 1 1 4) (lay 1 1 4)) 100 [37; 33; 110] (fun _ => amount true) = Ok (inr (6, [49; 50; 51; 46; 52; 52; 0])).
Proof. reflexivity. Qed.
Example c107_paren : strfmon en_US 100 [37; 40; 35; 53; 110] (fun _ => amount true) = Ok (inr (11, [40; 36; 32; 32; 49; 50; 51; 46; 52; 52; 41; 0])).
Proof. reflexivity. Qed.
(** "a%%%n %12n" *)
Example c107_sequence : proper [Txt [97]; Pct; Field []; Txt [32]; Field [49; 50]] /\ format_of [Txt [97]; Pct; Field []; Txt [32]; Field [49; 50]] = [97; 37; 37; 37; 110; 32; 37; 49; 50; 110].
Proof. split; [|reflexivity]. cbn. repeat split; try discriminate; try lia; intuition lia. Qed.
Example c107_left : decimal_digits (integral (amount true)) 3 /\ strfmon en_US 100 [37; 61; 42; 35; 53; 110] (fun _ => amount true) = Ok (inr (10, [45; 36; 42; 42; 49; 50; 51; 46; 52; 52; 0])).
Proof. split; [right; cbn; lia|reflexivity]. Qed.
