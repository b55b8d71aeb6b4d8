(** C72: sscanf matches its input by the directives of the format, one after the other. *)
From Verif Require Import Base Scanf_Model Scanf_Spec Scanf_Proof.
Open Scope Z_scope.

(** Full statement: for every format and every input sscanf returns the number of assignments (EOF if the input
    ends before the first) and stores what the directives match.  Proved: for formats of white space, ordinary
    characters, %%, %d %i %o %x with hh, h, ll or no modifier, %s, %c and %[...] with or without a width, all of
    them also with '*' (then without a width), and %n; for ASCII inputs.  Missing (false, see below): a
    width of %d, a width after '*', bytes above 127, '-' in the input for %[a-z], white space in front of '%'. *)
Theorem C72_sscanf_partial : forall ds inp ret outs,
  ok_format ds -> ascii inp ->
  (existsb no_dash ds = true -> ~ In 45 inp) ->
  (bare_percent false ds = true -> Forall (fun c => ~ space c) inp) ->
  scans ds 0 inp 0 ret outs ->
  sscanf inp (format ds) = Ok (ret, outs).
Proof. exact sscanf_ok. Qed.
Print Assumptions C72_sscanf_partial.

(** and every input is matched in some way, so that sscanf always returns *)
Theorem C72_sscanf_total : forall ds inp, ok_format ds -> exists ret outs, scans ds 0 inp 0 ret outs.
Proof. intros. apply scans_total. assumption. Qed.
Print Assumptions C72_sscanf_total.

(** "%d %2s%n" of "-12 abc": -12, "ab" and 6 *)
Definition fmt : list directive := [Int Dec TInt true; Space [32]; Word [50] true; Count TInt].
Example C72_case : ok_format fmt /\ ascii [45; 49; 50; 32; 97; 98; 99] /\
  existsb no_dash fmt = false /\ bare_percent false fmt = false /\
  scans fmt 0 [45; 49; 50; 32; 97; 98; 99] 0 2 [SInt TInt (2 ^ 32 - 12); SBytes [97; 98; 0]; SInt TInt 6] /\
  format fmt = [37; 100; 32; 37; 50; 115; 37; 110].
Proof.
  assert (Hd : number 10 [49; 50] 12).
  { change [49; 50] with (([] ++ [49]) ++ [50]). change 12 with ((0 * 10 + 1) * 10 + 2).
    repeat apply number_snoc; [constructor | |]; unfold digit_value; lia. }
  split.
  { cbn. unfold ok_width. repeat split; try discriminate; repeat apply Forall_cons; try apply Forall_nil; unfold space; cbn; lia. }
  split; [repeat apply Forall_cons; try apply Forall_nil; lia|].
  split; [reflexivity|]. split; [reflexivity|]. split; [|reflexivity].
  apply (sc_go _ _ _ [45; 49; 50] [32; 97; 98; 99] _ (Some (SInt TInt (2 ^ 32 - 12)))).
  { apply (st_int Dec TInt true 0 [] [45] (-1) [49; 50] [32; 97; 98; 99] 12).
    - split; [constructor|]. intros c r E. injection E as <- _. unfold space. lia.
    - constructor.
    - constructor; [exact Hd | discriminate|]. intros c r v E. injection E as <- _. unfold digit_value. lia. }
  apply (sc_go _ _ _ [32] [97; 98; 99] _ None).
  { apply (st_space [32] _ [32] [97; 98; 99]). split; [repeat constructor; unfold space; lia|].
    intros c r E. injection E as <- _. unfold space. lia. }
  apply (sc_go _ _ _ [97; 98] [99] _ (Some (SBytes [97; 98; 0]))).
  { apply (st_word [50] true _ [] [97; 98] [99]).
    - split; [constructor|]. intros c r E. injection E as <- _. unfold space. lia.
    - discriminate.
    - split; [repeat apply Forall_cons; try apply Forall_nil; unfold space; lia|]. right. split; [reflexivity|]. right. reflexivity. }
  apply (sc_go _ _ _ [] [99] _ (Some (SInt TInt 6))); [|constructor].
  apply (st_count TInt 6).
Qed.

(** "%[a-c]" of "abx": "ab"; "%i" of "0x" fails; an input of white space ends "%s" *)
Example C72_set : scans [Set_ false [Range 97 99] false [] true] 0 [97; 98; 120] 0 1 [SBytes [97; 98; 0]].
Proof.
  apply (sc_go _ _ _ [97; 98] [120] _ (Some (SBytes [97; 98; 0]))); [|constructor].
  apply (st_set false [Range 97 99] false [] true 0 [97; 98] [120]); [discriminate|]. split.
  - repeat apply Forall_cons; try apply Forall_nil; left; exists (Range 97 99); (split; [left; reflexivity | lia]).
  - left. split; [reflexivity|]. intros c r E. injection E as <- _. intros [(i & [<-|[]] & K)|[K _]]; [lia | discriminate].
Qed.
Example C72_fails : scans [Int Auto TInt true] 0 [48; 120] 0 0 [] /\ scans [Word [] true] 0 [32; 10] 0 (-1) [].
Proof.
  split.
  - apply sc_mismatch. apply (st_int_bad Auto TInt true 0 [] [] 1 [48; 120]).
    + split; [constructor|]. intros c r E. injection E as <- _. unfold space. lia.
    + discriminate.
    + constructor.
    + intros _ c r E. injection E as <- _. cbn. lia.
    + right. left. exists 120, []. split; [reflexivity|]. split; [left; reflexivity | intros c r v E; discriminate].
  - apply (sc_end (Word [] true) [] 0 [32; 10] 0). constructor. repeat apply Forall_cons; try apply Forall_nil; unfold space; lia.
Qed.

(** ** What is false of the code *)

(** "%2d" reads at most two characters: of "123" it has to store 12.  The code stores 123 *)
Theorem C72_width_refuted : sscanf [49; 50; 51] [37; 50; 100] = Ok (1, [SInt TInt 123]).
Proof. reflexivity. Qed.
Print Assumptions C72_width_refuted.

(** "%*2s%s" has to skip "ab" of "abc" and to store "c".  The code takes "2s" as ordinary characters behind a
    conversion "%*2": nothing is stored *)
Theorem C72_suppressed_width_refuted : sscanf [97; 98; 99] [37; 42; 50; 115; 37; 115] = Ok (0, []).
Proof. reflexivity. Qed.
Print Assumptions C72_suppressed_width_refuted.

(** "%s" and "%c" have to take every byte; the code aborts the process on any byte above 127 *)
Theorem C72_bytes_refuted : forall b rest, 128 <= b < 256 ->
  sscanf (b :: rest) [37; 115] = Abort /\ sscanf (b :: rest) [37; 99] = Abort.
Proof.
  intros b rest H.
  assert (Hs : is_space b = false) by (unfold is_space; lia).
  assert (Ha : append (signed b) = Abort).
  { unfold append, signed. destruct (Z.ltb_spec b 128); [lia|].
    replace ((b - 256) mod 2 ^ 32) with (b - 256 + 2 ^ 32) by (symmetry; rewrite <- (Z.mod_add _ 1) by lia; apply Z.mod_small; lia).
    unfold enc_bytes. repeat (match goal with |- context [Z.leb ?x ?y] => destruct (Z.leb_spec x y); [lia|] end). reflexivity. }
  assert (Hw : ok_width []) by (split; [constructor | discriminate]).
  split; unfold sscanf; cbn [length].
  - rewrite (scan_width 2 true [] 115 []) by (auto; cbn; auto). change (is_conv 115) with true. cbv iota.
    cbn [skip_space]. rewrite Hs. unfold convert. cbn -[conv_str]. unfold conv_str. cbn [word]. rewrite Hs, Ha. reflexivity.
  - rewrite (scan_width 2 true [] 99 []) by (auto; cbn; auto). change (is_conv 99) with false. cbv iota.
    unfold convert. cbn -[conv_chr]. unfold conv_chr. cbn [chars].
    change (if decimal [] =? 0 then 1 else decimal []) with 1. change (1 <=? Z.of_nat (length (@nil Z))) with false. cbv iota. rewrite Ha. reflexivity.
Qed.
Print Assumptions C72_bytes_refuted.

(** "%[a-z]" must not take '-'; the code does *)
Theorem C72_dash_refuted : sscanf [45] [37; 91; 97; 45; 122; 93] = Ok (1, [SBytes [45; 0]]) /\
  ~ member false [Range 97 122] false 45.
Proof.
  split; [reflexivity|]. intros [(i & [<-|[]] & K)|[K _]]; [lia | discriminate].
Qed.
Print Assumptions C72_dash_refuted.

(** an input that ends within a multibyte character: "%[^x]" reads behind its terminator *)
Theorem C72_truncated_refuted : sscanf [195] [37; 91; 94; 120; 93] = UB.
Proof. reflexivity. Qed.
Print Assumptions C72_truncated_refuted.

(** "%%" has to skip white space: "%d%%%n" of "5 %" has to store 5 and 3.  The code stops at the blank *)
Theorem C72_percent_refuted : sscanf [53; 32; 37] [37; 100; 37; 37; 37; 110] = Ok (1, [SInt TInt 5]).
Proof. reflexivity. Qed.
Print Assumptions C72_percent_refuted.
