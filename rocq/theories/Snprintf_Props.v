(** Properties C41 and C51: formatted output to memory. *)
From Verif Require Import Base Mem_Model Mem_Proof Str_Model Str_Spec Str_Proof Snprintf_Model Snprintf_Spec Snprintf_Proof Check.
Open Scope Z_scope.

(** Whatever pieces (characters and narrow strings) the formatter appends: snprintf writes exactly the first size-1
    bytes of the whole output followed by a NUL, nothing if size is 0, nothing outside the buffer, and returns the
    length of the whole output.  Missing: %ls with a limit inside a character (refuted below). *)
Theorem C41_snprintf_partial : forall m buf size ps ts, mapped m buf size -> Forall2 (piece_text m buf size) ps ts ->
  exists m', vsnprintf m buf size ps = Ok (m', length (concat ts)) /\ written m m' buf (truncated size (concat ts)).
Proof. exact vsnprintf_ok. Qed.
Print Assumptions C41_snprintf_partial.

(** snprintf(buf, 3, "%ls", L"€"): the three-byte character does not fit the two bytes available; the byte counter
    still advances by three, so the terminator is stored at buf[2] and buf[0], buf[1] keep their old contents *)
Theorem C41_wide_refuted : exists m buf chars m' n, vsnprintf_wide m buf 3 chars 100 = Ok (m', n) /\
  m buf = Some 7 /\ m' buf = Some 7 /\ m' (buf + 1) = Some 7 /\ m' (buf + 2) = Some 0 /\ nth_error (concat chars) 0 = Some 226.
Proof.
  exists (mem_of 10 [7;7;7;7]), 10, [[226;130;172]]. do 2 eexists. split; [vm_compute; reflexivity|]. repeat split.
Qed.
Print Assumptions C41_wide_refuted.

(** "a" then "bcd" (cut to 2 by src_max) then "xyz" into 5 bytes *)
Example C41_ex : exists m', vsnprintf (munion (mem_of 10 [7;7;7;7;7;7]) (munion (mem_of 50 [98;99;100;0]) (mem_of 60 [120;121;122;0]))) 10 5
    [PChar 97; PStr 50 2 100; PStr 60 9 100] = Ok (m', 6%nat) /\
  map m' [10;11;12;13;14;15] = [Some 97; Some 98; Some 99; Some 120; Some 0; Some 7].
Proof. eexists. split; [vm_compute; reflexivity|]. vm_compute. reflexivity. Qed.
Example C41_hyps : exists ts, Forall2 (piece_text (munion (mem_of 10 [7;7;7;7;7;7]) (mem_of 50 [98;99;100;0])) 10 5) [PChar 97; PStr 50 2 100] ts /\ concat ts = [97;98;99].
Proof.
  exists [[97]; firstn 2 [98;99;100]]. split; [|reflexivity]. repeat constructor; try (cbn; lia); try (unfold disjoint; cbn; lia).
  intros i Hi. cbn in Hi. do 4 (destruct i as [|i]; [reflexivity|]). lia.
Qed.

(** C51: asprintf stores the whole output and its terminator in the block it returns, and returns the length *)
Theorem C51_asprintf : forall junk cs, exists tail, vasprintf junk cs = Ok (cs ++ 0 :: tail, length cs).
Proof. exact vasprintf_ok. Qed.
Print Assumptions C51_asprintf.
Example C51_ex : exists b, vasprintf (fun _ => 255) (repeat 65 20) = Ok (b, 20%nat) /\ length b = 32%nat.
Proof. eexists. split; [vm_compute; reflexivity|]. reflexivity. Qed.
