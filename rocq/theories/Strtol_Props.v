(** Property C12: strtol, strtoll, strtoul, strtoull (and strtoimax/strtoumax). *)
From Verif Require Import Base Strtol_Model Strtol_Spec Strtol_Proof Check.
Open Scope Z_scope.

(** isspace of the C locale *)
Definition c_isspace (c : Z) : bool := (c =? 32) || ((9 <=? c) && (c <=? 13)).

(** For every string, base, result width, signedness and locale [isspace], the call returns the value, end pointer
    and ERANGE indication that C prescribes.  Missing: texts starting with 0b or 0B not followed by a
    binary digit in base 0 or 2, where the code differs (refuted below). *)
Theorem C12_strtol_partial : forall isspace w sg fuel m nptr s base,
  isspace 0 = false -> 8 <= w -> (base = 0 \/ 2 <= base <= 36) ->
  str_at m nptr s -> (length s < fuel)%nat ->
  (base = 0 \/ base = 2 -> dangling_bin isspace s = false) ->
  string_to_integer isspace w sg fuel m nptr base = Ok (strto_result w sg nptr (subject isspace base s)).
Proof. exact strtol_ok. Qed.

(** strtol("0b", &end, 0) leaves end at the start of the string; the subject sequence "0" should be consumed *)
Theorem C12_strtol_refuted : exists m nptr s r,
  str_at m nptr s /\ string_to_integer c_isspace 64 true 9 m nptr 0 = Ok r /\
  r <> strto_result 64 true nptr (subject c_isspace 0 s).
Proof.
  exists (mem_of 10 [48;98;0]), 10, [48;98], (0, 10, false). chks. vm_compute. discriminate.
Qed.

(** "  -0x7fZ" in base 0: value -127, seven characters consumed *)
Example C12_hyps : str_at (mem_of 10 [32;32;45;48;120;55;102;90;0]) 10 [32;32;45;48;120;55;102;90] /\
  c_isspace 0 = false /\ dangling_bin c_isspace [32;32;45;48;120;55;102;90] = false /\
  subject c_isspace 0 [32;32;45;48;120;55;102;90] = Some (true, 127, 7%nat) /\
  string_to_integer c_isspace 64 true 20 (mem_of 10 [32;32;45;48;120;55;102;90;0]) 10 0 = Ok (-127, 17, false).
Proof. chks. Qed.
Example C12_sat : strto_result 32 true 0 (subject c_isspace 10 [50;49;52;55;52;56;51;54;52;56]) = (2147483647, 10, true)
  /\ strto_result 32 true 0 (subject c_isspace 10 [45;50;49;52;55;52;56;51;54;52;56]) = (-2147483648, 11, false)
  /\ strto_result 32 false 0 (subject c_isspace 10 [45;49]) = (4294967295, 2, false).
Proof. split; [|split]; vm_compute; reflexivity. Qed.

Print Assumptions C12_strtol_partial.
