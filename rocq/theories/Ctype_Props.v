(** C78: character classification and case mapping *)
From Verif Require Import Base Ctype_Model Ctype_Spec Ctype_Proof.
From Coq Require Import Lia.
Open Scope Z_scope.

(** In the C locale isalpha and its eleven siblings accept exactly the characters ISO C lists, for EOF and every value of
    an unsigned char. *)
Theorem C78_narrow : forall k c,
  c = -1 \/ 0 <= c <= 255 ->
  exists b, isclass c_locale k c = Ok b /\ (b = true <-> in_class k c).
Proof.
  intros k c [->|H].
  - exists false. split. apply narrow_eof. split; [discriminate|].
    destruct k; unfold in_class, between; cbv zeta; lia.
  - exists (inb k c). split. apply narrow_ok; lia. apply inb_ok.
Qed.

(** The wide versions, for every wint_t including WEOF *)
Theorem C78_wide : forall k wc,
  0 <= wc < 2 ^ 32 ->
  exists b, iswclass c_locale k wc = Ok b /\ (b = true <-> in_class k wc).
Proof. intros k wc H. exists (inb k wc). split. apply wide_ok; lia. apply inb_ok. Qed.

(** iswctype(wc, wctype(name)) is the same test; every other name gives 0 *)
Theorem C78_wctype :
  (forall k, wctype c_locale (class_name k) <> 0) /\
  (forall k wc, 0 <= wc < 2 ^ 32 ->
     exists b, iswctype c_locale wc (wctype c_locale (class_name k)) = Ok b /\ (b = true <-> in_class k wc)) /\
  (forall name, (forall k, name <> class_name k) -> wctype c_locale name = 0) /\
  (forall wc, iswctype c_locale wc 0 = Ok false).
Proof.
  split; [intros k; rewrite wctype_ok; destruct k; cbn; lia|].
  split; [intros k wc H; rewrite wctype_ok; exists (inb k wc); split; [apply table_ok; lia|apply inb_ok]|].
  split. apply wctype_none. reflexivity.
Qed.

(** tolower and toupper, for EOF and every unsigned char; the wide versions for every wint_t *)
Theorem C78_case :
  (forall c, c = -1 \/ 0 <= c <= 255 ->
     tolower c_locale c = Ok (lower_of c) /\ toupper c_locale c = Ok (upper_of c)) /\
  (forall wc, 0 <= wc < 2 ^ 32 ->
     towlower c_locale wc = Ok (lower_of wc) /\ towupper c_locale wc = Ok (upper_of wc)).
Proof.
  split; intros c H; split; auto using tolower_ok, toupper_ok, towlower_ok, towupper_ok.
  - apply tolower_ok; lia. - apply toupper_ok; lia. - apply towlower_ok; lia. - apply towupper_ok; lia.
Qed.

(** an argument that is no character at all comes back unchanged, in every locale, without a table access *)
Theorem C78_case_other : forall l c, c < -128 \/ 255 < c -> tolower l c = Ok c /\ toupper l c = Ok c.
Proof. intros l c H. unfold tolower, toupper. replace ((-128 <=? c) && (c <? 256)) with false by lia. split; reflexivity. Qed.
Print Assumptions C78_case_other.

(** In a UTF-8 locale, whatever its tables, a byte that is part of a multibyte character has no class. *)
Theorem C78_utf8 : forall l k c,
  l_ascii l = false -> 128 <= c <= 255 -> isclass l k c = Ok false.
Proof.
  intros l k c L H. unfold isclass. rewrite L, Z.mod_small by lia. rewrite promote_utf8 by lia.
  now rewrite (proj2 (Z.leb_gt c 127)) by lia.
Qed.

(** isascii tells the 7-bit values among the unsigned chars, in every locale.  Missing: it is defined for every int. *)
Theorem C78_isascii_partial : forall l c,
  0 <= c <= 255 -> (isascii l c = true <-> c <= 127).
Proof. intros l c H. rewrite isascii_ok by lia. apply Z.leb_le. Qed.

(** isascii(0x141) is true: the argument is cut to a char *)
Theorem C78_isascii_refuted : forall l, exists c, 0 <= c < 2 ^ 31 /\ c > 127 /\ isascii l c = true.
Proof.
  intros l. exists 321. repeat split; try lia.
Qed.

(** non-vacuity *)
Example C78_ex :
  isclass c_locale Alpha 65 = Ok true /\ isclass c_locale Punct 95 = Ok true /\ isclass c_locale Space 160 = Ok false /\
  iswclass c_locale Lower 4294967295 = Ok false /\ towupper c_locale 122 = Ok 90 /\ towlower c_locale 955 = Ok 955 /\
  isclass c_locale Graph 32 = Ok false /\ in_class Punct 95 /\ ~ in_class Alnum 95.
Proof. repeat split; try (vm_compute; reflexivity); cbv; intuition discriminate. Qed.

Print Assumptions C78_narrow.
Print Assumptions C78_wide.
Print Assumptions C78_wctype.
Print Assumptions C78_case.
Print Assumptions C78_utf8.
Print Assumptions C78_isascii_partial.
Print Assumptions C78_isascii_refuted.
