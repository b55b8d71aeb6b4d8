(** Proofs about the classification functions of the C locale *)
From Coq Require Import Lia.
From Verif Require Import Base Ctype_Model Ctype_Spec.
Open Scope Z_scope.

(** a decidable version of the specification, used to check the finite part by computation *)
Definition inb (k : cls) (c : Z) : bool :=
  let bt a b := (a <=? c) && (c <=? b) in
  match k with
  | Upper => bt 65 90
  | Lower => bt 97 122
  | Alpha => bt 65 90 || bt 97 122
  | Digit => bt 48 57
  | Alnum => bt 65 90 || bt 97 122 || bt 48 57
  | Xdigit => bt 48 57 || bt 65 70 || bt 97 102
  | Space => (c =? 32) || bt 9 13
  | Blank => (c =? 32) || (c =? 9)
  | Print => bt 32 126
  | Graph => bt 33 126
  | Punct => bt 33 126 && negb (bt 65 90 || bt 97 122 || bt 48 57)
  | Cntrl => bt 0 31 || (c =? 127)
  end.

Lemma inb_ok : forall k c, inb k c = true <-> in_class k c.
Proof.
  intros k c; destruct k; unfold inb, in_class, between; cbv zeta;
  repeat rewrite ?Bool.orb_true_iff, ?Bool.andb_true_iff, ?Bool.negb_true_iff, ?Bool.orb_false_iff, ?Bool.andb_false_iff,
    ?Z.leb_le, ?Z.eqb_eq, ?Z.leb_gt; lia.
Qed.

Definition all_cls : list cls := [Upper; Lower; Alpha; Digit; Xdigit; Space; Print; Graph; Blank; Cntrl; Punct; Alnum].

Lemma all_cls_in : forall k, In k all_cls.
Proof. intros []; cbn; auto 20. Qed.

(** 0 .. n-1 *)
Definition upto (n : nat) : list Z := map Z.of_nat (seq 0 n).

Lemma upto_in : forall n c, 0 <= c < Z.of_nat n -> In c (upto n).
Proof.
  intros n c H. unfold upto. apply in_map_iff. exists (Z.to_nat c). split. lia. apply in_seq. lia.
Qed.

Definition is_okb (r : res bool) (b : bool) : bool := match r with Ok v => Bool.eqb v b | _ => false end.
Definition is_okz (r : res Z) (b : Z) : bool := match r with Ok v => Z.eqb v b | _ => false end.

Lemma is_okb_ok : forall r b, is_okb r b = true -> r = Ok b.
Proof. intros [v| | |] b H; cbn in H; try discriminate. apply Bool.eqb_prop in H. now subst. Qed.
Lemma is_okz_ok : forall r b, is_okz r b = true -> r = Ok b.
Proof. intros [v| | |] b H; cbn in H; try discriminate. apply Z.eqb_eq in H. now subst. Qed.

Lemma narrow_all : forallb (fun k => forallb (fun c => is_okb (isclass c_locale k c) (inb k c)) (upto 256)) all_cls = true.
Proof. vm_compute. reflexivity. Qed.

Lemma wide_all : forallb (fun k => forallb (fun c => is_okb (iswclass c_locale k c) (inb k c)) (upto 128)) all_cls = true.
Proof. vm_compute. reflexivity. Qed.

Lemma table_all : forallb (fun k => forallb (fun c => is_okb (iswctype c_locale c (72 + cls_no k)) (inb k c)) (upto 128)) all_cls = true.
Proof. vm_compute. reflexivity. Qed.

Lemma two : forall (P : cls -> Z -> bool) n,
  forallb (fun k => forallb (fun c => P k c) (upto n)) all_cls = true ->
  forall k c, 0 <= c < Z.of_nat n -> P k c = true.
Proof.
  intros P n H k c Hc. rewrite forallb_forall in H. specialize (H k (all_cls_in k)). cbv beta in H.
  rewrite forallb_forall in H. apply H. apply upto_in; auto.
Qed.

Lemma narrow_ok : forall k c, 0 <= c < 256 -> isclass c_locale k c = Ok (inb k c).
Proof.
  intros k c H. apply is_okb_ok. apply (two (fun k c => is_okb (isclass c_locale k c) (inb k c)) 256 narrow_all). lia.
Qed.

Lemma narrow_eof : forall k, isclass c_locale k (-1) = Ok false.
Proof. intros []; vm_compute; reflexivity. Qed.

Lemma shift_ge : forall wc, 128 <= wc -> (Z.shiftr wc 7 <? 1) = false /\ (Z.shiftr wc 6 <? 1) = false.
Proof.
  intros wc H. rewrite !Z.shiftr_div_pow2 by lia. change (2 ^ 7) with 128. change (2 ^ 6) with 64.
  split; apply Z.ltb_ge; apply Z.div_le_lower_bound; lia.
Qed.

Lemma look_out : forall s b rest wc, (Z.shiftr wc s <? b) = false -> wctype_lookup (s :: b :: rest) wc = Ok 0.
Proof.
  intros s b rest wc H. unfold wctype_lookup. change (at_ (s :: b :: rest) 0) with (Ok s). cbn [bind].
  change (at_ (s :: b :: rest) 1) with (Ok b). cbn [bind]. now rewrite H.
Qed.

Lemma trans_out : forall s b rest wc, (Z.shiftr wc s <? b) = false -> wctrans_lookup (s :: b :: rest) wc = Ok wc.
Proof.
  intros s b rest wc H. unfold wctrans_lookup. change (at_ (s :: b :: rest) 0) with (Ok s). cbn [bind].
  change (at_ (s :: b :: rest) 1) with (Ok b). cbn [bind]. now rewrite H.
Qed.

Lemma look_high : forall k wc, 128 <= wc -> wctype_lookup (c_table (72 + cls_no k)) wc = Ok 0.
Proof.
  intros k wc H. destruct (shift_ge wc H) as [A B].
  destruct k; cbn [cls_no];
  match goal with |- context [c_table ?i] => let t := eval vm_compute in (c_table i) in change (c_table i) with t end;
  apply look_out; assumption.
Qed.

Lemma inb_high : forall k wc, 128 <= wc -> inb k wc = false.
Proof.
  intros k wc H. destruct (inb k wc) eqn:E; auto. apply inb_ok in E.
  destruct k; unfold in_class, between in E; cbv zeta in E; lia.
Qed.

Lemma wide_ok : forall k wc, 0 <= wc -> iswclass c_locale k wc = Ok (inb k wc).
Proof.
  intros k wc H. destruct (Z_lt_ge_dec wc 128) as [L|L].
  - apply is_okb_ok. apply (two (fun k c => is_okb (iswclass c_locale k c) (inb k c)) 128 wide_all). lia.
  - rewrite inb_high by lia. unfold iswclass, is_class, class_check. rewrite (proj2 (Z.leb_gt wc 127)) by lia.
    cbn [l_table l_class_off c_locale]. rewrite look_high by lia. reflexivity.
Qed.

Lemma table_ok : forall k wc, 0 <= wc -> iswctype c_locale wc (72 + cls_no k) = Ok (inb k wc).
Proof.
  intros k wc H. destruct (Z_lt_ge_dec wc 128) as [L|L].
  - apply is_okb_ok. apply (two (fun k c => is_okb (iswctype c_locale c (72 + cls_no k)) (inb k c)) 128 table_all). lia.
  - rewrite inb_high by lia. unfold iswctype. cbn [l_table c_locale]. rewrite look_high by lia.
    destruct ((72 + cls_no k =? 0) || (wc =? 4294967295)); reflexivity.
Qed.

Lemma wctype_ok : forall k, wctype c_locale (class_name k) = 72 + cls_no k.
Proof. intros []; vm_compute; reflexivity. Qed.

Lemma wctype_from_none : forall names off i n, ~ In n names -> wctype_from names off i n = 0.
Proof.
  induction names as [|a ns IH]; intros off i n H; cbn; auto.
  destruct (list_eq_dec Z.eq_dec n a) as [->|]. cbn in H; tauto. apply IH. cbn in H; tauto.
Qed.

Lemma wctype_none : forall n, (forall k, n <> class_name k) -> wctype c_locale n = 0.
Proof.
  intros n H. unfold wctype. apply wctype_from_none. cbn [l_names c_locale]. unfold c_names. intro I.
  cbn [In] in I. pose proof (H Upper). pose proof (H Lower). pose proof (H Alpha). pose proof (H Digit).
  pose proof (H Xdigit). pose proof (H Space). pose proof (H Print). pose proof (H Graph). pose proof (H Blank).
  pose proof (H Cntrl). pose proof (H Punct). pose proof (H Alnum). unfold class_name in *.
  repeat destruct I as [I|I]; congruence.
Qed.

(** case mapping *)
Lemma lower_all : forallb (fun c => is_okz (tolower c_locale c) (lower_of c)) (upto 256) = true.
Proof. vm_compute. reflexivity. Qed.
Lemma upper_all : forallb (fun c => is_okz (toupper c_locale c) (upper_of c)) (upto 256) = true.
Proof. vm_compute. reflexivity. Qed.
Lemma wlower_all : forallb (fun c => is_okz (towlower c_locale c) (lower_of c)) (upto 128) = true.
Proof. vm_compute. reflexivity. Qed.
Lemma wupper_all : forallb (fun c => is_okz (towupper c_locale c) (upper_of c)) (upto 128) = true.
Proof. vm_compute. reflexivity. Qed.

Lemma one : forall (P : Z -> bool) n,
  forallb (fun c => P c) (upto n) = true -> forall c, 0 <= c < Z.of_nat n -> P c = true.
Proof. intros P n H c Hc. rewrite forallb_forall in H. apply H. apply upto_in; auto. Qed.

Lemma tolower_ok : forall c, c = -1 \/ 0 <= c < 256 -> tolower c_locale c = Ok (lower_of c).
Proof.
  intros c [->|H]. vm_compute; reflexivity.
  apply is_okz_ok. apply (one (fun c => is_okz (tolower c_locale c) (lower_of c)) 256 lower_all). lia.
Qed.
Lemma toupper_ok : forall c, c = -1 \/ 0 <= c < 256 -> toupper c_locale c = Ok (upper_of c).
Proof.
  intros c [->|H]. vm_compute; reflexivity.
  apply is_okz_ok. apply (one (fun c => is_okz (toupper c_locale c) (upper_of c)) 256 upper_all). lia.
Qed.

Lemma trans_high : forall i wc, i = 84 \/ i = 85 -> 128 <= wc -> wctrans_lookup (c_table i) wc = Ok wc.
Proof.
  intros i wc Hi H. destruct (shift_ge wc H) as [A B].
  destruct Hi as [->| ->];
  match goal with |- context [c_table ?i] => let t := eval vm_compute in (c_table i) in change (c_table i) with t end;
  apply trans_out; assumption.
Qed.

Lemma towlower_ok : forall wc, 0 <= wc -> towlower c_locale wc = Ok (lower_of wc).
Proof.
  intros wc H. destruct (Z_lt_ge_dec wc 128) as [L|L].
  - apply is_okz_ok. apply (one (fun c => is_okz (towlower c_locale c) (lower_of c)) 128 wlower_all). lia.
  - unfold towlower. cbn [l_table l_map_off c_locale]. rewrite trans_high by (auto; lia).
    unfold lower_of. rewrite (proj2 (Z.leb_gt wc 90)) by lia. now rewrite Bool.andb_false_r.
Qed.
Lemma towupper_ok : forall wc, 0 <= wc -> towupper c_locale wc = Ok (upper_of wc).
Proof.
  intros wc H. destruct (Z_lt_ge_dec wc 128) as [L|L].
  - apply is_okz_ok. apply (one (fun c => is_okz (towupper c_locale c) (upper_of c)) 128 wupper_all). lia.
  - unfold towupper. cbn [l_table l_map_off c_locale]. rewrite trans_high by (auto; lia).
    unfold upper_of. rewrite (proj2 (Z.leb_gt wc 122)) by lia. now rewrite Bool.andb_false_r.
Qed.

(** the narrow functions in any UTF-8 locale *)
Lemma promote_utf8_all : forallb (fun c => match promote false c with None => 128 <=? c | Some cp => (c <=? 127) && (cp =? c) end) (upto 256) = true.
Proof. vm_compute. reflexivity. Qed.

Lemma promote_utf8 : forall c, 0 <= c < 256 -> promote false c = if c <=? 127 then Some c else None.
Proof.
  intros c H.
  pose proof (one (fun c => match promote false c with None => 128 <=? c | Some cp => (c <=? 127) && (cp =? c) end) 256 promote_utf8_all c ltac:(lia)) as P.
  cbv beta in P. destruct (promote false c) as [cp|].
  - apply Bool.andb_true_iff in P. destruct P as [P Q]. apply Z.eqb_eq in Q. rewrite P. now subst.
  - apply Z.leb_le in P. now rewrite (proj2 (Z.leb_gt c 127)) by lia.
Qed.

Lemma isascii_ok : forall l c, 0 <= c < 256 -> isascii l c = (c <=? 127).
Proof.
  intros l c H. unfold isascii. rewrite Z.mod_small by lia. destruct (l_ascii l).
  - unfold promote. destruct (c <=? 127) eqn:E; rewrite E; reflexivity.
  - rewrite promote_utf8 by lia. destruct (c <=? 127) eqn:E; auto.
Qed.
