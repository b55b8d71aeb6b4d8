(** C76: the vector versions of strcmp. *)
From Verif Require Import Base Check Str_Spec Str_Proof StrSearch_Proof Vstrcmp_Model Vstrcmp_Spec Vstrcmp_Proof.
Open Scope Z_scope.

(** for strings of any length at any addresses, nothing but the pages the strings are on is read, and the result has the sign of the
    comparison *)
Theorem C76_sse2 : forall fuel m p q a b, paged m -> str_at m p a -> str_at m q b -> (length a < fuel)%nat ->
  exists r, strcmp_sse2 fuel m p q = Ok r /\ (r ?= 0) = lex a b.
Proof. intros. apply vloop_ok; try assumption; [apply turn_mask_ok|lia|lia|discriminate]. Qed.
Theorem C76_sse4_2 : forall fuel m p q a b, paged m -> str_at m p a -> str_at m q b -> (length a < fuel)%nat ->
  exists r, strcmp_sse4_2 fuel m p q = Ok r /\ (r ?= 0) = lex a b.
Proof. intros. apply vloop_ok; try assumption; [apply turn_istr_ok|lia|lia|discriminate]. Qed.
Theorem C76_avx2 : forall fuel m p q a b, paged m -> str_at m p a -> str_at m q b -> (length a < fuel)%nat ->
  exists r, strcmp_avx2 fuel m p q = Ok r /\ (r ?= 0) = lex a b.
Proof. intros. apply vloop_ok; try assumption; [apply turn_mask_ok|lia|lia|discriminate]. Qed.

(** on any processor, the resolver picks a variant the processor can execute and that compares strings; with AVX2 enabled, that one *)
Theorem C76_resolve : forall c, exists v, resolve c = Ok v /\ executable c v /\ (executable c Avx2 -> v = Avx2) /\
  forall fuel m p q a b, paged m -> str_at m p a -> str_at m q b -> (length a < fuel)%nat ->
    exists r, run v fuel m p q = Ok r /\ (r ?= 0) = lex a b.
Proof.
  intros c. destruct (resolve_ok c) as (v & E & X & A). exists v. split; [exact E|]. split; [exact X|]. split; [exact A|].
  intros fuel m p q a b HP Ha Hb F.
  destruct v; [now apply strcmp_ok|now apply C76_sse2|now apply C76_sse4_2|now apply C76_avx2].
Qed.

Print Assumptions C76_sse2.
Print Assumptions C76_sse4_2.
Print Assumptions C76_avx2.
Print Assumptions C76_resolve.

(** one page is mapped: two strings of 20 bytes, one of them at the end of the page *)
Definition ex_s (d : Z) : list Z := repeat 97 19 ++ [d].
Definition ex_mem (a : Z) : option Z :=
  if (4096 <=? a) && (a <? 8192) then
    Some (if (4100 <=? a) && (a <? 4120) then nth (Z.to_nat (a - 4100)) (ex_s 200) 0
          else if (8171 <=? a) && (a <? 8191) then nth (Z.to_nat (a - 8171)) (ex_s 100) 0 else 0)
  else None.

Lemma ex_paged : paged ex_mem.
Proof.
  split.
  - intros a b E H. unfold ex_mem in *.
    destruct ((4096 <=? a) && (a <? 8192)) eqn:B; [|contradiction].
    assert (E1 : a / 4096 = 1) by (symmetry; apply (Z.div_unique _ _ _ (a - 4096)); lia).
    pose proof (Z.div_mod b 4096 ltac:(lia)). pose proof (Z.mod_pos_bound b 4096 ltac:(lia)).
    replace ((4096 <=? b) && (b <? 8192)) with true by lia. discriminate.
  - intros a c H. unfold ex_mem in H. destruct ((4096 <=? a) && (a <? 8192)); [|discriminate]. injection H as <-.
    assert (G : forall d i, 0 <= d < 256 -> 0 <= nth i (ex_s d) 0 < 256).
    { intros d i Hd. destruct (Nat.lt_ge_cases i (length (ex_s d))) as [L|L].
      - apply (nth_In _ 0) in L. unfold ex_s in L at 2. apply in_app_or in L. destruct L as [L|[<-|[]]]; [|exact Hd].
        apply repeat_spec in L. rewrite L. lia.
      - rewrite nth_overflow by exact L. lia. }
    destruct ((4100 <=? a) && (a <? 4120)); [apply G; lia|].
    destruct ((8171 <=? a) && (a <? 8191)); [apply G; lia|lia].
Qed.

Example C76_hyps : paged ex_mem /\ str_at ex_mem 4100 (ex_s 200) /\ str_at ex_mem 8171 (ex_s 100) /\
  strcmp_sse2 50 ex_mem 4100 8171 = Ok 100 /\ strcmp_sse4_2 50 ex_mem 8171 4100 = Ok (-100) /\
  strcmp_avx2 50 ex_mem 4100 8171 = Ok 100.
Proof.
  split; [exact ex_paged|]. split; [chk|]. split; [chk|]. split; [vm_compute; reflexivity|].
  split; vm_compute; reflexivity.
Qed.

Example C76_resolve_hyps : resolve {| max_leaf := 7; ecx1 := 135266304; edx1 := 0; ebx7 := 32; xcr0 := 7 |} = Ok Avx2 /\
  resolve {| max_leaf := 7; ecx1 := 135266304; edx1 := 0; ebx7 := 32; xcr0 := 3 |} = Ok Sse4_2 /\
  resolve {| max_leaf := 1; ecx1 := 0; edx1 := 67108864; ebx7 := 32; xcr0 := 7 |} = Ok Sse2.
Proof. split; [|split]; vm_compute; reflexivity. Qed.
