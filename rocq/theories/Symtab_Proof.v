(** Proofs about symbol lookup. *)
From Verif Require Import Base Symtab_Model Symtab_Spec.
Open Scope Z_scope.

Lemma same_string_eq a : forall b, same_string a b = true <-> a = b.
Proof.
  induction a as [|x a IH]; destruct b as [|y b]; cbn [same_string]; try (split; [discriminate|discriminate]); [tauto|].
  rewrite andb_true_iff, Z.eqb_eq, IH. split; [intros [-> ->]; reflexivity|intros E; inversion E; auto].
Qed.
Lemma char_plain (signed : bool) c : 0 <= c < (if signed then 128 else 256) -> char signed c = c.
Proof. unfold char. destruct signed; cbn [andb]; [|reflexivity]. intros H. destruct (Z.leb_spec 128 c); [lia|reflexivity]. Qed.

Lemma clear_top h : 0 <= h < 2 ^ 32 ->
  let g := Z.land h 4026531840 in
  Z.land (if negb (g =? 0) then Z.lxor h (Z.shiftr g 24) else h) 268435455 = Z.land (Z.lxor h (Z.shiftr g 24)) (Z.lnot g).
Proof.
  intros H g.
  assert (E : (if negb (g =? 0) then Z.lxor h (Z.shiftr g 24) else h) = Z.lxor h (Z.shiftr g 24)).
  { destruct (Z.eqb_spec g 0) as [->|]; cbn [negb]; [|reflexivity]. rewrite Z.shiftr_0_l, Z.lxor_0_r. reflexivity. }
  rewrite E. clear E. subst g. change 4026531840 with (Z.shiftl (Z.ones 4) 28). change 268435455 with (Z.ones 28).
  apply Z.bits_inj'. intros i Hi. rewrite !Z.land_spec, Z.lnot_spec, Z.land_spec by lia.
  destruct (Z.lt_ge_cases i 28) as [L|L].
  - rewrite Z.ones_spec_low by lia. rewrite (Z.shiftl_spec_low _ 28 i) by lia. rewrite andb_false_r. cbn [negb]. reflexivity.
  - rewrite Z.ones_spec_high by lia. rewrite andb_false_r. symmetry.
    destruct (Z.lt_ge_cases i 32) as [U|U].
    + rewrite Z.shiftl_spec by lia. rewrite Z.ones_spec_low by lia. rewrite andb_true_r.
      rewrite Z.lxor_spec, Z.shiftr_spec, Z.land_spec by lia. rewrite Z.shiftl_spec by lia. rewrite (Z.ones_spec_high 4 (i + 24 - 28)) by lia.
      rewrite andb_false_r, xorb_false_r. apply andb_negb_r.
    + rewrite Z.lxor_spec, Z.shiftr_spec, Z.land_spec by lia. rewrite (Z.shiftl_spec (Z.ones 4) 28 (i + 24)) by lia. rewrite (Z.ones_spec_high 4) by lia.
      rewrite andb_false_r, xorb_false_r.
      rewrite <- (Z.mod_small h (2 ^ 32)) at 1 by lia. rewrite Z.mod_pow2_bits_high by lia. reflexivity.
Qed.
Lemma elf64Hash_ok signed s : plain signed s -> elf64Hash signed s = elf_hash s.
Proof.
  unfold elf64Hash, elf_hash. intros P. revert P. generalize 0.
  induction s as [|c s IH]; intros h P; cbn [elf64Hash_loop fold_left]; [reflexivity|].
  pose proof (Forall_inv P) as Pc. pose proof (Forall_inv_tail P) as Ps. cbn in Pc. rewrite char_plain by exact Pc.
  assert (C : 0 <= c < 256) by (destruct signed; lia).
  assert (E : u32 (u32 (Z.shiftl h 4) + u32 c) = (h * 16 + c) mod 2 ^ 32).
  { unfold u32. rewrite <- Z.add_mod by lia. rewrite Z.shiftl_mul_pow2 by lia. reflexivity. }
  rewrite E. set (x := (h * 16 + c) mod 2 ^ 32). assert (X : 0 <= x < 2 ^ 32) by (apply Z.mod_pos_bound; lia).
  pose proof (clear_top x X) as CT. cbv zeta in CT |- *. rewrite CT. apply IH, Ps.
Qed.
Lemma gnuHash_ok signed s : plain signed s -> gnuHash signed s = gnu_hash s.
Proof.
  unfold gnuHash, gnu_hash. intros P. revert P. generalize 5381.
  induction s as [|c s IH]; intros h P; cbn [gnuHash_loop fold_left]; [reflexivity|].
  pose proof (Forall_inv P) as Pc. pose proof (Forall_inv_tail P) as Ps. cbn in Pc. rewrite char_plain by exact Pc.
  assert (E : u32 (u32 (u32 (Z.shiftl h 5) + h) + u32 c) = (h * 33 + c) mod 2 ^ 32).
  { unfold u32. rewrite <- Z.add_mod by lia. rewrite Z.shiftl_mul_pow2 by lia.
    rewrite <- Z.add_assoc, Z.add_mod_idemp_l by lia. f_equal. lia. }
  rewrite E. apply IH, Ps.
Qed.
Lemma gnu_range s : forall h, 0 <= h < 2 ^ 32 -> 0 <= fold_left (fun h c => (h * 33 + c) mod 2 ^ 32) s h < 2 ^ 32.
Proof. induction s as [|c s IH]; intros h H; cbn [fold_left]; [exact H|]. apply IH. apply Z.mod_pos_bound. lia. Qed.
Lemma gnu_hash_range s : 0 <= gnu_hash s < 2 ^ 32.
Proof. apply gnu_range. lia. Qed.

Lemma version_ok o want v : wf_want want -> (defines_versions o = true -> is_local v = false) ->
  (is_local v = false -> is_global v = false -> vhash v = elf_hash (vname v)) ->
  exists b, correctVersion o want v = Ok b /\ (b = true <-> provides want v).
Proof.
  intros W D H. unfold correctVersion.
  destruct (defines_versions o && is_local v) eqn:E; [apply andb_true_iff in E as [E1 E2]; rewrite D in E2 by exact E1; discriminate|].
  destruct want as [w|].
  2:{ eexists. split; [reflexivity|]. cbn [provides]. destruct (is_default v), (is_global v), (is_local v); cbn; intuition congruence. }
  cbn [provides wf_want] in *. destruct (is_local w || is_global w) eqn:U; cbn [andb].
  - destruct (is_global v || is_default v || is_local v) eqn:V.
    + exists true. split; [reflexivity|]. destruct (is_default v), (is_global v), (is_local v); cbn in *; intuition congruence.
    + exists (version_eq w v). split; [reflexivity|]. unfold version_eq.
      destruct (is_default v), (is_global v), (is_local v); cbn in *; try discriminate.
      destruct (is_local w), (is_global w); cbn in *; intuition congruence.
  - exists (version_eq w v). split; [reflexivity|]. apply orb_false_iff in U as [U1 U2]. unfold version_eq. rewrite U1, U2. cbn [orb andb].
    destruct (is_local v); [intuition congruence|]. destruct (is_global v); [intuition congruence|].
    rewrite W, H by auto. destruct (Z.eqb_spec (elf_hash (vname w)) (elf_hash (vname v))) as [Q|Q]; cbn [negb].
    + rewrite same_string_eq. intuition congruence.
    + split; [discriminate|]. intros (_ & _ & X). congruence.
Qed.
Lemma eligible_ok s : eligible s = true <-> is_defined s = true /\ In (binding s) [1; 2; 10].
Proof. unfold eligible. cbn [In]. rewrite andb_true_iff, !orb_true_iff, !Z.eqb_eq. intuition congruence. Qed.
Lemma matches_ok o n name want i : wf_symbols o n -> wf_want want -> 0 < i < n ->
  exists s v b, getSymbolByIndex o i = Ok (s, v) /\ matches o name want s v = Ok b /\ (b = true <-> answers o name want i).
Proof.
  intros W WW I. destruct (W i I) as (s & v & nm & E & N & L & H). exists s, v.
  destruct (version_ok o want v WW L H) as (b & B & P). unfold matches. rewrite N.
  assert (A : answers o name want i <-> eligible s = true /\ nm = name /\ provides want v).
  { unfold answers. rewrite eligible_ok. split.
    - intros (s' & v' & E' & D' & B' & N' & P'). rewrite E in E'. injection E' as <- <-. intuition congruence.
    - intros ([D1 D2] & -> & P1). exists s, v. auto. }
  destruct (eligible s).
  - destruct (same_string nm name) eqn:S.
    + exists b. split; [exact E|]. split; [exact B|]. apply same_string_eq in S. rewrite A. intuition.
    + exists false. split; [exact E|]. split; [reflexivity|]. split; [discriminate|]. intros X. apply A in X as (_ & X & _).
      apply same_string_eq in X. congruence.
  - exists false. split; [exact E|]. split; [reflexivity|]. split; [discriminate|]. intros X. apply A in X as (X & _). discriminate.
Qed.

Lemma sysv_loop_ok o n name want nb : wf_symbols o n -> wf_want want -> forall l index fuel,
  is_chain o nb index l -> (forall i, In i l -> 0 < i < n) -> (length l < fuel)%nat ->
  exists r, sysv_loop fuel o name want nb index = Ok r /\
    match r with Some i => In i l /\ answers o name want i | None => forall i, In i l -> ~ answers o name want i end.
Proof.
  intros W WW. induction l as [|x l IH]; intros index fuel C R F; (destruct fuel as [|f]; [cbn in F; lia|]); cbn [sysv_loop is_chain] in *.
  - subst index. cbn [Z.eqb]. exists None. split; [reflexivity|]. intros i [].
  - destruct C as (-> & next & WN & C). pose proof (R x (or_introl eq_refl)) as X. destruct (Z.eqb_spec x 0); [lia|].
    destruct (matches_ok o n name want x W WW X) as (s & v & b & E & M & A). rewrite E. cbn [bind]. rewrite M. cbn [bind].
    destruct b.
    + exists (Some x). split; [reflexivity|]. split; [left; reflexivity|]. apply A. reflexivity.
    + rewrite WN. cbn [get bind]. destruct (IH next f C) as (r & E' & H); [intros i Hi; apply R; right; exact Hi|cbn in F; lia|].
      exists r. split; [exact E'|]. destruct r as [i|].
      * destruct H as [H1 H2]. split; [right; exact H1|exact H2].
      * intros i [->|Hi]; [|apply H, Hi]. intros Y. apply A in Y. discriminate.
Qed.
Lemma nodup_bound l : forall n, NoDup l -> (forall i, In i l -> 0 < i < n) -> (length l <= Z.to_nat (n - 1))%nat.
Proof.
  intros n N R. assert (I : incl (map Z.to_nat l) (seq 1 (Z.to_nat (n - 1)))).
  { intros k Hk. apply in_map_iff in Hk as (i & <- & Hi). apply R in Hi. apply in_seq. lia. }
  rewrite <- (map_length Z.to_nat l). rewrite <- (seq_length (Z.to_nat (n - 1)) 1).
  apply NoDup_incl_length; [|exact I].
  revert R N. clear. induction l as [|x l IH]; intros R N; cbn [map]; [constructor|].
  inversion N as [|? ? N1 N2]; subst. constructor.
  - intros H. apply in_map_iff in H as (y & E & Hy). assert (y = x).
    { pose proof (R y (or_intror Hy)). pose proof (R x (or_introl eq_refl)). lia. } subst. contradiction.
  - apply IH; [intros i Hi; apply R; right; exact Hi|exact N2].
Qed.
Lemma answers_name o name want i : answers o name want i -> name_of o i name.
Proof.
  intros (s & v & E & _ & _ & N & _). exists s. split; [|exact N]. unfold getSymbolByIndex in E.
  destruct (symtab o i) as [s'|]; [|discriminate]. cbn [get bind] in E. destruct (versym o) as [vs|]; [|congruence].
  destruct (vs i) as [x|]; [|discriminate]. cbn [get bind] in E.
  destruct (negb (Z.land x 32767 =? 0) && negb (Z.land x 32767 =? 1)); [destruct (known o (Z.land x 32767)); [|discriminate]|]; cbn [bind] in E; congruence.
Qed.
Lemma sysv_ok signed fuel o n nb chain name want :
  wf_symbols o n -> wf_want want -> wf_sysv o n nb chain -> plain signed name -> (Z.to_nat n <= fuel)%nat -> 0 < n ->
  exists r, lookup_sysv signed fuel o name want = Ok r /\ right o n name want r.
Proof.
  intros W WW (N0 & NB & CH & IN) P F Hn. unfold lookup_sysv. rewrite N0. cbn [get bind]. destruct (Z.eqb_spec nb 0); [lia|].
  rewrite elf64Hash_ok by exact P. set (b := elf_hash name mod nb). assert (B : 0 <= b < nb) by (apply Z.mod_pos_bound; lia).
  destruct (CH b B) as (ND & R & first & WF & C). rewrite WF. cbn [get bind].
  destruct (sysv_loop_ok o n name want nb W WW (chain b) first fuel C R) as (r & E & H).
  - pose proof (nodup_bound (chain b) n ND R). lia.
  - exists r. split; [exact E|]. destruct r as [i|].
    + destruct H as [H1 H2]. split; [apply R, H1|exact H2].
    + intros i I A. apply (H i); [|exact A]. apply IN; [exact I|]. apply (answers_name _ _ _ _ A).
Qed.

Lemma mask_even x : 0 <= x < 2 ^ 32 -> Z.land x 4294967294 = 2 * (x / 2).
Proof.
  intros X. change 4294967294 with (Z.shiftl (Z.ones 31) 1).
  assert (E : 2 * (x / 2) = Z.shiftl (Z.shiftr x 1) 1).
  { rewrite Z.shiftl_mul_pow2, Z.shiftr_div_pow2 by lia. change (2 ^ 1) with 2. lia. }
  rewrite E.
  apply Z.bits_inj'. intros i Hi. rewrite Z.land_spec. destruct (Z.lt_ge_cases i 1) as [L|L].
  - rewrite !Z.shiftl_spec_low by lia. apply andb_false_r.
  - rewrite !Z.shiftl_spec by lia. rewrite Z.shiftr_spec by lia. replace (i - 1 + 1) with i by lia.
    destruct (Z.lt_ge_cases i 32) as [U|U]; [rewrite Z.ones_spec_low by lia; apply andb_true_r|].
    rewrite Z.ones_spec_high by lia. rewrite andb_false_r. symmetry. rewrite <- (Z.mod_small x (2 ^ 32)) by lia. apply Z.mod_pow2_bits_high. lia.
Qed.
Lemma low_bit h (last : bool) : Z.land (2 * (h / 2) + if last then 1 else 0) 1 = if last then 1 else 0.
Proof.
  change 1 with (Z.ones 1) at 2. rewrite Z.land_ones by lia. change (2 ^ 1) with 2. rewrite Z.add_comm, Z.mul_comm, Z.mod_add by lia. destruct last; reflexivity.
Qed.
Lemma name_fun o i a b : name_of o i a -> name_of o i b -> a = b.
Proof. intros (s & E & N) (s' & E' & N'). congruence. Qed.
Lemma gnu_ok signed fuel o n nb offset bloom first count name want :
  wf_symbols o n -> wf_want want -> wf_gnu o n nb offset bloom first count -> plain signed name -> (Z.to_nat n <= fuel)%nat -> 0 < n ->
  exists r, lookup_gnu signed fuel o name want = Ok r /\ right o n name want r.
Proof.
  intros W WW (W0 & W1 & W2 & NB & OF & N32 & BU & SY & GR & UN) P F Hn.
  unfold lookup_gnu. rewrite W0, W1, W2. cbn [get bind]. destruct (Z.eqb_spec nb 0); [lia|].
  rewrite gnuHash_ok by exact P. set (h := gnu_hash name). set (b := h mod nb).
  assert (B : 0 <= b < nb) by (apply Z.mod_pos_bound; lia). destruct (BU b B) as (C0 & WB & FB). rewrite WB. cbn [get bind].
  (* a symbol that answers lies in the bucket *)
  assert (IN : forall i, 0 < i < n -> answers o name want i -> first b <= i < first b + count b).
  { intros i I A. pose proof (answers_name _ _ _ _ A) as NM. assert (offset <= i).
    { destruct (Z.lt_ge_cases i offset) as [L|L]; [|exact L]. exfalso. destruct A as (s & v & E & D & _). rewrite (UN i s v) in D; [discriminate|lia|exact E]. }
    destruct (SY i name) as [X _]; [lia|exact NM|exact X]. }
  destruct (Z.eqb_spec (count b) 0) as [Z0|NZ].
  - cbn [Z.eqb]. exists None. split; [reflexivity|]. intros i I A. apply IN in A; [lia|exact I].
  - destruct FB as [FB1 FB2]; [lia|]. destruct (Z.eqb_spec (first b) 0); [lia|].
    (* the loop from [index] on *)
    assert (LOOP : forall k index fuel, first b <= index -> index + Z.of_nat k = first b + count b -> (0 < k)%nat -> (k <= fuel)%nat ->
      exists r, gnu_loop fuel o name want (4 + bloom * addr_words o + nb) offset h index = Ok r /\
        match r with Some i => index <= i < first b + count b /\ answers o name want i
                   | None => forall i, index <= i < first b + count b -> ~ answers o name want i end).
    { induction k as [|k IH]; intros index fu I1 I2 K FU; [lia|]. destruct fu as [|fu]; [lia|]. cbn [gnu_loop].
      destruct (GR b index B) as (nm & NM & HB); [lia|]. destruct (SY index nm) as [R1 R2]; [lia|exact NM|]. rewrite HB in R1, R2.
      replace (u32 (index - offset)) with (index - offset) by (unfold u32; rewrite Z.mod_small by lia; reflexivity).
      rewrite R2. cbn [get bind]. set (last := index =? first b + count b - 1).
      pose proof (gnu_hash_range nm) as HR.
      assert (CR : 0 <= 2 * (gnu_hash nm / 2) + (if last then 1 else 0) < 2 ^ 32).
      { pose proof (Z.div_pos (gnu_hash nm) 2 ltac:(lia) ltac:(lia)). pose proof (Z.div_lt_upper_bound (gnu_hash nm) 2 (2 ^ 31) ltac:(lia) ltac:(lia)). destruct last; lia. }
      rewrite (mask_even _ CR), (mask_even h) by (apply gnu_hash_range).
      replace ((2 * (gnu_hash nm / 2) + (if last then 1 else 0)) / 2) with (gnu_hash nm / 2).
      2:{ symmetry. rewrite Z.mul_comm, Z.div_add_l by lia. destruct last; cbn; lia. }
      rewrite low_bit.
      assert (TEST : exists r, (if 2 * (gnu_hash nm / 2) =? 2 * (h / 2) then '(c, v) <- getSymbolByIndex o index ;; matches o name want c v else Ok false) = Ok r /\
        (r = true <-> answers o name want index)).
      { destruct (Z.eqb_spec (2 * (gnu_hash nm / 2)) (2 * (h / 2))) as [EH|NH].
        - destruct (matches_ok o n name want index W WW) as (s & v & r & E & M & A); [lia|]. rewrite E. cbn [bind]. rewrite M. eauto.
        - exists false. split; [reflexivity|]. split; [discriminate|]. intros A. exfalso. apply NH.
          rewrite (name_fun _ _ _ _ NM (answers_name _ _ _ _ A)). reflexivity. }
      destruct TEST as (r & -> & A). cbn [bind]. destruct r.
      - exists (Some index). split; [reflexivity|]. split; [lia|]. apply A. reflexivity.
      - assert (NA : ~ answers o name want index) by (intros X; apply A in X; discriminate).
        destruct (Z.eqb_spec index (first b + count b - 1)) as [LA|LA]; unfold last; cbn [Z.eqb negb].
        + exists None. split; [reflexivity|]. intros i I. assert (i = index) by lia. subst i. exact NA.
        + replace (u32 (index + 1)) with (index + 1) by (unfold u32; rewrite Z.mod_small by lia; reflexivity).
          destruct (IH (index + 1) fu) as (r & E & H); [lia|lia|lia|lia|]. exists r. split; [exact E|]. destruct r as [i|].
          * destruct H as [H1 H2]. split; [lia|exact H2].
          * intros i I. destruct (Z.eq_dec i index) as [->|]; [exact NA|apply H; lia]. }
    destruct (LOOP (Z.to_nat (count b)) (first b) fuel) as (r & E & H); [lia|lia|lia|lia|].
    exists r. split; [exact E|]. destruct r as [i|].
    + destruct H as [H1 H2]. split; [lia|exact H2].
    + intros i I A. exact (H i (IN i I A) A).
Qed.
