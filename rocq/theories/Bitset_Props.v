(** C85: signal sets and processor sets. *)
From Verif Require Import Base Bitset_Model Bitset_Spec Bitset_Proof.
Open Scope Z_scope.

(** one call of sigemptyset, sigfillset, sigaddset or sigdelset *)
Definition sig_call (o : op) (set : list Z) : list Z :=
  match o with Empty => sigemptyset set | Fill => sigfillset set | Add x => fst (sigaddset set x) | Del x => fst (sigdelset set x) end.
(** After any history of calls on a set of [n] words, sigismember answers for every signal 1..64n as the mathematical set does. *)
Theorem C85_signals : forall os set, let n := 64 * Z.of_nat (length set) in let final := fold_left (fun s o => sig_call o s) os set in
  length final = length set /\
  forall x, 1 <= x <= n -> sigismember final x = if after 1 n os (fun y => sigismember set y =? 1) x then 1 else 0.
Proof.
  intros os set n final. split; [apply sig_hist_len|]. intros x X. assert (L : length final = length set) by apply sig_hist_len. rewrite member_bit by (rewrite L; exact X). unfold final. change (fun s o => sig_call o s) with (fun s o => sig_run o s). rewrite sig_hist by exact X.
  rewrite (after_ext 1 n os _ (fun y => sigismember set y =? 1)); [reflexivity| |exact X]. intros y Y. rewrite member_bit by exact Y. destruct (bit_of 64 set (y - 1)); reflexivity.
Qed.
Example C85_signals_instance : let final := fold_left (fun s o => sig_call o s) [Empty; Add 64; Add 65; Add 3; Del 65] [77; 5] in
  map (sigismember final) [1; 3; 64; 65; 128; 129; 0] = [0; 1; 1; 0; 0; -1; -1].
Proof. reflexivity. Qed.
(** Numbers outside 1..64n: the calls fail and change nothing. *)
Theorem C85_signal_range : forall set x, (1 <= x <= 64 * Z.of_nat (length set) -> snd (sigaddset set x) = 0 /\ snd (sigdelset set x) = 0) /\
  (~ 1 <= x <= 64 * Z.of_nat (length set) -> sigaddset set x = (set, -1) /\ sigdelset set x = (set, -1) /\ sigismember set x = -1).
Proof.
  intros set x. unfold sigaddset, sigdelset, sigismember. split; intros H.
  - rewrite (proj2 (sig_ok_iff set x) H). split; reflexivity.
  - destruct (sig_ok set (x - 1)) eqn:E; [apply sig_ok_iff in E; contradiction|]. repeat split.
Qed.
Theorem C85_signal_empty : forall set, Forall (fun w => 0 <= w < 2 ^ 64) set -> sigisemptyset set = true <-> forall x, 1 <= x <= 64 * Z.of_nat (length set) -> sigismember set x = 0.
Proof.
  intros set F. rewrite (empty_iff set F). split; intros H x X; specialize (H x X); [rewrite member_bit by exact X; rewrite H; reflexivity|]. rewrite member_bit in H by exact X. destruct (bit_of 64 set (x - 1)); [discriminate|reflexivity].
Qed.
Example C85_signal_empty_instance : sigisemptyset [0; 0] = true /\ sigisemptyset [0; 4] = false /\ sigismember [0; 4] 67 = 1.
Proof. repeat split. Qed.

(** Processor sets of any size: a history of CPU_ZERO, CPU_SET and CPU_CLR with numbers that are not negative (those too large are ignored).
    CPU_ISSET is true exactly for the members, CPU_COUNT is their number. *)
Fixpoint cpu_calls (os : list op) (set : list Z) : res (list Z) :=
  match os with
  | [] => Ok set
  | Add x :: r => s <- cpu_set x set ;; cpu_calls r s
  | Del x :: r => s <- cpu_clear x set ;; cpu_calls r s
  | _ :: r => cpu_calls r (cpu_zero set)
  end.
Definition cpu_op (o : op) : Prop := match o with Empty => True | Fill => False | Add x => 0 <= x | Del x => 0 <= x end.
Theorem C85_processors : forall os set, Forall cpu_op os -> let n := 8 * Z.of_nat (length set) in
  exists final, cpu_calls os set = Ok final /\ length final = length set /\
    (forall c, 0 <= c < n -> exists v v0, cpu_isset c final = Ok v /\ cpu_isset c set = Ok v0 /\ (v <> 0 <-> after 0 (n - 1) os (fun y => match cpu_isset y set with Ok v0 => negb (v0 =? 0) | _ => false end) c = true)) /\
    (forall c, n <= c -> cpu_isset c final = Ok 0) /\
    cpu_count final = size (after 0 (n - 1) os (fun y => match cpu_isset y set with Ok v0 => negb (v0 =? 0) | _ => false end)) 0 (8 * length set).
Proof.
  intros os set F n.
  assert (G : exists final, cpu_calls os set = Ok final /\ length final = length set /\ forall c, 0 <= c < n -> bit_of 8 final c = after 0 (n - 1) os (bit_of 8 set) c).
  { subst n. revert set. induction F as [|o os O _ IH]; intros set; [exists set; repeat split|].
    assert (S0 : exists set', (match o with Add x => cpu_set x set | Del x => cpu_clear x set | _ => Ok (cpu_zero set) end) = Ok set' /\ length set' = length set /\ forall c, 0 <= c < 8 * Z.of_nat (length set) -> bit_of 8 set' c = effect 0 (8 * Z.of_nat (length set) - 1) o (bit_of 8 set) c).
    { destruct o as [| |a|a]; cbn in O; [| contradiction | |].
      - exists (cpu_zero set). split; [reflexivity|]. split; [apply repeat_length|]. intros c C. cbn [effect]. unfold bit_of, cpu_zero. rewrite nth_rep; [apply Z.bits_0|]. assert (c / 8 < Z.of_nat (length set)) by (apply Z.div_lt_upper_bound; lia). assert (0 <= c / 8) by (apply Z.div_pos; lia). lia.
      - destruct (cpu_set_step set a O) as (set' & E & L & B). exists set'. split; [exact E|]. split; [exact L|]. intros c C. rewrite B by exact C. cbn [effect]. destruct (c =? a) eqn:X; [|reflexivity]. replace (true && (0 <=? a) && (a <=? 8 * Z.of_nat (length set) - 1)) with true by lia. reflexivity.
      - destruct (cpu_clear_step set a O) as (set' & E & L & B). exists set'. split; [exact E|]. split; [exact L|]. intros c C. rewrite B by exact C. reflexivity. }
    destruct S0 as (set' & E & L & B). destruct (IH set') as (final & E2 & L2 & B2). exists final. split; [destruct o as [| |a|a]; cbn [cpu_calls] in *; [injection E as <-; exact E2|injection E as <-; exact E2|rewrite E; exact E2|rewrite E; exact E2]|]. split; [congruence|].
    intros c C. rewrite L in B2. rewrite B2 by exact C. unfold after. cbn [fold_left]. apply (after_ext 0 (8 * Z.of_nat (length set) - 1) os); [|lia]. intros y Y. apply B. lia. }
  destruct G as (final & E & L & B). exists final. split; [exact E|]. split; [exact L|].
  assert (EX : forall c, 0 <= c < n -> after 0 (n - 1) os (bit_of 8 set) c = after 0 (n - 1) os (fun y => match cpu_isset y set with Ok v0 => negb (v0 =? 0) | _ => false end) c).
  { intros c C. apply (after_ext 0 (n - 1) os); [|lia]. intros y Y. destruct (cpu_isset_bit set y) as (v & EV & V); [subst n; lia|]. rewrite EV. destruct (bit_of 8 set y); destruct (v =? 0) eqn:Z0; cbn; try reflexivity; exfalso; [apply Z.eqb_eq in Z0; apply V in Z0; discriminate|apply Z.eqb_neq in Z0; apply Z0, V; reflexivity]. }
  split; [|split].
  - intros c C. destruct (cpu_isset_bit final c) as (v & EV & V); [rewrite L; exact C|]. destruct (cpu_isset_bit set c C) as (v0 & EV0 & _). exists v, v0. split; [exact EV|]. split; [exact EV0|]. rewrite <- EX, <- B by exact C. destruct (bit_of 8 final c); split; intros H; try congruence; try discriminate; [|exfalso; apply H, V; reflexivity]. intros X. apply V in X. discriminate.
  - intros c C. unfold cpu_isset. rewrite L. fold n. replace (n <=? c) with true by lia. reflexivity.
  - rewrite count_size, L. apply size_ext. intros x X. rewrite B, EX by lia. reflexivity.
Qed.
Example C85_processors_instance : cpu_calls [Empty; Add 3; Add 8; Add 500; Del 3; Add 9] [255; 255] = Ok [0; 3] /\ cpu_count [0; 3] = 2 /\ cpu_isset 9 [0; 3] = Ok 2.
Proof. repeat split. Qed.
(** CPU_ALLOC(n) has room for n processors, less than 64 bits too much, and is empty. *)
Theorem C85_alloc : forall n, 0 <= n -> n <= 8 * cpu_alloc_size n < n + 64 /\ cpu_alloc_size n mod 8 = 0 /\ Z.of_nat (length (cpu_alloc n)) = cpu_alloc_size n /\ cpu_count (cpu_alloc n) = 0.
Proof.
  intros n N. destruct (alloc_ok n N) as [A B]. split; [exact A|]. split; [exact B|]. unfold cpu_alloc. rewrite repeat_length. split; [lia|]. induction (Z.to_nat (cpu_alloc_size n)) as [|k IH]; [reflexivity|]. cbn [repeat cpu_count]. rewrite IH. reflexivity.
Qed.
Example C85_alloc_instance : map cpu_alloc_size [0; 1; 64; 65; 1024] = [0; 8; 8; 16; 128].
Proof. reflexivity. Qed.
(** A negative processor number is not refused: undefined behaviour. *)
Theorem C85_negative_refuted : forall c set, c < 0 -> cpu_set c set = UB /\ cpu_clear c set = UB /\ cpu_isset c set = UB.
Proof. intros c set C. unfold cpu_set, cpu_clear, cpu_isset. replace (8 * Z.of_nat (length set) <=? c) with false by lia. replace (c <? 0) with true by lia. repeat split. Qed.

Print Assumptions C85_signals.
Print Assumptions C85_signal_range.
Print Assumptions C85_signal_empty.
Print Assumptions C85_processors.
Print Assumptions C85_alloc.
Print Assumptions C85_negative_refuted.
