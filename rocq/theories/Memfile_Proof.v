(** Proofs about streams in memory. *)
From Verif Require Import Base Memfile_Model Memfile_Spec.
Open Scope Z_scope.

Ltac conj := repeat match goal with |- _ /\ _ => split end.

(** ** Lists *)
Lemma firstn_repeat {A} (x : A) n k : firstn n (repeat x k) = repeat x (Nat.min n k).
Proof. revert k. induction n as [|n IH]; intros [|k]; cbn; try reflexivity. f_equal. apply IH. Qed.
Lemma skipn_repeat {A} (x : A) n k : skipn n (repeat x k) = repeat x (k - n).
Proof. revert k. induction n as [|n IH]; intros [|k]; cbn; try reflexivity. apply IH. Qed.

Lemma len_app a b : len (a ++ b) = len a + len b.
Proof. unfold len. rewrite app_length. lia. Qed.
Lemma len_nonneg l : 0 <= len l.
Proof. unfold len. lia. Qed.
Lemma len_repeat k : len (repeat 0 k) = Z.of_nat k.
Proof. unfold len. rewrite repeat_length. reflexivity. Qed.
Lemma len_pos l : l <> [] -> 1 <= len l.
Proof. destruct l; [congruence|]. unfold len. cbn [length]. lia. Qed.
Lemma wrap_small v : 0 <= v < 2 ^ 64 -> wrap v = v.
Proof. intros. apply Z.mod_small. assumption. Qed.

Lemma len_put s p d : 0 <= p -> len (put s p d) = Z.max (len s) (p + len d).
Proof.
  intros Hp. unfold put. rewrite !len_app, len_repeat. unfold len. rewrite firstn_length, skipn_length. lia.
Qed.

Lemma copy_in_zeros s p d K : 0 <= p -> (K = Z.to_nat (Z.max 0 (p + len d - len s)) + 1)%nat ->
  copy_in (s ++ repeat 0 K) p d = Ok (put s p d ++ [0]).
Proof.
  intros Hp HK. unfold copy_in. rewrite len_app, len_repeat.
  destruct (Z.leb_spec 0 p); [|lia]. destruct (Z.leb_spec (p + len d) (len s + Z.of_nat K)); [|lia]. cbn [andb]. f_equal.
  rewrite firstn_app, firstn_repeat, skipn_app, skipn_repeat. unfold put. unfold len in *.
  replace (Z.to_nat (p + Z.of_nat (length d))) with (Z.to_nat p + length d)%nat by lia.
  replace (Nat.min (Z.to_nat p - length s) K) with (Z.to_nat (p - Z.of_nat (length s))) by lia.
  replace (K - (Z.to_nat p + length d - length s))%nat with 1%nat by lia.
  rewrite <- !app_assoc. reflexivity.
Qed.

(** ** open_memstream *)
Definition mrel (st : mstream) (f : list Z * Z) : Prop :=
  let '(s, p) := f in
  mbuf st = s ++ repeat 0 (Z.to_nat (p - len s) + 1) /\ mpos st = p /\ 0 <= p < 2 ^ 61 /\ len s < 2 ^ 61.

Lemma m_write_ok st s p d : mrel st (s, p) -> d <> [] -> p + len d < 2 ^ 61 ->
  exists st', m_write st d = Ok (st', len d) /\ mrel st' (put s p d, p + len d).
Proof.
  intros (Hb & Hp & Hpb & Hs) Hd Hl. pose proof (len_pos d Hd) as Hd1. pose proof (len_nonneg s) as Hs0. unfold m_write. rewrite Hp.
  rewrite (wrap_small (p + len d)) by lia.
  assert (E : (if len (mbuf st) <=? p + len d then resize (mbuf st) (wrap (p + len d + 1)) else Ok (mbuf st)) =
              Ok (s ++ repeat 0 (Z.to_nat (Z.max 0 (p + len d - len s)) + 1))).
  { rewrite Hb, len_app, len_repeat. destruct (Z.leb_spec (len s + Z.of_nat (Z.to_nat (p - len s) + 1)) (p + len d)).
    - rewrite wrap_small by lia. unfold resize. rewrite len_app, len_repeat.
      destruct (Z.ltb_spec (p + len d + 1) 0); [lia|]. destruct (Z.ltb_spec vmax (p + len d + 1)); [unfold vmax in *; lia|]. cbn [orb].
      match goal with |- context [Z.leb ?x ?y] => destruct (Z.leb_spec x y) end.
      + exfalso. lia.
      + f_equal. rewrite <- app_assoc, <- repeat_app. f_equal. f_equal. lia.
    - f_equal. f_equal. f_equal. lia. }
  rewrite E. cbn [bind]. rewrite len_app, len_repeat.
  rewrite wrap_small by lia.
  replace (Z.min (len s + Z.of_nat (Z.to_nat (Z.max 0 (p + len d - len s)) + 1) - p) (len d)) with (len d) by lia.
  replace (firstn (Z.to_nat (len d)) d) with d by (unfold len; rewrite Nat2Z.id, firstn_all; reflexivity).
  rewrite copy_in_zeros by lia. cbn [bind]. eexists. split; [reflexivity|]. unfold mrel. cbn.
  pose proof (len_put s p d ltac:(lia)) as Hlp. conj; try lia.
  - f_equal. replace (Z.to_nat (p + len d - len (put s p d))) with 0%nat by lia. reflexivity.
Qed.

Lemma m_step_ok st f o : mrel st f -> m_ok f o -> exists f1 e st1, mfile f o f1 e /\ m_op st o = Ok (st1, e) /\ mrel st1 f1.
Proof.
  destruct f as [s p]. intros Hr Hok. pose proof (len_nonneg s) as Hs0. destruct o as [d|n|o w| |]; cbn [m_ok m_op] in *.
  - destruct d as [|c d].
    + exists (s, p), (Wrote 0), st. split; [constructor|]. split; [reflexivity | exact Hr].
    + destruct (m_write_ok st s p (c :: d) Hr ltac:(discriminate) Hok) as (st' & E & Hr').
      exists (put s p (c :: d), p + len (c :: d)), (Wrote (len (c :: d))), st'. split; [constructor; discriminate|]. split; [|exact Hr'].
      cbn [m_fwrite length]. rewrite E. cbn [bind].
      destruct (Z.eqb_spec (len (c :: d)) 0) as [E0|_]; [pose proof (len_pos (c :: d) ltac:(discriminate)); lia|].
      replace (skipn (Z.to_nat (len (c :: d))) (c :: d)) with (@nil Z) by (unfold len; rewrite Nat2Z.id, skipn_all; reflexivity).
      cbn [m_fwrite bind]. rewrite Z.add_0_l. reflexivity.
  - destruct Hok.
  - destruct Hr as (Hb & Hp & Hpb & Hs). destruct Hok as (H1 & H2 & H3).
    exists (s, target s p o w), (Sought true).
    assert (E : exists st1, m_seek st o w = Ok (st1, target s p o w) /\ mrel st1 (s, target s p o w)).
    { assert (Hb1 : mbuf st = s ++ [0]) by (rewrite Hb; replace (Z.to_nat (p - len s)) with 0%nat by lia; reflexivity).
      assert (Hlb : len (mbuf st) = len s + 1) by (rewrite Hb1, len_app; reflexivity).
      assert (Grow : forall q, len s + 1 <= q -> q < 2 ^ 61 -> resize (mbuf st) (q + 1) = Ok (s ++ repeat 0 (Z.to_nat (q - len s) + 1))).
      { intros q Hq1 Hq2. unfold resize. rewrite Hlb. destruct (Z.ltb_spec (q + 1) 0); [lia|]. destruct (Z.ltb_spec vmax (q + 1)); [unfold vmax in *; lia|]. cbn [orb].
        destruct (Z.leb_spec (q + 1) (len s + 1)); [lia|]. f_equal. rewrite Hb1, <- app_assoc. change [0] with (repeat 0 1). rewrite <- repeat_app. f_equal. f_equal. lia. }
      assert (Same : forall q, 0 <= q <= len s -> s ++ [0] = s ++ repeat 0 (Z.to_nat (q - len s) + 1)).
      { intros q Hq. replace (Z.to_nat (q - len s)) with 0%nat by lia. reflexivity. }
      assert (G : forall q, 0 <= q < 2 ^ 61 -> exists b, (if (0 <=? q) && (len (mbuf st) <=? q) then resize (mbuf st) (q + 1) else Ok (mbuf st)) = Ok b /\
                  b = s ++ repeat 0 (Z.to_nat (q - len s) + 1)).
      { intros q Hq. rewrite Hlb. destruct (Z.leb_spec 0 q); [|lia]. cbn [andb]. destruct (Z.leb_spec (len s + 1) q).
        - rewrite Grow by lia. eauto.
        - eexists. split; [reflexivity|]. rewrite Hb1. apply Same. lia. }
      destruct w; cbn [m_seek target] in *.
      - destruct (G o ltac:(lia)) as (b & Eb & ->). rewrite Eb. cbn [bind]. eexists. split; [reflexivity|]. unfold mrel. cbn. conj; try lia. reflexivity.
      - rewrite Hp. destruct (G (p + o) ltac:(lia)) as (b & Eb & ->). rewrite Eb. cbn [bind]. eexists. split; [reflexivity|]. unfold mrel. cbn. conj; try lia. reflexivity.
      - specialize (H3 eq_refl). rewrite Hlb. destruct (Z.eqb_spec (len s + 1) 0); [lia|].
        replace (len s + 1 - 1 + o) with (len s + o) by lia. rewrite wrap_small by lia.
        assert (Er : resize (mbuf st) (len s + o + 1) = Ok (s ++ repeat 0 (Z.to_nat (len s + o - len s) + 1))).
        { destruct (Z.eq_dec o 0) as [->|].
          - unfold resize. rewrite Hlb. destruct (Z.ltb_spec (len s + 0 + 1) 0); [lia|]. destruct (Z.ltb_spec vmax (len s + 0 + 1)); [unfold vmax in *; lia|]. cbn [orb].
            destruct (Z.leb_spec (len s + 0 + 1) (len s + 1)); [|lia]. f_equal.
            replace (Z.to_nat (len s + 0 + 1)) with (length (mbuf st)) by (unfold len in *; lia). rewrite firstn_all, Hb1.
            replace (Z.to_nat (len s + 0 - len s)) with 0%nat by lia. reflexivity.
          - apply Grow; lia. }
        rewrite Er. cbn [bind]. eexists. split; [reflexivity|]. unfold mrel. cbn. conj; try lia. reflexivity. }
    destruct E as (st1 & E & Hr1). exists st1. split; [constructor; lia|]. split; [|exact Hr1]. rewrite E. reflexivity.
  - destruct Hr as (Hb & Hp & Hpb & Hs). exists (s, p), (Told p), st. split; [constructor|]. split; [|unfold mrel; auto].
    cbn [m_seek]. rewrite Hp, Z.add_0_r.
    assert (Hlb : len (mbuf st) = len s + Z.of_nat (Z.to_nat (p - len s) + 1)) by (rewrite Hb, len_app, len_repeat; reflexivity).
    rewrite Hlb. destruct (Z.leb_spec (len s + Z.of_nat (Z.to_nat (p - len s) + 1)) p); [lia|]. rewrite andb_false_r. cbn [bind].
    destruct st; cbn in *; subst; reflexivity.
  - destruct Hr as (Hb & Hp & Hpb & Hs). rewrite Hok in *. clear Hok p. exists (s, len s).
    assert (Hb1 : mbuf st = s ++ [0]) by (rewrite Hb; replace (Z.to_nat (len s - len s)) with 0%nat by lia; reflexivity).
    exists (Flushed (s ++ [0]) (Z.min (len s) (len s))), (m_flush st). split; [constructor|]. split.
    + rewrite Hb1, len_app. change (len [0]) with 1. rewrite wrap_small by lia. f_equal. f_equal. f_equal. lia.
    + unfold mrel, m_flush. cbn. auto.
Qed.

Theorem memstream_ok ops : forall st f, mrel st f -> m_oks f ops ->
  exists f' es st', mfiles f ops f' es /\ m_run st ops = Ok (st', es).
Proof.
  induction ops as [|o ops IH]; intros st f Hr Hok.
  - exists f, [], st. split; [constructor | reflexivity].
  - inversion_clear Hok as [|? ? ? H1 H2]. destruct (m_step_ok st f o Hr H1) as (f1 & e & st1 & Hs & E & Hr1).
    destruct (IH st1 f1 Hr1 (H2 f1 e Hs)) as (f' & es & st' & Hs' & E').
    exists f', (e :: es), st'. split; [econstructor; eauto|]. cbn. rewrite E. cbn. rewrite E'. reflexivity.
Qed.
Lemma m_open_rel : mrel m_open ([], 0).
Proof. unfold mrel, m_open. cbn. conj; try lia. reflexivity. Qed.

(** ** fmemopen: nothing outside of the buffer *)
Definition safe (N : Z) (st : fstream) : Prop := len (fbuf st) = N /\ 0 <= fpos st <= N /\ 0 <= fmax st <= N.

Lemma len_copy_in b p d b' : copy_in b p d = Ok b' -> len b' = len b.
Proof.
  unfold copy_in. destruct ((0 <=? p) && (p + len d <=? len b)) eqn:E; [|discriminate]. intros H. injection H as <-.
  rewrite !len_app. unfold len in *. rewrite firstn_length, skipn_length. lia.
Qed.
Lemma copy_in_ok b p d : 0 <= p -> p + len d <= len b ->
  copy_in b p d = Ok (firstn (Z.to_nat p) b ++ d ++ skipn (Z.to_nat p + length d) b).
Proof. intros. unfold copy_in. destruct (Z.leb_spec 0 p); [|lia]. destruct (Z.leb_spec (p + len d) (len b)); [reflexivity | lia]. Qed.
Lemma len_firstn k d : len (firstn (Z.to_nat k) d) = Z.min (Z.max 0 k) (len d).
Proof. unfold len. rewrite firstn_length. lia. Qed.

Lemma f_write_safe N st d : N < 2 ^ 62 -> safe N st -> exists st' k, f_write st d = Ok (st', k) /\ safe N st' /\
  k = Z.min (N - fpos st) (len d) /\ fpos st' = fpos st + k /\ fmax st' = Z.max (fmax st) (fpos st + k) /\ fupd st' = fupd st /\
  exists b, copy_in (fbuf st) (fpos st) (firstn (Z.to_nat k) d) = Ok b /\
    (N = 0 /\ fbuf st' = b \/
     copy_in b (if (N <=? fpos st + k) || fupd st then N - 1 else fpos st + k) [0] = Ok (fbuf st')).
Proof.
  intros HN (H1 & H2 & H3). pose proof (len_nonneg d) as Hd. unfold f_write. rewrite H1. rewrite wrap_small by lia.
  set (k := Z.min (N - fpos st) (len d)).
  destruct (copy_in (fbuf st) (fpos st) (firstn (Z.to_nat k) d)) as [b| | |] eqn:E;
    try (exfalso; rewrite copy_in_ok in E by (rewrite ?len_firstn; unfold k in *; lia); discriminate).
  cbn [bind]. pose proof (len_copy_in _ _ _ _ E) as Hlb. rewrite H1 in Hlb. rewrite Hlb.
  destruct (Z.eqb_spec N 0) as [->|HN0]; cbn [negb].
  - cbn [bind]. eexists _, _. split; [reflexivity|]. unfold safe. cbn.
    destruct (Z.ltb_spec (fmax st) (fpos st + k)); conj; try (unfold k in *; lia); try reflexivity; exists b; auto.
  - rewrite wrap_small by lia. set (q := if (N <=? fpos st + k) || fupd st then N - 1 else fpos st + k).
    assert (Hq : 0 <= q < N) by (unfold q; destruct (Z.leb_spec N (fpos st + k)); cbn [orb]; [lia|]; destruct (fupd st); unfold k in *; lia).
    destruct (copy_in b q [0]) as [b'| | |] eqn:E2;
      try (exfalso; rewrite copy_in_ok in E2 by (cbn; lia); discriminate).
    cbn [bind]. pose proof (len_copy_in _ _ _ _ E2) as Hlb2. rewrite Hlb in Hlb2.
    eexists _, _. split; [reflexivity|]. unfold safe. cbn.
    destruct (Z.ltb_spec (fmax st) (fpos st + k)); conj; try (unfold k in *; lia); try reflexivity; exists b; (split; [first [reflexivity | exact E] | right; first [reflexivity | exact E2]]).
Qed.

Lemma f_read_safe N st n : N < 2 ^ 62 -> safe N st -> 0 <= n -> exists st' d, f_read st n = Ok (st', d) /\ safe N st' /\
  d = firstn (Z.to_nat (Z.min (fmax st - fpos st) n)) (skipn (Z.to_nat (fpos st)) (fbuf st)) /\
  len d = Z.min (Z.max 0 (fmax st - fpos st)) n /\
  fpos st' = fpos st + len d /\ fbuf st' = fbuf st /\ fmax st' = fmax st /\ fupd st' = fupd st.
Proof.
  intros HN (H1 & H2 & H3) Hn. unfold f_read. destruct (Z.leb_spec 0 (fpos st)); [|lia]. cbn [andb].
  destruct (Z.leb_spec (fmax st) (fpos st)); [|destruct (Z.eqb_spec n 0)]; cbn [orb].
  - exists st, []. split; [reflexivity|]. split; [unfold safe; auto|].
    replace (Z.to_nat (Z.min (fmax st - fpos st) n)) with 0%nat by lia. change (len []) with 0. conj; try reflexivity; lia.
  - exists st, []. split; [reflexivity|]. split; [unfold safe; auto|].
    replace (Z.to_nat (Z.min (fmax st - fpos st) n)) with 0%nat by lia. change (len []) with 0. conj; try reflexivity; lia.
  - rewrite wrap_small by lia. set (k := Z.min (fmax st - fpos st) n). unfold copy_out.
    destruct (Z.leb_spec 0 (fpos st)); [|lia]. destruct (Z.leb_spec 0 k); [|unfold k in *; lia].
    destruct (Z.leb_spec (fpos st + k) (len (fbuf st))); [|unfold k in *; lia]. cbn [andb bind].
    eexists _, _. split; [reflexivity|].
    assert (Hl : len (firstn (Z.to_nat k) (skipn (Z.to_nat (fpos st)) (fbuf st))) = k).
    { rewrite len_firstn. unfold len in *. rewrite skipn_length. unfold k in *. lia. }
    rewrite Hl. unfold safe. cbn. conj; try reflexivity; unfold k in *; lia.
Qed.

Lemma f_fwrite_safe N : N < 2 ^ 62 -> forall fuel st d done, safe N st -> (length d < fuel)%nat ->
  exists st' k, f_fwrite fuel st d done = Ok (st', k) /\ safe N st'.
Proof.
  intros HN. induction fuel as [|g IH]; intros st d done Hs Hf; [lia|]. cbn [f_fwrite]. destruct d as [|c d]; [eauto|].
  destruct (f_write_safe N st (c :: d) HN Hs) as (st' & k & E & Hs' & Hk & _). rewrite E. cbn [bind].
  destruct (Z.eqb_spec k 0); [eauto|]. apply IH; [exact Hs'|]. rewrite skipn_length.
  destruct Hs as (_ & Hp & _). pose proof (len_nonneg (c :: d)). cbn [length] in *. lia.
Qed.
Lemma f_fread_safe N : N < 2 ^ 62 -> forall fuel st n acc, safe N st -> 0 <= n -> (Z.to_nat n < fuel)%nat ->
  exists st' d, f_fread fuel st n acc = Ok (st', d) /\ safe N st'.
Proof.
  intros HN. induction fuel as [|g IH]; intros st n acc Hs Hn Hf; [lia|]. cbn [f_fread]. destruct (Z.eqb_spec n 0); [eauto|].
  destruct (f_read_safe N st n HN Hs Hn) as (st' & d & E & Hs' & _ & Hl & _). rewrite E. cbn [bind].
  destruct d as [|c d]; [eauto|]. pose proof (len_pos (c :: d) ltac:(discriminate)). apply IH; [exact Hs' | lia | lia].
Qed.

Lemma f_seek_safe N st o w : safe N st -> safe N (fst (f_seek st o w)).
Proof.
  intros (H1 & H2 & H3). unfold f_seek. rewrite H1.
  set (p := match w with Set_ => o | Cur => fpos st + o | End_ => fmax st + o end).
  destruct ((p <? 0) || (N <? p)) eqn:E; unfold safe; cbn; lia.
Qed.

Definition plain (o : op) : Prop := match o with Read n => 0 <= n | _ => True end.

Theorem fmem_safe N ops : N < 2 ^ 62 -> forall st, safe N st -> Forall plain ops ->
  exists st' es, f_run st ops = Ok (st', es) /\ len (fbuf st') = N.
Proof.
  intros HN. induction ops as [|o ops IH]; intros st Hs Hp.
  - exists st, []. split; [reflexivity | apply Hs].
  - inversion_clear Hp as [|? ? Ho Hp']. cbn [f_run].
    assert (E : exists st1 e, f_op st o = Ok (st1, e) /\ safe N st1).
    { destruct o as [d|n|o w| |]; cbn [f_op plain] in *.
      - destruct (f_fwrite_safe N HN (S (length d)) st d 0 Hs ltac:(lia)) as (st' & k & E & Hs'). rewrite E. cbn [bind]. eauto.
      - destruct (f_fread_safe N HN (S (Z.to_nat n)) st n [] Hs Ho ltac:(lia)) as (st' & k & E & Hs'). rewrite E. cbn [bind]. eauto.
      - pose proof (f_seek_safe N st o w Hs). destruct (f_seek st o w) as [st' r]. eauto.
      - pose proof (f_seek_safe N st 0 Cur Hs). destruct (f_seek st 0 Cur) as [st' r]. eauto.
      - eauto. }
    destruct E as (st1 & e & E & Hs1). rewrite E. cbn [bind]. destruct (IH st1 Hs1 Hp') as (st' & es & E' & Hl).
    rewrite E'. cbn [bind]. eauto.
Qed.

Lemma until_nul_spec b : exists s r, b = s ++ r /\ until_nul b = len s /\ ~ In 0 s /\ (r = [] \/ hd 1 r = 0).
Proof.
  induction b as [|c b (s & r & -> & H1 & H2 & H3)].
  - exists [], []. cbn. auto.
  - cbn [until_nul]. destruct (Z.eqb_spec c 0) as [->|].
    + exists [], (0 :: s ++ r). cbn. auto.
    + exists (c :: s), r. split; [reflexivity|]. split; [unfold len in *; cbn [length]; lia|]. split; [|exact H3].
      intros [K|K]; [congruence | auto].
Qed.

Lemma f_open_safe b m : safe (len b) (f_open b m).
Proof.
  pose proof (len_nonneg b). destruct (until_nul_spec b) as (s & r & E & Hu & _).
  assert (0 <= until_nul b <= len b) by (rewrite Hu, E, len_app; pose proof (len_nonneg s); pose proof (len_nonneg r); lia).
  destruct m; unfold safe; cbn; lia.
Qed.

(** ** fmemopen: the file in the buffer *)
Definition frel (m : mode) (N : Z) (st : fstream) (f : file) : Prop :=
  let '(s, p, w) := f in
  safe N st /\ fpos st = p /\ fmax st = len s /\ fupd st = update m /\ firstn (length s) (fbuf st) = s /\
  (w = true -> update m = false -> nth (length s) (fbuf st) 1 = 0).

Lemma nth_firstn_ext b b' n : length b = length b' -> (forall i, (i < n)%nat -> nth i b 1 = nth i b' 1) -> (n <= length b)%nat -> firstn n b = firstn n b'.
Proof.
  intros Hl H Hn. apply (nth_ext _ _ 1 1); [rewrite !firstn_length; lia|]. intros i Hi. rewrite firstn_length in Hi.
  specialize (H i ltac:(lia)). 
  rewrite <- (firstn_skipn n b) in H at 1. rewrite <- (firstn_skipn n b') in H at 1.
  rewrite !app_nth1 in H by (rewrite firstn_length; lia). exact H.
Qed.

(* writing one byte behind the contents does not change them *)
Lemma copy_one b q x : 0 <= q < len b -> copy_in b q [x] = Ok (firstn (Z.to_nat q) b ++ x :: skipn (S (Z.to_nat q)) b).
Proof.
  intros. rewrite copy_in_ok by (change (len [x]) with 1; lia). cbn [length app]. replace (Z.to_nat q + 1)%nat with (S (Z.to_nat q)) by lia. reflexivity.
Qed.

Lemma f_write_ok m N st s p w d : N < 2 ^ 62 -> frel m N st (s, p, w) -> d <> [] ->
  len s < N -> p + len d < N -> p <= len s -> (update m = false -> len s <= p + len d) ->
  exists st', f_write st d = Ok (st', len d) /\ frel m N st' (put s p d, p + len d, true).
Proof.
  intros HN (Hs & Hp & Hmx & Hu & Hf & _) Hd H1 H2 H3 H4. pose proof (len_pos d Hd). pose proof (len_nonneg s).
  destruct (f_write_safe N st d HN Hs) as (st' & k & E & Hs' & Hk & Hp' & Hm' & Hu' & b & Eb & Eb').
  pose proof Hs as (Hlb & Hpb & _). assert (k = len d) as -> by lia.
  replace (firstn (Z.to_nat (len d)) d) with d in Eb by (unfold len; rewrite Nat2Z.id, firstn_all; reflexivity).
  exists st'. split; [exact E|]. pose proof (len_put s p d ltac:(lia)) as Hlp.
  assert (Hfb : firstn (length (put s p d)) b = put s p d /\ len b = N).
  { pose proof (len_copy_in _ _ _ _ Eb) as Hlc. split; [|lia]. rewrite Hp in Eb. rewrite copy_in_ok in Eb by lia. injection Eb as <-.
    assert (Hpre : firstn (Z.to_nat p) (fbuf st) = firstn (Z.to_nat p) s).
    { rewrite <- Hf at 1. rewrite firstn_firstn. f_equal. unfold len in *. lia. }
    rewrite Hpre. unfold put at 2. replace (Z.to_nat (p - len s)) with 0%nat by lia. cbn [repeat app].
    assert (Hlen : length (put s p d) = (length (firstn (Z.to_nat p) s ++ d) + length (skipn (Z.to_nat (p + len d)) s))%nat).
    { unfold put. replace (Z.to_nat (p - len s)) with 0%nat by lia. cbn [repeat app]. rewrite !app_length. lia. }
    rewrite Hlen. rewrite app_assoc. rewrite firstn_app_2. rewrite <- app_assoc. f_equal. f_equal.
    replace (Z.to_nat p + length d)%nat with (Z.to_nat (p + len d)) by (unfold len; lia).
    set (q := Z.to_nat (p + len d)).
    rewrite <- Hf at 2. rewrite skipn_firstn_comm. f_equal. rewrite skipn_length. reflexivity. }
  destruct Hfb as (Hfb & HlN).
  assert (Hq : copy_in b (if update m then N - 1 else p + len d) [0] = Ok (fbuf st')).
  { destruct Eb' as [[K _]|Eb']; [lia|]. rewrite Hp, Hu in Eb'. destruct (Z.leb_spec N (p + len d)); [lia|]. cbn [orb] in Eb'. exact Eb'. }
  set (q := if update m then N - 1 else p + len d) in *.
  assert (Hqb : len (put s p d) <= q < N) by (unfold q; destruct (update m); [lia | specialize (H4 eq_refl); lia]).
  rewrite copy_one in Hq by lia. injection Hq as Hq.
  unfold frel. conj.
  - exact Hs'.
  - lia.
  - lia.
  - congruence.
  - rewrite <- Hq. rewrite firstn_app, firstn_length, firstn_firstn.
    replace (Nat.min (length (put s p d)) (Z.to_nat q)) with (length (put s p d)) by (unfold len in *; lia).
    replace (length (put s p d) - Nat.min (Z.to_nat q) (length b))%nat with 0%nat by (unfold len in *; lia). cbn [firstn]. rewrite app_nil_r. exact Hfb.
  - intros _ Hum. rewrite <- Hq. unfold q in *. rewrite Hum in *. specialize (H4 eq_refl).
    rewrite app_nth2; rewrite firstn_length; unfold len in *; [|lia].
    replace (length (put s p d) - Nat.min (Z.to_nat (p + Z.of_nat (length d))) (length b))%nat with 0%nat by lia. reflexivity.
Qed.

Lemma f_read_one m N st s p w n : N < 2 ^ 62 -> frel m N st (s, p, w) -> 0 <= n ->
  exists st' d, f_read st n = Ok (st', d) /\ d = firstn (Z.to_nat n) (skipn (Z.to_nat p) s) /\ frel m N st' (s, p + len d, w).
Proof.
  intros HN (Hs & Hp & Hmx & Hu & Hf & Hn0) Hn. destruct (f_read_safe N st n HN Hs Hn) as (st' & d & E & Hs' & Hd & Hl & Hp' & Hb' & Hm' & Hu').
  exists st', d. split; [exact E|]. pose proof Hs as (Hlb & Hpb & Hmb). split.
  - rewrite Hd, Hp, Hmx. rewrite <- Hf at 2. rewrite skipn_firstn_comm, firstn_firstn. f_equal. unfold len. lia.
  - unfold frel. rewrite Hb', Hm', Hu'. conj; auto; try lia.
Qed.

Lemma f_fread_ok m N : N < 2 ^ 62 -> forall st s p w n, frel m N st (s, p, w) -> 0 <= n ->
  exists st' d, f_fread (S (Z.to_nat n)) st n [] = Ok (st', d) /\ d = firstn (Z.to_nat n) (skipn (Z.to_nat p) s) /\ frel m N st' (s, p + len d, w).
Proof.
  intros HN st s p w n Hr Hn. cbn [f_fread]. destruct (Z.eqb_spec n 0) as [->|Hn0].
  - exists st, []. split; [reflexivity|]. split; [reflexivity|]. change (len []) with 0. rewrite Z.add_0_r. exact Hr.
  - destruct (f_read_one m N st s p w n HN Hr Hn) as (st1 & d & E & Hd & Hr1). rewrite E. cbn [bind].
    destruct d as [|c d1]; [exists st1, []; auto|]. set (d0 := c :: d1) in *.
    assert (Hl : len d0 = Z.min n (Z.max 0 (len s - p))).
    { rewrite Hd, len_firstn. destruct Hr as ((_ & Hpb & _) & Hp & _). unfold len. rewrite skipn_length. lia. }
    assert (Hfin : exists st2, f_fread (Z.to_nat n) st1 (n - len d0) d0 = Ok (st2, d0) /\ frel m N st2 (s, p + len d0, w)).
    { destruct (Z.to_nat n) as [|g] eqn:Eg; [lia|]. cbn [f_fread]. destruct (Z.eqb_spec (n - len d0) 0); [eauto|].
      destruct (f_read_one m N st1 s (p + len d0) w (n - len d0) HN Hr1) as (st2 & d2 & E2 & Hd2 & Hr2); [lia|].
      rewrite E2. cbn [bind].
      assert (d2 = []) as ->.
      { rewrite Hd2. destruct Hr as ((_ & Hpb & _) & Hp & _). rewrite skipn_all2 by (unfold len in *; lia). apply firstn_nil. }
      exists st2. split; [reflexivity|]. change (len []) with 0 in Hr2. rewrite Z.add_0_r in Hr2. exact Hr2. }
    destruct Hfin as (st2 & E2 & Hr2). cbn [app]. exists st2, d0. split; [exact E2|]. auto.
Qed.

Lemma f_step_ok m N st f o : N < 2 ^ 62 -> frel m N st f -> f_ok m N f o ->
  exists f1 e st1, ffile m N f o f1 e /\ f_op st o = Ok (st1, e) /\ frel m N st1 f1.
Proof.
  destruct f as [[s p] w]. intros HN Hr Hok. destruct o as [d|n|o wh| |]; cbn [f_ok f_op] in *.
  - destruct d as [|c d].
    + exists (s, p, w), (Wrote 0), st. split; [constructor|]. split; [reflexivity | exact Hr].
    + destruct Hok as [K|(_ & H1 & H2 & H3 & H4 & H5)]; [discriminate|].
      destruct (f_write_ok m N st s p w (c :: d) HN Hr ltac:(discriminate) H1 H2 H3 H4) as (st' & E & Hr').
      exists (put s p (c :: d), p + len (c :: d), true), (Wrote (len (c :: d))), st'. split; [constructor; [discriminate | exact H5]|]. split; [|exact Hr'].
      cbn [f_fwrite length]. rewrite E. cbn [bind].
      destruct (Z.eqb_spec (len (c :: d)) 0) as [E0|_]; [pose proof (len_pos (c :: d) ltac:(discriminate)); lia|].
      replace (skipn (Z.to_nat (len (c :: d))) (c :: d)) with (@nil Z) by (unfold len; rewrite Nat2Z.id, skipn_all; reflexivity).
      cbn [f_fwrite bind]. rewrite Z.add_0_l. reflexivity.
  - destruct (f_fread_ok m N HN st s p w n Hr Hok) as (st' & d & E & Hd & Hr'). rewrite E. cbn [bind].
    exists (s, p + len d, w), (Got d), st'. split; [constructor; exact Hd|]. split; [reflexivity | exact Hr'].
  - destruct Hr as (Hs & Hp & Hmx & Hu & Hf & Hn0). unfold f_seek. rewrite Hmx, Hp.
    change (match wh with Set_ => o | Cur => p + o | End_ => len s + o end) with (target s p o wh).
    pose proof Hs as (Hlb & Hpb & Hmb). rewrite Hlb. destruct ((target s p o wh <? 0) || (N <? target s p o wh)) eqn:E.
    + exists (s, p, w), (Sought false), st. split; [constructor; lia|]. split; [reflexivity|]. unfold frel. conj; auto.
    + exists (s, target s p o wh, w). eexists _, _. split; [apply ff_seek; lia|]. split; [reflexivity|].
      unfold frel, safe. cbn. conj; auto; try lia.
  - destruct Hr as (Hs & Hp & Hmx & Hu & Hf & Hn0). exists (s, p, w), (Told p).
    unfold f_seek. rewrite Hp, Z.add_0_r. pose proof Hs as (Hlb & Hpb & Hmb). rewrite Hlb.
    destruct ((p <? 0) || (N <? p)) eqn:E; [lia|].
    eexists. split; [constructor|]. split; [reflexivity|]. unfold frel, safe. cbn. conj; auto; lia.
  - destruct Hr as (Hs & Hp & Hmx & Hu & Hf & Hn0). exists (s, p, w), (Flushed (fbuf st) (fmax st)), st. rewrite Hmx.
    split; [constructor; auto; apply Hs|]. split; [reflexivity|]. unfold frel. conj; auto.
Qed.

Theorem fmem_ok m N ops : N < 2 ^ 62 -> forall st f, frel m N st f -> f_oks m N f ops ->
  exists f' es st', ffiles m N f ops f' es /\ f_run st ops = Ok (st', es).
Proof.
  intros HN. induction ops as [|o ops IH]; intros st f Hr Hok.
  - exists f, [], st. split; [constructor | reflexivity].
  - inversion_clear Hok as [|? ? ? H1 H2]. destruct (f_step_ok m N st f o HN Hr H1) as (f1 & e & st1 & Hs & E & Hr1).
    destruct (IH st1 f1 Hr1 (H2 f1 e Hs)) as (f' & es & st' & Hs' & E').
    exists f', (e :: es), st'. split; [econstructor; eauto|]. cbn. rewrite E. cbn. rewrite E'. reflexivity.
Qed.

Lemma f_open_rel b m f : starts b m f -> frel m (len b) (f_open b m) f.
Proof.
  intros H. pose proof (f_open_safe b m) as Hs.
  assert (App : forall s r, b = s ++ r -> ~ In 0 s -> (r = [] \/ hd 1 r = 0) -> until_nul b = len s).
  { intros s r E Hn Hr. clear H Hs. subst b. induction s as [|c s IH]; cbn [app until_nul].
    - destruct Hr as [->|Hr]; [reflexivity|]. destruct r as [|c r]; [reflexivity|]. cbn in Hr. subst c. reflexivity.
    - destruct (Z.eqb_spec c 0); [exfalso; apply Hn; left; assumption|]. rewrite IH; [unfold len; cbn [length]; lia | intros K; apply Hn; right; exact K]. }
  destruct m; cbn [starts] in H.
  all: try (subst f; unfold frel; cbn [f_open fpos fmax fupd fbuf update]; conj; auto; try reflexivity; try apply firstn_all; discriminate).
  all: destruct H as (s & r & -> & E & H1 & H2); pose proof (App s r E H1 H2) as Hu; unfold frel; cbn [f_open fpos fmax fupd fbuf update]; conj; auto; try discriminate;
    rewrite E; rewrite firstn_app, firstn_all, Nat.sub_diag; apply app_nil_r.
Qed.
