(** Proofs about buffered streams. *)
From Verif Require Import Stdio_Model Stdio_Spec.
Open Scope nat_scope.

(** * Lists *)
Lemma length_slice : forall l a b, length (slice l a b) = min (b - a) (length l - a).
Proof. intros. unfold slice. rewrite firstn_length, skipn_length. reflexivity. Qed.
Lemma slice_nil : forall l a, slice l a a = [].
Proof. intros. unfold slice. rewrite Nat.sub_diag. reflexivity. Qed.
Lemma skipn_add : forall A (l : list A) a b, skipn a (skipn b l) = skipn (b + a) l.
Proof.
  intros A l a b. revert l. induction b; intros l; [reflexivity|].
  destruct l; cbn [skipn plus]; [apply skipn_nil|apply IHb].
Qed.
Lemma firstn_split : forall A (l : list A) a b, firstn (a + b) l = firstn a l ++ firstn b (skipn a l).
Proof.
  intros A l a b. revert l. induction a; intros l; [reflexivity|].
  destruct l; cbn [firstn skipn plus app]; [now rewrite firstn_nil|now rewrite IHa].
Qed.
Lemma slice_split : forall l a b c, a <= b -> b <= c -> slice l a c = slice l a b ++ slice l b c.
Proof.
  intros. unfold slice. replace (c - a) with ((b - a) + (c - b)) by lia.
  rewrite firstn_split, skipn_add. do 3 f_equal. lia.
Qed.
Lemma firstn_slice : forall l a b k, a + k <= b -> firstn k (slice l a b) = slice l a (a + k).
Proof. intros. unfold slice. rewrite firstn_firstn. f_equal. lia. Qed.
Lemma skipn_slice : forall l a b k, skipn k (slice l a b) = slice l (a + k) b.
Proof.
  intros. unfold slice. rewrite skipn_firstn_comm, skipn_add. f_equal. lia.
Qed.
Lemma slice_full : forall l n, length l <= n -> slice l 0 n = l.
Proof. intros. unfold slice. cbn [skipn]. apply firstn_all2. lia. Qed.

Lemma put_nonnil : forall l o d, d <> [] ->
  put l o d = firstn o (l ++ repeat 0%Z (o - length l)) ++ d ++ skipn (o + length d) l.
Proof. intros l o [|x d] N; [contradiction|reflexivity]. Qed.
Lemma put_in : forall l o d, o + length d <= length l -> put l o d = firstn o l ++ d ++ skipn (o + length d) l.
Proof.
  intros l o d H. destruct d as [|x d].
  - cbn [put length app]. rewrite Nat.add_0_r. symmetry. apply firstn_skipn.
  - rewrite put_nonnil by discriminate. rewrite firstn_app. replace (o - length l) with 0 by (cbn [length] in H; lia).
    cbn [firstn]. rewrite app_nil_r. reflexivity.
Qed.
Lemma length_put_in : forall l o d, o + length d <= length l -> length (put l o d) = length l.
Proof.
  intros. rewrite put_in by assumption. rewrite !app_length, firstn_length, skipn_length. lia.
Qed.
Lemma slice_app1 : forall a b i o, o <= length a -> slice (a ++ b) i o = slice a i o.
Proof.
  intros a b i o H. unfold slice. rewrite skipn_app, firstn_app, skipn_length.
  replace (o - i - (length a - i)) with 0 by lia. cbn [firstn]. apply app_nil_r.
Qed.
Lemma slice_app2 : forall a b o, slice (a ++ b) (length a) (length a + o) = slice b 0 o.
Proof.
  intros a b o. unfold slice. rewrite skipn_app, skipn_all, Nat.sub_diag. cbn [skipn app].
  f_equal. lia.
Qed.
Lemma slice_put : forall l o d i, i <= o -> o + length d <= length l ->
  slice (put l o d) i (o + length d) = slice l i o ++ d.
Proof.
  intros l o d i H1 H2. rewrite put_in by assumption.
  assert (L : length (firstn o l) = o) by (rewrite firstn_length; lia).
  rewrite (slice_split _ i o) by lia. f_equal.
  - rewrite slice_app1 by lia. unfold slice. rewrite skipn_firstn_comm, firstn_firstn, Nat.min_id. reflexivity.
  - pose proof (slice_app2 (firstn o l) (d ++ skipn (o + length d) l) (length d)) as Q. rewrite L in Q. rewrite Q.
    rewrite slice_app1 by lia. apply slice_full. lia.
Qed.

Lemma length_put : forall l o d, d <> [] -> length (put l o d) = max (length l) (o + length d).
Proof.
  intros l o d N. rewrite put_nonnil by exact N.
  rewrite !app_length, firstn_length, app_length, repeat_length, skipn_length. lia.
Qed.
Lemma nth_skip : forall (l : list Z) n j, nth j (skipn n l) 0%Z = nth (n + j) l 0%Z.
Proof.
  intros l n. revert l. induction n; intros l j; [reflexivity|].
  destruct l; cbn [skipn plus nth]; [destruct j; reflexivity|apply IHn].
Qed.
Lemma nth_first : forall (l : list Z) n j, j < n -> nth j (firstn n l) 0%Z = nth j l 0%Z.
Proof.
  intros l n. revert l. induction n; intros l j H; [lia|].
  destruct l; [reflexivity|]. destruct j; [reflexivity|]. cbn [firstn nth]. apply IHn. lia.
Qed.
Lemma put_nth : forall l o d j, d <> [] ->
  nth j (put l o d) 0%Z = if j <? o then nth j l 0%Z else if j <? o + length d then nth (j - o) d 0%Z else nth j l 0%Z.
Proof.
  intros l o d j N. rewrite put_nonnil by exact N.
  assert (L : length (firstn o (l ++ repeat 0%Z (o - length l))) = o)
    by (rewrite firstn_length, app_length, repeat_length; lia).
  destruct (Nat.ltb_spec j o).
  - rewrite app_nth1 by lia. rewrite nth_first by lia.
    destruct (Nat.lt_ge_cases j (length l)); [now rewrite app_nth1 by assumption|].
    rewrite app_nth2 by assumption. rewrite (nth_overflow l) by assumption. apply nth_repeat.
  - rewrite app_nth2 by lia. rewrite L. destruct (Nat.ltb_spec j (o + length d)).
    + rewrite app_nth1 by lia. reflexivity.
    + rewrite app_nth2 by lia. rewrite nth_skip. f_equal. lia.
Qed.
Lemma put_put : forall l o a b, put (put l o a) (o + length a) b = put l o (a ++ b).
Proof.
  intros l o a b. destruct a as [|x a']; [cbn [length app put]; rewrite Nat.add_0_r; reflexivity|].
  destruct b as [|y b']; [rewrite app_nil_r; reflexivity|].
  set (a := x :: a'). set (b := y :: b').
  assert (Na : a <> []) by discriminate. assert (Nb : b <> []) by discriminate.
  assert (Nab : a ++ b <> []) by discriminate. clearbody a b.
  apply (nth_ext _ _ 0%Z 0%Z).
  - rewrite !length_put by assumption. rewrite app_length. lia.
  - intros j _. rewrite !put_nth by assumption. rewrite app_length.
    destruct (Nat.ltb_spec j (o + length a)).
    + destruct (Nat.ltb_spec j o); [reflexivity|].
      destruct (Nat.ltb_spec j (o + (length a + length b))); [|lia]. rewrite app_nth1 by lia. reflexivity.
    + destruct (Nat.ltb_spec j o); [lia|].
      destruct (Nat.ltb_spec j (o + length a + length b)); destruct (Nat.ltb_spec j (o + (length a + length b))); try lia; try reflexivity.
      rewrite app_nth2 by lia. f_equal. lia.
Qed.

(** * The relation between the stream and the unbuffered file *)
Definition pend (s : stream) : list Z := slice (buf s) (io_offset s) (offset s).

Inductive shape (i : ideal) (s : stream) : Prop :=
| sh_empty : valid_limit s = 0 -> offset s = 0 -> io_offset s = 0 -> dirty_begin s = dirty_end s ->
    i_data i = content (dev s) -> i_pos i = kpos (dev s) -> i_out i = output (dev s) -> shape i s
| sh_read : i_last i = Reading -> mode s <> NoBuf -> io_mode s = false -> 0 < valid_limit s ->
    valid_limit s <= buffer_size -> io_offset s = valid_limit s -> offset s <= valid_limit s ->
    dirty_begin s = dirty_end s -> i_data i = content (dev s) -> i_out i = output (dev s) ->
    kpos (dev s) = i_pos i + (valid_limit s - offset s) -> valid_limit s <= kpos (dev s) ->
    kpos (dev s) <= length (content (dev s)) ->
    slice (buf s) 0 (valid_limit s) = slice (content (dev s)) (kpos (dev s) - valid_limit s) (kpos (dev s)) ->
    shape i s
| sh_write : i_last i = Writing -> mode s <> NoBuf -> io_mode s = true -> 0 < offset s ->
    valid_limit s = offset s -> offset s <= buffer_size -> io_offset s <= offset s ->
    (dirty_begin s = io_offset s /\ dirty_end s = offset s) \/ (dirty_begin s = dirty_end s /\ io_offset s = offset s) ->
    i_data i = (if pipe (dev s) then content (dev s) else put (content (dev s)) (kpos (dev s)) (pend s)) ->
    i_pos i = (if pipe (dev s) then kpos (dev s) else kpos (dev s) + (offset s - io_offset s)) ->
    i_out i = (if pipe (dev s) then output (dev s) ++ pend s else output (dev s)) ->
    shape i s.

Record rel (i : ideal) (s : stream) : Prop := {
  r_pipe : i_pipe i = pipe (dev s);
  r_push : i_push i = unget s;
  r_eof : i_eof i = eof s;
  r_buf : length (buf s) = buffer_size;
  r_shape : shape i s }.

(** what no internal function changes, and errors come from the kernel only *)
Record keeps (s s' : stream) : Prop := {
  k_mode : mode s' = mode s;
  k_unget : unget s' = unget s;
  k_eof : eof s' = eof s;
  k_pipe : pipe (dev s') = pipe (dev s);
  k_ans : incl (answers s') (answers s);
  k_err : no_errors (answers s) -> err s' = err s }.

Lemma keeps_refl : forall s, keeps s s.
Proof. intros s. constructor; auto using incl_refl. Qed.
Lemma no_errors_incl : forall l l', incl l' l -> no_errors l -> no_errors l'.
Proof. intros l l' I N e H. exact (N e (I _ H)). Qed.
Lemma keeps_trans : forall a b c, keeps a b -> keeps b c -> keeps a c.
Proof.
  intros a b c [] []. constructor; try congruence.
  - eapply incl_tran; eassumption.
  - intros N. rewrite k_err1, k_err0; auto. eapply no_errors_incl; eassumption.
Qed.

Ltac fl := cbn [dev answers mode buf unget offset io_offset valid_limit dirty_begin dirty_end io_mode eof err
  set_dev set_buf set_unget set_pos set_dirty set_iomode set_eof set_err purge pipe content kpos output] in *.

Lemma pull_spec : forall s n,
  (exists e l, pull s n = (inl (Z.pos e), l) /\ incl l (answers s) /\ In (Err e) (answers s)) \/
  (exists k l, pull s n = (inr k, l) /\ incl l (answers s) /\ k <= n /\ (n <> 0 -> k <> 0)).
Proof.
  intros s n. unfold pull. destruct (answers s) as [|[e|k] l].
  - right. exists n, []. repeat split; auto using incl_refl.
  - left. exists e, l. split; [reflexivity|]. split; [apply incl_tl, incl_refl|left; reflexivity].
  - right. exists (clamp k n), l. split; [reflexivity|]. split; [apply incl_tl, incl_refl|].
    unfold clamp. destruct (Nat.eqb_spec n 0); lia.
Qed.

Lemma buffer_size_pos : 0 < buffer_size.
Proof. unfold buffer_size. lia. Qed.
Opaque buffer_size.

(** * Writing back *)
Lemma io_write_spec : forall s x s1 r, io_write s x = (s1, r) -> x <> [] ->
  keeps s s1 /\ s1 = set_dev s (dev s1) (answers s1) /\
  ((exists e, r = inl (Z.pos e) /\ In (Err e) (answers s) /\ dev s1 = dev s) \/
   (exists k, r = inr k /\ 0 < k <= length x /\
      content (dev s1) = (if pipe (dev s) then content (dev s) else put (content (dev s)) (kpos (dev s)) (firstn k x)) /\
      kpos (dev s1) = (if pipe (dev s) then kpos (dev s) else kpos (dev s) + k) /\
      output (dev s1) = (if pipe (dev s) then output (dev s) ++ firstn k x else output (dev s)))).
Proof.
  intros s x s1 r H N. unfold io_write in H.
  assert (L : length x <> 0) by (destruct x; [contradiction|discriminate]).
  destruct (pull_spec s (length x)) as [(e & l & P & I & IE)|(k & l & P & I & K & NZ)]; rewrite P in H; injection H as <- <-.
  - split; [constructor; fl; auto|]. split; [reflexivity|]. left. exists e. auto.
  - split; [constructor; fl; auto; destruct (pipe (dev s)); reflexivity|]. split; [reflexivity|].
    right. exists k. split; [reflexivity|]. split; [lia|]. fl. destruct (pipe (dev s)); fl; auto.
Qed.

Lemma write_loop_spec : forall fuel i s,
  rel i s -> i_last i = Writing -> mode s <> NoBuf -> io_mode s = true -> 0 < offset s -> valid_limit s = offset s ->
  dirty_begin s = io_offset s -> dirty_end s = offset s -> offset s - io_offset s <= fuel ->
  exists s' e, write_loop fuel s = Some (s', e) /\ rel i s' /\ keeps s s' /\
    offset s' = offset s /\ valid_limit s' = offset s' /\ io_mode s' = true /\ dirty_end s' = offset s' /\ dirty_begin s' = io_offset s' /\
    (e = 0%Z -> io_offset s' = offset s') /\ (no_errors (answers s) -> e = 0%Z).
Proof.
  induction fuel as [|f IH]; intros i s R LW MM IM O V DB DE F;
    destruct R as [Rp Ru Re Rb Rs];
    (assert (W : io_offset s <= offset s /\ offset s <= buffer_size /\
       i_data i = (if pipe (dev s) then content (dev s) else put (content (dev s)) (kpos (dev s)) (pend s)) /\
       i_pos i = (if pipe (dev s) then kpos (dev s) else kpos (dev s) + (offset s - io_offset s)) /\
       i_out i = (if pipe (dev s) then output (dev s) ++ pend s else output (dev s)))
      by (destruct Rs; [lia|congruence|auto])); destruct W as (W1 & W2 & W3 & W4 & W5);
    cbn [write_loop].
  - replace (io_offset s <? dirty_end s) with false by (symmetry; apply Nat.ltb_ge; lia).
    exists s, 0%Z. split; [reflexivity|]. split; [constructor; assumption|]. split; [apply keeps_refl|].
    repeat split; auto; lia.
  - destruct (Nat.ltb_spec (io_offset s) (dirty_end s)) as [L|L].
    2: { exists s, 0%Z. split; [reflexivity|]. split; [constructor; assumption|]. split; [apply keeps_refl|].
         repeat split; auto; lia. }
    replace (buffer_size <? dirty_end s) with false by (symmetry; apply Nat.ltb_ge; lia).
    assert (Lx : length (slice (buf s) (io_offset s) (dirty_end s)) = offset s - io_offset s)
      by (rewrite length_slice, Rb; lia).
    destruct (io_write s (slice (buf s) (io_offset s) (dirty_end s))) as [s1 r] eqn:E.
    apply io_write_spec in E; [|intros Q; rewrite Q in Lx; cbn [length] in Lx; lia].
    destruct E as (K & ES & [(e & -> & IE & ED)|(k & -> & Kb & EC & EP & EO)]).
    + exists (set_err s1 true), (Z.pos e). split; [reflexivity|].
      destruct K as [K1 K2 K3 K4 K5 K6].
      rewrite ES. fl. rewrite ED.
      split; [constructor; fl; auto; apply sh_write; fl; auto|].
      split; [constructor; fl; auto; intros N; elim (N e IE)|].
      repeat split; auto; try lia; try discriminate. intros N. elim (N e IE).
    + replace (k =? 0) with false by (symmetry; apply Nat.eqb_neq; lia).
      assert (FS : firstn k (slice (buf s) (io_offset s) (dirty_end s)) = slice (buf s) (io_offset s) (io_offset s + k))
        by (apply firstn_slice; lia).
      assert (SP : pend s = slice (buf s) (io_offset s) (io_offset s + k) ++ slice (buf s) (io_offset s + k) (offset s))
        by (apply slice_split; lia).
      assert (LS : length (slice (buf s) (io_offset s) (io_offset s + k)) = k) by (rewrite length_slice, Rb; lia).
      destruct K as [K1 K2 K3 K4 K5 K6].
      set (s2 := set_dirty (set_pos s1 (offset s1) (io_offset s1 + k) (valid_limit s1)) (dirty_begin s1 + k) (dirty_end s1)).
      assert (Q : offset s1 = offset s /\ io_offset s1 = io_offset s /\ valid_limit s1 = valid_limit s /\
                  dirty_begin s1 = dirty_begin s /\ dirty_end s1 = dirty_end s /\ io_mode s1 = io_mode s /\ buf s1 = buf s)
        by (rewrite ES; fl; auto 10).
      destruct Q as (Q1 & Q2 & Q3 & Q4 & Q5 & Q6 & Q7).
      destruct (IH i s2) as (s' & e & X1 & X2 & X3 & X4 & X5 & X6 & X7 & X8 & X9 & X10); unfold s2; fl; try congruence; try lia.
      { constructor; fl; try congruence. apply sh_write; fl; try congruence; try lia.
        - unfold pend; fl. rewrite EC, EP, Q1, Q2, Q7, K4, W3, SP, FS. destruct (pipe (dev s)); [reflexivity|].
          pose proof (put_put (content (dev s)) (kpos (dev s)) (slice (buf s) (io_offset s) (io_offset s + k))
            (slice (buf s) (io_offset s + k) (offset s))) as PP. rewrite LS in PP. symmetry. exact PP.
        - rewrite EP, Q1, Q2, K4, W4. destruct (pipe (dev s)); lia.
        - unfold pend; fl. rewrite EO, Q1, Q2, Q7, K4, W5, SP, FS. destruct (pipe (dev s)); [|reflexivity].
          rewrite <- app_assoc. reflexivity. }
      exists s', e. split; [exact X1|]. split; [exact X2|].
      assert (K12 : keeps s s2) by (constructor; unfold s2; fl; assumption).
      split; [eapply keeps_trans; [exact K12|exact X3]|].
      unfold s2 in *; fl. repeat split; auto; try congruence.
      intros N. apply X10. eapply no_errors_incl; [exact K5|exact N].
Qed.

Lemma write_back_spec : forall i s, rel i s ->
  exists s' e, write_back s = Some (s', e) /\ rel i s' /\ keeps s s' /\
    offset s' = offset s /\ valid_limit s' = valid_limit s /\ io_mode s' = io_mode s /\
    (e = 0%Z -> dirty_begin s' = dirty_end s') /\ (no_errors (answers s) -> e = 0%Z).
Proof.
  intros i s R. unfold write_back.
  destruct (Nat.eqb_spec (dirty_begin s) (dirty_end s)) as [D|D].
  { exists s, 0%Z. split; [reflexivity|]. split; [exact R|]. split; [apply keeps_refl|]. auto 10. }
  destruct (r_shape _ _ R) as [| |H1 H2 H3 H4 H5 H6 H7 H8 H9 H10 H11]; [congruence|congruence|].
  destruct H8 as [[H8 H8']|[H8 _]]; [|congruence].
  rewrite H8, Nat.eqb_refl.
  destruct (write_loop_spec buffer_size i s R H1 H2 H3 H4 H5 H8 H8' ltac:(lia))
    as (s' & e & X1 & X2 & X3 & X4 & X5 & X6 & X7 & X8 & X9 & X10).
  exists s', e. rewrite X1. split; [destruct (pipe (dev s)); reflexivity|]. split; [exact X2|]. split; [exact X3|].
  repeat split; try congruence; auto. intros E. rewrite X8, X7. auto.
Qed.

Lemma clean : forall i s, rel i s -> dirty_begin s = dirty_end s ->
  i_data i = content (dev s) /\ i_out i = output (dev s) /\ kpos (dev s) + offset s = i_pos i + io_offset s /\
  io_offset s <= kpos (dev s) + offset s /\ offset s <= io_offset s.
Proof.
  intros i s R D. destruct (r_shape _ _ R) as [| |H1 H2 H3 H4 H5 H6 H7 H8 H9 H10 H11]; try (repeat split; try assumption; lia).
  assert (E : io_offset s = offset s) by (destruct H8; lia).
  unfold pend in *. rewrite E in *. rewrite slice_nil in *. rewrite app_nil_r in H11.
  repeat split; try lia; destruct (pipe (dev s)); cbn [put] in *; try congruence; lia.
Qed.

Lemma reset_spec : forall i s, rel i s -> dirty_begin s = dirty_end s -> offset s = valid_limit s ->
  exists s', reset s = Some s' /\ s' = set_pos s 0 0 0 /\ rel i s'.
Proof.
  intros i s R D O. unfold reset. rewrite O, Nat.eqb_refl. cbn [negb andb]. rewrite andb_false_r.
  rewrite D, Nat.eqb_refl. cbn [negb]. eexists. split; [reflexivity|]. split; [reflexivity|].
  destruct (clean i s R D) as (C1 & C2 & C3 & C4 & C5). destruct R as [Rp Ru Re Rb Rs].
  constructor; fl; auto. apply sh_empty; fl; auto.
  destruct Rs; lia.
Qed.

Lemma recycle_spec : forall i s, rel i s -> offset s = valid_limit s ->
  exists s' e, recycle s = Some (s', e) /\ rel i s' /\ keeps s s' /\
    (e = 0%Z -> valid_limit s' = 0 /\ offset s' = 0) /\ (no_errors (answers s) -> e = 0%Z) /\ io_mode s' = io_mode s.
Proof.
  intros i s R O. unfold recycle.
  destruct (write_back_spec i s R) as (s1 & e & E & R1 & K1 & O1 & V1 & M1 & D1 & N1). rewrite E.
  destruct (Z.eqb_spec e 0) as [->|Ne]; cbn [negb].
  - destruct (reset_spec i s1 R1 (D1 eq_refl) ltac:(congruence)) as (s2 & E2 & -> & R2). rewrite E2.
    eexists. exists 0%Z. split; [reflexivity|]. split; [exact R2|].
    split; [eapply keeps_trans; [exact K1|]; constructor; fl; auto using incl_refl|].
    fl. auto.
  - exists s1, e. split; [reflexivity|]. split; [exact R1|]. split; [exact K1|]. split; [contradiction|].
    split; [exact N1|exact M1].
Qed.

(** * Writing *)
Definition iwrite := emit.
Lemma emit_app : forall i a b, emit (emit i a) b = emit i (a ++ b).
Proof.
  intros i a b. unfold emit; cbn. f_equal.
  - destruct (i_pipe i); [reflexivity|]. apply put_put.
  - destruct (i_pipe i); [reflexivity|]. rewrite app_length. lia.
  - destruct (i_pipe i); [|reflexivity]. rewrite app_assoc. reflexivity.
  - destruct b; [rewrite app_nil_r; reflexivity|]. destruct a; reflexivity.
Qed.
Lemma emit_nil : forall i, emit i [] = i.
Proof. intros []. unfold emit; cbn. destruct i_pipe; cbn [put length]; rewrite ?app_nil_r, ?Nat.add_0_r; reflexivity. Qed.

Lemma find_nl_lt : forall x k, find_nl x = Some k -> k < length x.
Proof.
  induction x as [|c x IH]; intros k H; [discriminate|]. cbn in H. destruct (c =? newline)%Z; [injection H as <-; cbn; lia|].
  destruct (find_nl x) as [m|]; [|discriminate]. cbn in H. injection H as <-. specialize (IH m eq_refl). cbn. lia.
Qed.

(** the buffered part of a write: [c] bytes go into the buffer *)
Lemma buffer_rel : forall i s x, rel i s -> i_last i <> Reading -> mode s <> NoBuf ->
  0 < length x -> offset s + length x <= buffer_size -> (io_mode s = true \/ valid_limit s = 0) ->
  let s3 := set_buf (set_iomode s true) (put (buf s) (offset s) x) in
  let s4 := if negb (dirty_begin s3 =? dirty_end s3)
            then set_dirty s3 (min (dirty_begin s3) (offset s3)) (max (dirty_end s3) (offset s3 + length x))
            else set_dirty s3 (offset s3) (offset s3 + length x) in
  rel (emit i x) (set_pos s4 (offset s4 + length x) (io_offset s4) (max (offset s4 + length x) (valid_limit s4))).
Proof.
  intros i s x R NR NB Lx B M. cbv zeta. fl. destruct R as [Rp Ru Re Rb Rs].
  assert (Nx : x <> []) by (destruct x; [cbn in Lx; lia|discriminate]).
  assert (G : io_offset s <= offset s /\ (dirty_begin s = dirty_end s -> io_offset s = offset s) /\
              (dirty_begin s <> dirty_end s -> dirty_begin s = io_offset s /\ dirty_end s = offset s) /\
              valid_limit s = offset s /\
       i_data i = (if pipe (dev s) then content (dev s) else put (content (dev s)) (kpos (dev s)) (pend s)) /\
       i_pos i = (if pipe (dev s) then kpos (dev s) else kpos (dev s) + (offset s - io_offset s)) /\
       i_out i = (if pipe (dev s) then output (dev s) ++ pend s else output (dev s))).
  { destruct Rs as [E1 E2 E3 E4 E5 E6 E7|E1 E2 E3 E4|E1 E2 E3 E4 E5 E6 E7 E8 E9 E10 E11].
    - unfold pend. rewrite E2, E3, slice_nil, app_nil_r. cbn [put]. rewrite E5, E6, E7.
      repeat split; try lia; destruct (pipe (dev s)); auto; lia.
    - congruence.
    - repeat split; auto; try lia; destruct E8; lia. }
  destruct G as (G1 & G2 & G3 & G4 & G5 & G6 & G7).
  assert (GL : length (pend s) = offset s - io_offset s) by (unfold pend; rewrite length_slice, Rb; lia).
  assert (GP : slice (put (buf s) (offset s) x) (io_offset s) (offset s + length x) = pend s ++ x)
    by (apply slice_put; lia).
  assert (LW : i_last (emit i x) = Writing) by (unfold emit; cbn; destruct x; [contradiction|reflexivity]).
  assert (PP : put (put (content (dev s)) (kpos (dev s)) (pend s)) (kpos (dev s) + (offset s - io_offset s)) x
               = put (content (dev s)) (kpos (dev s)) (pend s ++ x)) by (rewrite <- GL; apply put_put).
  assert (LB : length (put (buf s) (offset s) x) = buffer_size) by (rewrite length_put_in; lia).
  destruct (Nat.eqb_spec (dirty_begin s) (dirty_end s)) as [D|D]; cbn [negb]; fl.
  - constructor; fl; auto. apply sh_write; unfold pend; fl; try lia; auto.
    + rewrite GP. cbn [emit i_data i_pipe]. rewrite Rp, G5, G6. destruct (pipe (dev s)); [reflexivity|exact PP].
    + cbn [emit i_pos i_pipe]. rewrite Rp, G6. destruct (pipe (dev s)); lia.
    + rewrite GP. cbn [emit i_out i_pipe]. rewrite Rp, G7. destruct (pipe (dev s)); [symmetry; apply app_assoc|reflexivity].
  - destruct (G3 D) as [D1 D2]. constructor; fl; auto. apply sh_write; unfold pend; fl; try lia; auto.
    + rewrite GP. cbn [emit i_data i_pipe]. rewrite Rp, G5, G6. destruct (pipe (dev s)); [reflexivity|exact PP].
    + cbn [emit i_pos i_pipe]. rewrite Rp, G6. destruct (pipe (dev s)); lia.
    + rewrite GP. cbn [emit i_out i_pipe]. rewrite Rp, G7. destruct (pipe (dev s)); [symmetry; apply app_assoc|reflexivity].
Qed.

Lemma emit_empty : forall i s s1 x k, rel i s -> valid_limit s = 0 -> offset s = 0 -> io_offset s = 0 ->
  dirty_begin s = dirty_end s ->
  s1 = set_dev s (dev s1) (answers s1) -> pipe (dev s1) = pipe (dev s) -> 0 < k <= length x ->
  content (dev s1) = (if pipe (dev s) then content (dev s) else put (content (dev s)) (kpos (dev s)) (firstn k x)) ->
  kpos (dev s1) = (if pipe (dev s) then kpos (dev s) else kpos (dev s) + k) ->
  output (dev s1) = (if pipe (dev s) then output (dev s) ++ firstn k x else output (dev s)) ->
  rel (emit i (firstn k x)) s1.
Proof.
  intros i s s1 x k R V O I D ES EP K EC EK EO. destruct (clean i s R D) as (C1 & C2 & C3 & C4 & C5).
  destruct R as [Rp Ru Re Rb Rs]. rewrite ES. constructor; fl; auto.
  - cbn [emit i_pipe]. congruence.
  - apply sh_empty; fl; auto; cbn [emit i_data i_pos i_out]; rewrite Rp, ?EC, ?EK, ?EO.
    + destruct (pipe (dev s)); [congruence|]. f_equal; [congruence|lia].
    + destruct (pipe (dev s)); [lia|]. rewrite firstn_length. lia.
    + destruct (pipe (dev s)); congruence.
Qed.

Lemma write_spec : forall i s x, rel i s -> i_last i <> Reading -> x <> [] ->
  exists s' r k, write s x = Some (s', r) /\ rel (emit i (firstn k x)) s' /\ keeps s s' /\ k <= length x /\
    ((r = inr k /\ 0 < k) \/ ((exists e, r = inl e) /\ ~ no_errors (answers s))).
Proof.
  intros i s x R NR Nx. unfold write.
  assert (Lx : length x <> 0) by (destruct x; [contradiction|discriminate]).
  replace (length x =? 0) with false by (symmetry; apply Nat.eqb_neq; exact Lx).
  assert (Z0 : emit i (firstn 0 x) = i) by (cbn [firstn]; apply emit_nil).
  destruct (mode s) eqn:M.
  { destruct (r_shape _ _ R) as [E1 E2 E3 E4|E1 E2|E1 E2]; [|congruence|congruence].
    rewrite E4, Nat.eqb_refl. cbn [negb].
    destruct (io_write s x) as [s1 r] eqn:E. apply io_write_spec in E; [|exact Nx].
    destruct E as (K & ES & [(e & -> & IE & ED)|(k & -> & Kb & EC & EP & EO)]).
    - exists (set_err s1 true), (inl (Z.pos e)), 0. split; [reflexivity|]. rewrite Z0.
      split; [|split; [|split; [lia|right; split; [exists (Z.pos e); reflexivity|intros N; exact (N e IE)]]]].
      + rewrite ES. destruct R as [Rp Ru Re Rb Rs]. fl. rewrite ED. constructor; fl; auto.
        destruct Rs; [apply sh_empty; fl; auto|congruence|congruence].
      + destruct K. constructor; fl; auto. intros N; elim (N e IE).
    - exists s1, (inr k), k. split; [reflexivity|].
      split; [eapply emit_empty; eauto using k_pipe|]. split; [exact K|]. split; [lia|]. left; split; [reflexivity|lia]. }
  1,2: assert (NB : mode s <> NoBuf) by congruence;
    assert (OV : offset s = buffer_size -> offset s = valid_limit s)
      by (intros Q; pose proof buffer_size_pos; destruct (r_shape _ _ R); [lia|congruence|congruence]);
    assert (RC : exists s1 e, (if offset s =? buffer_size then recycle s else Some (s, 0%Z)) = Some (s1, e) /\
       rel i s1 /\ keeps s s1 /\ (e = 0%Z -> offset s1 < buffer_size) /\ (no_errors (answers s) -> e = 0%Z));
    [destruct (Nat.eqb_spec (offset s) buffer_size) as [Q|Q];
      [destruct (recycle_spec i s R (OV Q)) as (s1 & e & E & R1 & K1 & V1 & N1 & _); exists s1, e;
       split; [exact E|]; split; [exact R1|]; split; [exact K1|]; split; [|exact N1];
       intros Q'; destruct (V1 Q') as [_ ->]; apply buffer_size_pos
      |exists s, 0%Z; split; [reflexivity|]; split; [exact R|]; split; [apply keeps_refl|]; split; [|auto];
       intros _; pose proof buffer_size_pos; destruct (r_shape _ _ R); lia]
    |destruct RC as (s1 & e & E & R1 & K1 & V1 & N1); rewrite E; clear E];
    (destruct (Z.eqb_spec e 0) as [E0|Ne]; cbn [negb];
     [|exists s1, (inl e), 0; split; [reflexivity|]; rewrite Z0; split; [exact R1|]; split; [exact K1|]; split; [lia|];
       right; split; [exists e; reflexivity|intros N; exact (Ne (N1 N))]]);
    specialize (V1 E0);
    assert (MV : io_mode s1 = true \/ valid_limit s1 = 0)
      by (destruct (r_shape _ _ R1); [auto|congruence|auto]);
    replace (negb (io_mode s1) && negb (valid_limit s1 =? 0)) with false
      by (destruct MV as [-> | ->]; [reflexivity|rewrite andb_false_r; reflexivity]);
    assert (NB1 : mode s1 <> NoBuf) by (rewrite (k_mode _ _ K1); exact NB);
    cbn [set_iomode offset dirty_begin dirty_end buf];
    replace (offset s1 <? buffer_size) with true by (symmetry; apply Nat.ltb_lt; exact V1); cbn [negb];
    set (c0 := min (buffer_size - offset s1) (length x));
    assert (C0 : 0 < c0 <= length x /\ offset s1 + c0 <= buffer_size) by (unfold c0; lia); clearbody c0.
  - (* line buffered *)
    set (nl := find_nl (firstn c0 x)).
    assert (CN : forall m, nl = Some m -> m < c0).
    { intros m Hm. apply find_nl_lt in Hm. rewrite firstn_length in Hm. lia. }
    set (c := match nl with Some m => m + 1 | None => c0 end).
    assert (C : 0 < c <= c0) by (unfold c; destruct nl; [specialize (CN n eq_refl); lia|lia]).
    replace (c =? 0) with false by (symmetry; apply Nat.eqb_neq; lia).
    assert (LF : length (firstn c x) = c) by (rewrite firstn_length; lia).
    pose proof (buffer_rel i s1 (firstn c x) R1 NR NB1 ltac:(lia) ltac:(lia) MV) as BR. cbv zeta in BR. rewrite LF in BR.
    set (s5 := set_pos _ _ _ _) in BR.
    assert (K5 : keeps s s5).
    { eapply keeps_trans; [exact K1|]. unfold s5. fl. destruct (negb _); constructor; fl; auto using incl_refl. }
    match goal with |- context [write_back ?a] => change a with s5 end.
    destruct nl as [m|].
    + destruct (write_back_spec _ _ BR) as (s6 & e6 & E6 & R6 & K6 & _ & _ & _ & _ & N6). rewrite E6.
      exists s6. destruct (Z.eqb_spec e6 0) as [E60|Ne6]; cbn [negb].
      * exists (inr c), c. split; [reflexivity|]. split; [exact R6|]. split; [eapply keeps_trans; eassumption|].
        split; [lia|]. left; split; [reflexivity|lia].
      * exists (inl (-1)%Z), c. split; [reflexivity|]. split; [exact R6|]. split; [eapply keeps_trans; eassumption|].
        split; [lia|]. right. split; [eexists; reflexivity|]. intros N. apply Ne6, N6. eapply no_errors_incl; [apply K5|exact N].
    + exists s5, (inr c), c. split; [reflexivity|]. split; [exact BR|]. split; [exact K5|]. split; [lia|].
      left; split; [reflexivity|lia].
  - (* fully buffered *)
    replace (c0 =? 0) with false by (symmetry; apply Nat.eqb_neq; lia).
    assert (LF : length (firstn c0 x) = c0) by (rewrite firstn_length; lia).
    pose proof (buffer_rel i s1 (firstn c0 x) R1 NR NB1 ltac:(lia) ltac:(lia) MV) as BR. cbv zeta in BR. rewrite LF in BR.
    set (s5 := set_pos _ _ _ _) in BR.
    assert (K5 : keeps s s5).
    { eapply keeps_trans; [exact K1|]. unfold s5. fl. destruct (negb _); constructor; fl; auto using incl_refl. }
    exists s5, (inr c0), c0. split; [reflexivity|]. split; [exact BR|]. split; [exact K5|]. split; [lia|].
    left; split; [reflexivity|lia].
Qed.

Lemma emit_last : forall i x, i_last i <> Reading -> i_last (emit i x) <> Reading.
Proof. intros i [|c x] H; cbn; [exact H|discriminate]. Qed.

Lemma write_all_spec : forall fuel i s x p,
  rel (emit i (firstn p x)) s -> i_last i <> Reading -> p <= length x -> length x - p <= fuel ->
  exists s' p' q, write_all fuel s x p = Some (s', p') /\ p <= p' /\ p' <= q <= length x /\
    rel (emit i (firstn q x)) s' /\ keeps s s' /\ (no_errors (answers s) -> p' = length x).
Proof.
  induction fuel as [|f IH]; intros i s x p R NR P F; cbn [write_all].
  - replace (p <? length x) with false by (symmetry; apply Nat.ltb_ge; lia).
    exists s, p, p. split; [reflexivity|]. split; [lia|]. split; [lia|]. split; [exact R|]. split; [apply keeps_refl|]. lia.
  - destruct (Nat.ltb_spec p (length x)) as [L|L].
    2: { exists s, p, p. split; [reflexivity|]. split; [lia|]. split; [lia|]. split; [exact R|]. split; [apply keeps_refl|]. lia. }
    assert (LS : length (skipn p x) = length x - p) by apply skipn_length.
    destruct (write_spec _ s (skipn p x) R (emit_last _ _ NR)) as (s1 & r & k & E & R1 & K1 & Kb & Q).
    { intros Q. rewrite Q in LS. cbn in LS. lia. }
    rewrite E. rewrite emit_app, <- firstn_split in R1.
    destruct Q as [[-> Kp]|[[e ->] NE]].
    + replace (k =? 0) with false by (symmetry; apply Nat.eqb_neq; lia).
      destruct (IH i s1 x (p + k) R1 NR ltac:(lia) ltac:(lia)) as (s' & p' & q & E' & A & B & R' & K' & N').
      exists s', p', q. split; [exact E'|]. split; [lia|]. split; [lia|]. split; [exact R'|].
      split; [eapply keeps_trans; eassumption|]. intros N. apply N'. eapply no_errors_incl; [apply K1|exact N].
    + exists s1, p, (p + k). split; [reflexivity|]. split; [lia|]. split; [lia|]. split; [exact R1|]. split; [exact K1|].
      intros N. contradiction.
Qed.

Lemma write_objects_spec : forall left i s size x j,
  rel (emit i (firstn (j * size) x)) s -> i_last i <> Reading -> 0 < size -> length x = (j + left) * size ->
  exists s' c q, write_objects left s size x j = Some (s', c) /\ c * size <= q /\ q <= length x /\ c <= j + left /\
    rel (emit i (firstn q x)) s' /\ keeps s s' /\ (no_errors (answers s) -> c = j + left /\ q = length x).
Proof.
  induction left as [|l IH]; intros i s size x j R NR S L; cbn [write_objects].
  - exists s, j, (j * size). split; [reflexivity|]. split; [lia|]. rewrite Nat.add_0_r in L. split; [lia|]. split; [lia|].
    split; [exact R|]. split; [apply keeps_refl|]. intros _. split; lia.
  - assert (LS : length (slice x (j * size) (j * size + size)) = size) by (rewrite length_slice; nia).
    destruct (write_all_spec size (emit i (firstn (j * size) x)) s (slice x (j * size) (j * size + size)) 0)
      as (s1 & p & q & E & A & B & R1 & K1 & N1); [cbn [firstn]; rewrite emit_nil; exact R|apply emit_last; exact NR|lia|lia|].
    rewrite E. rewrite LS in *. rewrite emit_app in R1.
    assert (EQ : firstn (j * size) x ++ firstn q (slice x (j * size) (j * size + size)) = firstn (j * size + q) x).
    { rewrite firstn_split. f_equal. unfold slice. rewrite firstn_firstn. f_equal. lia. }
    rewrite EQ in R1.
    destruct (Nat.ltb_spec p size) as [Lp|Lp].
    + exists s1, j, (j * size + q). split; [reflexivity|]. split; [lia|]. split; [nia|]. split; [lia|]. split; [exact R1|].
      split; [exact K1|]. intros N. specialize (N1 N). lia.
    + assert (q = size) by lia. subst q.
      destruct (IH i s1 size x (j + 1)) as (s' & c & q & E' & A' & B' & C' & R' & K' & N');
        [replace ((j + 1) * size) with (j * size + size) by lia; exact R1|exact NR|exact S|nia|].
      exists s', c, q. split; [exact E'|]. split; [lia|]. split; [lia|]. split; [lia|]. split; [exact R'|].
      split; [eapply keeps_trans; eassumption|]. intros N.
      destruct (N' (no_errors_incl _ _ (k_ans _ _ K1) N)). lia.
Qed.

Lemma fwrite_spec : forall i s size count x,
  rel i s -> i_last i <> Reading -> length x = size * count ->
  exists s' c q, fwrite s size count x = Some (s', c) /\ c * size <= q /\ q <= length x /\
    rel (emit i (firstn q x)) s' /\ keeps s s' /\
    (no_errors (answers s) -> c = (if size =? 0 then 0 else count) /\ q = length x).
Proof.
  intros i s size count x R NR L. unfold fwrite.
  destruct (Nat.eqb_spec size 0) as [Z|Z]; cbn [orb].
  { exists s, 0, 0. split; [reflexivity|]. split; [lia|]. split; [lia|]. cbn [firstn]. rewrite emit_nil. split; [exact R|].
    split; [apply keeps_refl|]. intros _. split; nia. }
  destruct (Nat.eqb_spec count 0) as [Z'|Z'].
  { exists s, 0, 0. split; [reflexivity|]. split; [lia|]. split; [lia|]. cbn [firstn]. rewrite emit_nil. split; [exact R|].
    split; [apply keeps_refl|]. intros _. split; nia. }
  destruct (Nat.eqb_spec size 1) as [->|Z1].
  - rewrite firstn_all2 by lia.
    destruct (write_all_spec count i s x 0) as (s1 & p & q & E & A & B & R1 & K1 & N1);
      [cbn [firstn]; rewrite emit_nil; exact R|exact NR|lia|lia|].
    exists s1, p, q. split; [exact E|]. split; [lia|]. split; [lia|]. split; [exact R1|]. split; [exact K1|].
    intros N. specialize (N1 N). lia.
  - destruct (write_objects_spec count i s size x 0) as (s1 & c & q & E & A & B & C & R1 & K1 & N1);
      [cbn [Nat.mul firstn]; rewrite emit_nil; exact R|exact NR|lia|lia|].
    exists s1, c, q. split; [exact E|]. split; [exact A|]. split; [lia|]. split; [exact R1|]. split; [exact K1|].
    intros N. exact (N1 N).
Qed.

(** * Flushing and positioning *)
Lemma io_seek_ok : forall s off w t, pipe (dev s) = false ->
  t = (match w with SeekSet => off | SeekCur => Z.of_nat (kpos (dev s)) + off
       | SeekEnd => Z.of_nat (length (content (dev s))) + off end)%Z -> (0 <= t)%Z ->
  io_seek s off w = (set_dev s {| pipe := false; content := content (dev s); kpos := Z.to_nat t; output := output (dev s) |} (answers s), inr t).
Proof.
  intros s off w t P -> T. unfold io_seek. rewrite P.
  replace (_ <? 0)%Z with false by (symmetry; apply Z.ltb_ge; exact T). reflexivity.
Qed.

Lemma flush_spec : forall i s, rel i s -> i_push i = [] -> (i_pipe i = true -> i_last i <> Reading) ->
  exists s' e, flush s = Some (s', e) /\ keeps s s' /\
    (e = 0%Z -> rel (with_last i Neutral) s' /\ content (dev s') = i_data i /\ kpos (dev s') = i_pos i /\ output (dev s') = i_out i) /\
    (e <> 0%Z -> rel i s') /\ (no_errors (answers s) -> e = 0%Z).
Proof.
  intros i s R PU NR. unfold flush.
  assert (WB : exists s1 e, (if dirty_end s =? dirty_begin s then Some (s, 0%Z) else write_back s) = Some (s1, e) /\
    rel i s1 /\ keeps s s1 /\ (e = 0%Z -> dirty_begin s1 = dirty_end s1) /\ (no_errors (answers s) -> e = 0%Z)).
  { destruct (Nat.eqb_spec (dirty_end s) (dirty_begin s)).
    - exists s, 0%Z. auto using keeps_refl.
    - destruct (write_back_spec i s R) as (s1 & e & E & R1 & K1 & _ & _ & _ & D & N). exists s1, e. auto. }
  destruct WB as (s1 & e & E & R1 & K1 & D & N). rewrite E.
  destruct (Z.eqb_spec e 0) as [->|Ne]; cbn [negb].
  2: { exists s1, e. split; [reflexivity|]. split; [exact K1|]. split; [contradiction|]. split; [auto|exact N]. }
  specialize (D eq_refl). destruct (clean i s1 R1 D) as (C1 & C2 & C3 & C4 & C5).
  pose proof (r_pipe _ _ R1) as Rp. pose proof (r_push _ _ R1) as Ru. pose proof (r_eof _ _ R1) as Re.
  pose proof (r_buf _ _ R1) as Rb. pose proof (k_pipe _ _ K1) as Kp.
  assert (SP : exists s2, save_pos s1 = (s2, 0%Z) /\ keeps s1 s2 /\ s2 = set_dev s1 (dev s2) (answers s2) /\
     content (dev s2) = i_data i /\ output (dev s2) = i_out i /\ kpos (dev s2) = i_pos i).
  { unfold save_pos. destruct (pipe (dev s1)) eqn:P.
    - exists s1. split; [reflexivity|]. split; [apply keeps_refl|]. split; [destruct s1; reflexivity|].
      split; [congruence|]. split; [congruence|]. destruct (r_shape _ _ R1) as [|H|H1 H2 H3 H4 H5 H6 H7 H8]; [lia| |].
      + elim (NR ltac:(congruence) H).
      + destruct H8; lia.
    - assert (S : mode s1 <> NoBuf ->
        io_seek s1 (Z.of_nat (offset s1) - Z.of_nat (io_offset s1)) SeekCur =
        (set_dev s1 {| pipe := false; content := content (dev s1); kpos := i_pos i; output := output (dev s1) |} (answers s1), inr (Z.of_nat (i_pos i)))).
      { intros _. rewrite (io_seek_ok s1 _ SeekCur (Z.of_nat (i_pos i))); [rewrite Nat2Z.id; reflexivity|exact P|lia|lia]. }
      destruct (mode s1) eqn:M.
      + exists s1. split; [reflexivity|]. split; [apply keeps_refl|]. split; [destruct s1; reflexivity|].
        split; [congruence|]. split; [congruence|]. destruct (r_shape _ _ R1); [lia|congruence|congruence].
      + rewrite S by discriminate. eexists. split; [reflexivity|].
        split; [constructor; fl; auto using incl_refl|]. split; [reflexivity|]. fl. auto.
      + rewrite S by discriminate. eexists. split; [reflexivity|].
        split; [constructor; fl; auto using incl_refl|]. split; [reflexivity|]. fl. auto. }
  destruct SP as (s2 & E2 & K2 & ES & S1 & S2 & S3). rewrite E2. cbn [Z.eqb negb].
  exists (purge s2), 0%Z. split; [reflexivity|].
  assert (U2 : unget s2 = []) by (rewrite (k_unget _ _ K2); congruence).
  split.
  { eapply keeps_trans; [exact K1|]. eapply keeps_trans; [exact K2|]. constructor; fl; auto using incl_refl. }
  split; [|split; [congruence|auto]]. intros _. fl. split; [|auto].
  constructor; fl; cbn [with_last i_pipe i_push i_eof].
  - rewrite (k_pipe _ _ K2). exact Rp.
  - exact PU.
  - rewrite (k_eof _ _ K2). exact Re.
  - rewrite ES. fl. exact Rb.
  - apply sh_empty; fl; auto.
Qed.

Lemma seek_spec : forall i s off w, rel i s -> (w = SeekCur -> i_push i = []) -> no_errors (answers s) -> err s = i_err i ->
  exists s' e, seek s off w = Some (s', e) /\ rel (fst (reposition i off w)) s' /\
    (if (e =? 0)%Z then 0 else -1)%Z = snd (reposition i off w) /\
    no_errors (answers s') /\ err s' = i_err (fst (reposition i off w)) /\ mode s' = mode s.
Proof.
  intros i s off w R PU NE EE. unfold seek.
  destruct (write_back_spec i s R) as (s1 & e & E & R1 & K1 & O1 & V1 & M1 & D1 & N1). rewrite E.
  rewrite (N1 NE). specialize (D1 (N1 NE)). cbn [Z.eqb negb]. destruct (clean i s1 R1 D1) as (C1 & C2 & C3 & C4 & C5).
  assert (NE1 : no_errors (answers s1)) by (eapply no_errors_incl; [apply K1|exact NE]).
  assert (EE1 : err s1 = i_err i) by (rewrite (k_err _ _ K1 NE); exact EE).
  unfold reposition. rewrite (r_pipe _ _ R1).
  pose proof R1 as [Rp Ru Re Rb Rs].
  destruct (pipe (dev s1)) eqn:P; cbn [orb].
  { unfold io_seek. rewrite P. eexists. eexists. split; [reflexivity|]. fl. cbn [fst snd with_flags i_err].
    split; [constructor; cbn [with_flags i_pipe i_push i_eof]; fl; auto|].
    - congruence.
    - inversion Rs; [apply sh_empty|apply sh_read|apply sh_write]; fl; auto.
    - split; [reflexivity|]. split; [exact NE1|]. split; [reflexivity|apply K1]. }
  assert (T : (match w with SeekSet => match w with SeekCur => off + (Z.of_nat (offset s1) - Z.of_nat (io_offset s1)) | _ => off end
     | SeekCur => Z.of_nat (kpos (dev s1)) + match w with SeekCur => off + (Z.of_nat (offset s1) - Z.of_nat (io_offset s1)) | _ => off end
       | SeekEnd => Z.of_nat (length (content (dev s1))) + match w with SeekCur => off + (Z.of_nat (offset s1) - Z.of_nat (io_offset s1)) | _ => off end end = target i off w)%Z).
  { unfold target. destruct w; [reflexivity|lia|]. rewrite C1. reflexivity. }
  unfold io_seek. rewrite P, T. destruct (target i off w <? 0)%Z eqn:TT.
  { eexists. eexists. split; [reflexivity|]. fl. cbn [fst snd with_flags i_err].
    split; [constructor; cbn [with_flags i_pipe i_push i_eof]; fl; auto|].
    - congruence.
    - inversion Rs; [apply sh_empty|apply sh_read|apply sh_write]; fl; auto.
    - split; [reflexivity|]. split; [exact NE1|]. split; [reflexivity|apply K1]. }
  eexists. eexists. split; [reflexivity|]. fl. cbn [fst snd move_to i_err].
  split; [constructor; cbn [move_to i_pipe i_push i_eof]; fl; auto|].
  - apply sh_empty; fl; auto.
  - split; [reflexivity|]. split; [exact NE1|]. split; [exact EE1|apply K1].
Qed.

(** * Reading *)
Lemma length_avail : forall i, length (avail i) = length (i_push i) + (length (i_data i) - i_pos i).
Proof. intros i. unfold avail. rewrite app_length, skipn_length. reflexivity. Qed.
Lemma length_taken : forall i n, length (taken i n) = min n (length (avail i)).
Proof. intros. unfold taken. apply firstn_length. Qed.

(** reading pushed back characters only *)
Lemma take_push : forall i s m, rel i s -> m <= length (i_push i) ->
  rel (take i m) (set_unget s (skipn m (unget s))) /\ taken i m = firstn m (unget s) /\ i_err (take i m) = i_err i.
Proof.
  intros i s m R L. pose proof (length_taken i m) as LT. rewrite length_avail in LT.
  assert (LT' : length (taken i m) = m) by lia. clear LT.
  assert (TE : taken i m = firstn m (unget s)).
  { unfold taken, avail. rewrite firstn_app. replace (m - length (i_push i)) with 0 by lia.
    cbn [firstn]. rewrite app_nil_r. rewrite (r_push _ _ R). reflexivity. }
  split; [|split; [exact TE|reflexivity]].
  destruct R as [Rp Ru Re Rb Rs]. unfold take. rewrite LT'.
  replace (m - length (i_push i)) with 0 by lia. rewrite Nat.ltb_irrefl, orb_false_r, Nat.add_0_r.
  replace (m <=? length (i_push i)) with true by (symmetry; apply Nat.leb_le; exact L).
  constructor; cbn [i_pipe i_push i_eof]; fl; auto; [congruence|].
  inversion Rs; [apply sh_empty|apply sh_read|apply sh_write]; fl; auto.
Qed.

(** [take] beyond the pushed back characters *)
Lemma take_data : forall i c, 0 < c -> i_pos i + c <= length (i_data i) ->
  taken i (length (i_push i) + c) = i_push i ++ slice (i_data i) (i_pos i) (i_pos i + c) /\
  take i (length (i_push i) + c) =
    {| i_pipe := i_pipe i; i_data := i_data i; i_pos := i_pos i + c; i_out := i_out i; i_push := [];
       i_eof := i_eof i; i_err := i_err i; i_last := Reading |}.
Proof.
  intros i c C L. pose proof (length_taken i (length (i_push i) + c)) as LT. rewrite length_avail in LT.
  assert (LT' : length (taken i (length (i_push i) + c)) = length (i_push i) + c) by lia.
  split.
  - unfold taken, avail, slice. rewrite firstn_app, firstn_all2 by lia. do 2 f_equal. lia.
  - unfold take. rewrite LT'. rewrite Nat.ltb_irrefl, orb_false_r.
    replace (length (i_push i) + c <=? length (i_push i)) with false by (symmetry; apply Nat.leb_gt; lia).
    rewrite skipn_all2 by lia. f_equal. lia.
Qed.

Lemma slice_slice : forall l a b p q, p <= q -> q <= b - a ->
  slice (slice l a b) p q = slice l (a + p) (a + q).
Proof.
  intros. unfold slice. rewrite skipn_firstn_comm, firstn_firstn, skipn_add. f_equal. lia.
Qed.

Lemma copy_rel : forall i s c,
  i_pipe i = pipe (dev s) -> unget s = [] -> i_eof i = eof s -> length (buf s) = buffer_size ->
  mode s <> NoBuf -> io_mode s = false -> valid_limit s <= buffer_size -> io_offset s = valid_limit s ->
  dirty_begin s = dirty_end s -> i_data i = content (dev s) -> i_out i = output (dev s) ->
  kpos (dev s) = i_pos i + (valid_limit s - offset s) -> valid_limit s <= kpos (dev s) ->
  kpos (dev s) <= length (content (dev s)) ->
  slice (buf s) 0 (valid_limit s) = slice (content (dev s)) (kpos (dev s) - valid_limit s) (kpos (dev s)) ->
  0 < c <= valid_limit s - offset s ->
  rel (take i (length (i_push i) + c)) (set_pos s (offset s + c) (io_offset s) (valid_limit s)) /\
  i_push i ++ slice (buf s) (offset s) (offset s + c) = taken i (length (i_push i) + c).
Proof.
  intros i s c Ep Eu Ee Lb NB IM Vb IO D Ed Eo EK VK KL SL C.
  destruct (take_data i c ltac:(lia) ltac:(rewrite Ed; lia)) as [T1 T2].
  split.
  - rewrite T2. constructor; cbn [i_pipe i_push i_eof]; fl; auto.
    apply sh_read; cbn [i_last i_data i_pos i_out]; fl; auto; lia.
  - rewrite T1, Ed. f_equal.
    assert (X : slice (slice (buf s) 0 (valid_limit s)) (offset s) (offset s + c)
              = slice (slice (content (dev s)) (kpos (dev s) - valid_limit s) (kpos (dev s))) (offset s) (offset s + c))
      by (rewrite SL; reflexivity).
    rewrite !slice_slice in X by lia. cbn [plus] in X. rewrite X. f_equal; lia.
Qed.

Lemma io_read_spec : forall s n, no_errors (answers s) ->
  exists s1 k, io_read s n = (s1, inr (slice (content (dev s)) (kpos (dev s)) (kpos (dev s) + k))) /\
    keeps s s1 /\ s1 = set_dev s (dev s1) (answers s1) /\
    content (dev s1) = content (dev s) /\ output (dev s1) = output (dev s) /\ kpos (dev s1) = kpos (dev s) + k /\
    k <= n /\ k <= length (content (dev s)) - kpos (dev s) /\ (n <> 0 -> kpos (dev s) < length (content (dev s)) -> k <> 0).
Proof.
  intros s n NE. unfold io_read.
  destruct (pull_spec s (min n (length (content (dev s)) - kpos (dev s)))) as [(e & l & P & I & IE)|(k & l & P & I & K & NZ)].
  - elim (NE e IE).
  - rewrite P. eexists. exists k. split; [reflexivity|]. split; [constructor; fl; auto|]. split; [reflexivity|]. fl.
    repeat split; try lia; auto.
Qed.

Lemma take_eof : forall i n, i_push i = [] -> avail i = [] -> 0 < n ->
  take i n = {| i_pipe := i_pipe i; i_data := i_data i; i_pos := i_pos i; i_out := i_out i; i_push := [];
       i_eof := true; i_err := i_err i; i_last := Neutral |}.
Proof.
  intros i n P A N. unfold take, taken. rewrite A, P, firstn_nil, skipn_nil. cbn [length].
  replace (0 <? n) with true by (symmetry; apply Nat.ltb_lt; lia). rewrite orb_true_r.
  replace (n <=? 0) with false by (symmetry; apply Nat.leb_gt; lia). rewrite Nat.add_0_r. reflexivity.
Qed.

Lemma copy_out_spec : forall i s n,
  i_pipe i = pipe (dev s) -> unget s = [] -> i_eof i = eof s -> length (buf s) = buffer_size ->
  mode s <> NoBuf -> io_mode s = false -> valid_limit s <= buffer_size -> io_offset s = valid_limit s ->
  dirty_begin s = dirty_end s -> i_data i = content (dev s) -> i_out i = output (dev s) ->
  kpos (dev s) = i_pos i + (valid_limit s - offset s) -> valid_limit s <= kpos (dev s) ->
  kpos (dev s) <= length (content (dev s)) ->
  slice (buf s) 0 (valid_limit s) = slice (content (dev s)) (kpos (dev s) - valid_limit s) (kpos (dev s)) ->
  offset s < valid_limit s -> length (i_push i) < n ->
  exists s' x, copy_out s (i_push i) (n - length (i_push i)) = Some (s', inr x) /\
    answers s' = answers s /\ err s' = err s /\ mode s' = mode s /\
    exists m, 0 < m <= n /\ x = taken i m /\ length x = m /\ rel (take i m) s'.
Proof.
  intros i s n Ep Eu Ee Lb NB IM Vb IO D Ed Eo EK VK KL SL OV L. unfold copy_out.
  replace (offset s <? valid_limit s) with true by (symmetry; apply Nat.ltb_lt; lia). cbn [negb].
  set (c := min (valid_limit s - offset s) (n - length (i_push i))).
  assert (C : 0 < c /\ c <= valid_limit s - offset s /\ length (i_push i) + c <= n) by (unfold c; lia). clearbody c.
  replace (buffer_size <? offset s + c) with false by (symmetry; apply Nat.ltb_ge; lia).
  destruct (copy_rel i s c) as [CR CT]; auto; try lia.
  eexists. eexists. split; [reflexivity|]. fl. split; [reflexivity|]. split; [reflexivity|]. split; [reflexivity|].
  exists (length (i_push i) + c). split; [lia|]. split; [exact CT|]. split; [|exact CR].
  rewrite CT, length_taken, length_avail. rewrite Ed. lia.
Qed.

Lemma read_buffered_spec : forall i s n, rel i s -> no_errors (answers s) -> mode s <> NoBuf -> i_last i <> Writing ->
  length (i_push i) < n -> i_push i = [] \/ i_pos i < length (i_data i) ->
  exists s' x, read_buffered (set_unget s []) (i_push i) (n - length (i_push i)) = Some (s', inr x) /\
    no_errors (answers s') /\ err s' = err s /\ mode s' = mode s /\
    ((exists m, 0 < m <= n /\ x = taken i m /\ length x = m /\ rel (take i m) s') \/
     (x = [] /\ avail i = [] /\ rel (take i n) s')).
Proof.
  intros i s n R NE NB NW L LE. unfold read_buffered. destruct R as [Rp Ru Re Rb Rs].
  replace (io_mode (set_unget s []) && negb (valid_limit (set_unget s []) =? 0)) with false
    by (fl; destruct Rs as [Q|? ? Q|]; [rewrite Q; cbn; rewrite andb_false_r; reflexivity|rewrite Q; reflexivity|congruence]).
  set (s0 := set_iomode (set_unget s []) false).
  destruct (Nat.eqb_spec (offset s0) (valid_limit s0)) as [OV|OV].
  - assert (R0 : rel (with_push i []) s0)
        by (constructor; cbn [with_push i_pipe i_push i_eof]; unfold s0; fl; auto;
            destruct Rs; [apply sh_empty; fl; auto|apply sh_read; fl; auto|congruence]).
    destruct (recycle_spec (with_push i []) s0 R0 OV) as (s1 & e & E & R1 & K1 & V1 & N1 & IM1). rewrite E.
    rewrite (N1 NE). cbn [Z.eqb negb]. destruct (V1 (N1 NE)) as [V1a V1b]. clear V1.
    assert (NE1 : no_errors (answers s1)) by (eapply no_errors_incl; [apply (k_ans _ _ K1)|exact NE]).
    destruct (io_read_spec s1 buffer_size NE1) as (s2 & k & E2 & K2 & ES & EC & EO & EK & B1 & B2 & B3). rewrite E2.
    destruct R1 as [R1p R1u R1e R1b R1s]. cbn [with_push i_pipe i_push i_eof] in *.
    destruct R1s as [Q1 Q2 Q3 Q4 Q5 Q6 Q7|? ? ? ?|? ? ? ?]; [|lia|lia].
    cbn [with_push i_data i_pos i_out] in *.
    rewrite <- Q5, <- Q6 in *.
    assert (LX : length (slice (i_data i) (i_pos i) (i_pos i + k)) = k) by (rewrite length_slice; lia).
    rewrite LX. pose proof buffer_size_pos as BP.
    assert (NE2 : no_errors (answers s2)) by (eapply no_errors_incl; [apply (k_ans _ _ K2)|exact NE1]).
    assert (EE2 : err s2 = err s) by (rewrite (k_err _ _ K2 NE1), (k_err _ _ K1 NE); reflexivity).
    assert (MM2 : mode s2 = mode s) by (rewrite (k_mode _ _ K2), (k_mode _ _ K1); reflexivity).
    destruct (Nat.eqb_spec k 0) as [Hk|Nk].
    + subst k. assert (Z0 : length (i_data i) <= i_pos i)
        by (destruct (Nat.lt_ge_cases (i_pos i) (length (i_data i))) as [q|q]; [specialize (B3 ltac:(lia) q); lia|lia]).
      assert (PE : i_push i = []) by (destruct LE; [assumption|lia]).
      assert (AE : avail i = []) by (unfold avail; rewrite PE; apply skipn_all2; lia).
      eexists. eexists. split; [reflexivity|]. fl. split; [exact NE2|]. split; [exact EE2|]. split; [exact MM2|].
      right. split; [reflexivity|]. split; [exact AE|]. rewrite (take_eof i n PE AE ltac:(lia)).
      constructor; cbn [i_pipe i_push i_eof]; fl; auto.
      * rewrite (k_pipe _ _ K2); exact R1p.
      * rewrite (k_unget _ _ K2); exact R1u.
      * rewrite ES; fl; exact R1b.
      * apply sh_empty; cbn [i_data i_pos i_out]; fl; rewrite ?EC, ?EO, ?EK; auto; try lia; rewrite ES; fl; auto.
    + set (x := slice (i_data i) (i_pos i) (i_pos i + k)) in *.
      assert (O2 : offset s2 = 0) by (rewrite ES; fl; exact V1b).
      assert (B2' : buf s2 = buf s1) by (rewrite ES; fl; reflexivity).
      set (s3 := set_pos (set_buf s2 (put (buf s2) 0 x)) (offset s2) k k).
      destruct (copy_out_spec i s3 n) as (s' & y & C1 & C2 & C3 & C4 & m & C5); unfold s3; fl; try congruence; try lia.
      * rewrite (k_pipe _ _ K2); exact R1p.
      * rewrite (k_unget _ _ K2); symmetry; exact R1u.
      * rewrite (k_eof _ _ K2); exact R1e.
      * rewrite length_put_in; [rewrite B2'; exact R1b|rewrite LX, B2', R1b; lia].
      * rewrite ES; fl; rewrite IM1; reflexivity.
      * rewrite ES; fl; exact Q4.
      * rewrite EK, EC. lia.
      * rewrite EK, EC. pose proof (slice_put (buf s2) 0 x 0 ltac:(lia) ltac:(rewrite LX, B2', R1b; lia)) as SP.
        rewrite slice_nil, LX in SP; cbn [plus app] in SP; rewrite SP; unfold x; f_equal; lia.
      * exists s', y. split; [exact C1|]. unfold s3 in *; fl. rewrite C2, C3, C4.
        split; [exact NE2|]. split; [exact EE2|]. split; [exact MM2|]. left. exists m. exact C5.
  - destruct Rs as [Q1 Q2|Q1 Q2 Q3 Q4 Q5 Q6 Q7 Q8 Q9 Q10 Q11 Q12 Q13 Q14|Q1]; [unfold s0 in OV; fl; congruence| |congruence].
    unfold s0 in OV; fl.
    destruct (copy_out_spec i s0 n) as (s' & y & C1 & C2 & C3 & C4 & m & C5); unfold s0; fl; auto; try lia.
    exists s', y. split; [exact C1|]. unfold s0 in *; fl. rewrite C2, C3, C4.
    split; [exact NE|]. split; [reflexivity|]. split; [reflexivity|]. left. exists m. exact C5.
Qed.

Lemma read_spec : forall i s n, rel i s -> no_errors (answers s) -> 0 < n -> i_last i <> Writing ->
  (i_push i = [] \/ n <= length (i_push i) \/ i_pos i < length (i_data i)) ->
  exists s' x, read s n = Some (s', inr x) /\ no_errors (answers s') /\ err s' = err s /\ mode s' = mode s /\
    ((exists m, 0 < m <= n /\ x = taken i m /\ length x = m /\ rel (take i m) s') \/
     (x = [] /\ avail i = [] /\ rel (take i n) s')).
Proof.
  intros i s n R NE N NW LE. unfold read.
  replace (n =? 0) with false by (symmetry; apply Nat.eqb_neq; lia). cbv zeta.
  pose proof R as [Rp Ru Re Rb Rs].
  destruct (Nat.le_gt_cases n (length (i_push i))) as [L|L].
  { rewrite firstn_length, <- Ru. replace (n - min n (length (i_push i)) =? 0) with true by (symmetry; apply Nat.eqb_eq; lia).
    destruct (take_push i s n R L) as (T1 & T2 & _). eexists. eexists. split; [reflexivity|].
    rewrite <- Ru in *. fl. split; [exact NE|]. split; [reflexivity|]. split; [reflexivity|].
    left. exists n. split; [lia|]. split; [symmetry; exact T2|]. split; [rewrite firstn_length; lia|exact T1]. }
  rewrite <- Ru. rewrite firstn_all2 by lia. rewrite skipn_all2 by lia.
  replace (n - length (i_push i) =? 0) with false by (symmetry; apply Nat.eqb_neq; lia).
  assert (LE' : i_push i = [] \/ i_pos i < length (i_data i)) by (destruct LE as [|[|]]; [auto|lia|auto]). clear LE.
  assert (EOFC : forall k, k <= n -> length (i_data i) - i_pos i = 0 -> i_push i = [] /\ avail i = []).
  { intros k _ H. assert (P : i_push i = []) by (destruct LE'; [assumption|lia]). split; [exact P|].
    unfold avail. rewrite P. apply skipn_all2. lia. }
  cbn [set_unget mode]. destruct (mode s) eqn:M.
  { (* unbuffered *)
    destruct Rs as [E1 E2 E3 E4 E5 E6 E7|E1 E2|E1 E2]; [|congruence|congruence].
    destruct (io_read_spec (set_unget s []) (n - length (i_push i)) NE) as (s1 & k & E & K & ES & EC & EO & EK & B1 & B2 & B3).
    rewrite E. fl. rewrite <- E5, <- E6 in *.
    assert (LX : length (slice (i_data i) (i_pos i) (i_pos i + k)) = k) by (rewrite length_slice; lia).
    rewrite LX.
    assert (NE1 : no_errors (answers s1)) by (eapply no_errors_incl; [apply (k_ans _ _ K)|exact NE]).
    assert (EE1 : err s1 = err s) by (exact (k_err _ _ K NE)).
    destruct (Nat.eqb_spec k 0) as [->|Nk].
    - assert (Z0 : length (i_data i) - i_pos i = 0) by (destruct (Nat.lt_ge_cases (i_pos i) (length (i_data i))) as [q|q]; [specialize (B3 ltac:(lia) q); lia|lia]).
      destruct (EOFC n ltac:(lia) Z0) as [PE AE].
      eexists. eexists. split; [reflexivity|]. fl. split; [exact NE1|]. split; [exact EE1|]. split; [rewrite (k_mode _ _ K); exact M|].
      right. rewrite PE, Nat.add_0_r, slice_nil. split; [reflexivity|]. split; [exact AE|].
      rewrite (take_eof i n PE AE N). constructor; cbn [i_pipe i_push i_eof]; fl; auto.
      + rewrite (k_pipe _ _ K). exact Rp.
      + rewrite (k_unget _ _ K). reflexivity.
      + rewrite ES. fl. exact Rb.
      + apply sh_empty; cbn [i_data i_pos i_out]; fl; rewrite ?EC, ?EO, ?EK; auto; try lia; rewrite ES; fl; auto.
    - eexists. eexists. split; [reflexivity|]. split; [exact NE1|]. split; [exact EE1|]. split; [rewrite (k_mode _ _ K); exact M|].
      left. exists (length (i_push i) + k). destruct (take_data i k ltac:(lia) ltac:(lia)) as [T1 T2].
      split; [lia|]. split; [symmetry; exact T1|]. split; [rewrite app_length, LX; lia|].
      rewrite T2. constructor; cbn [i_pipe i_push i_eof].
      + rewrite (k_pipe _ _ K). exact Rp.
      + rewrite (k_unget _ _ K). reflexivity.
      + rewrite (k_eof _ _ K). exact Re.
      + rewrite ES. fl. exact Rb.
      + apply sh_empty; cbn [i_data i_pos i_out]; fl; rewrite ?EC, ?EO, ?EK; auto; try lia; rewrite ES; fl; auto. }
  - rewrite <- M. apply read_buffered_spec; auto. congruence.
  - rewrite <- M. apply read_buffered_spec; auto. congruence.
Qed.

(** * The reading functions *)
Definition rdok (i : ideal) (n : nat) : Prop :=
  i_push i = [] \/ n <= length (i_push i) \/ i_pos i < length (i_data i).

Lemma take_0 : forall i, take i 0 = i.
Proof. intros []. unfold take, taken. cbn. rewrite Nat.add_0_r, orb_false_r. reflexivity. Qed.
Lemma taken_0 : forall i, taken i 0 = [].
Proof. reflexivity. Qed.
Lemma avail_take : forall i p, p <= length (avail i) -> avail (take i p) = skipn p (avail i).
Proof.
  intros i p L. unfold avail at 1. cbn [take i_push i_pos i_data]. rewrite length_taken.
  unfold avail. rewrite skipn_app. f_equal. rewrite skipn_add. f_equal.
  unfold avail in L. lia.
Qed.
Lemma taken_add : forall i p m, p <= length (avail i) -> taken i (p + m) = taken i p ++ taken (take i p) m.
Proof. intros i p m L. unfold taken. rewrite avail_take by exact L. apply firstn_split. Qed.
Lemma take_add : forall i p m, p <= length (avail i) -> take (take i p) m = take i (p + m).
Proof.
  intros i p m L. pose proof (length_taken i p) as A. pose proof (length_taken (take i p) m) as B.
  pose proof (length_taken i (p + m)) as C. rewrite avail_take, skipn_length in B by exact L.
  unfold take at 1 3. rewrite B, C. cbn [take i_pipe i_data i_pos i_out i_push i_eof i_err i_last].
  rewrite A, skipn_length.
  pose proof (length_avail i) as LA.
  f_equal.
  - lia.
  - rewrite skipn_add. reflexivity.
  - rewrite <- orb_assoc. f_equal.
    replace (min p (length (avail i)) <? p) with false by (symmetry; apply Nat.ltb_ge; lia). cbn [orb].
    apply eq_true_iff_eq. rewrite !Nat.ltb_lt. lia.
  - replace (min p (length (avail i)) <? p) with false by (symmetry; apply Nat.ltb_ge; lia).
    destruct (Nat.leb_spec p (length (i_push i))); destruct (Nat.leb_spec m (length (i_push i) - p));
      destruct (Nat.leb_spec (p + m) (length (i_push i))); try lia; try reflexivity.
    + destruct (Nat.ltb_spec (min m (length (avail i) - p)) m); destruct (Nat.ltb_spec (min (p + m) (length (avail i))) (p + m)); try lia; reflexivity.
    + destruct (Nat.ltb_spec (min (p + m) (length (avail i))) (p + m)); try lia; reflexivity.
    + destruct (Nat.ltb_spec (min m (length (avail i) - p)) m); destruct (Nat.ltb_spec (min (p + m) (length (avail i))) (p + m)); try lia; reflexivity.
Qed.
Lemma take_over : forall i a b, length (avail i) < a -> length (avail i) < b -> take i a = take i b /\ taken i a = taken i b.
Proof.
  intros i a b A B. assert (T : taken i a = taken i b) by (unfold taken; rewrite !firstn_all2 by lia; reflexivity).
  split; [|exact T]. unfold take. rewrite <- T. rewrite length_taken. pose proof (length_avail i).
  rewrite (skipn_all2 (n := a)), (skipn_all2 (n := b)) by lia. f_equal.
  - f_equal. apply eq_true_iff_eq. rewrite !Nat.ltb_lt. lia.
  - destruct (Nat.leb_spec a (length (i_push i))); [lia|]. destruct (Nat.leb_spec b (length (i_push i))); [lia|].
    destruct (Nat.ltb_spec (min a (length (avail i))) a); destruct (Nat.ltb_spec (min a (length (avail i))) b); try lia; reflexivity.
Qed.
Lemma rdok_take : forall i n p, rdok i n -> p <= n -> p <= length (avail i) -> rdok (take i p) (n - p).
Proof.
  intros i n p H P L. unfold rdok in *. cbn [take i_push i_pos i_data]. rewrite length_taken, skipn_length.
  destruct (Nat.le_gt_cases (length (i_push i)) p) as [Q|Q]; [left; apply skipn_all2; lia|].
  destruct H as [H|[H|H]]; [rewrite H, skipn_nil; auto|right; left; lia|right; right; lia].
Qed.
Lemma rdok_le : forall i n m, rdok i n -> m <= n -> rdok i m.
Proof. intros i n m [H|[H|H]] L; unfold rdok; [auto|right; left; lia|auto]. Qed.
Lemma rdok_1 : forall i, rdok i 1.
Proof. intros i. unfold rdok. destruct (i_push i); [auto|right; left; cbn; lia]. Qed.
Lemma take_last : forall i n, i_last i <> Writing -> i_last (take i n) <> Writing.
Proof. intros i n H. cbn [take i_last]. destruct (n <=? _); [exact H|]. destruct (_ <? n); discriminate. Qed.

Lemma read_all_spec : forall fuel i s n p,
  rel (take i p) s -> no_errors (answers s) -> i_last i <> Writing -> rdok i n ->
  p <= n -> p <= length (avail i) -> n - p <= fuel ->
  exists s', read_all fuel s n (taken i p) = Some (s', inr (taken i n)) /\ rel (take i n) s' /\
    no_errors (answers s') /\ err s' = err s.
Proof.
  induction fuel as [|f IH]; intros i s n p R NE NW OK P L F;
    assert (LT : length (taken i p) = p) by (rewrite length_taken; lia);
    cbn [read_all]; rewrite LT.
  - assert (p = n) by lia. subst p. rewrite Nat.ltb_irrefl. exists s. auto.
  - destruct (Nat.ltb_spec p n) as [Q|Q]; [|assert (p = n) by lia; subst p; exists s; auto].
    destruct (read_spec (take i p) s (n - p) R NE ltac:(lia) (take_last _ _ NW) (rdok_take i n p OK P L))
      as (s1 & x & E & NE1 & EE1 & _ & [(m & M & -> & LX & R1)|(-> & AE & R1)]); rewrite E.
    + rewrite LX. replace (m =? 0) with false by (symmetry; apply Nat.eqb_neq; lia).
      assert (LM : p + m <= length (avail i)).
      { rewrite length_taken, avail_take, skipn_length in LX by exact L. lia. }
      rewrite <- taken_add by exact L. rewrite take_add in R1 by exact L.
      destruct (IH i s1 n (p + m) R1 NE1 NW OK ltac:(lia) LM ltac:(lia)) as (s' & E' & R' & NE' & EE').
      exists s'. rewrite EE1 in EE'. auto.
    + cbn [length Nat.eqb]. exists s1. rewrite take_add in R1 by exact L.
      replace (p + (n - p)) with n in R1 by lia.
      rewrite avail_take in AE by exact L.
      assert (LA : length (avail i) = p).
      { apply (f_equal (@length Z)) in AE. rewrite skipn_length in AE. cbn in AE. lia. }
      assert (T : taken i p = taken i n) by (unfold taken; rewrite !firstn_all2 by lia; reflexivity).
      rewrite T. auto.
Qed.

Lemma read_objects_spec : forall left i s size j,
  rel (take i (j * size)) s -> no_errors (answers s) -> i_last i <> Writing -> 0 < size ->
  rdok i ((j + left) * size) -> j * size <= length (avail i) ->
  exists s', read_objects left s size j (taken i (j * size)) =
      Some (s', (length (taken i ((j + left) * size)) / size, taken i ((j + left) * size))) /\
    rel (take i ((j + left) * size)) s' /\ no_errors (answers s') /\ err s' = err s.
Proof.
  induction left as [|l IH]; intros i s size j R NE NW S OK L; cbn [read_objects].
  - rewrite Nat.add_0_r. exists s. split; [|auto]. rewrite length_taken, Nat.min_l by exact L.
    rewrite Nat.div_mul by lia. reflexivity.
  - destruct (read_all_spec size (take i (j * size)) s size 0) as (s1 & E & R1 & NE1 & EE1);
      [rewrite take_0; exact R|exact NE|apply take_last; exact NW| |lia|lia|lia|].
    { apply (rdok_le _ ((j + Datatypes.S l) * size - j * size)); [|nia]. apply rdok_take; [exact OK|nia|exact L]. }
    rewrite taken_0 in E. rewrite E. rewrite take_add in R1 by exact L.
    pose proof (length_taken (take i (j * size)) size) as LT. rewrite avail_take, skipn_length in LT by exact L.
    rewrite <- taken_add by exact L.
    destruct (Nat.ltb_spec (length (taken (take i (j * size)) size)) size) as [Q|Q].
    + destruct (take_over i (j * size + size) ((j + Datatypes.S l) * size)) as [T1 T2]; [lia|nia|].
      exists s1. rewrite <- T1, <- T2. split; [|auto]. rewrite length_taken.
      replace (min (j * size + size) (length (avail i)) / size) with j; [reflexivity|].
      apply (Nat.div_unique _ _ j (min (j * size + size) (length (avail i)) - j * size)); lia.
    + replace (j * size + size) with ((j + 1) * size) in * by lia.
      destruct (IH i s1 size (j + 1) R1 NE1 NW S) as (s' & E' & R' & NE' & EE'); [eapply rdok_le; [exact OK|nia]|nia|].
      replace (j + 1 + l) with (j + Datatypes.S l) in * by lia. exists s'. rewrite EE1 in EE'. auto.
Qed.

Lemma fread_spec : forall i s size count, rel i s -> no_errors (answers s) -> i_last i <> Writing ->
  0 < size -> 0 < count -> rdok i (size * count) ->
  exists s', fread s size count = Some (s', (length (taken i (size * count)) / size, taken i (size * count))) /\
    rel (take i (size * count)) s' /\ no_errors (answers s') /\ err s' = err s.
Proof.
  intros i s size count R NE NW S C OK. unfold fread.
  replace (size =? 0) with false by (symmetry; apply Nat.eqb_neq; lia).
  replace (count =? 0) with false by (symmetry; apply Nat.eqb_neq; lia). cbn [orb].
  destruct (Nat.eqb_spec size 1) as [->|N].
  - rewrite Nat.mul_1_l in *.
    destruct (read_all_spec count i s count 0) as (s1 & E & R1 & NE1 & EE1); try lia; auto; [rewrite take_0; exact R|].
    rewrite taken_0 in E. rewrite E. exists s1. rewrite Nat.div_1_r. auto.
  - destruct (read_objects_spec count i s size 0) as (s1 & E & R1 & NE1 & EE1); try (cbn; lia); auto.
    + rewrite Nat.mul_0_l, take_0. exact R.
    + rewrite Nat.add_0_l, Nat.mul_comm. exact OK.
    + rewrite Nat.mul_0_l, taken_0 in E. rewrite Nat.add_0_l, (Nat.mul_comm count size) in *.
      exists s1. auto.
Qed.

Definition next (i : ideal) : Z := match avail i with [] => (-1)%Z | c :: _ => c end.
Lemma fgetc_spec : forall i s, rel i s -> no_errors (answers s) -> i_last i <> Writing ->
  exists s', fgetc s = Some (s', next i) /\ rel (take i 1) s' /\ no_errors (answers s') /\ err s' = err s.
Proof.
  intros i s R NE NW. unfold fgetc.
  destruct (fread_spec i s 1 1 R NE NW ltac:(lia) ltac:(lia) (rdok_1 i)) as (s1 & E & R1). rewrite E.
  exists s1. split; [|exact R1]. unfold taken, next. cbn [Nat.mul Nat.add].
  destruct (avail i) as [|c l]; reflexivity.
Qed.

(** ** Lines *)
Lemma byte_range : forall c, is_byte c = true -> (0 <= c <= 255)%Z.
Proof. intros c H. unfold is_byte in H. apply andb_prop in H. destruct H as [A B]. apply Z.leb_le in A, B. lia. Qed.

Lemma upto_app : forall d n l, exists k, upto d n l = firstn k l /\ k <= n /\ k <= length l.
Proof.
  induction n as [|n IH]; intros l; [exists 0; repeat split; lia|].
  destruct l as [|c l]; [exists 0; repeat split; lia|]. cbn [upto].
  destruct (c =? d)%Z; [exists 1; cbn; repeat split; lia|].
  destruct (IH l) as (k & E & A & B). exists (S k). rewrite E. cbn. repeat split; lia.
Qed.

Lemma take_line_nil : forall d n i, avail i = [] -> (0 <= d)%Z ->
  take_line d (S n) i = (take i 1, []).
Proof.
  intros d n i A D. unfold take_line. rewrite A. cbn [upto]. unfold cut_short. cbn [length List.last].
  replace (-1 =? d)%Z with false by (symmetry; apply Z.eqb_neq; lia). reflexivity.
Qed.
Lemma take_line_end : forall n i c l, avail i = c :: l -> take_line c (S n) i = (take i 1, [c]).
Proof.
  intros n i c l A. unfold take_line. rewrite A. cbn [upto]. rewrite Z.eqb_refl. unfold cut_short. cbn [length List.last].
  rewrite Z.eqb_refl. cbn [negb]. rewrite andb_false_r. reflexivity.
Qed.
Lemma take_line_cons : forall d n i c l, avail i = c :: l -> c <> d -> (0 <= d)%Z ->
  take_line d (S n) i = (fst (take_line d n (take i 1)), c :: snd (take_line d n (take i 1))).
Proof.
  intros d n i c l A N D. unfold take_line.
  assert (L1 : 1 <= length (avail i)) by (rewrite A; cbn; lia).
  rewrite (avail_take i 1 L1), A. cbn [upto skipn].
  replace (c =? d)%Z with false by (symmetry; apply Z.eqb_neq; exact N).
  set (x := upto d n l). cbn [fst snd].
  assert (CS : cut_short d (S n) (c :: x) = cut_short d n x).
  { unfold cut_short. cbn [length]. destruct x as [|y x'].
    - cbn [List.last length]. replace (c =? d)%Z with false by (symmetry; apply Z.eqb_neq; exact N).
      replace (-1 =? d)%Z with false by (symmetry; apply Z.eqb_neq; lia).
      destruct n; reflexivity.
    - reflexivity. }
  rewrite CS. rewrite take_add by exact L1. f_equal. cbn [length]. destruct (cut_short d n x); f_equal; lia.
Qed.
Lemma take_line_0 : forall d i, take_line d 0 i = (i, []).
Proof. intros. unfold take_line. cbn [upto]. unfold cut_short. cbn [length Nat.ltb Nat.leb andb]. rewrite take_0. reflexivity. Qed.

Lemma bytes_app : forall a b, bytes (a ++ b) <-> bytes a /\ bytes b.
Proof. intros. unfold bytes. rewrite forallb_app. apply andb_true_iff. Qed.
Lemma bytes_firstn : forall n l, bytes l -> bytes (firstn n l).
Proof. intros n l H. rewrite <- (firstn_skipn n l) in H. apply bytes_app in H. apply H. Qed.
Lemma bytes_skipn : forall n l, bytes l -> bytes (skipn n l).
Proof. intros n l H. rewrite <- (firstn_skipn n l) in H. apply bytes_app in H. apply H. Qed.

Definition sane (i : ideal) : Prop := bytes (i_data i) /\ bytes (i_push i) /\ length (i_push i) <= 8.
Lemma sane_avail : forall i, sane i -> bytes (avail i).
Proof. intros i (A & B & _). unfold avail. apply bytes_app. split; [exact B|apply bytes_skipn; exact A]. Qed.
Lemma sane_take : forall i n, sane i -> sane (take i n).
Proof.
  intros i n (A & B & C). unfold sane. cbn [take i_data i_push]. split; [exact A|]. split; [apply bytes_skipn; exact B|].
  rewrite skipn_length. lia.
Qed.

Lemma fgets_loop_spec : forall left i s line,
  rel i s -> no_errors (answers s) -> i_last i <> Writing -> bytes (avail i) ->
  exists s', fgets_loop left s line =
      Some (s', match line ++ snd (take_line newline left i) with [] => if left =? 0 then Some [] else None | l => Some l end) /\
    rel (fst (take_line newline left i)) s' /\ no_errors (answers s') /\ err s' = err s.
Proof.
  induction left as [|l IH]; intros i s line R NE NW B; cbn [fgets_loop].
  - rewrite take_line_0. cbn [fst snd]. rewrite app_nil_r. exists s. split; [|auto]. destruct line; reflexivity.
  - destruct (fgetc_spec i s R NE NW) as (s1 & E & R1 & NE1 & EE1). rewrite E. unfold next.
    destruct (avail i) as [|c av] eqn:A.
    + rewrite (take_line_nil newline l i A ltac:(unfold newline; lia)). cbn [fst snd Z.eqb]. rewrite app_nil_r.
      exists s1. split; [|auto]. destruct line; reflexivity.
    + assert (C : (0 <= c <= 255)%Z) by (unfold bytes in B; cbn [forallb] in B; apply andb_prop in B; apply byte_range, B).
      replace (c =? -1)%Z with false by (symmetry; apply Z.eqb_neq; lia).
      destruct (Z.eqb_spec c newline) as [->|N].
      * rewrite (take_line_end l i newline av A). cbn [fst snd]. exists s1. split; [|auto].
        destruct (line ++ [newline]) eqn:Q; [destruct line; discriminate|reflexivity].
      * rewrite (take_line_cons newline l i c av A N ltac:(unfold newline; lia)). cbn [fst snd].
        assert (B1 : bytes (avail (take i 1))).
        { rewrite avail_take by (rewrite A; cbn; lia). rewrite A. unfold bytes in B |- *. cbn [forallb] in B. apply andb_prop in B. apply B. }
        destruct (IH (take i 1) s1 (line ++ [c]) R1 NE1 (take_last _ _ NW) B1) as (s' & E' & R' & NE' & EE').
        exists s'. rewrite E'. rewrite <- app_assoc. cbn [app]. rewrite EE1 in EE'. split; [|auto].
        destruct (line ++ c :: snd (take_line newline l (take i 1))) eqn:Q; [destruct line; discriminate|reflexivity].
Qed.

Lemma getdelim_loop_spec : forall fuel i s d has cap line,
  rel i s -> no_errors (answers s) -> i_last i <> Writing -> bytes (avail i) -> err s = false -> (0 <= d)%Z ->
  (line = [] \/ (has = true /\ Z.of_nat (length line) <= cap - 1)%Z) ->
  2 * length (avail i) + 1 + (if has && (0 <? cap)%Z && (Z.of_nat (length line) <? cap - 1)%Z then 0 else 1) <= fuel ->
  exists s', getdelim_loop fuel s d has cap line = Some (s', Some (line ++ snd (take_line d (length (avail i) + 1) i))) /\
    rel (fst (take_line d (length (avail i) + 1) i)) s' /\ no_errors (answers s') /\ err s' = false.
Proof.
  induction fuel as [|f IH]; intros i s d has cap line R NE NW B ER D LC F; [lia|]. cbn [getdelim_loop].
  destruct (has && (0 <? cap)%Z && (Z.of_nat (length line) <? cap - 1)%Z) eqn:G.
  - destruct (fgetc_spec i s R NE NW) as (s1 & E & R1 & NE1 & EE1). rewrite E. rewrite EE1, ER. unfold next.
    destruct (avail i) as [|c av] eqn:A.
    + cbn [length plus]. rewrite (take_line_nil d 0 i A D). cbn [fst snd Z.eqb]. rewrite app_nil_r.
      exists s1. rewrite EE1. auto.
    + assert (C : (0 <= c <= 255)%Z) by (unfold bytes in B; cbn [forallb] in B; apply andb_prop in B; apply byte_range, B).
      replace (c =? -1)%Z with false by (symmetry; apply Z.eqb_neq; lia).
      cbn [length plus]. destruct (Z.eqb_spec c d) as [->|N].
      * rewrite (take_line_end _ i d av A). cbn [fst snd]. exists s1. rewrite EE1. auto.
      * rewrite (take_line_cons d _ i c av A N D). cbn [fst snd].
        assert (A1 : avail (take i 1) = av) by (rewrite avail_take by (rewrite A; cbn; lia); rewrite A; reflexivity).
        assert (B1 : bytes (avail (take i 1))).
        { rewrite A1. unfold bytes in B |- *. cbn [forallb] in B. apply andb_prop in B. apply B. }
        apply andb_prop in G. destruct G as [G G3]. apply andb_prop in G. destruct G as [G1 G2].
        apply Z.ltb_lt in G2, G3.
        destruct (IH (take i 1) s1 d has cap (line ++ [c]) R1 NE1 (take_last _ _ NW) B1 ltac:(congruence) D) as (s' & E' & R' & NE' & EE').
        { right. split; [exact G1|]. rewrite app_length. cbn [length]. lia. }
        { rewrite A1. cbn [length] in F. destruct (has && _ && _); lia. }
        exists s'. rewrite E'. rewrite A1 in *. rewrite <- app_assoc. cbn [app]. auto.
  - set (cap' := (if (1024 <=? cap)%Z then cap * 2 else 1024)%Z).
    assert (CB : (0 < cap' /\ Z.of_nat (length line) < cap' - 1)%Z).
    { unfold cap'. destruct (Z.leb_spec 1024 cap); destruct LC as [->|[_ LC]]; cbn [length]; lia. }
    destruct (IH i s d true cap' line R NE NW B ER D) as (s' & E' & R').
    { right. split; [reflexivity|lia]. }
    { cbn [andb]. replace (0 <? cap')%Z with true by (symmetry; apply Z.ltb_lt; lia).
      replace (Z.of_nat (length line) <? cap' - 1)%Z with true by (symmetry; apply Z.ltb_lt; lia). cbn [andb]. lia. }
    exists s'. auto.
Qed.

(** pushing the character just read back *)
Definition back (i : ideal) (c : Z) : ideal := with_push (take i 1) (c :: i_push (take i 1)).
Lemma back_avail : forall i c l, avail i = c :: l -> avail (back i c) = avail i.
Proof.
  intros i c l A. unfold back. assert (X : avail (with_push (take i 1) (c :: i_push (take i 1))) = c :: avail (take i 1)) by reflexivity.
  rewrite X, avail_take by (rewrite A; cbn; lia). rewrite A. reflexivity.
Qed.
Lemma back_take : forall i c l k, avail i = c :: l -> i_last i <> Writing -> take (back i c) (S k) = take i (S k).
Proof.
  intros i c l k A NW. pose proof (back_avail i c l A) as BA.
  unfold take at 1 2. unfold taken. rewrite BA.
  unfold back. cbn [with_push i_pipe i_data i_pos i_out i_push i_eof i_err i_last length skipn].
  cbn [take i_pipe i_data i_pos i_out i_push i_eof i_err i_last].
  rewrite length_taken. pose proof (length_avail i) as LA. rewrite A in *. cbn [length] in *.
  rewrite firstn_length. cbn [length].
  replace (min 1 (S (length l))) with 1 by lia. cbn [Nat.ltb Nat.leb]. rewrite orb_false_r.
  destruct (i_push i) as [|x p] eqn:EP; cbn [skipn length] in *.
  - f_equal.
    + lia.
    + destruct k; reflexivity.
    + destruct k; reflexivity.
  - f_equal. lia.
Qed.

Lemma take_line_ge : forall d n i c l, avail i = c :: l -> i_last i <> Writing ->
  take_line d (S n) (back i c) = take_line d (S n) i.
Proof.
  intros d n i c l A NW. unfold take_line. rewrite (back_avail i c l A).
  assert (X : exists y, upto d (S n) (avail i) = c :: y).
  { rewrite A. cbn [upto]. destruct (c =? d)%Z; eexists; reflexivity. }
  destruct X as [y ->]. f_equal. cbn [length]. destruct (cut_short _ _ _).
  - apply (back_take i c l _ A NW).
  - apply (back_take i c l _ A NW).
Qed.

Lemma getdelim_spec : forall i s d has n, rel i s -> no_errors (answers s) -> i_last i <> Writing -> sane i ->
  err s = false -> (0 <= d)%Z ->
  exists s', getdelim s d has n =
      Some (s', match snd (take_line d (length (avail i) + 1) i) with [] => None | l => Some l end) /\
    rel (fst (take_line d (length (avail i) + 1) i)) s' /\ no_errors (answers s') /\ err s' = false.
Proof.
  intros i s d has n R NE NW SA ER D. unfold getdelim.
  destruct (fgetc_spec i s R NE NW) as (s1 & E & R1 & NE1 & EE1). rewrite E. rewrite EE1, ER. unfold next.
  pose proof (sane_avail i SA) as B.
  destruct (avail i) as [|c av] eqn:A.
  - cbn [Z.eqb orb length plus]. rewrite (take_line_nil d 0 i A D). cbn [fst snd]. exists s1. rewrite EE1. auto.
  - assert (C : (0 <= c <= 255)%Z) by (unfold bytes in B; cbn [forallb] in B; apply andb_prop in B; apply byte_range, B).
    replace (c =? -1)%Z with false by (symmetry; apply Z.eqb_neq; lia). cbn [orb].
    assert (PL : length (i_push (take i 1)) < 8).
    { cbn [take i_push]. rewrite skipn_length. destruct SA as (_ & _ & SA). lia. }
    unfold unget_char. rewrite <- (r_push _ _ R1).
    replace (unget_size <? length (i_push (take i 1)) + 1) with false by (symmetry; apply Nat.ltb_ge; unfold unget_size; lia).
    set (s2 := set_unget s1 (c :: i_push (take i 1))).
    assert (R2 : rel (back i c) s2).
    { destruct R1 as [Rp Ru Re Rb Rs]. unfold back, s2. constructor; cbn [with_push i_pipe i_push i_eof]; fl; auto.
      inversion Rs; [apply sh_empty|apply sh_read|apply sh_write]; fl; auto. }
    assert (NW2 : i_last (back i c) <> Writing) by (unfold back; cbn [with_push i_last]; apply take_last; exact NW).
    pose proof (back_avail i c av A) as BA.
    destruct (getdelim_loop_spec (2 * length (content (dev s2)) + 2 * length (unget s2) + 4) (back i c) s2 d has (if has then n else 512)%Z [])
      as (s' & E' & R' & NE' & EE'); auto.
    + rewrite BA, A. exact B.
    + unfold s2; fl. congruence.
    + pose proof (length_avail (back i c)) as LA. rewrite (r_push _ _ R2) in LA.
      assert (DC : i_data (back i c) = content (dev s2)).
      { destruct (r_shape _ _ R2); congruence. }
      rewrite DC in LA. destruct (has && _ && _); lia.
    + cbn [app] in E'. rewrite BA in E', R'. rewrite A in E', R'. cbn [length] in *.
      replace (S (length av) + 1) with (S (length av + 1)) in * by lia.
      rewrite (take_line_ge d (length av + 1) i c av A NW) in E', R'.
      exists s'. split; [|auto]. rewrite E'.
      destruct (snd (take_line d (S (length av + 1)) i)) eqn:Q; [|reflexivity]. exfalso.
      unfold take_line in Q. cbn [snd] in Q. rewrite A in Q. cbn [upto] in Q. destruct (c =? d)%Z; discriminate.
Qed.

(** * Histories *)
Record sim (i : ideal) (s : stream) : Prop := {
  m_rel : rel i s; m_ne : no_errors (answers s); m_err : err s = i_err i; m_sane : sane i }.

Lemma bytes_put : forall l o d, bytes l -> bytes d -> bytes (put l o d).
Proof.
  intros l o d L D. destruct d as [|x d']; [exact L|]. rewrite put_nonnil by discriminate.
  apply bytes_app. split.
  - apply bytes_firstn. apply bytes_app. split; [exact L|]. unfold bytes. induction (o - length l); [reflexivity|exact IHn].
  - apply bytes_app. split; [exact D|apply bytes_skipn; exact L].
Qed.
Lemma sane_emit : forall i x, sane i -> bytes x -> sane (emit i x).
Proof.
  intros i x (A & B & C) X. split; [|split; [exact B|exact C]]. cbn [emit i_data].
  destruct (i_pipe i); [exact A|]. apply bytes_put; assumption.
Qed.

Lemma fwrite_ok : forall i s size count x, sim i s -> i_last i <> Reading -> length x = size * count -> bytes x ->
  exists s', fwrite s size count x = Some (s', if size =? 0 then 0 else count) /\ sim (emit i x) s'.
Proof.
  intros i s size count x [R NE ER SA] NR L B.
  destruct (fwrite_spec i s size count x R NR L) as (s' & c & q & E & _ & _ & R' & K & N).
  destruct (N NE) as [-> ->]. rewrite firstn_all in R'. exists s'. split; [exact E|].
  constructor; [exact R'|eapply no_errors_incl; [apply (k_ans _ _ K)|exact NE]| |apply sane_emit; assumption].
  rewrite (k_err _ _ K NE). exact ER.
Qed.

Lemma not_reading : forall i, is_reading i = false -> i_last i <> Reading.
Proof. intros i H Q. unfold is_reading in H. rewrite Q in H. discriminate. Qed.
Lemma not_writing : forall i, is_writing i = false -> i_last i <> Writing.
Proof. intros i H Q. unfold is_writing in H. rewrite Q in H. discriminate. Qed.
Lemma take_err : forall i n, i_err (take i n) = i_err i.
Proof. reflexivity. Qed.
Lemma take_line_err : forall d n i, i_err (fst (take_line d n i)) = i_err i /\ (sane i -> sane (fst (take_line d n i))).
Proof. intros. unfold take_line. cbn [fst]. split; [reflexivity|]. intros. apply sane_take. assumption. Qed.
Lemma byte_mod : forall c, is_byte (c mod 256)%Z = true.
Proof. intros c. unfold is_byte. pose proof (Z.mod_pos_bound c 256 ltac:(lia)). apply andb_true_intro. split; apply Z.leb_le; lia. Qed.
Lemma reposition_sane : forall i off w, sane i -> sane (fst (reposition i off w)).
Proof.
  intros i off w (A & B & C). unfold reposition. destruct (_ || _); cbn [fst].
  - split; [exact A|split; [exact B|exact C]].
  - split; [exact A|split; [reflexivity|cbn; lia]].
Qed.
Lemma flags_sim : forall i s a b, sim i s -> sim (with_flags i a b) (set_err (set_eof s a) b).
Proof.
  intros i s a b [[Rp Ru Re Rb Rs] NE ER SA]. constructor; fl; auto.
  constructor; cbn [with_flags i_pipe i_push i_eof]; fl; auto.
  inversion Rs; [apply sh_empty|apply sh_read|apply sh_write]; fl; auto.
Qed.

Lemma step_sim : forall i s o i' r, sim i s -> ideal_step i o = Some (i', r) ->
  exists s', step s o = Some (s', r) /\ sim i' s'.
Proof.
  intros i s o i' r M H. pose proof M as [R NE ER SA].
  destruct o as [size count x|c|c|size count| |n|d has n|c| |off w| | | |]; cbn [ideal_step step] in *.
  - destruct (is_reading i) eqn:RD; [discriminate|]. cbn [orb] in H.
    destruct (Nat.eqb_spec (length (i_push i)) 0); [|discriminate]. cbn [negb orb] in H.
    destruct (Nat.eqb_spec (length x) (size * count)) as [L|]; [|discriminate]. cbn [negb orb] in H.
    destruct (forallb is_byte x) eqn:B; [|discriminate]. cbn [negb] in H. injection H as <- <-.
    destruct (fwrite_ok i s size count x M (not_reading _ RD) L B) as (s' & E & M'). rewrite E. exists s'.
    split; [|exact M']. cbn [option_map]. destruct (size =? 0); reflexivity.
  - destruct (is_reading i) eqn:RD; [discriminate|]. cbn [orb] in H.
    destruct (Nat.eqb_spec (length (i_push i)) 0); [|discriminate]. cbn [negb] in H. injection H as <- <-.
    destruct (fwrite_ok i s 1 1 [(c mod 256)%Z] M (not_reading _ RD) eq_refl) as (s' & E & M').
    { unfold bytes. cbn [forallb]. rewrite byte_mod. reflexivity. }
    unfold putc. rewrite E. exists s'. split; [reflexivity|exact M'].
  - discriminate.
  - destruct (is_writing i) eqn:WR; [discriminate|]. cbn [orb] in H.
    destruct (negb (length (i_push i) =? 0) && (length (i_push i) <? size * count) && (length (i_data i) <=? i_pos i)) eqn:G; [discriminate|].
    destruct (Nat.eqb_spec (size * count) 0) as [Z|Z].
    + injection H as <- <-. unfold fread.
      replace ((size =? 0) || (count =? 0)) with true.
      * exists s. split; [reflexivity|exact M].
      * symmetry. apply orb_true_iff. rewrite !Nat.eqb_eq. nia.
    + injection H as <- <-.
      destruct (fread_spec i s size count R NE (not_writing _ WR)) as (s' & E & R' & NE' & EE'); [nia|nia| |].
      { unfold rdok. destruct (Nat.eqb_spec (length (i_push i)) 0); [left; apply length_zero_iff_nil; assumption|].
        destruct (Nat.ltb_spec (length (i_push i)) (size * count)); [|right; left; assumption].
        destruct (Nat.leb_spec (length (i_data i)) (i_pos i)); [discriminate|right; right; assumption]. }
      rewrite E. exists s'. split; [reflexivity|].
      constructor; [exact R'|exact NE'|rewrite EE'; exact ER|apply sane_take; exact SA].
  - destruct (is_writing i) eqn:WR; [discriminate|]. injection H as <- <-.
    destruct (fgetc_spec i s R NE (not_writing _ WR)) as (s' & E & R' & NE' & EE'). rewrite E. exists s'.
    split; [reflexivity|]. constructor; [exact R'|exact NE'|rewrite EE'; exact ER|apply sane_take; exact SA].
  - destruct (is_writing i) eqn:WR; [discriminate|]. cbn [orb] in H. unfold fgets.
    destruct (Nat.eqb_spec n 0) as [|N]; [discriminate|].
    destruct (take_line newline (n - 1) i) as [i1 x] eqn:T. injection H as <- <-.
    destruct (fgets_loop_spec (n - 1) i s [] R NE (not_writing _ WR) (sane_avail _ SA)) as (s' & E & R' & NE' & EE').
    destruct (take_line_err newline (n - 1) i) as [TE TS].
    rewrite T in *. cbn [fst snd app] in *. rewrite E. exists s'. split.
    + cbn [option_map]. do 2 f_equal. destruct x; [|reflexivity]. f_equal.
      destruct (Nat.eqb_spec (n - 1) 0); destruct (Nat.eqb_spec n 1); try lia; reflexivity.
    + constructor; [exact R'|exact NE'|rewrite EE', TE; exact ER|auto].
  - destruct (is_writing i) eqn:WR; [discriminate|]. cbn [orb] in H. destruct (i_err i) eqn:IE; [discriminate|]. cbn [orb] in H.
    destruct ((0 <=? d) && (d <=? 255))%Z eqn:D; [|discriminate]. cbn [negb] in H.
    apply andb_prop in D. destruct D as [D _]. apply Z.leb_le in D.
    destruct (take_line d (length (avail i) + 1) i) as [i1 x] eqn:T. injection H as <- <-.
    destruct (getdelim_spec i s d has n R NE (not_writing _ WR) SA ER D) as (s' & E & R' & NE' & EE').
    destruct (take_line_err d (length (avail i) + 1) i) as [TE TS].
    rewrite T in *. cbn [fst snd] in *. rewrite E. exists s'. split; [destruct x; reflexivity|].
    constructor; [exact R'|exact NE'|congruence|auto].
  - destruct (Z.eqb_spec c (-1)) as [->|N]; [injection H as <- <-; exists s; auto|].
    destruct (i_eof i) eqn:IE; [discriminate|]. cbn [orb] in H.
    destruct ((0 <=? c) && (c <? 128))%Z eqn:C; [|discriminate]. cbn [negb] in H.
    apply andb_prop in C. destruct C as [C1 C2]. pose proof (Z.ltb_lt c 128) as CL. apply Z.leb_le in C1.
    rewrite Z.mod_small by (apply CL in C2; lia). unfold unget_char. rewrite C2. rewrite <- (r_push _ _ R).
    destruct (Nat.ltb_spec (length (i_push i)) 8) as [L|L].
    + injection H as <- <-. replace (unget_size <? length (i_push i) + 1) with false by (symmetry; apply Nat.ltb_ge; unfold unget_size; lia).
      eexists. split; [reflexivity|]. destruct R as [Rp Ru Re Rb Rs]. constructor; fl; auto.
      * constructor; cbn [with_push i_pipe i_push i_eof]; fl; auto; try congruence.
        inversion Rs; [apply sh_empty|apply sh_read|apply sh_write]; fl; auto.
      * destruct SA as (A & B & D). split; [exact A|]. split; [|cbn [with_push i_push length]; lia].
        cbn [with_push i_push]. unfold bytes in *. cbn [forallb]. rewrite B, andb_true_r. unfold is_byte.
        apply andb_true_intro. apply CL in C2. split; apply Z.leb_le; lia.
    + injection H as <- <-. replace (unget_size <? length (i_push i) + 1) with true by (symmetry; apply Nat.ltb_lt; unfold unget_size; lia).
      exists s. auto.
  - destruct (Nat.eqb_spec (length (i_push i)) 0) as [P|]; [|discriminate]. cbn [negb orb] in H.
    destruct (i_pipe i && is_reading i) eqn:PR; [discriminate|]. injection H as <- <-.
    assert (P0 : i_push i = []) by (apply length_zero_iff_nil; exact P).
    destruct (flush_spec i s R P0) as (s' & e & E & K & A & _ & N).
    { intros Q. rewrite Q in PR. apply not_reading. exact PR. }
    rewrite E. rewrite (N NE). exists s'. split; [reflexivity|]. destruct (A (N NE)) as [R' _].
    constructor; [exact R'|eapply no_errors_incl; [apply (k_ans _ _ K)|exact NE]|rewrite (k_err _ _ K NE); exact ER|exact SA].
  - destruct (match w with SeekCur => negb (length (i_push i) =? 0) | _ => false end) eqn:G; [discriminate|].
    destruct (seek_spec i s off w R) as (s' & e & E & R' & RE & NE' & EE' & _); auto.
    { intros ->. destruct (Nat.eqb_spec (length (i_push i)) 0); [apply length_zero_iff_nil; assumption|discriminate]. }
    pose proof (reposition_sane i off w SA) as SR.
    destruct (reposition i off w) as [i1 q]. cbn [fst snd] in *. injection H as <- <-. rewrite E. exists s'.
    split; [cbn [option_map]; rewrite RE; reflexivity|]. constructor; auto.
  - injection H as <- <-. unfold tell.
    destruct (i_pipe i) eqn:P.
    + unfold io_seek. rewrite <- (r_pipe _ _ R), P. exists s. auto.
    + assert (PD : pipe (dev s) = false) by (rewrite <- (r_pipe _ _ R); exact P).
      rewrite (io_seek_ok s 0 SeekCur (Z.of_nat (kpos (dev s))) PD) by lia.
      rewrite Nat2Z.id.
      replace (set_dev s {| pipe := false; content := content (dev s); kpos := kpos (dev s); output := output (dev s) |} (answers s)) with s
        by (destruct s as [[] ? ? ? ? ? ? ? ? ? ? ? ?]; fl; rewrite PD; reflexivity).
      exists s. split; [|exact M]. do 3 f_equal. rewrite <- (r_push _ _ R). f_equal.
      destruct (r_shape _ _ R) as [| |H1 H2 H3 H4 H5 H6 H7 H8 H9 H10 H11]; [lia|lia|]. rewrite PD in H10. lia.
  - destruct (seek_spec i s 0 SeekSet R) as (s' & e & E & R' & RE & NE' & EE' & _); auto; [discriminate|].
    pose proof (reposition_sane i 0 SeekSet SA) as SR.
    destruct (reposition i 0 SeekSet) as [i1 q]. cbn [fst snd] in *. injection H as <- <-. rewrite E.
    eexists. split; [reflexivity|]. apply flags_sim. constructor; auto.
  - injection H as <- <-. rewrite (r_eof _ _ R). exists s. auto.
  - injection H as <- <-. eexists. split; [reflexivity|]. apply flags_sim. exact M.
Qed.

Lemma fresh_rel : forall d m ans, rel (opened d) (fresh d m ans).
Proof.
  intros d m ans. unfold fresh, opened. constructor; fl; cbn [i_pipe i_push i_eof];
    [reflexivity|reflexivity|reflexivity|apply repeat_length|]. apply sh_empty; reflexivity.
Qed.
Lemma fresh_sim : forall d m ans, no_errors ans -> bytes (content d) -> sim (opened d) (fresh d m ans).
Proof.
  intros d m ans NE B. constructor; [apply fresh_rel|exact NE|reflexivity|]. split; [exact B|]. split; [reflexivity|cbn; lia].
Qed.

Lemma run_sim : forall os i s i' rs, sim i s -> ideal_run i os = Some (i', rs) ->
  exists s', run s os = Some (s', rs) /\ sim i' s'.
Proof.
  induction os as [|o os IH]; intros i s i' rs M H; cbn [ideal_run run] in *.
  - injection H as <- <-. exists s. auto.
  - destruct (ideal_step i o) as [[i1 r]|] eqn:E; [|discriminate].
    destruct (step_sim i s o i1 r M E) as (s1 & E1 & M1). rewrite E1.
    destruct (ideal_run i1 os) as [[i2 rs']|] eqn:E2; [|discriminate]. injection H as <- <-.
    destruct (IH i1 s1 i2 rs' M1 E2) as (s2 & E3 & M2). rewrite E3. exists s2. auto.
Qed.

(** what the kernel has got plus what is still in the buffer *)
Lemma sim_output : forall i s, rel i s -> exists p, length p <= buffer_size /\
  i_out i = (if pipe (dev s) then output (dev s) ++ p else output (dev s)) /\
  i_data i = (if pipe (dev s) then content (dev s) else put (content (dev s)) (i_pos i - length p) p).
Proof.
  intros i s R. destruct (r_shape _ _ R) as [E1 E2 E3 E4 E5 E6 E7|E1 E2 E3 E4 E5 E6 E7 E8 E9 E10|E1 E2 E3 E4 E5 E6 E7 E8 E9 E10 E11].
  - exists []. cbn [put length]. rewrite app_nil_r. split; [lia|]. split; destruct (pipe (dev s)); assumption.
  - exists []. cbn [put length]. rewrite app_nil_r. split; [lia|]. split; destruct (pipe (dev s)); assumption.
  - exists (pend s). assert (L : length (pend s) = offset s - io_offset s) by (unfold pend; rewrite length_slice, (r_buf _ _ R); lia).
    split; [lia|]. split; [exact E11|]. rewrite E9. destruct (pipe (dev s)); [reflexivity|]. f_equal. lia.
Qed.

(** ** Output only, with errors *)
Lemma write_history : forall os i s, rel i s -> i_push i = [] -> i_last i <> Reading -> only_writes os ->
  exists s' rs a, run s os = Some (s', rs) /\ all_accepted os rs a /\
    i_push i = [] /\ exists m, m <> Reading /\ rel (with_last (emit i a) m) s'.
Proof.
  induction os as [|o os IH]; intros i s R PU NR OW.
  - exists s, [], []. split; [reflexivity|]. split; [reflexivity|]. split; [exact PU|]. rewrite emit_nil.
    exists (i_last i). split; [exact NR|]. destruct i; exact R.
  - assert (OW' : only_writes os) by (intros q Q; apply OW; right; exact Q).
    cbn [run]. destruct (OW o (or_introl eq_refl)) as [->|(size & count & x & -> & L)]; cbn [step].
    + destruct (flush_spec i s R PU) as (s1 & e & E & K & A & B & _); [intros _; exact NR|]. rewrite E. cbn [option_map].
      assert (R1 : exists m, m <> Reading /\ rel (with_last i m) s1).
      { destruct (Z.eq_dec e 0) as [Q|Q]; [exists Neutral; split; [discriminate|apply (A Q)]|].
        exists (i_last i). split; [exact NR|]. destruct i; exact (B Q). }
      destruct R1 as (m1 & M1 & R1).
      destruct (IH (with_last i m1) s1 R1 PU M1 OW') as (s' & rs & a & E' & AA & _ & m & M & R').
      rewrite E'. cbn [option_map]. exists s', (Num (if (e =? 0)%Z then 0 else -1)%Z :: rs), a. split; [reflexivity|].
      split; [exists [], a; split; [reflexivity|]; split; [reflexivity|exact AA]|]. split; [exact PU|]. exists m. split; [exact M|]. exact R'.
    + destruct (fwrite_spec i s size count x R NR L) as (s1 & c & q & E & A & B & R1 & K & _). rewrite E. cbn [option_map].
      destruct (IH (emit i (firstn q x)) s1 R1 PU (emit_last _ _ NR) OW') as (s' & rs & a & E' & AA & _ & m & M & R').
      rewrite E'. cbn [option_map]. exists s', (Num (Z.of_nat c) :: rs), (firstn q x ++ a). split; [reflexivity|].
      split.
      { exists (firstn q x), a. split; [reflexivity|]. split; [|exact AA]. cbn [accepted]. exists q. split; [reflexivity|].
        split; [lia|]. rewrite firstn_length. nia. }
      split; [exact PU|]. exists m. split; [exact M|]. rewrite emit_app in R'. exact R'.
Qed.

Lemma run_app : forall a b s, run s (a ++ b) =
  match run s a with
  | None => None
  | Some (s1, r1) => match run s1 b with None => None | Some (s2, r2) => Some (s2, r1 ++ r2) end
  end.
Proof.
  induction a as [|o a IH]; intros b s; cbn [run app].
  - destruct (run s b) as [[]|]; reflexivity.
  - destruct (step s o) as [[s1 r]|]; [|reflexivity]. rewrite IH. destruct (run s1 a) as [[s2 rs]|]; [|reflexivity].
    cbn [option_map]. destruct (run s2 b) as [[]|]; reflexivity.
Qed.

Lemma fwrite_out : forall i s size count x, rel i s -> no_errors (answers s) -> i_last i <> Reading -> length x = size * count ->
  exists s' c, fwrite s size count x = Some (s', c) /\ no_errors (answers s') /\ i_last (emit i x) <> Reading /\ rel (emit i x) s'.
Proof.
  intros i s size count x R NE NR L.
  destruct (fwrite_spec i s size count x R NR L) as (s' & c & q & E & _ & _ & R' & K & N).
  destruct (N NE) as [_ ->]. rewrite firstn_all in R'. exists s', c. split; [exact E|].
  split; [eapply no_errors_incl; [apply (k_ans _ _ K)|exact NE]|]. split; [apply emit_last; exact NR|exact R'].
Qed.
Lemma with_last_id : forall i, with_last i (i_last i) = i.
Proof. intros []; reflexivity. Qed.
Lemma output_step : forall o i s, rel i s -> no_errors (answers s) -> i_push i = [] -> i_last i <> Reading -> is_output o ->
  exists s1 r m1, step s o = Some (s1, r) /\ no_errors (answers s1) /\ m1 <> Reading /\
      rel (with_last (emit i (written o)) m1) s1.
Proof.
  intros o i s R NE PU NR W.
  destruct o as [size count x|c|c| | | | | | | | | | |]; try contradiction; cbn [step written is_output] in *.
  - destruct (fwrite_out i s size count x R NE NR W) as (s1 & n & E & N1 & L1 & R1). rewrite E.
    eexists. eexists. exists (i_last (emit i x)). split; [reflexivity|]. rewrite with_last_id. auto.
  - destruct (fwrite_out i s 1 1 [(c mod 256)%Z] R NE NR eq_refl) as (s1 & n & E & N1 & L1 & R1). unfold putc. rewrite E.
    eexists. eexists. exists (i_last (emit i [(c mod 256)%Z])). split; [reflexivity|]. rewrite with_last_id. auto.
  - destruct (fwrite_out i s 1 1 [(c mod 256)%Z] R NE NR eq_refl) as (s1 & n & E & N1 & L1 & R1). unfold fputc. rewrite E.
    eexists. eexists. exists (i_last (emit i [(c mod 256)%Z])). split; [reflexivity|]. rewrite with_last_id. auto.
  - destruct (flush_spec i s R PU) as (s1 & e & E & K & A & _ & N); [intros _; exact NR|]. rewrite E.
    eexists. eexists. exists Neutral. split; [reflexivity|].
    split; [eapply no_errors_incl; [apply (k_ans _ _ K)|exact NE]|]. split; [discriminate|]. rewrite emit_nil. apply (A (N NE)).
Qed.
Lemma output_history : forall os i s, rel i s -> no_errors (answers s) -> i_push i = [] -> i_last i <> Reading ->
  Forall is_output os ->
  exists s' rs m, run s os = Some (s', rs) /\ no_errors (answers s') /\ m <> Reading /\
    rel (with_last (emit i (concat (map written os))) m) s'.
Proof.
  induction os as [|o os IH]; intros i s R NE PU NR OW.
  - exists s, [], (i_last i). split; [reflexivity|]. split; [exact NE|]. split; [exact NR|].
    cbn [map concat]. rewrite emit_nil, with_last_id. exact R.
  - inversion OW as [|? ? W OW']; subst.
    destruct (output_step o i s R NE PU NR W) as (s1 & r & m1 & E & N1 & M1 & R1).
    destruct (IH _ s1 R1 N1 PU M1 OW') as (s' & rs & m & E' & N' & M' & R').
    exists s', (r :: rs), m. cbn [run]. rewrite E, E'. split; [reflexivity|]. split; [exact N'|]. split; [exact M'|].
    cbn [map concat]. rewrite <- emit_app. exact R'.
Qed.

Lemma read_history : forall ns i s, rel i s -> no_errors (answers s) -> i_push i = [] -> i_last i <> Writing ->
  exists s' rs, run s (map (Fread 1) ns) = Some (s', rs) /\ rel (take i (list_sum ns)) s' /\
    concat (map got rs) = taken i (list_sum ns).
Proof.
  induction ns as [|n ns IH]; intros i s R NE PU NW.
  - exists s, []. split; [reflexivity|]. cbn [list_sum fold_right]. rewrite take_0. auto.
  - cbn [map run step].
    assert (X : exists s1, fread s 1 n = Some (s1, (length (taken i n), taken i n)) /\ rel (take i n) s1 /\ no_errors (answers s1)).
    { destruct n as [|n].
      - exists s. unfold fread. cbn [Nat.eqb orb]. rewrite take_0. auto.
      - destruct (fread_spec i s 1 (S n) R NE NW ltac:(lia) ltac:(lia) ltac:(left; exact PU)) as (s1 & E & R1 & N1 & _).
        rewrite Nat.mul_1_l, Nat.div_1_r in *. exists s1. auto. }
    destruct X as (s1 & E & R1 & N1). rewrite E. cbn [option_map].
    assert (PU1 : i_push (take i n) = []) by (cbn [take i_push]; rewrite PU, skipn_nil; reflexivity).
    destruct (IH (take i n) s1 R1 N1 PU1 (take_last _ _ NW)) as (s' & rs & E' & R' & C). rewrite E'. cbn [option_map].
    exists s', (Bytes (length (taken i n)) (taken i n) :: rs). split; [reflexivity|].
    cbn [map concat got list_sum fold_right] in *. change (fold_right Nat.add 0 ns) with (list_sum ns) in *. rewrite C.
    destruct (Nat.le_gt_cases n (length (avail i))) as [L|L].
    + rewrite take_add in R' by exact L. rewrite taken_add by exact L. auto.
    + assert (AE : avail (take i n) = []).
      { unfold avail. rewrite PU1. cbn [take i_pos i_data app]. rewrite length_taken, PU. apply skipn_all2.
        rewrite length_avail, PU in *. cbn [length] in *. lia. }
      assert (TN : taken (take i n) (list_sum ns) = []) by (unfold taken; rewrite AE; apply firstn_nil).
      rewrite TN, app_nil_r. destruct (take_over i n (n + list_sum ns) L ltac:(lia)) as [T1 T2]. rewrite <- T1, <- T2.
      split; [|reflexivity].
      destruct (list_sum ns) as [|k] eqn:Q; [rewrite take_0 in R'; exact R'|].
      rewrite (take_eof (take i n) (S k) PU1 AE ltac:(lia)) in R'.
      assert (TE : take i n = {| i_pipe := i_pipe (take i n); i_data := i_data (take i n); i_pos := i_pos (take i n);
        i_out := i_out (take i n); i_push := []; i_eof := true; i_err := i_err (take i n); i_last := Neutral |}).
      { unfold take at 1. rewrite length_taken. cbn [take i_pipe i_data i_pos i_out i_err]. rewrite length_taken, PU, skipn_nil.
        replace (min n (length (avail i)) <? n) with true by (symmetry; apply Nat.ltb_lt; lia). rewrite orb_true_r. cbn [length].
        replace (n <=? 0) with false by (symmetry; apply Nat.leb_gt; lia). reflexivity. }
      rewrite TE. exact R'.
Qed.
