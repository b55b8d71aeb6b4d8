From Verif Require Import Base Dirent_Model Dirent_Spec.
Open Scope Z_scope.

Lemma strlen_name n rest : ~ In 0 n -> strlen_of (n ++ 0 :: rest) = Ok (length n).
Proof.
  induction n as [|c n IH]; intros N; [reflexivity|]. cbn [app strlen_of length]. destruct (Z.eqb_spec c 0) as [->|X]; [exfalso; apply N; left; reflexivity|].
  rewrite IH by (intros I; apply N; right; exact I). reflexivity.
Qed.
Lemma until0_name n rest : ~ In 0 n -> until0 (n ++ 0 :: rest) = n.
Proof.
  induction n as [|c n IH]; intros N; [reflexivity|]. cbn [app until0]. destruct (Z.eqb_spec c 0) as [->|X]; [exfalso; apply N; left; reflexivity|].
  rewrite IH by (intros I; apply N; right; exact I). reflexivity.
Qed.
Lemma slice_mid a b c n k : length a = n -> length b = k -> slice n k (a ++ b ++ c) = Ok b.
Proof.
  intros <- <-. unfold slice. rewrite !app_length. destruct (Nat.leb_spec (length a + length b) (length a + (length b + length c))); [|lia].
  rewrite skipn_app, skipn_all, Nat.sub_diag. cbn [skipn app]. rewrite firstn_app, firstn_all, Nat.sub_diag. cbn. rewrite app_nil_r. reflexivity.
Qed.
Lemma skipn_exact {A} (a b : list A) n : length a = n -> skipn n (a ++ b) = b.
Proof. intros <-. rewrite skipn_app, skipn_all, Nat.sub_diag. reflexivity. Qed.
Lemma firstn_exact {A} (a b : list A) n : length a = n -> firstn n (a ++ b) = a.
Proof. intros <-. rewrite firstn_app, firstn_all, Nat.sub_diag. cbn. apply app_nil_r. Qed.

(** what readdir leaves in __current for an entry: its fields, and a record length within the structure *)
Definition holds_entry (e : entry) (cur : list Z) : Prop :=
  fields cur = e /\ length cur = DIRENT_SIZE /\ (forall k, (19 + length (name e) + 1 <= k)%nat -> fields (firstn k cur) = e) /\ exists r, slice 16 2 cur = Ok r /\ 0 <= le r <= 280 /\ (19 + length (name e) + 1 <= Z.to_nat (le r))%nat.

Lemma fields_of i o r t n rest : length i = 8%nat -> length o = 8%nat -> length r = 2%nat -> ~ In 0 n ->
  fields (i ++ o ++ r ++ [t] ++ n ++ [0] ++ rest) = {| ino := le i; after := signed64 (le o); typ := t; name := n |}.
Proof.
  intros Li Lo Lr N. unfold fields. rewrite (firstn_exact i) by exact Li. rewrite (skipn_exact i) by exact Li. rewrite (firstn_exact o) by exact Lo.
  f_equal.
  - replace (i ++ o ++ r ++ [t] ++ n ++ [0] ++ rest) with ((i ++ o ++ r) ++ t :: n ++ 0 :: rest) by (rewrite <- !app_assoc; reflexivity).
    rewrite app_nth2 by (rewrite !app_length; lia). rewrite !app_length, Li, Lo, Lr. reflexivity.
  - replace (i ++ o ++ r ++ [t] ++ n ++ [0] ++ rest) with ((i ++ o ++ r ++ [t]) ++ n ++ 0 :: rest) by (rewrite <- !app_assoc; reflexivity).
    rewrite skipn_exact by (rewrite !app_length, Li, Lo, Lr; reflexivity). apply until0_name, N.
Qed.

Lemma next_entry_ok d pre bs post e :
  ent_buffer d = pre ++ bs ++ post -> ent_next d = length pre -> encodes e bs -> length (current d) = DIRENT_SIZE ->
  exists cur, holds_entry e cur /\
    next_entry d = Ok (cur, {| ent_next := ent_next d + length bs; ent_limit := ent_limit d; ent_buffer := ent_buffer d; current := cur;
                               seek_offset := after e; k_pos := k_pos d; k_calls := k_calls d |}).
Proof.
  intros EB EN (i & o & r & pad & EQ & Li & Lo & Lr & VI & VO & VR & LB & NZ) LC.
  assert (LL : length bs = (19 + length (name e) + 1 + length pad)%nat) by (rewrite EQ, !app_length; cbn [length]; lia).
  set (hd := i ++ o ++ r ++ [typ e] ++ name e ++ [0]).
  assert (LH : length hd = (19 + length (name e) + 1)%nat) by (unfold hd; rewrite !app_length; cbn [length]; lia).
  assert (BH : bs = hd ++ pad) by (rewrite EQ; unfold hd; rewrite <- !app_assoc; reflexivity).
  unfold next_entry. rewrite EN.
  assert (S1 : slice (length pre + 8) 8 (ent_buffer d) = Ok o).
  { rewrite EB, EQ. replace (pre ++ (i ++ o ++ r ++ [typ e] ++ name e ++ [0] ++ pad) ++ post) with ((pre ++ i) ++ o ++ (r ++ [typ e] ++ name e ++ [0] ++ pad ++ post)) by (rewrite <- !app_assoc; reflexivity).
    apply slice_mid; [rewrite app_length; lia|exact Lo]. }
  assert (S2 : slice (length pre + 16) 2 (ent_buffer d) = Ok r).
  { rewrite EB, EQ. replace (pre ++ (i ++ o ++ r ++ [typ e] ++ name e ++ [0] ++ pad) ++ post) with ((pre ++ i ++ o) ++ r ++ ([typ e] ++ name e ++ [0] ++ pad ++ post)) by (rewrite <- !app_assoc; reflexivity).
    apply slice_mid; [rewrite !app_length; lia|exact Lr]. }
  assert (S3 : strlen_of (skipn (length pre + NAME_AT) (ent_buffer d)) = Ok (length (name e))).
  { rewrite EB, EQ. replace (pre ++ (i ++ o ++ r ++ [typ e] ++ name e ++ [0] ++ pad) ++ post) with ((pre ++ i ++ o ++ r ++ [typ e]) ++ name e ++ 0 :: (pad ++ post)) by (rewrite <- !app_assoc; reflexivity).
    rewrite skipn_exact by (unfold NAME_AT; rewrite !app_length; cbn [length]; lia). apply strlen_name, NZ. }
  assert (S4 : slice (length pre) (NAME_AT + length (name e) + 1) (ent_buffer d) = Ok hd).
  { rewrite EB, BH, <- app_assoc. apply slice_mid; [reflexivity|exact LH]. }
  rewrite S1, S2. cbn [bind]. rewrite S3. cbn [bind]. rewrite S4. cbn [bind].
  destruct (Nat.ltb_spec DIRENT_SIZE (NAME_AT + length (name e) + 1)); [unfold DIRENT_SIZE, NAME_AT in *; lia|].
  eexists. split; [|rewrite VR, Nat2Z.id, VO; reflexivity].
  split; [|split; [|split]].
  - unfold hd. rewrite <- !app_assoc. rewrite fields_of by assumption. rewrite VI, VO. destruct e; reflexivity.
  - rewrite app_length, skipn_length, LH, LC. unfold NAME_AT in *. lia.
  - intros k Hk. rewrite firstn_app, firstn_all2 by lia. unfold hd. rewrite <- !app_assoc. rewrite fields_of by assumption. rewrite VI, VO. destruct e; reflexivity.
  - exists r. split; [|rewrite VR; lia]. unfold hd. rewrite <- !app_assoc.
    replace (i ++ o ++ r ++ [typ e] ++ name e ++ [0] ++ skipn (NAME_AT + length (name e) + 1) (current d)) with ((i ++ o) ++ r ++ ([typ e] ++ name e ++ [0] ++ skipn (NAME_AT + length (name e) + 1) (current d))) by (rewrite <- !app_assoc; reflexivity).
    apply slice_mid; [rewrite app_length; lia|exact Lr].
Qed.

Section S.
Variable es : list entry.
Variable read_entries : nat -> Z -> (list Z * Z) + Z.
Hypothesis K : faithful es read_entries.

(** the stream stands before entry [i]: the buffer holds the entries up to the kernel's position *)
Definition stands (d : dir) (i : nat) : Prop :=
  (i <= length es)%nat /\ seek_offset d = position es i /\ length (current d) = DIRENT_SIZE /\ length (ent_buffer d) = BUFFER /\
  exists j recs pre post, (i <= j <= length es)%nat /\ k_pos d = position es j /\ Forall2 encodes (firstn (j - i) (skipn i es)) recs /\
    ent_buffer d = pre ++ concat recs ++ post /\ ent_next d = length pre /\ ent_limit d = (length pre + length (concat recs))%nat.

Lemma encodes_pos e bs : encodes e bs -> (0 < length bs)%nat.
Proof. intros (i & o & r & pad & -> & L & _). rewrite app_length. lia. Qed.
Lemma skip_cons i e : nth_error es i = Some e -> skipn i es = e :: skipn (S i) es.
Proof. clear K. revert i. induction es as [|x l IH]; intros [|i] H; try discriminate; cbn in *; [congruence|]. rewrite (IH i H). reflexivity. Qed.
Lemma position_S i e : nth_error es i = Some e -> position es (S i) = after e.
Proof. intros H. unfold position. rewrite (nth_error_nth es i _ H). reflexivity. Qed.

Lemma take_one d i j recs pre post :
  (i < j <= length es)%nat -> length (current d) = DIRENT_SIZE -> length (ent_buffer d) = BUFFER ->
  k_pos d = position es j -> Forall2 encodes (firstn (j - i) (skipn i es)) recs ->
  ent_buffer d = pre ++ concat recs ++ post -> ent_next d = length pre -> ent_limit d = (length pre + length (concat recs))%nat ->
  exists e cur d', nth_error es i = Some e /\ holds_entry e cur /\ next_entry d = Ok (cur, d') /\ stands d' (S i).
Proof.
  intros IJ LC LB KP F EB EN EL. destruct (nth_error es i) as [e|] eqn:E; [|apply nth_error_None in E; lia].
  rewrite (skip_cons i e E) in F. destruct (j - i)%nat as [|k] eqn:JI; [lia|]. cbn [firstn] in F. inversion F as [|? bs ? recs' EN1 F']; subst. cbn [concat] in *.
  rewrite <- app_assoc in EB. destruct (next_entry_ok d pre bs (concat recs' ++ post) e EB EN EN1 LC) as (cur & HE & NE).
  exists e, cur. eexists. split; [reflexivity|]. split; [exact HE|]. split; [exact NE|].
  split; [lia|]. cbn [seek_offset current ent_buffer k_pos ent_next ent_limit]. split; [symmetry; apply position_S, E|]. split; [apply HE|]. split; [exact LB|].
  exists j, recs', (pre ++ bs), post. split; [lia|]. split; [exact KP|]. replace (j - S i)%nat with k by lia. split; [exact F'|]. rewrite <- app_assoc. split; [exact EB|].
  rewrite !app_length in *. lia.
Qed.

Lemma readdir_ok d i : stands d i ->
  match nth_error es i with
  | Some e => exists cur d', readdir read_entries d = Ok (Some cur, d') /\ holds_entry e cur /\ stands d' (S i)
  | None => exists d', readdir read_entries d = Ok (None, d') /\ stands d' i
  end.
Proof.
  intros (LI & SO & LC & LB & j & recs & pre & post & IJ & KP & F & EB & EN & EL). unfold readdir.
  destruct (Nat.ltb_spec (ent_limit d) (ent_next d)); [lia|].
  destruct (Nat.eqb_spec (ent_next d) (ent_limit d)) as [EQ|NE].
  - assert (JI : i = j).
    { destruct (Nat.eq_dec i j) as [|X]; [assumption|exfalso]. assert (I' : (i < length es)%nat) by lia.
      destruct (nth_error es i) as [e|] eqn:E; [|apply nth_error_None in E; lia]. rewrite (skip_cons i e E) in F. destruct (j - i)%nat eqn:?; [lia|]. cbn [firstn] in F.
      inversion F as [|? bs ? recs' E1 F']; subst. apply encodes_pos in E1. cbn [concat] in *. rewrite app_length in *. lia. }
    subst j. rewrite KP. destruct (K (k_calls d) i LI) as (j & rs & -> & (J1 & J2) & J3 & F2 & LR).
    destruct (Nat.ltb_spec BUFFER (length (concat rs))); [unfold BUFFER in *; lia|].
    destruct (Nat.eq_dec i j) as [<-|NJ].
    + rewrite Nat.sub_diag in F2. cbn [firstn] in F2. inversion F2; subst rs. cbn [concat length Nat.eqb].
      destruct (nth_error es i) as [e|] eqn:E; [assert (i < length es)%nat by (apply nth_error_Some; congruence); lia|].
      eexists. split; [reflexivity|]. split; [exact LI|]. cbn [seek_offset current ent_buffer k_pos ent_next ent_limit app skipn].
      split; [exact SO|]. split; [exact LC|]. split; [exact LB|]. exists i, [], [], (ent_buffer d). rewrite Nat.sub_diag. cbn. repeat split; auto; lia.
    + set (d1 := {| ent_next := 0; ent_limit := length (concat rs); ent_buffer := concat rs ++ skipn (length (concat rs)) (ent_buffer d); current := current d;
                    seek_offset := seek_offset d; k_pos := position es j; k_calls := S (k_calls d) |}).
      destruct (take_one d1 i j rs [] (skipn (length (concat rs)) (ent_buffer d))) as (e & cur & d' & E & HE & NX & ST); try reflexivity; try assumption; try lia.
      { cbn [ent_buffer d1]. rewrite app_length, skipn_length, LB. unfold BUFFER. lia. }
      rewrite E. destruct (Nat.eqb_spec (length (concat rs)) 0) as [Z0|_].
      { exfalso. destruct (j - i)%nat eqn:?; [lia|]. rewrite (skip_cons i e E) in F2. cbn [firstn] in F2. inversion F2 as [|? bs ? recs' E1 F']; subst. apply encodes_pos in E1. cbn [concat] in Z0. rewrite app_length in Z0. lia. }
      rewrite NX. cbn [bind]. exists cur, d'. auto.
  - assert (NJ : i <> j). { intros ->. rewrite Nat.sub_diag in F. cbn in F. inversion F; subst. cbn in EL. lia. }
    destruct (take_one d i j recs pre post) as (e & cur & d' & E & HE & NX & ST); try assumption; try lia.
    rewrite E, NX. cbn [bind]. exists cur, d'. auto.
Qed.
Lemma stands_open : stands opendir 0.
Proof.
  split; [lia|]. cbn [seek_offset current ent_buffer k_pos ent_next ent_limit opendir]. split; [reflexivity|]. split; [apply repeat_length|]. split; [apply repeat_length|].
  exists 0%nat, [], [], (repeat 0 BUFFER). cbn [Nat.sub firstn concat length app]. repeat split; auto; lia.
Qed.
Lemma stands_seek d i j : stands d i -> (j <= length es)%nat -> stands (seekdir d (position es j)) j.
Proof.
  intros (_ & _ & LC & LB & _) J. split; [exact J|]. cbn [seek_offset current ent_buffer k_pos ent_next ent_limit seekdir]. split; [reflexivity|]. split; [exact LC|]. split; [exact LB|].
  exists j, [], [], (ent_buffer d). rewrite Nat.sub_diag. cbn. repeat split; auto; lia.
Qed.
Lemma run_ok : forall qs d i, stands d i -> Forall (good_request es) qs ->
  exists outs d', run read_entries (map (call es) qs) d = Ok (outs, d') /\ map seen outs = serve_all es qs i.
Proof.
  induction qs as [|q qs IH]; intros d i ST G; [exists [], d; split; reflexivity|]. inversion G as [|? ? G1 G2]; subst.
  cbn [map run serve_all]. destruct q as [| |j|]; cbn [call step serve].
  - pose proof (readdir_ok d i ST) as R. destruct (nth_error es i) as [e|].
    + destruct R as (cur & d' & -> & HE & ST'). cbn [bind]. destruct (IH d' (S i) ST' G2) as (os & d'' & -> & M). cbn [bind].
      eexists _, d''. split; [reflexivity|]. cbn [map seen]. destruct HE as [-> _]. rewrite M. reflexivity.
    + destruct R as (d' & -> & ST'). cbn [bind]. destruct (IH d' i ST' G2) as (os & d'' & -> & M). cbn [bind].
      eexists _, d''. split; [reflexivity|]. cbn [map seen]. rewrite M. reflexivity.
  - cbn [bind]. destruct (IH d i ST G2) as (os & d'' & -> & M). cbn [bind]. eexists _, d''. split; [reflexivity|]. cbn [map seen]. rewrite M. unfold telldir. destruct ST as (_ & -> & _). reflexivity.
  - cbn [bind]. destruct (IH _ j (stands_seek d i j ST G1) G2) as (os & d'' & -> & M). cbn [bind]. eexists _, d''. split; [reflexivity|]. cbn [map seen]. rewrite M. reflexivity.
  - cbn [bind]. destruct (IH _ 0%nat (stands_seek d i 0 ST (Nat.le_0_l _)) G2) as (os & d'' & E & M). change (position es 0) with 0 in E. fold (rewinddir d) in E. rewrite E. cbn [bind].
    eexists _, d''. split; [reflexivity|]. cbn [map seen]. rewrite M. reflexivity.
Qed.

Section Scan.
Variable f : option (nat -> list Z -> Z -> bool * Z).
Variable sel : nat -> entry -> Z -> bool * Z.
Hypothesis FS : match f with Some g => sees_fields g sel | None => forall c e en, sel c e en = (true, en) end.
Lemma f_is c cur en e : fields cur = e -> match f with Some g => g c cur en | None => (true, en) end = sel c e en.
Proof. intros <-. destruct f as [g|]; [apply FS|symmetry; apply FS]. Qed.

Lemma scan_ok : forall fuel i d array count cs, stands d i -> (length es - i < fuel)%nat -> (count <= length array)%nat -> firstn count array = map Some cs ->
  (exists array' count' d' cs', scan read_entries f fuel i d array count 0 = Ok (array', count', 0, d') /\
     (forall j e, (i <= j)%nat -> nth_error es j = Some e -> snd (sel j e 0) = 0) /\ (count' <= length array')%nat /\
     firstn count' array' = map Some (cs ++ cs') /\ map fields cs' = chosen sel i (skipn i es)) \/
  (exists array' count' d' j e, scan read_entries f fuel i d array count 0 = Ok (array', count', snd (sel j e 0), d') /\
     (i <= j)%nat /\ nth_error es j = Some e /\ snd (sel j e 0) <> 0 /\ (forall k x, (i <= k < j)%nat -> nth_error es k = Some x -> snd (sel k x 0) = 0)).
Proof.
  induction fuel as [|fuel IH]; intros i d array count cs ST FU CA FA; [lia|].
  cbn [scan]. pose proof (readdir_ok d i ST) as R. destruct (nth_error es i) as [e|] eqn:E.
  2:{ destruct R as (d' & -> & _). cbn [bind]. left. exists array, count, d', []. split; [reflexivity|]. split.
      { intros j e J NE. apply nth_error_None in E. assert (j < length es)%nat by (apply nth_error_Some; congruence). lia. }
      split; [exact CA|]. rewrite app_nil_r. split; [exact FA|]. apply nth_error_None in E. rewrite skipn_all2 by lia. reflexivity. }
  destruct R as (cur & d' & -> & HE & ST'). cbn [bind Z.eqb negb]. rewrite (f_is i cur 0 e) by apply HE.
  assert (I' : (i < length es)%nat) by (apply nth_error_Some; congruence).
  (* the next call, whatever was stored *)
  assert (NEXT : forall array1 count1 cs1, (count1 <= length array1)%nat -> firstn count1 array1 = map Some (cs ++ cs1) -> map fields cs1 = (if fst (sel i e 0) then [e] else []) ->
    (exists array' count' d'' cs', scan read_entries f fuel (S i) d' array1 count1 (snd (sel i e 0)) = Ok (array', count', 0, d'') /\
       (forall j e, (i <= j)%nat -> nth_error es j = Some e -> snd (sel j e 0) = 0) /\ (count' <= length array')%nat /\
       firstn count' array' = map Some (cs ++ cs') /\ map fields cs' = chosen sel i (skipn i es)) \/
    (exists array' count' d'' j e2, scan read_entries f fuel (S i) d' array1 count1 (snd (sel i e 0)) = Ok (array', count', snd (sel j e2 0), d'') /\
       (i <= j)%nat /\ nth_error es j = Some e2 /\ snd (sel j e2 0) <> 0 /\ (forall k x, (i <= k < j)%nat -> nth_error es k = Some x -> snd (sel k x 0) = 0))).
  { intros array1 count1 cs1 C1 F1 M1. destruct (Z.eq_dec (snd (sel i e 0)) 0) as [Q|Q].
    - rewrite Q. destruct (IH (S i) d' array1 count1 (cs ++ cs1) ST' ltac:(lia) C1 F1) as [(a & c & d2 & cs2 & E1 & Q1 & L1 & FF & MM)|(a & c & d2 & j & x & E1 & J & NE & NZ & Q1)].
      + left. exists a, c, d2, (cs1 ++ cs2). split; [exact E1|]. split.
        { intros j x J NE. destruct (Nat.eq_dec j i) as [->|]; [replace x with e by congruence; exact Q|]. apply (Q1 j); [lia|exact NE]. }
        split; [exact L1|]. rewrite app_assoc. split; [exact FF|]. rewrite map_app, M1, MM, (skip_cons i e E). reflexivity.
      + right. exists a, c, d2, j, x. split; [exact E1|]. split; [lia|]. split; [exact NE|]. split; [exact NZ|].
        intros k y Hk NK. destruct (Nat.eq_dec k i) as [->|]; [replace y with e by congruence; exact Q|]. apply (Q1 k); [lia|exact NK].
    - right. destruct fuel as [|fuel']; [lia|]. cbn [scan]. pose proof (readdir_ok d' (S i) ST') as R2.
      assert (exists x d2, readdir read_entries d' = Ok (x, d2)) as (x & d2 & ->).
      { destruct (nth_error es (S i)); [destruct R2 as (c2 & d2 & -> & _)|destruct R2 as (d2 & -> & _)]; eauto. }
      cbn [bind]. exists array1, count1, d2, i, e. split.
      { destruct x; [|reflexivity]. destruct (Z.eqb_spec (snd (sel i e 0)) 0); [contradiction|reflexivity]. }
      split; [lia|]. split; [exact E|]. split; [exact Q|]. intros k y Hk. lia. }
  rewrite (surjective_pairing (sel i e 0)). destruct (fst (sel i e 0)) eqn:KEEP; cbn [negb].
  - destruct HE as (FE & LC & PRE & r & SR & RB & RL).
    set (array2 := if (length array <=? count)%nat then _ else array).
    assert (A2 : firstn count array2 = map Some cs /\ (count < length array2)%nat).
    { unfold array2. destruct (Nat.leb_spec (length array) count); [|split; [exact FA|lia]].
      rewrite firstn_app. replace (count - length array)%nat with 0%nat by lia. cbn [firstn]. rewrite app_nil_r. split; [exact FA|]. rewrite app_length, repeat_length. lia. }
    destruct A2 as [A2 A3]. clearbody array2. rewrite SR. cbn [bind].
    assert (SC : slice 0 (Z.to_nat (le r)) cur = Ok (firstn (Z.to_nat (le r)) cur)).
    { unfold slice. rewrite LC. destruct (Nat.leb_spec (0 + Z.to_nat (le r)) DIRENT_SIZE) as [|X]; [reflexivity|]. unfold DIRENT_SIZE in X. lia. }
    rewrite SC. cbn [bind]. destruct (Nat.ltb_spec count (length array2)); [|lia].
    assert (LF : length (firstn count array2) = count) by (rewrite firstn_length; lia).
    apply (NEXT _ _ [firstn (Z.to_nat (le r)) cur]).
    + rewrite app_length, LF. cbn [length]. rewrite skipn_length. lia.
    + rewrite firstn_app, LF. rewrite (firstn_all2 (n := S count) (firstn count array2)) by lia. replace (S count - count)%nat with 1%nat by lia. cbn [firstn]. rewrite map_app, A2. reflexivity.
    + cbn [map]. rewrite PRE by exact RL. reflexivity.
  - apply (NEXT array count []); [exact CA|rewrite app_nil_r; exact FA|reflexivity].
Qed.
End Scan.
End S.

Lemma filled_some l : filled (map Some l) = Ok l.
Proof. induction l as [|x l IH]; [reflexivity|]. cbn [map filled]. rewrite IH. reflexivity. Qed.
