(** Reading patterns and strings: the lexical layer of fnmatch. *)
From Verif Require Import Base Mem_Proof Utf8_Model Utf8_Spec Utf8_Proof Utf8Conv_Proof Fnm_Model Fnm_Spec.
Open Scope Z_scope.

Local Notation len l := (Z.of_nat (length l)).

Lemma load_some : forall m p b, m p = Some b -> load m p = Ok b.
Proof. intros m p b H. unfold load. rewrite H. reflexivity. Qed.

(** ** Characters *)
Lemma char_pos : forall c, char c -> 0 < c <= 1114111.
Proof. unfold char, scalar. intros c H. lia. Qed.

Lemma utf8_ascii : forall c, c < 128 -> utf8 c = [c].
Proof. intros c H. unfold utf8. destruct (Z.ltb_spec c 128); [reflexivity|lia]. Qed.

(** the first byte tells ASCII from longer sequences, in which all bytes are at least 128 *)
Lemma utf8_high : forall c, char c -> 128 <= c -> Forall (fun b => 128 <= b < 256) (utf8 c).
Proof.
  intros c H G. pose proof (char_pos _ H).
  assert (W : wf_char (utf8 c) c) by (apply wf_utf8; split; [apply H|reflexivity]).
  destruct (utf8 c) as [|a [|b [|d [|e [|g l]]]]] eqn:E; cbn in W; unfold pair3, pair4, isc in W; try tauto;
    try lia; repeat constructor; try lia.
Qed.

(** lead byte and continuation bytes *)
Lemma utf8_shape : forall c, char c -> 128 <= c ->
  exists a r, utf8 c = a :: r /\ 192 <= a < 256 /\ r <> [] /\ Forall (fun b => 128 <= b < 192) r.
Proof.
  intros c H G. pose proof (char_pos _ H).
  assert (W : wf_char (utf8 c) c) by (apply wf_utf8; split; [apply H|reflexivity]).
  destruct (utf8 c) as [|a [|b [|d [|e [|g l]]]]] eqn:E; cbn in W; unfold pair3, pair4, isc in W; try tauto;
    try lia; exists a; eexists; (split; [reflexivity|]); (split; [lia|]); (split; [discriminate|]);
    repeat constructor; lia.
Qed.

Lemma utf8_nz : forall c, char c -> Forall (fun b => 0 < b < 256) (utf8 c).
Proof.
  intros c H. pose proof (char_pos _ H). destruct (Z.ltb_spec c 128).
  - rewrite utf8_ascii by assumption. repeat constructor; lia.
  - eapply Forall_impl; [|exact (utf8_high _ H ltac:(lia))]. cbn. lia.
Qed.

Lemma utf8_hd : forall c, char c -> exists b r, utf8 c = b :: r /\ 0 < b /\ (b < 128 -> c = b /\ r = []) /\ (128 <= b -> 128 <= c).
Proof.
  intros c H. pose proof (char_pos _ H). destruct (Z.ltb_spec c 128).
  - exists c, []. rewrite utf8_ascii by assumption. repeat split; auto; lia.
  - destruct (utf8_shape _ H ltac:(lia)) as (a & r & E & ? & ? & ?). exists a, r.
    repeat split; auto; lia.
Qed.

Lemma mbtowc_char : forall m p n c, char c -> bytes_at m p (utf8 c) -> len (utf8 c) <= n ->
  mbtowc m p n = Ok (len (utf8 c), c).
Proof.
  intros m p n c H B N. pose proof (char_pos _ H) as P. pose proof (utf8_len c) as L.
  assert (W : wf_char (utf8 c) c) by (apply wf_utf8; split; [apply H|reflexivity]).
  destruct (utf8_hd _ H) as (b & r & E & Hb & _).
  assert (M : m p = Some b) by (rewrite E in B; apply bytes_at_cons in B; tauto).
  unfold mbtowc. rewrite (load_some _ _ _ M). cbn [bind].
  destruct (Z.eqb_spec b 0); [lia|]. destruct (Z.eqb_spec n 0); [lia|].
  unfold decode_wtranscode. cbn [Z.eqb].
  assert (RI : rep [] mb_init) by (apply rep_done; lia).
  rewrite (dloop_char (utf8 c) (5 - length (utf8 c)) 5 m p (p + Z.min n 4) (upd (fun _ => None) 0 0) 0 1 [] mb_init c);
    try assumption; try lia.
  2:{ rewrite E. discriminate. }
  destruct (Z.eqb_spec c 0); [lia|]. cbn [store upd Z.eqb bind].
  destruct (5 - length (utf8 c))%nat eqn:F; [lia|]. cbn [dloop]. rewrite Z.eqb_refl, orb_true_r.
  cbn [bind fst snd Z.eqb negb].
  replace (p + len (utf8 c) - p) with (len (utf8 c)) by lia.
  destruct (p + len (utf8 c) =? p + Z.min n 4); reflexivity.
Qed.

Lemma str_next_char : forall m p n c, char c -> bytes_at m p (utf8 c) -> len (utf8 c) <= n ->
  str_next m p n = Ok (c, len (utf8 c)).
Proof.
  intros m p n c H B N. pose proof (utf8_len c) as L. pose proof (char_pos _ H).
  destruct (utf8_hd _ H) as (b & r & E & Hb & Lo & Hi).
  assert (M : m p = Some b) by (rewrite E in B; apply bytes_at_cons in B; tauto).
  unfold str_next. destruct (Z.eqb_spec n 0); [lia|]. rewrite (load_some _ _ _ M). cbn [bind].
  destruct (Z.leb_spec 128 b).
  - rewrite (mbtowc_char _ _ _ _ H B N). cbn [bind]. destruct (Z.ltb_spec (len (utf8 c)) 0); [lia|reflexivity].
  - destruct (Lo ltac:(lia)) as [-> ->]. rewrite E. reflexivity.
Qed.

Lemma pat_char_char : forall m p n c e, char c -> bytes_at m p (utf8 c) -> len (utf8 c) <= n ->
  pat_char m p n e = Ok (c, len (utf8 c) + e).
Proof.
  intros m p n c e H B N. pose proof (utf8_len c) as L. pose proof (char_pos _ H).
  destruct (utf8_hd _ H) as (b & r & E & Hb & Lo & Hi).
  assert (M : m p = Some b) by (rewrite E in B; apply bytes_at_cons in B; tauto).
  unfold pat_char. rewrite (load_some _ _ _ M). cbn [bind].
  destruct (Z.leb_spec 128 b).
  - rewrite (mbtowc_char _ _ _ _ H B N). cbn [bind]. destruct (Z.ltb_spec (len (utf8 c)) 0); [lia|reflexivity].
  - destruct (Lo ltac:(lia)) as [-> ->]. rewrite E. reflexivity.
Qed.

(** ** Finding the end of a bracket expression *)
Definition show_items (l : list item) : list Z := concat (map show_item l).

Lemma next_byte_hd : forall l r, next_byte l = hd 93 (show_items l ++ 93 :: r).
Proof. intros l r. unfold next_byte. fold (show_items l). destruct (show_items l); reflexivity. Qed.

(** what the search for the end requires of an item *)
Definition lex_item (i : item) (rest : list item) : Prop :=
  match i with
  | One c => char c /\ c <> 93 /\ (c = 91 -> is_z (next_byte rest) = false)
  | Rng a b => char a /\ a <> 93 /\ char b /\ b <> 93 /\ (b = 91 -> is_z (next_byte rest) = false)
  | Cls name => name <> [] /\ Forall (fun c => 97 <= c <= 122) name
  end.

Fixpoint lex_items (l : list item) : Prop :=
  match l with [] => True | i :: r => lex_item i r /\ lex_items r end.

Lemma peek_in : forall m p n k b, m (p + k) = Some b -> k < n -> peek m p n k = Ok b.
Proof.
  intros m p n k b H L. unfold peek. destruct (Z.ltb_spec k n); [|lia]. exact (load_some _ _ _ H).
Qed.

Lemma scan_step : forall g m p n k b c, m (p + k) = Some b -> m (p + k + 1) = Some c ->
  b <> 0 -> b <> 93 -> (b = 91 -> is_z c = false) -> k + 1 < n ->
  scan (S g) m p n k = scan g m p n (k + 1).
Proof.
  intros g m p n k b c B C N0 N1 N2 L. cbn [scan].
  rewrite (peek_in _ _ _ _ _ B) by lia. cbn [bind].
  destruct (Z.eqb_spec b 0); [lia|]. destruct (Z.eqb_spec b 93); [lia|]. cbn [orb].
  rewrite (peek_in m p n (k + 1) c) by (try lia; rewrite Z.add_assoc; exact C). cbn [bind].
  destruct (Z.eqb_spec b 91) as [->|]; [rewrite N2 by reflexivity|]; reflexivity.
Qed.

Lemma scan_bytes : forall l g m p n k r, bytes_at m (p + k) (l ++ r) -> r <> [] ->
  Forall (fun b => b <> 0 /\ b <> 93 /\ b <> 91) l -> k + len l < n ->
  scan (length l + g) m p n k = scan g m p n (k + len l).
Proof.
  induction l as [|b l IH]; intros g m p n k r B R F L; cbn [length Nat.add].
  - rewrite Z.add_0_r. reflexivity.
  - inversion F as [|? ? [F1 [F2 F3]] F4]; subst. cbn [app] in B. apply bytes_at_cons in B as [B1 B2].
    assert (exists c, m (p + k + 1) = Some c) as [c C].
    { destruct l as [|c l]; [destruct r as [|c r]; [congruence|]|]; cbn in B2; apply bytes_at_cons in B2; exists c; tauto. }
    cbn [length] in L.
    rewrite (scan_step _ _ _ _ _ b c B1 C) by (try assumption; try lia).
    rewrite (IH g m p n (k + 1) r); try assumption; try lia.
    + f_equal. lia.
    + rewrite Z.add_assoc. exact B2.
Qed.

Lemma utf8_scan : forall c, char c -> c <> 93 -> c <> 91 -> Forall (fun b => b <> 0 /\ b <> 93 /\ b <> 91) (utf8 c).
Proof.
  intros c H A B. pose proof (char_pos _ H). destruct (Z.ltb_spec c 128).
  - rewrite utf8_ascii by assumption. repeat constructor; lia.
  - eapply Forall_impl; [|exact (utf8_high _ H ltac:(lia))]. cbn. lia.
Qed.

(** a character, possibly '[', before [x :: r] *)
Lemma scan_char : forall c g m p n k x r, char c -> c <> 93 -> (c = 91 -> is_z x = false) ->
  bytes_at m (p + k) (utf8 c ++ x :: r) -> k + len (utf8 c) < n ->
  scan (length (utf8 c) + g) m p n k = scan g m p n (k + len (utf8 c)).
Proof.
  intros c g m p n k x r H A Q B L. destruct (Z.eq_dec c 91) as [->|N].
  - rewrite utf8_ascii in * by lia. cbn in B, L |- *. apply bytes_at_cons in B as [B1 B2].
    apply bytes_at_cons in B2 as [B2 _].
    apply (scan_step _ _ _ _ _ 91 x); auto; lia.
  - apply (scan_bytes _ _ _ _ _ _ (x :: r)); auto; [discriminate|].
    exact (utf8_scan _ H A N).
Qed.

Lemma scan_class_name : forall name g m p n k r,
  Forall (fun c => 97 <= c <= 122) name -> bytes_at m (p + k - 1) (name ++ 58 :: 93 :: r) ->
  name <> [] -> k + len name < n -> (length name < g)%nat ->
  scan_class g m p n 58 k = Ok (k + len name).
Proof.
  induction name as [|c name IH]; intros g m p n k r F B N L G; [congruence|].
  destruct g as [|g]; [cbn in G; lia|]. inversion F; subst. cbn [app length] in *. cbn [scan_class].
  apply bytes_at_cons in B as [B1 B2]. replace (p + k - 1 + 1) with (p + k) in B2 by lia.
  destruct name as [|d name].
  - cbn in B2. apply bytes_at_cons in B2 as [B2 B3]. apply bytes_at_cons in B3 as [B3 _].
    rewrite (peek_in _ _ _ _ _ B2) by (cbn in L; lia). cbn [bind].
    rewrite (load_some _ _ _ B1). cbn [bind Z.eqb].
    destruct (Z.eqb_spec c 58); [lia|]. cbn [andb].
    destruct g as [|g]; [cbn in G; lia|]. cbn [scan_class].
    rewrite (peek_in m p n (k + 1) 93) by (try (cbn in L; lia); rewrite Z.add_assoc; exact B3). cbn [bind].
    replace (p + (k + 1) - 1) with (p + k) by lia. rewrite (load_some _ _ _ B2). reflexivity.
  - pose proof B2 as B4. cbn [app] in B2. apply bytes_at_cons in B2 as [B2 _].
    rewrite (peek_in _ _ _ _ _ B2) by (cbn in L; lia). cbn [bind].
    inversion H2; subst. destruct (Z.eqb_spec d 0); [lia|].
    rewrite (load_some _ _ _ B1). cbn [bind].
    destruct (Z.eqb_spec c 58); [lia|]. cbn [andb].
    rewrite (IH g m p n (k + 1) r); auto; try discriminate; try (cbn in *; lia).
    + f_equal. cbn. lia.
    + replace (p + (k + 1) - 1) with (p + k) by lia. exact B4.
Qed.

Lemma scan_items : forall l fuel m p n k r, lex_items l ->
  bytes_at m (p + k) (show_items l ++ 93 :: r) -> k + len (show_items l) < n ->
  (length (show_items l) < fuel)%nat ->
  scan fuel m p n k = Ok (k + len (show_items l)).
Proof.
  induction l as [|i l IH]; intros fuel m p n k r X B L G.
  - cbn in *. destruct fuel as [|g]; [lia|]. apply bytes_at_cons in B as [B _]. cbn [scan].
    rewrite (peek_in _ _ _ _ _ B) by lia. cbn. f_equal. lia.
  - destruct X as [X Y]. unfold show_items in *. cbn [map concat] in *. fold (show_items l) in *.
    rewrite app_length in *. rewrite <- app_assoc in B.
    assert (Q : exists x r', show_items l ++ 93 :: r = x :: r' /\ x = next_byte l).
    { rewrite (next_byte_hd l r). destruct (show_items l ++ 93 :: r) as [|x r'] eqn:E.
      - destruct (show_items l); discriminate.
      - exists x, r'. auto. }
    destruct Q as (x & r' & Q & Qx).
    destruct i as [c|a b|name]; cbn [show_item lex_item] in *.
    + destruct X as (X1 & X2 & X3).
      replace fuel with (length (utf8 c) + (fuel - length (utf8 c)))%nat by lia.
      rewrite (scan_char c _ m p n k x r'); auto; try lia.
      2:{ rewrite Qx. exact X3. }
      2:{ rewrite <- Q. exact B. }
      apply bytes_at_app in B as [_ B].
      rewrite (IH _ m p n (k + len (utf8 c)) r); auto; try lia; [f_equal; lia|].
      rewrite Z.add_assoc. exact B.
    + destruct X as (X1 & X2 & X3 & X4 & X5). rewrite app_length in *. cbn [length] in *.
      rewrite <- app_assoc in B. cbn [app] in B.
      replace fuel with (length (utf8 a) + S (length (utf8 b) + (fuel - length (utf8 a) - 1 - length (utf8 b))))%nat by lia.
      rewrite (scan_char a _ m p n k 45 (utf8 b ++ show_items l ++ 93 :: r)); auto; try lia.
      apply bytes_at_app in B as [_ B]. pose proof B as B0. apply bytes_at_cons in B0 as [B1 B2].
      assert (exists z, m (p + k + len (utf8 a) + 1) = Some z) as [z Z].
      { destruct (utf8_hd _ X3) as (z & zr & E & _). rewrite E in B2. cbn [app] in B2. apply bytes_at_cons in B2. exists z. tauto. }
      rewrite (scan_step _ _ _ _ _ 45 z); try lia; rewrite ?Z.add_assoc; auto; try lia.
      rewrite (scan_char b _ m p n _ x r'); auto; try lia.
      2:{ rewrite Qx. exact X5. }
      2:{ rewrite <- Q. rewrite !Z.add_assoc in *. exact B2. }
      apply bytes_at_app in B2 as [_ B2].
      rewrite (IH _ m p n _ r); auto; try lia; [f_equal; lia|].
      rewrite !Z.add_assoc in *. exact B2.
    + destruct X as (X1 & X2). cbn [length] in *. rewrite app_length in *. cbn [length] in *.
      cbn [app] in B. rewrite <- app_assoc in B. cbn [app] in B.
      destruct fuel as [|g]; [lia|]. cbn [scan].
      apply bytes_at_cons in B as [B1 B]. apply bytes_at_cons in B as [B2 B].
      rewrite (peek_in _ _ _ _ _ B1) by lia. cbn [bind Z.eqb orb].
      rewrite (peek_in m p n (k + 1) 58) by (try lia; rewrite Z.add_assoc; exact B2). cbn [bind Z.eqb Pos.eqb andb is_z orb].
      pose proof B as B0.
      assert (exists c nm, name = c :: nm) as (c & nm & E) by (destruct name; [congruence|eauto]).
      rewrite E in B0. cbn [app] in B0. apply bytes_at_cons in B0 as [B3 _].
      inversion X2; subst; try discriminate. injection H1 as -> ->.
      rewrite (peek_in m p n (k + 2) c); try lia.
      2:{ replace (p + (k + 2)) with (p + k + 1 + 1) by lia. exact B3. }
      cbn [bind]. destruct (Z.eqb_spec c 0); [lia|].
      rewrite (scan_class_name (c :: nm) (S g) m p n (k + 3) (show_items l ++ 93 :: r)); auto; try discriminate; try lia.
      2:{ replace (p + (k + 3) - 1) with (p + k + 1 + 1) by lia. exact B. }
      cbn [bind].
      apply bytes_at_app in B as [_ B]. apply bytes_at_cons in B as [B4 B]. apply bytes_at_cons in B as [B5 B].
      rewrite (peek_in m p n _ 93); try lia.
      2:{ replace (p + (k + 3 + len (c :: nm))) with (p + k + 1 + 1 + len (c :: nm) + 1) by lia. exact B5. }
      cbn [bind Z.eqb].
      rewrite (IH _ m p n _ r); auto; try lia; [f_equal; lia|].
      replace (p + (k + 3 + len (c :: nm) + 1)) with (p + k + 1 + 1 + len (c :: nm) + 1 + 1) by lia. exact B.
Qed.

(** an item that does not begin with ']' can be scanned *)
Lemma ok_lex_item : forall f i rest, ok_item f false i rest -> lex_item i rest.
Proof.
  intros f [c|a b|name] rest H; cbn [ok_item lex_item] in *; unfold ok_one in *.
  - destruct H as (H1 & H2 & H3 & H4 & H5). split; [exact H1|]. split; [|exact H5].
    intros E. specialize (H3 E). congruence.
  - destruct H as ((H1 & H2 & H3 & H4 & H5) & H6 & H7 & H8 & H9 & H10 & H11).
    split; [exact H1|]. split; [intros E; specialize (H3 E); congruence|]. auto.
  - tauto.
Qed.

Lemma ok_lex_items : forall f l, ok_items f false l -> lex_items l.
Proof.
  intros f. induction l as [|i l IH]; cbn; [auto|]. intros [H1 H2]. split; [|auto].
  exact (ok_lex_item _ _ _ H1).
Qed.

(** the text of a list of items after a leading ']', or all of it *)
Inductive first_view (f : flags) : list item -> Prop :=
| fv_close_one l : ok_items f false l -> first_view f (One 93 :: l)
| fv_close_rng b l : ok_item f true (Rng 93 b) l -> ok_items f false l -> first_view f (Rng 93 b :: l)
| fv_dash_one l : ok_items f false l -> first_view f (One 45 :: l)
| fv_dash_rng b l : ok_item f true (Rng 45 b) l -> ok_items f false l -> first_view f (Rng 45 b :: l)
| fv_plain i l : ok_items f false (i :: l) -> next_byte (i :: l) <> 93 -> next_byte (i :: l) <> 45 ->
    first_view f (i :: l).

Lemma next_byte_utf8 : forall c r, char c -> exists b, hd 93 (utf8 c ++ r) = b /\ (b < 128 -> b = c) /\ (c < 128 -> b = c).
Proof.
  intros c r H. destruct (utf8_hd _ H) as (b & t & E & P & Lo & Hi). rewrite E. exists b. cbn.
  repeat split; intros; [destruct (Lo H0); auto|].
  rewrite utf8_ascii in E by assumption. congruence.
Qed.

Lemma first_cases : forall f l, l <> [] -> ok_items f true l -> first_view f l.
Proof.
  intros f [|i l] N H; [congruence|]. destruct H as [H1 H2].
  destruct i as [c|a b|name].
  - destruct (Z.eq_dec c 93) as [->|N1]; [constructor; assumption|].
    destruct (Z.eq_dec c 45) as [->|N2]; [constructor; assumption|].
    apply fv_plain.
    + split; [|assumption]. cbn in *. unfold ok_one in *. intuition lia.
    + cbn in H1. destruct H1 as [H1 _]. unfold next_byte. cbn.
      destruct (next_byte_utf8 c (concat (map show_item l)) H1) as (b & E & A & _). rewrite E. intros ->. lia.
    + cbn in H1. destruct H1 as [H1 _]. unfold next_byte. cbn.
      destruct (next_byte_utf8 c (concat (map show_item l)) H1) as (b & E & A & _). rewrite E. intros ->. lia.
  - destruct (Z.eq_dec a 93) as [->|N1]; [constructor; assumption|].
    destruct (Z.eq_dec a 45) as [->|N2]; [constructor; assumption|].
    apply fv_plain.
    + split; [|assumption]. cbn in *. unfold ok_one in *. intuition lia.
    + cbn in H1. destruct H1 as [[H1 _] _]. unfold next_byte. cbn [map concat show_item]. rewrite <- app_assoc.
      destruct (next_byte_utf8 a ((45 :: utf8 b) ++ concat (map show_item l)) H1) as (d & E & A & _). rewrite E. intros ->. lia.
    + cbn in H1. destruct H1 as [[H1 _] _]. unfold next_byte. cbn [map concat show_item]. rewrite <- app_assoc.
      destruct (next_byte_utf8 a ((45 :: utf8 b) ++ concat (map show_item l)) H1) as (d & E & A & _). rewrite E. intros ->. lia.
  - apply fv_plain; [split; assumption| |]; cbn; lia.
Qed.

(** from the first item on *)
Lemma scan_first : forall f l fuel m p n k r, first_view f l ->
  bytes_at m (p + k) (show_items l ++ 93 :: r) -> k + len (show_items l) < n ->
  (length (show_items l) < fuel)%nat ->
  exists b, m (p + k) = Some b /\ b = next_byte l /\
  scan fuel m p n (if b =? 93 then k + 1 else k) = Ok (k + len (show_items l)).
Proof.
  intros f l fuel m p n k r V B L G.
  destruct (show_items l ++ 93 :: r) as [|b t] eqn:E; [destruct (show_items l); discriminate|].
  pose proof (next_byte_hd l r) as NB. rewrite E in NB. cbn in NB.
  pose proof B as B0. apply bytes_at_cons in B0 as [B1 B2].
  exists b. split; [exact B1|]. split; [congruence|].
  destruct V as [l V|d l V1 V2|l V|d l V1 V2|i l V1 V2 V3].
  - unfold show_items in *. cbn [map concat show_item] in *. rewrite utf8_ascii in * by lia. fold (show_items l) in *.
    cbn [app length] in *. injection E as <- <-. cbn [Z.eqb Pos.eqb].
    rewrite (scan_items l fuel m p n (k + 1) r); try lia; [f_equal; lia|exact (ok_lex_items _ _ V)|].
    rewrite Z.add_assoc. exact B2.
  - unfold show_items in *. cbn [map concat show_item] in *. rewrite (utf8_ascii 93) in * by lia. fold (show_items l) in *.
    cbn [app length] in *. injection E as <- <-. cbn [Z.eqb Pos.eqb].
    cbn [ok_item] in V1. destruct V1 as (_ & W1 & W2 & W3 & W4 & W5 & W6).
    rewrite (utf8_ascii d) in * by lia. cbn [app length] in *.
    destruct fuel as [|fuel]; [lia|].
    rewrite (scan_step _ _ _ _ _ 45 d); try lia.
    2:{ rewrite Z.add_assoc. apply bytes_at_cons in B2. tauto. }
    2:{ apply bytes_at_cons in B2 as [_ B2]. apply bytes_at_cons in B2. rewrite Z.add_assoc. tauto. }
    destruct (show_items l ++ 93 :: r) as [|x t'] eqn:Q; [destruct (show_items l); discriminate|].
    pose proof (next_byte_hd l r) as NX. rewrite Q in NX. cbn in NX.
    apply bytes_at_cons in B2 as [_ B2]. pose proof B2 as B3. apply bytes_at_cons in B3 as [B3 B4].
    destruct fuel as [|fuel]; [lia|].
    rewrite (scan_step _ _ _ _ _ d x); try lia.
    2:{ replace (p + (k + 1 + 1)) with (p + k + 1 + 1) by lia. exact B3. }
    2:{ replace (p + (k + 1 + 1) + 1) with (p + k + 1 + 1 + 1) by lia. apply bytes_at_cons in B4. tauto. }
    rewrite (scan_items l fuel m p n (k + 1 + 1 + 1) r); try lia; [f_equal; lia|exact (ok_lex_items _ _ V2)|].
    rewrite Q. replace (p + (k + 1 + 1 + 1)) with (p + k + 1 + 1 + 1) by lia. exact B4.
  - assert (b = 45).
    { unfold show_items in E. cbn [map concat show_item] in E. rewrite utf8_ascii in E by lia. cbn in E. congruence. }
    subst b. cbn [Z.eqb Pos.eqb].
    apply (scan_items (One 45 :: l) fuel m p n k r); auto.
    + split; [|exact (ok_lex_items _ _ V)]. cbn [lex_item]. unfold char, scalar. lia.
    + rewrite E. exact B.
  - assert (b = 45).
    { unfold show_items in E. cbn [map concat show_item] in E. rewrite (utf8_ascii 45) in E by lia. cbn in E. congruence. }
    subst b. cbn [Z.eqb Pos.eqb].
    apply (scan_items (Rng 45 d :: l) fuel m p n k r); auto.
    + split; [|exact (ok_lex_items _ _ V2)]. cbn [ok_item lex_item] in *. unfold ok_one in *. intuition lia.
    + rewrite E. exact B.
  - destruct (Z.eqb_spec b 93); [congruence|].
    apply (scan_items (i :: l) fuel m p n k r); auto.
    + exact (ok_lex_items _ _ V1).
    + rewrite E. exact B.
Qed.

(** ** Pattern elements *)
Definition code (e : elem) : Z :=
  match e with Chr c | Esc c => c | Any => QUESTION | Star => STAR | Brk _ _ => BRACKET end.

Definition neg_text (neg : option Z) : list Z := match neg with Some n => [n] | None => [] end.

Lemma show_brk : forall neg l, show_elem (Brk neg l) = 91 :: neg_text neg ++ show_items l ++ [93].
Proof. intros [n|] l; reflexivity. Qed.

Lemma show_pos : forall f e, ok_elem f e -> (0 < length (show_elem e))%nat.
Proof.
  intros f [c|c| | |neg l] H; try (cbn; lia).
  - pose proof (utf8_len c). cbn. lia.
  - rewrite (show_brk neg l). cbn. lia.
Qed.

Lemma next_elem : forall fuel f m p n e b r, ok_elem f e -> bytes_at m p (show_elem e ++ b :: r) ->
  len (show_elem e) <= n -> (length (show_elem e) < fuel)%nat ->
  pat_next fuel f m p n = Ok (code e, len (show_elem e)).
Proof.
  intros fuel f m p n e b r H B L G. pose proof (show_pos _ _ H) as P.
  unfold pat_next. destruct (Z.eqb_spec n 0); [lia|].
  destruct e as [c|c| | |neg l].
  - cbn [show_elem ok_elem code] in *. destruct H as (H & N1 & N2 & N3 & N4).
    destruct (utf8_hd _ H) as (a & t & E & Pa & Lo & Hi).
    assert (M : m p = Some a) by (rewrite E in B; cbn in B; apply bytes_at_cons in B; tauto).
    assert (exists z, m (p + 1) = Some z) as [z Z].
    { rewrite E in B. cbn in B. apply bytes_at_cons in B as [_ B]. destruct t; cbn in B; apply bytes_at_cons in B; destruct B; eauto. }
    rewrite (load_some _ _ _ M). cbn [bind]. destruct (Z.eqb_spec a 0); [lia|].
    assert (NE : (if a =? 92 then b1 <- load m (p + 1) ;; Ok (negb (b1 =? 0) && negb (f_noesc f)) else Ok false) = Ok false).
    { destruct (Z.eqb_spec a 92) as [->|]; [|reflexivity]. destruct (Lo ltac:(lia)) as [-> _].
      rewrite (load_some _ _ _ Z). cbn [bind]. rewrite N4 by reflexivity. rewrite andb_false_r. reflexivity. }
    rewrite NE. cbn [bind].
    destruct (Z.eqb_spec a 91) as [->|]; [destruct (Lo ltac:(lia)); congruence|].
    destruct (Z.eqb_spec a 42) as [->|]; [destruct (Lo ltac:(lia)); congruence|].
    destruct (Z.eqb_spec a 63) as [->|]; [destruct (Lo ltac:(lia)); congruence|].
    apply bytes_at_app in B as [B _].
    rewrite (pat_char_char _ _ _ _ 0 H B L). rewrite Z.add_0_r. reflexivity.
  - cbn [show_elem ok_elem code] in *. destruct H as (H & N1). cbn [app] in B. apply bytes_at_cons in B as [B1 B].
    rewrite (load_some _ _ _ B1). cbn [bind Z.eqb Pos.eqb].
    destruct (utf8_hd _ H) as (a & t & E & Pa & Lo & Hi).
    assert (M : m (p + 1) = Some a) by (rewrite E in B; cbn in B; apply bytes_at_cons in B; tauto).
    rewrite (load_some _ _ _ M). cbn [bind]. destruct (Z.eqb_spec a 0); [lia|]. rewrite N1. cbn [negb andb].
    apply bytes_at_app in B as [B _]. cbn [length] in *.
    rewrite (pat_char_char _ _ _ _ 1 H B) by lia. f_equal. f_equal. lia.
  - cbn in B. apply bytes_at_cons in B as [B1 _]. rewrite (load_some _ _ _ B1). reflexivity.
  - cbn in B. apply bytes_at_cons in B as [B1 _]. rewrite (load_some _ _ _ B1). reflexivity.
  - rewrite show_brk in *. destruct H as (H1 & H2 & H3). cbn [app] in B. apply bytes_at_cons in B as [B1 B].
    rewrite (load_some _ _ _ B1). cbn [bind Z.eqb Pos.eqb]. cbn [length] in *. rewrite !app_length in *. cbn [length] in *.
    unfold scan_bracket.
    pose proof (first_cases _ _ H1 H2) as V.
    rewrite <- !app_assoc in B. cbn [app] in B.
    destruct neg as [x|]; cbn [neg_text app length] in *.
    + pose proof B as B0. apply bytes_at_cons in B0 as [B2 B3].
      rewrite (peek_in m p n 1 x B2) by lia. cbn [bind].
      replace ((x =? 94) || (x =? 33)) with true by (destruct H3; subst; reflexivity).
      destruct (scan_first f l fuel m p n 2 (b :: r) V) as (y & Y1 & Y2 & Y3); try lia.
      { replace (p + 2) with (p + 1 + 1) by lia. exact B3. }
      rewrite (peek_in m p n 2 y Y1) by lia. cbn [bind]. change (2 + 1) with 3 in *. rewrite Y3. cbn [bind].
      apply bytes_at_app in B3 as [_ B3]. apply bytes_at_cons in B3 as [B3 _].
      rewrite (peek_in m p n _ 93); try lia.
      2:{ replace (p + (2 + len (show_items l))) with (p + 1 + 1 + len (show_items l)) by lia. exact B3. }
      cbn [bind Z.eqb]. f_equal. f_equal. lia.
    + destruct (scan_first f l fuel m p n 1 (b :: r) V) as (y & Y1 & Y2 & Y3); try lia; [exact B|].
      rewrite (peek_in m p n 1 y Y1) by lia. cbn [bind].
      replace ((y =? 94) || (y =? 33)) with false by lia.
      rewrite (peek_in m p n 1 y Y1) by lia. cbn [bind]. rewrite Y3. cbn [bind].
      apply bytes_at_app in B as [_ B]. apply bytes_at_cons in B as [B _].
      rewrite (peek_in m p n _ 93); try lia.
      2:{ rewrite Z.add_assoc. exact B. }
      cbn [bind Z.eqb]. f_equal. f_equal. lia.
Qed.
