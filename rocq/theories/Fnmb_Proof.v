(** Bracket expressions of fnmatch: the matching of one character against one piece of a pattern. *)
From Verif Require Import Base Mem_Proof Utf8_Model Utf8_Spec Utf8_Proof Utf8Conv_Proof Fnm_Model Fnm_Spec Fnm_Proof.
Open Scope Z_scope.

Local Notation len l := (Z.of_nat (length l)).

Definition ihit1 (lc : locale) (k : Z) (i : item) : bool :=
  match i with
  | One c => c =? k
  | Rng a b => (a <=? k) && (k <=? b)
  | Cls name => cls lc name k
  end.

Definition ihit (lc : locale) (k kf : Z) (i : item) : bool := ihit1 lc k i || ihit1 lc kf i.

Definition ehit (f : flags) (lc : locale) (e : elem) (k : Z) : bool :=
  match e with
  | Chr c | Esc c => (k =? c) || (other f lc k =? c)
  | Any => true
  | Star => false
  | Brk None l => existsb (ihit lc k (other f lc k)) l
  | Brk (Some _) l => negb (existsb (ihit lc k (other f lc k)) l)
  end.

Lemma ihit1_spec : forall lc k i, ihit1 lc k i = true <-> in_item lc k i.
Proof.
  intros lc k [c|a b|name]; cbn.
  - rewrite Z.eqb_eq. split; congruence.
  - rewrite andb_true_iff, !Z.leb_le. reflexivity.
  - reflexivity.
Qed.

Lemma among_spec : forall f lc k l,
  existsb (ihit lc k (other f lc k)) l = true <->
  exists i, In i l /\ (in_item lc k i \/ in_item lc (other f lc k) i).
Proof.
  intros f lc k l. rewrite existsb_exists. unfold ihit.
  split; intros (i & I & H); exists i; (split; [exact I|]).
  - apply orb_true_iff in H as [H|H]; apply ihit1_spec in H; auto.
  - apply orb_true_iff. destruct H as [H|H]; apply ihit1_spec in H; auto.
Qed.

Lemma ehit_spec : forall f lc e k, ehit f lc e k = true <-> hit f lc e k.
Proof.
  intros f lc [c|c| | |[n|] l] k; cbn.
  - rewrite orb_true_iff, !Z.eqb_eq. reflexivity.
  - rewrite orb_true_iff, !Z.eqb_eq. reflexivity.
  - tauto.
  - split; [discriminate|tauto].
  - rewrite <- among_spec. destruct (existsb _ l); cbn; split; intros; congruence.
  - apply among_spec.
Qed.

(** ** The steps of the loop *)
Lemma wrap_range : forall k a b, 0 <= k < 2 ^ 31 -> 0 <= a <= b -> b < 2 ^ 31 ->
  ((k - a) mod 2 ^ 32 <=? b - a) = ((a <=? k) && (k <=? b)).
Proof.
  intros k a b K A B. destruct (Z.leb_spec a k).
  - rewrite Z.mod_small by lia. cbn [andb]. destruct (Z.leb_spec k b); lia.
  - replace ((k - a) mod 2 ^ 32) with (k - a + 2 ^ 32).
    + cbn [andb]. lia.
    + rewrite <- (Z_mod_plus_full _ 1). rewrite Z.mod_small; lia.
Qed.

Section Loop.
Context (lc : locale) (m : mem) (inv : bool) (k kf : Z).
Hypothesis K : char k.
Hypothesis KF : char kf.

Lemma step_one : forall g p c wc x r, char c -> c <> 93 -> (c = 45 -> x = 93) -> (c = 91 -> is_z x = false) ->
  bytes_at m p (utf8 c ++ x :: r) ->
  bracket_loop (S g) lc m inv k kf wc p =
  if ihit lc k kf (One c) then Ok (negb inv) else bracket_loop g lc m inv k kf c (p + len (utf8 c)).
Proof.
  intros g p c wc x r H N1 N2 N3 B. pose proof (utf8_len c) as UL.
  destruct (utf8_hd _ H) as (b & t & E & Hb & Lo & Hi).
  assert (M : m p = Some b) by (rewrite E in B; cbn in B; apply bytes_at_cons in B; tauto).
  cbn [bracket_loop]. rewrite (load_some _ _ _ M). cbn [bind].
  unfold ihit. cbn [ihit1].
  destruct (Z.ltb_spec b 128).
  - destruct (Lo ltac:(lia)) as [-> ->]. rewrite E in *. cbn [app] in B. apply bytes_at_cons in B as [_ B].
    apply bytes_at_cons in B as [B _]. rewrite (load_some _ _ _ B).
    destruct (Z.eqb_spec b 93); [lia|].
    destruct (Z.eqb_spec b 45) as [->|].
    { rewrite N2 by reflexivity. cbn [orb bind]. change (93 =? 93) with true. change (45 =? 91) with false. change (45 <? 128) with true. cbn [orb bind negb andb length].
      change (Z.of_nat 1) with 1. change (1 <? 0) with false. change (1 - 1) with 0. cbn [bind].
      destruct ((45 =? k) || (45 =? kf)); [reflexivity|f_equal; lia]. }
    destruct (Z.eqb_spec b 91) as [->|].
    { cbn [orb bind andb]. rewrite N3 by reflexivity. change (91 <? 128) with true. cbn [bind length].
      change (Z.of_nat 1) with 1. change (1 <? 0) with false. change (1 - 1) with 0. cbn [bind].
      destruct ((91 =? k) || (91 =? kf)); [reflexivity|f_equal; lia]. }
    cbn [orb bind andb length]. change (Z.of_nat 1) with 1. change (1 <? 0) with false. change (1 - 1) with 0. cbn [bind].
    destruct ((b =? k) || (b =? kf)); [reflexivity|f_equal; lia].
  - replace (b =? 93) with false by lia. replace (b =? 45) with false by lia. replace (b =? 91) with false by lia.
    cbn [orb bind andb]. apply bytes_at_app in B as [B _].
    rewrite (mbtowc_char m p 4 c H B) by lia. cbn [bind].
    destruct (Z.ltb_spec (len (utf8 c)) 0); [lia|].
    destruct ((c =? k) || (c =? kf)); [reflexivity|f_equal; lia].
Qed.

(** after a range, its end is looked at again, as a single character *)
Lemma step_range : forall g p a b x r, 0 <= a <= b -> b < 128 -> b <> 0 -> b <> 93 -> b <> 45 ->
  (b = 91 -> is_z x = false) -> bytes_at m p (45 :: b :: x :: r) ->
  bracket_loop (S (S g)) lc m inv k kf a p =
  if ihit lc k kf (Rng a b) then Ok (negb inv) else bracket_loop g lc m inv k kf b (p + 2).
Proof.
  intros g p a b x r A B N0 N1 N2 N3 H. pose proof H as HH. apply bytes_at_cons in H as [H1 H]. apply bytes_at_cons in H as [H2 _].
  pose proof (char_pos _ K). pose proof (char_pos _ KF).
  remember (S g) as g1 eqn:EG. cbn [bracket_loop]. rewrite (load_some _ _ _ H1). cbn [bind Z.eqb Pos.eqb orb].
  rewrite (load_some _ _ _ H2). cbn [bind]. destruct (Z.eqb_spec b 93); [lia|]. cbn [negb andb].
  rewrite (mbtowc_char m (p + 1) 4 b).
  2:{ unfold char, scalar. lia. }
  2:{ rewrite utf8_ascii by lia. apply bytes_at_cons. split; [exact H2|]. intros i Hi. cbn in Hi. lia. }
  2:{ rewrite utf8_ascii by lia. cbn. lia. }
  rewrite utf8_ascii by lia. cbn [bind length]. change (Z.of_nat 1) with 1. cbn [Z.ltb Z.compare].
  destruct (Z.leb_spec a b); [|lia]. rewrite !wrap_range by lia. cbn [andb ihit ihit1].
  change (1 - 1) with 0. unfold ihit. cbn [ihit1]. destruct (_ || _) eqn:HR; [reflexivity|]. subst g1.
  apply bytes_at_cons in HH as [_ HH].
  rewrite (step_one g (p + 0 + 1) b a x r); auto; try lia.
  - replace (ihit lc k kf (One b)) with false by (unfold ihit; cbn [ihit1]; lia).
    rewrite utf8_ascii by lia. cbn [length]. f_equal. lia.
  - unfold char, scalar. lia.
  - rewrite utf8_ascii by lia. rewrite Z.add_0_r. exact HH.
Qed.

Lemma class_end_name : forall name g p r, Forall (fun c => 97 <= c <= 122) name ->
  bytes_at m (p - 1) (name ++ 58 :: 93 :: r) -> name <> [] -> (length name < g)%nat ->
  class_end g m 58 p = Ok (p + len name).
Proof.
  induction name as [|c name IH]; intros g p r F B N G; [congruence|].
  destruct g as [|g]; [cbn in G; lia|]. inversion F; subst. cbn [app length] in *. cbn [class_end].
  apply bytes_at_cons in B as [B1 B2]. replace (p - 1 + 1) with p in B2 by lia.
  rewrite (load_some _ _ _ B1). cbn [bind].
  destruct name as [|d name].
  - cbn in B2. apply bytes_at_cons in B2 as [B2 B3]. apply bytes_at_cons in B3 as [B3 _].
    rewrite (load_some _ _ _ B2). cbn [bind]. destruct (Z.eqb_spec c 58); [lia|]. cbn [andb].
    destruct g as [|g]; [cbn in G; lia|]. cbn [class_end].
    replace (p + 1 - 1) with p by lia. rewrite (load_some _ _ _ B2), (load_some _ _ _ B3). reflexivity.
  - pose proof B2 as B4. cbn [app] in B2. apply bytes_at_cons in B2 as [B2 _].
    rewrite (load_some _ _ _ B2). cbn [bind]. destruct (Z.eqb_spec c 58); [lia|]. cbn [andb].
    rewrite (IH g (p + 1) r); auto; try discriminate; try (cbn in *; lia).
    + f_equal. cbn. lia.
    + replace (p + 1 - 1) with p by lia. exact B4.
Qed.

Lemma read_bytes : forall l p, bytes_at m p l -> read (length l) m p = Ok l.
Proof.
  induction l as [|b l IH]; intros p B; [reflexivity|]. apply bytes_at_cons in B as [B1 B2].
  cbn [length read]. rewrite (load_some _ _ _ B1). cbn [bind]. rewrite IH by exact B2. reflexivity.
Qed.

Lemma step_class : forall g p name wc r, name <> [] -> (length name < 16)%nat ->
  Forall (fun c => 97 <= c <= 122) name ->
  bytes_at m p (show_item (Cls name) ++ r) -> (length name <= g)%nat ->
  bracket_loop (S g) lc m inv k kf wc p =
  if ihit lc k kf (Cls name) then Ok (negb inv) else bracket_loop g lc m inv k kf wc (p + len (show_item (Cls name))).
Proof.
  intros g p name wc r N L F B G. cbn [show_item app] in B. rewrite <- app_assoc in B. cbn [app] in B.
  apply bytes_at_cons in B as [B1 B]. apply bytes_at_cons in B as [B2 B].
  cbn [bracket_loop]. rewrite (load_some _ _ _ B1). cbn [bind Z.eqb Pos.eqb orb].
  rewrite (load_some _ _ _ B2). cbn [bind Z.eqb Pos.eqb orb andb is_z].
  rewrite (class_end_name name (S g) (p + 3) r F); auto; try lia.
  2:{ replace (p + 3 - 1) with (p + 1 + 1) by lia. exact B. }
  cbn [bind]. replace (p + 3 + len name - 1 - (p + 2)) with (len name) by lia.
  destruct (Z.ltb_spec (len name) 16); [|lia]. rewrite Nat2Z.id.
  rewrite read_bytes.
  2:{ replace (p + 2) with (p + 1 + 1) by lia. apply bytes_at_app in B. tauto. }
  cbn [bind]. unfold ihit. cbn [ihit1]. destruct (_ || _); [reflexivity|].
  f_equal. cbn [show_item length]. rewrite app_length. cbn [length]. lia.
Qed.

Lemma bracket_items : forall f l fuel p wc r, ok_items f false l ->
  bytes_at m p (show_items l ++ 93 :: r) -> (length (show_items l) < fuel)%nat ->
  bracket_loop fuel lc m inv k kf wc p = Ok (xorb inv (existsb (ihit lc k kf) l)).
Proof.
  intros f. induction l as [|i l IH]; intros fuel p wc r X B G.
  - cbn in *. destruct fuel; [lia|]. apply bytes_at_cons in B as [B _]. cbn [bracket_loop].
    rewrite (load_some _ _ _ B). cbn. rewrite xorb_false_r. reflexivity.
  - destruct X as [X Y]. unfold show_items in B, G. cbn [map concat] in *. fold (show_items l) in *.
    rewrite app_length in *. rewrite <- app_assoc in B.
    assert (Q : exists x r', show_items l ++ 93 :: r = x :: r' /\ x = next_byte l).
    { rewrite (next_byte_hd l r). destruct (show_items l ++ 93 :: r) as [|x r'] eqn:E.
      - destruct (show_items l); discriminate.
      - exists x, r'. auto. }
    destruct Q as (x & r' & Q & Qx).
    assert (FIN : forall w p' g, bytes_at m p' (show_items l ++ 93 :: r) -> (length (show_items l) < g)%nat ->
      (if ihit lc k kf i then Ok (negb inv) else bracket_loop g lc m inv k kf w p')
      = Ok (xorb inv (existsb (ihit lc k kf) (i :: l)))).
    { intros w p' g B' G'. cbn [existsb]. destruct (ihit lc k kf i); cbn [orb].
      - destruct inv; reflexivity.
      - exact (IH _ _ _ _ Y B' G'). }
    destruct i as [c|a b|name]; cbn [show_item ok_item] in *; unfold ok_one in *.
    + destruct X as (X1 & X2 & X3 & X4 & X5). pose proof (utf8_len c).
      destruct fuel as [|g]; [lia|].
      rewrite (step_one g p c wc x r' X1).
      * apply FIN; [|lia]. apply bytes_at_app in B. tauto.
      * intros E. specialize (X3 E). congruence.
      * intros E. destruct (X4 E); congruence.
      * rewrite Qx. exact X5.
      * rewrite <- Q. exact B.
    + destruct X as ((X1 & X2 & X3 & X4 & X5) & W1 & W2 & W3 & W4 & W5 & W6).
      pose proof (char_pos _ X1). pose proof (char_pos _ W1).
      rewrite (utf8_ascii a), (utf8_ascii b) in * by lia. cbn [app length] in *.
      destruct fuel as [|[|[|g]]]; try lia.
      rewrite (step_one (S (S g)) p a wc 45 (b :: show_items l ++ 93 :: r) X1).
      * destruct (ihit lc k kf (One a)) eqn:HA.
        { cbn [existsb].
          assert (ihit lc k kf (Rng a b) = true) as ->.
          { unfold ihit in *. cbn [ihit1] in *. lia. }
          cbn [orb]. destruct inv; reflexivity. }
        rewrite utf8_ascii by lia. cbn [length]. change (Z.of_nat 1) with 1.
        pose proof B as B0. apply bytes_at_cons in B0 as [_ B0].
        rewrite (step_range g (p + 1) a b x r'); auto; try lia; [|rewrite Qx; exact W6|rewrite <- Q; exact B0].
        apply FIN; [|lia]. apply bytes_at_cons in B0 as [_ B0]. apply bytes_at_cons in B0 as [_ B0].
        replace (p + 1 + 2) with (p + 1 + 1 + 1) by lia. exact B0.
      * intros E. specialize (X3 E). congruence.
      * intros E. destruct (X4 E); congruence.
      * reflexivity.
      * rewrite utf8_ascii by lia. exact B.
    + destruct X as (X1 & X2 & X3). cbn [length] in G. rewrite app_length in G. cbn [length] in G.
      destruct fuel as [|g]; [lia|].
      rewrite (step_class g p name wc (show_items l ++ 93 :: r)); auto; try lia.
      apply FIN; [|lia]. apply bytes_at_app in B. cbn [show_item]. tauto.
Qed.

(** ** The whole expression *)
Lemma match_brk : forall f fuel p neg l b r, (kf = 93 -> k = 93) -> (kf = 45 -> k = 45) ->
  ok_elem f (Brk neg l) -> bytes_at m p (show_elem (Brk neg l) ++ b :: r) ->
  inv = (match neg with Some _ => true | None => false end) ->
  (length (show_elem (Brk neg l)) < fuel)%nat ->
  match_bracket fuel lc m p k kf = Ok (xorb inv (existsb (ihit lc k kf) l)).
Proof.
  intros f fuel p neg l b r F1 F2 (H1 & H2 & H3) B I G. rewrite show_brk in *. cbn [app length] in *.
  rewrite !app_length in *. cbn [length] in *. rewrite <- !app_assoc in B. cbn [app] in B.
  apply bytes_at_cons in B as [B1 B]. pose proof (first_cases _ _ H1 H2) as V.
  pose proof (char_pos _ K). pose proof (char_pos _ KF).
  (* the part after the optional '!' *)
  assert (REST : forall q, m (q - 1) <> None -> bytes_at m q (show_items l ++ 93 :: b :: r) ->
    exists y, m q = Some y /\ y = next_byte l /\
    (if ((y =? 93) || (y =? 45)) && (k =? y) then Ok (negb inv)
     else wc <- load m ((if (y =? 93) || (y =? 45) then q + 1 else q) - 1) ;;
          bracket_loop fuel lc m inv k kf wc (if (y =? 93) || (y =? 45) then q + 1 else q))
    = Ok (xorb inv (existsb (ihit lc k kf) l))).
  { clear B. intros q R B.
    assert (TR : forall z, existsb (ihit lc k kf) z = true -> Ok (negb inv) = Ok (xorb inv (existsb (ihit lc k kf) z))).
    { intros z ->. destruct inv; reflexivity. }
    destruct V as [l V|d l V1 V2|l V|d l V1 V2|i l V1 V2 V3].
    - unfold show_items in B. cbn [map concat show_item] in B. rewrite utf8_ascii in B by lia. fold (show_items l) in B.
      cbn [app] in B. apply bytes_at_cons in B as [B2 B3]. exists 93. split; [exact B2|]. split; [reflexivity|].
      cbn [Z.eqb Pos.eqb orb andb]. destruct (Z.eqb_spec k 93) as [E|E].
      + apply TR. cbn [existsb]. unfold ihit at 1. cbn [ihit1]. rewrite E. reflexivity.
      + replace (q + 1 - 1) with q by lia. rewrite (load_some _ _ _ B2). cbn [bind].
        rewrite (bracket_items f l fuel (q + 1) 93 (b :: r) V B3).
        2:{ unfold show_items in G. cbn [map concat show_item] in G. rewrite app_length in G. fold (show_items l) in G. lia. }
        cbn [existsb]. replace (ihit lc k kf (One 93)) with false; [reflexivity|].
        unfold ihit. cbn [ihit1]. lia.
    - pose proof V1 as (W0 & W1 & W2 & W3 & W4 & W5 & W6). 
      unfold show_items in B. cbn [map concat show_item] in B. rewrite !utf8_ascii in B by lia. fold (show_items l) in B.
      cbn [app] in B. pose proof B as B0. apply bytes_at_cons in B as [B2 B3]. exists 93. split; [exact B2|].
      split; [reflexivity|]. cbn [Z.eqb Pos.eqb orb andb]. destruct (Z.eqb_spec k 93) as [E|E].
      + apply TR. cbn [existsb]. unfold ihit at 1. cbn [ihit1]. replace ((93 <=? k) && (k <=? d)) with true by lia. reflexivity.
      + replace (q + 1 - 1) with q by lia. rewrite (load_some _ _ _ B2). cbn [bind].
        assert (GG : (length (show_items l) + 3 < fuel)%nat).
        { unfold show_items in G. cbn [map concat show_item] in G. rewrite !app_length in G. cbn [length] in G.
          rewrite !utf8_ascii in G by lia. fold (show_items l) in G. cbn [length] in G. lia. }
        destruct fuel as [|[|g]]; try lia.
        pose proof (next_byte_hd l (b :: r)) as NB.
        destruct (show_items l ++ 93 :: b :: r) as [|y t] eqn:Q; [destruct (show_items l); discriminate|]. cbn [hd] in NB.
        rewrite (step_range g (q + 1) 93 d y t); auto; try lia.
        cbn [existsb]. destruct (ihit lc k kf (Rng 93 d)); cbn [orb]; [destruct inv; reflexivity|].
        apply bytes_at_cons in B3 as [_ B3]. apply bytes_at_cons in B3 as [_ B3].
        rewrite (bracket_items f l g (q + 1 + 2) d (b :: r) V2); [reflexivity| |lia]. rewrite Q.
        replace (q + 1 + 2) with (q + 1 + 1 + 1) by lia. exact B3.
    - unfold show_items in B. cbn [map concat show_item] in B. rewrite utf8_ascii in B by lia. fold (show_items l) in B.
      cbn [app] in B. apply bytes_at_cons in B as [B2 B3]. exists 45. split; [exact B2|]. split; [reflexivity|].
      cbn [Z.eqb Pos.eqb orb andb]. destruct (Z.eqb_spec k 45) as [E|E].
      + apply TR. cbn [existsb]. unfold ihit at 1. cbn [ihit1]. rewrite E. reflexivity.
      + replace (q + 1 - 1) with q by lia. rewrite (load_some _ _ _ B2). cbn [bind].
        rewrite (bracket_items f l fuel (q + 1) 45 (b :: r) V B3).
        2:{ unfold show_items in G. cbn [map concat show_item] in G. rewrite app_length in G. fold (show_items l) in G. lia. }
        cbn [existsb]. replace (ihit lc k kf (One 45)) with false; [reflexivity|].
        unfold ihit. cbn [ihit1]. lia.
    - pose proof V1 as (W0 & W1 & W2 & W3 & W4 & W5 & W6).
      unfold show_items in B. cbn [map concat show_item] in B. rewrite !utf8_ascii in B by lia. fold (show_items l) in B.
      cbn [app] in B. pose proof B as B0. apply bytes_at_cons in B as [B2 B3]. exists 45. split; [exact B2|].
      split; [reflexivity|]. cbn [Z.eqb Pos.eqb orb andb]. destruct (Z.eqb_spec k 45) as [E|E].
      + apply TR. cbn [existsb]. unfold ihit at 1. cbn [ihit1]. replace ((45 <=? k) && (k <=? d)) with true by lia. reflexivity.
      + replace (q + 1 - 1) with q by lia. rewrite (load_some _ _ _ B2). cbn [bind].
        assert (GG : (length (show_items l) + 3 < fuel)%nat).
        { unfold show_items in G. cbn [map concat show_item] in G. rewrite !app_length in G. cbn [length] in G.
          rewrite !utf8_ascii in G by lia. fold (show_items l) in G. cbn [length] in G. lia. }
        destruct fuel as [|[|g]]; try lia.
        pose proof (next_byte_hd l (b :: r)) as NB.
        destruct (show_items l ++ 93 :: b :: r) as [|y t] eqn:Q; [destruct (show_items l); discriminate|]. cbn [hd] in NB.
        rewrite (step_range g (q + 1) 45 d y t); auto; try lia; try (rewrite <- NB; exact W6).
        cbn [existsb]. destruct (ihit lc k kf (Rng 45 d)); cbn [orb]; [destruct inv; reflexivity|].
        apply bytes_at_cons in B3 as [_ B3]. apply bytes_at_cons in B3 as [_ B3].
        rewrite (bracket_items f l g (q + 1 + 2) d (b :: r) V2); [reflexivity| |lia]. rewrite Q.
        replace (q + 1 + 2) with (q + 1 + 1 + 1) by lia. exact B3.
    - pose proof (next_byte_hd (i :: l) (b :: r)) as NB.
      destruct (show_items (i :: l) ++ 93 :: b :: r) as [|y t] eqn:E; [destruct (show_items (i :: l)); discriminate|].
      cbn [hd] in NB. pose proof B as B0. apply bytes_at_cons in B0 as [B2 B3].
      exists y. split; [exact B2|]. split; [congruence|].
      destruct (Z.eqb_spec y 93); [congruence|]. destruct (Z.eqb_spec y 45); [congruence|]. cbn [orb andb].
      destruct (m (q - 1)) as [w|] eqn:MW; [|congruence]. rewrite (load_some _ _ _ MW). cbn [bind].
      rewrite <- E in B. apply (bracket_items f (i :: l) fuel q w (b :: r) V1 B). lia. }
  unfold match_bracket. destruct neg as [x|]; cbn [neg_text app length] in *.
  - apply bytes_at_cons in B as [B2 B]. rewrite (load_some _ _ _ B2). cbn [bind].
    replace ((x =? 94) || (x =? 33)) with true by (destruct H3; subst; reflexivity).
    replace (p + 1 + 1) with (p + 2) in B by lia.
    destruct (REST (p + 2)) as (y & Y1 & _ & Y2); [|exact B|].
    { replace (p + 2 - 1) with (p + 1) by lia. rewrite B2. discriminate. }
    rewrite (load_some _ _ _ Y1). cbn [bind]. rewrite <- I. exact Y2.
  - destruct (REST (p + 1)) as (y & Y1 & Y2 & Y3); [|exact B|].
    { replace (p + 1 - 1) with p by lia. rewrite B1. discriminate. }
    rewrite (load_some _ _ _ Y1). cbn [bind]. replace ((y =? 94) || (y =? 33)) with false by lia.
    rewrite (load_some _ _ _ Y1). cbn [bind]. rewrite <- I. exact Y3.
Qed.

End Loop.

Lemma accept_elem : forall fuel f lc m p k e b r, ok_locale lc -> char k -> ok_elem f e -> e <> Star ->
  bytes_at m p (show_elem e ++ b :: r) -> (length (show_elem e) < fuel)%nat ->
  accepts fuel f lc m (code e) p k = Ok (ehit f lc e k).
Proof.
  intros fuel f lc m p k e b r LC K H N B G. unfold accepts. pose proof (char_pos _ K).
  change (if f_fold f then casefold lc k else k) with (other f lc k).
  destruct (LC k K) as (L1 & L2 & L3).
  assert (O1 : char (other f lc k)) by (unfold other; destruct (f_fold f); assumption).
  destruct e as [c|c| | |neg l]; cbn [code] in *; try congruence.
  - destruct H as [H _]. pose proof (char_pos _ H). unfold BRACKET, QUESTION.
    destruct (Z.eqb_spec c (-3)); [lia|]. destruct (Z.eqb_spec c (-4)); [lia|]. reflexivity.
  - destruct H as [H _]. pose proof (char_pos _ H). unfold BRACKET, QUESTION.
    destruct (Z.eqb_spec c (-3)); [lia|]. destruct (Z.eqb_spec c (-4)); [lia|]. reflexivity.
  - reflexivity.
  - cbn [Z.eqb BRACKET Pos.eqb].
    rewrite (match_brk lc m (match neg with Some _ => true | None => false end) k (other f lc k) K O1 f fuel p neg l b r); auto.
    + destruct neg; cbn [ehit xorb]; destruct (existsb _ l); reflexivity.
    + unfold other. destruct (f_fold f); auto.
    + unfold other. destruct (f_fold f); auto.
Qed.
