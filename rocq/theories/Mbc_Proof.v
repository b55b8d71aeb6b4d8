From Verif Require Import Base Mem_Proof Str_Spec Str_Proof Utf8_Model Utf8_Spec Utf8_Proof Utf8Conv_Proof Mbc_Model Mbc_Spec.
Open Scope Z_scope.

Definition good (s : states) : Prop := rep [] (mblen_st s) /\ rep [] (mbtowc_st s) /\ fst (wctomb_st s) = 0.
Lemma rep_zero ds : rep [] ds -> fst ds = 0. Proof. destruct ds as [g c]. cbn. lia. Qed.
Lemma bytes_app m p a b : bytes_at m p (a ++ b) -> bytes_at m p a.
Proof. intros B i I. rewrite B by (rewrite app_length; lia). apply nth_error_app1. exact I. Qed.
Lemma bytes_app2 m p a x b : bytes_at m p (a ++ x :: b) -> bytes_at m p (a ++ [x]).
Proof. intros B. apply (bytes_app m p (a ++ [x]) b). rewrite <- app_assoc. exact B. Qed.

(** one transcoding step from a clean state *)
Lemma decode_char fuel m w wp p n st u c : rep [] st -> wf_char u c -> bytes_at m p u -> (length u <= n)%nat -> w wp <> None -> (length u < fuel)%nat ->
  exists e it st' w', decode_wtranscode fuel m p (p + Z.of_nat n) w wp (wp + 1) st = Ok (e, it, st', w', if c =? 0 then wp else wp + 1) /\ rep [] st' /\
    (if c =? 0 then e = NullTerm /\ w' = w else (e = InExh \/ e = OutExh) /\ w' = upd w wp c) /\ it = p + Z.of_nat (length u).
Proof.
  intros R W B N WP F. unfold decode_wtranscode. destruct (Z.eqb_spec wp (wp + 1)); [lia|].
  rewrite (dloop_char u (fuel - length u) fuel m p (p + Z.of_nat n) w wp (wp + 1) [] st c); try assumption; try lia; [|apply (wf_nonempty _ _ W)].
  destruct (c =? 0) eqn:E.
  - cbn [bind]. eexists _, _, _, _. split; [reflexivity|]. split; [exact R|]. split; [split; reflexivity|reflexivity].
  - rewrite store_ok by exact WP. cbn [bind]. destruct (fuel - length u)%nat as [|f] eqn:Ef; [lia|]. cbn [dloop]. rewrite (Z.eqb_refl (wp + 1)), orb_true_r. cbn [bind fst Z.eqb negb].
    eexists _, _, _, _. split; [reflexivity|]. split; [apply rep_done, (wf_range _ _ W)|]. split; [split; [destruct (p + Z.of_nat (length u) =? p + Z.of_nat n); auto|reflexivity]|reflexivity].
Qed.
Lemma decode_bad fuel m w wp p n st q b : rep [] st -> viable q -> dead (q ++ [b]) -> bytes_at m p (q ++ [b]) -> Forall (fun b => 0 <= b < 256) (q ++ [b]) -> (length q < n)%nat -> (length q < fuel)%nat ->
  exists it, decode_wtranscode fuel m p (p + Z.of_nat n) w wp (wp + 1) st = Ok (Illegal, it, st, w, wp).
Proof.
  intros R V D B BY N F. unfold decode_wtranscode. destruct (Z.eqb_spec wp (wp + 1)); [lia|].
  destruct (dloop_dead q fuel m p (p + Z.of_nat n) w wp (wp + 1) [] st b) as (ds & ->); try assumption; try lia. cbn [bind]. eexists. reflexivity.
Qed.
Lemma decode_cut fuel m w wp p st u : rep [] st -> viable u -> u <> [] -> bytes_at m p u -> Forall (fun b => 0 <= b < 256) u -> (length u < fuel)%nat ->
  exists st', decode_wtranscode fuel m p (p + Z.of_nat (length u)) w wp (wp + 1) st = Ok (InUnder, p + Z.of_nat (length u), st', w, wp) /\ rep u st'.
Proof.
  intros R V NE B BY F. unfold decode_wtranscode. destruct (Z.eqb_spec wp (wp + 1)); [lia|].
  destruct (dloop_viable u fuel m p (p + Z.of_nat (length u)) w wp (wp + 1) [] st) as (ds & -> & R'); try assumption; try lia. cbn [bind].
  assert (fst ds <> 0) by (intros E; apply (rep_progress _ _ R') in E; contradiction). destruct (Z.eqb_spec (fst ds) 0); [contradiction|]. cbn [negb]. eexists. split; [reflexivity|exact R'].
Qed.
Lemma wf_len u c : wf_char u c -> (1 <= length u <= 4)%nat.
Proof. intros W. apply wf_utf8 in W as [_ ->]. apply utf8_len. Qed.
Lemma viable_len q : viable q -> (length q < 4)%nat.
Proof. intros (r & c & NE & W). apply wf_len in W. rewrite app_length in W. destruct r; [contradiction|]. cbn in W. lia. Qed.
Lemma wf_first u c : wf_char u c -> forall b r, u = b :: r -> b = 0 -> c = 0 /\ r = [].
Proof.
  intros W b r -> ->. destruct r as [|b1 [|b2 [|b3 [|b4 r]]]]; cbn [wf_char] in W; unfold pair3, pair4, isc in W; try contradiction; try (exfalso; clear - W; lia). split; [lia|reflexivity].
Qed.
Lemma dead_first q b : viable q -> dead (q ++ [b]) -> forall x r, q ++ [b] = x :: r -> x <> 0.
Proof.
  intros V D x r E ->. destruct q as [|y q].
  - injection E as -> _. apply D. exists [], 0. cbn. lia.
  - injection E as -> _. destruct V as (r' & c & NE & W). destruct (wf_first _ _ W 0 (q ++ r') eq_refl eq_refl) as [_ E]. apply app_eq_nil in E as [_ E]. contradiction.
Qed.

Lemma load_hd m p x l : bytes_at m p (x :: l) -> load m p = Ok x.
Proof. intros B. specialize (B 0%nat ltac:(cbn; lia)). rewrite Z.add_0_r in B. unfold load. rewrite B. reflexivity. Qed.

(** mblen *)
Lemma mblen_char fuel m s p n u c : rep [] (mblen_st s) -> wf_char u c -> bytes_at m p u -> (length u <= n)%nat -> (4 < fuel)%nat ->
  exists st, mblen fuel m s (Some p) n = Ok ({| mblen_st := st; mbtowc_st := mbtowc_st s; wctomb_st := wctomb_st s |}, (if c =? 0 then 0 else Z.of_nat (length u), false)) /\ rep [] st.
Proof.
  intros R W B N F. pose proof (wf_len _ _ W) as WL. destruct (decode_char fuel m (upd (fun _ => None) 0 0) 0 p n (mblen_st s) u c) as (e & it & st & w' & E & R' & K & I); try assumption; try lia; [unfold upd; cbn; discriminate|].
  unfold mblen. change (0 + 1) with 1 in E. rewrite E. cbn [bind]. exists st. split; [|exact R']. destruct (c =? 0); destruct K as [K _]; [rewrite K; reflexivity|]. replace (it - p) with (Z.of_nat (length u)) by lia. destruct K as [-> | ->]; reflexivity.
Qed.
Lemma mblen_bad fuel m s p n q b : rep [] (mblen_st s) -> viable q -> dead (q ++ [b]) -> bytes_at m p (q ++ [b]) -> Forall (fun b => 0 <= b < 256) (q ++ [b]) -> (length q < n)%nat -> (4 < fuel)%nat ->
  mblen fuel m s (Some p) n = Ok ({| mblen_st := mblen_st s; mbtowc_st := mbtowc_st s; wctomb_st := wctomb_st s |}, (-1, true)).
Proof.
  intros R V D B BY N F. pose proof (viable_len _ V). destruct (decode_bad fuel m (upd (fun _ => None) 0 0) 0 p n (mblen_st s) q b) as (it & E); try assumption; try lia. unfold mblen. change (0 + 1) with 1 in E. rewrite E. reflexivity.
Qed.
Lemma mblen_cut fuel m s p u : rep [] (mblen_st s) -> viable u -> u <> [] -> bytes_at m p u -> Forall (fun b => 0 <= b < 256) u -> (4 < fuel)%nat ->
  exists st, mblen fuel m s (Some p) (length u) = Ok ({| mblen_st := st; mbtowc_st := mbtowc_st s; wctomb_st := wctomb_st s |}, (-1, true)) /\ rep u st.
Proof.
  intros R V NE B BY F. pose proof (viable_len _ V). destruct (decode_cut fuel m (upd (fun _ => None) 0 0) 0 p (mblen_st s) u) as (st & E & R'); try assumption; try lia. unfold mblen. change (0 + 1) with 1 in E. rewrite E. cbn [bind]. exists st. split; [reflexivity|exact R'].
Qed.

(** mbtowc *)
Definition dest_ok (w : mem) (wc : option Z) : Prop := match wc with Some p => w p <> None | None => True end.
Lemma mbtowc_char fuel m w s wc p n u c : rep [] (mbtowc_st s) -> wf_char u c -> bytes_at m p u -> (length u <= n)%nat -> dest_ok w wc -> (4 < fuel)%nat ->
  exists st w', mbtowc fuel m w s wc (Some p) n = Ok (w', {| mblen_st := mblen_st s; mbtowc_st := st; wctomb_st := wctomb_st s |}, (if c =? 0 then 0 else Z.of_nat (length u), false)) /\ rep [] st /\
    w' = match wc with Some q => upd w q c | None => w end.
Proof.
  intros R W B N DO F. pose proof (wf_len _ _ W) as WL. destruct u as [|b u]; [cbn in WL; lia|]. unfold mbtowc. rewrite (load_hd _ _ _ _ B). cbn [bind].
  set (w0 := match wc with Some _ => w | None => upd (fun _ => None) 0 0 end). set (wp := match wc with Some q => q | None => 0 end).
  assert (MP : w0 wp <> None) by (destruct wc; [exact DO|unfold w0, wp, upd; cbn; discriminate]).
  destruct (Z.eqb_spec b 0) as [E|E].
  - destruct (wf_first _ _ W _ _ eq_refl E) as [-> _]. rewrite store_ok by exact MP. cbn [bind Z.eqb]. exists (mbtowc_st s). eexists. split; [destruct s; reflexivity|]. split; [exact R|]. destruct wc; reflexivity.
  - destruct (Nat.eqb_spec n 0) as [X|_]; [cbn in N; lia|].
    destruct (decode_char fuel m w0 wp p (Nat.min n 4) (mbtowc_st s) (b :: u) c) as (e & it & st & w' & D & R' & K & I); try assumption; try lia. rewrite D. cbn [bind].
    assert (C : c <> 0) by (intros ->; apply wf_zero in W; injection W as -> _; contradiction). destruct (Z.eqb_spec c 0); [contradiction|]. destruct K as [K ->].
    exists st. eexists. split; [|split; [exact R'|reflexivity]]. replace (it - p) with (Z.of_nat (length (b :: u))) by lia. destruct K as [-> | ->]; destruct wc; reflexivity.
Qed.
Lemma mbtowc_bad fuel m w s wc p n q b : rep [] (mbtowc_st s) -> viable q -> dead (q ++ [b]) -> bytes_at m p (q ++ [b]) -> Forall (fun b => 0 <= b < 256) (q ++ [b]) -> (length q < n)%nat -> (4 < fuel)%nat ->
  mbtowc fuel m w s wc (Some p) n = Ok (w, s, (-1, true)).
Proof.
  intros R V D B BY N F. pose proof (viable_len _ V) as VL. unfold mbtowc. destruct (q ++ [b]) as [|x l] eqn:E; [destruct q; discriminate|]. rewrite (load_hd _ _ _ _ B). cbn [bind]. destruct (Z.eqb_spec x 0) as [X|_]; [exfalso; rewrite <- E in D; exact (dead_first q b V D x l E X)|].
  destruct (Nat.eqb_spec n 0) as [X|_]; [lia|]. rewrite <- E in *.
  destruct (decode_bad fuel m (match wc with Some _ => w | None => upd (fun _ => None) 0 0 end) (match wc with Some q => q | None => 0 end) p (Nat.min n 4) (mbtowc_st s) q b) as (it & K); try assumption; try lia. rewrite K. cbn [bind]. destruct wc, s; reflexivity.
Qed.
Lemma mbtowc_cut fuel m w s wc p u : rep [] (mbtowc_st s) -> viable u -> u <> [] -> bytes_at m p u -> Forall (fun b => 0 <= b < 256) u -> (4 < fuel)%nat ->
  exists st, mbtowc fuel m w s wc (Some p) (length u) = Ok (w, {| mblen_st := mblen_st s; mbtowc_st := st; wctomb_st := wctomb_st s |}, (Z.of_nat (length u), false)) /\ rep u st.
Proof.
  intros R V NE B BY F. pose proof (viable_len _ V) as VL. unfold mbtowc. destruct u as [|x l] eqn:E; [contradiction|]. rewrite (load_hd _ _ _ _ B). cbn [bind].
  destruct (Z.eqb_spec x 0) as [X|_]; [exfalso; destruct V as (r & c & NR & W); destruct (wf_first _ _ W x (l ++ r) eq_refl X) as [_ K]; apply app_eq_nil in K as [_ K]; contradiction|]. cbn [length Nat.eqb].
  destruct (decode_cut fuel m (match wc with Some _ => w | None => upd (fun _ => None) 0 0 end) (match wc with Some q => q | None => 0 end) p (mbtowc_st s) (x :: l)) as (st & K & R'); try assumption; try lia.
  cbn [length] in K. rewrite Nat.min_l by (cbn in VL; lia). rewrite K. cbn [bind]. exists st. split; [|exact R']. replace (p + Z.of_nat (S (length l)) - p) with (Z.of_nat (S (length l))) by lia. destruct wc; reflexivity.
Qed.
(** an ASCII character behind an unfinished one is illegal *)
Lemma viable_ascii u b : viable u -> u <> [] -> 0 <= b <= 127 -> dead (u ++ [b]).
Proof.
  intros (r & c & NE & W) NU Hb (r' & c' & W'). destruct u as [|a [|a1 [|a2 [|a3 u]]]]; [contradiction| | | |destruct r; [contradiction|]; apply wf_len in W; rewrite app_length in W; cbn in W; lia].
  - cbn [app] in W'. destruct r' as [|b1 [|b2 [|b3 r']]]; cbn [wf_char] in W'; unfold pair3, pair4, isc in W'; try contradiction; clear - W' Hb; lia.
  - cbn [app] in W'. destruct r' as [|b1 [|b2 r']]; cbn [wf_char] in W'; unfold pair3, pair4, isc in W'; try contradiction; clear - W' Hb; lia.
  - cbn [app] in W'. destruct r' as [|b1 r']; cbn [wf_char] in W'; unfold pair3, pair4, isc in W'; try contradiction; clear - W' Hb; lia.
Qed.
Lemma decode_after fuel m w wp p n st u b : rep u st -> viable u -> u <> [] -> m p = Some b -> 0 <= b <= 127 -> (0 < n)%nat -> (1 < fuel)%nat ->
  exists it, decode_wtranscode fuel m p (p + Z.of_nat n) w wp (wp + 1) st = Ok (Illegal, it, st, w, wp).
Proof.
  intros R V NE B Hb N F. unfold decode_wtranscode. destruct (Z.eqb_spec wp (wp + 1)); [lia|].
  destruct (dloop_dead [] fuel m p (p + Z.of_nat n) w wp (wp + 1) u st b) as (ds & ->); try assumption; try lia.
  - rewrite app_nil_r. exact V. - apply viable_ascii; assumption. - intros i I. cbn in I. replace i with 0%nat by lia. rewrite Z.add_0_r. exact B. - constructor; [lia|constructor]. - intros j J. cbn in J. lia. - cbn. lia.
  - cbn [bind]. eexists. reflexivity.
Qed.

Lemma begins_broken l u c : begins l u c -> broken l -> False.
Proof. intros [W (r & E)] B. exact (tail_not_char l u c r Error E W B). Qed.
Lemma begins_unique l u c u' c' : begins l u c -> begins l u' c' -> u = u' /\ c = c'.
Proof. intros [W (r & E)] [W' (r' & E')]. rewrite E in E'. destruct (wf_prefix_unique _ _ _ _ _ _ W W' E') as (A & _ & B). auto. Qed.
Lemma input_unique m p l l' : input m p l -> input m p l' -> length l = length l' -> l = l'.
Proof.
  intros [A _] [B _] E. apply nth_ext with (d := 0) (d' := 0); [exact E|]. intros i I. specialize (A i I). specialize (B i ltac:(lia)).
  rewrite A in B. rewrite (nth_error_nth' l 0 I), (nth_error_nth' l' 0) in B by lia. injection B as B. exact B.
Qed.
Lemma broken_input m p l : input m p l -> broken l -> exists q b, viable q /\ dead (q ++ [b]) /\ bytes_at m p (q ++ [b]) /\ Forall (fun b => 0 <= b < 256) (q ++ [b]) /\ (length q < length l)%nat.
Proof.
  intros [B BY] (q & b & r & E & V & D). exists q, b. split; [exact V|]. split; [exact D|]. subst l. split; [apply (bytes_app2 _ _ _ _ _ B)|]. split; [|rewrite app_length; cbn; lia].
  apply Forall_forall. intros x I. rewrite Forall_forall in BY. apply BY. apply in_app_or in I as [I|[<-|[]]]; apply in_or_app; [left; exact I|right; left; reflexivity].
Qed.
Lemma begins_input m p l u c : input m p l -> begins l u c -> bytes_at m p u /\ (length u <= length l)%nat.
Proof. intros [B _] [_ (r & ->)]. split; [apply (bytes_app _ _ _ _ B)|rewrite app_length; lia]. Qed.

Lemma step_good fuel c m w s : (4 < fuel)%nat -> good s -> whole m w c -> exists m' w' s' r, run fuel c m w s = Ok (m', w', s', r) /\ means m w c m' w' r /\ good s'.
Proof.
  intros F (G1 & G2 & G3) WH. destruct c as [[p|] n|wc [p|] n|[p|] c]; cbn [whole] in WH; cbn [run means].
  - destruct WH as (l & IN & LN & [BR|(u & c & BG)]).
    + destruct (broken_input _ _ _ IN BR) as (q & b & V & D & B & BY & L). rewrite (mblen_bad fuel m s p n q b) by (assumption || lia). cbn [bind]. eexists _, _, _, _. split; [reflexivity|]. split; [|split; [exact G1|split; assumption]].
      split; [reflexivity|]. split; [reflexivity|]. intros l' IN' LN'. rewrite (input_unique _ _ _ _ IN' IN) by lia. split; [intros u c BG; exfalso; exact (begins_broken _ _ _ BG BR)|reflexivity].
    + destruct (begins_input _ _ _ _ _ IN BG) as [B L]. destruct (mblen_char fuel m s p n u c) as (st & E & R); try assumption; [apply BG|lia|]. rewrite E. cbn [bind]. eexists _, _, _, _. split; [reflexivity|]. split; [|split; [exact R|split; assumption]].
      split; [reflexivity|]. split; [reflexivity|]. intros l' IN' LN'. rewrite (input_unique _ _ _ _ IN' IN) by lia. split; [intros u' c' BG'; destruct (begins_unique _ _ _ _ _ BG BG') as [-> ->]; reflexivity|intros BR; exfalso; exact (begins_broken _ _ _ BG BR)].
  - cbn [mblen bind]. eexists _, _, _, _. split; [reflexivity|]. split; [auto|]. split; [apply rep_init|split; assumption].
  - destruct WH as [(l & IN & LN & [BR|(u & c & BG)]) DO].
    + destruct (broken_input _ _ _ IN BR) as (q & b & V & D & B & BY & L). rewrite (mbtowc_bad fuel m w s wc p n q b) by (assumption || lia). cbn [bind]. eexists _, _, _, _. split; [reflexivity|]. split; [|split; [exact G1|split; assumption]].
      split; [reflexivity|]. intros l' IN' LN'. rewrite (input_unique _ _ _ _ IN' IN) by lia. split; [intros u c BG; exfalso; exact (begins_broken _ _ _ BG BR)|auto].
    + destruct (begins_input _ _ _ _ _ IN BG) as [B L]. destruct (mbtowc_char fuel m w s wc p n u c) as (st & w' & E & R & W'); try assumption; [apply BG|lia|]. rewrite E. cbn [bind]. eexists _, _, _, _. split; [reflexivity|]. split; [|split; [exact G1|split; [exact R|assumption]]].
      split; [reflexivity|]. intros l' IN' LN'. rewrite (input_unique _ _ _ _ IN' IN) by lia. split; [|intros BR; exfalso; exact (begins_broken _ _ _ BG BR)].
      intros u' c' BG'. destruct (begins_unique _ _ _ _ _ BG BG') as [<- <-]. split; [reflexivity|]. subst w'. destruct wc; [apply written_cons, written_nil|reflexivity].
  - cbn [mbtowc bind]. eexists _, _, _, _. split; [reflexivity|]. split; [auto|]. split; [apply rep_init|split; assumption].
  - destruct WH as [C0 MP]. cbn [wctomb]. destruct (Z.leb_spec c 1114111) as [L|L].
    + pose proof (utf8_len c) as UL. destruct (wcrtomb_ok m p c (wctomb_st s)) as (m' & E & W); [lia|intros i I; apply MP; lia|exact G3|]. rewrite E. cbn [bind]. eexists _, _, _, _. split; [reflexivity|]. split; [auto|]. split; [exact G1|]. split; [exact G2|reflexivity].
    + rewrite wcrtomb_big by assumption. cbn [bind]. eexists _, _, _, _. split; [reflexivity|]. split; [auto|]. split; [exact G1|]. split; [exact G2|exact G3].
  - cbn [wctomb bind]. eexists _, _, _, _. split; [reflexivity|]. split; [auto|]. split; [exact G1|]. split; [exact G2|reflexivity].
Qed.
Lemma reached_good fuel m w s : (4 < fuel)%nat -> reached fuel m w s -> good s.
Proof.
  intros F. induction 1 as [m w|m w s m' w' _ IH|m w s c m' w' s' r _ IH WH E]; [split; [apply rep_init|split; [apply rep_init|reflexivity]]|exact IH|].
  destruct (step_good fuel c m w s F IH WH) as (m2 & w2 & s2 & r2 & E2 & _ & G). rewrite E in E2. injection E2 as <- <- <- <-. exact G.
Qed.
