(** C87: mblen, mbtowc and wctomb. *)
From Verif Require Import Base Check Str_Spec Utf8_Model Utf8_Spec Utf8_Proof Mbc_Model Mbc_Spec Mbc_Proof.
Open Scope Z_scope.

(** After any history of calls whose inputs were not cut within a character, every such call does what it should. *)
Theorem C87_independent_partial : forall fuel m w s c, (4 < fuel)%nat -> reached fuel m w s -> whole m w c ->
  exists m' w' s' r, run fuel c m w s = Ok (m', w', s', r) /\ means m w c m' w' r.
Proof.
  intros fuel m w s c F R WH. destruct (step_good fuel c m w s F (reached_good _ _ _ _ F R) WH) as (m' & w' & s' & r & E & M & _). exists m', w', s', r. split; assumption.
Qed.
(** U+20AC, "a" and a stray continuation byte *)
Definition text : mem := mem_of 10 [226;130;172;97;128].
Example C87_instance : whole text (mem_of 50 [7]) (Mblen (Some 10) 5) /\ whole text (mem_of 50 [7]) (Mbtowc (Some 50) (Some 13) 2) /\ whole text (mem_of 50 [7]) (Mbtowc None (Some 14) 1) /\
  (exists m w s, run 9 (Mblen (Some 10) 5) text (mem_of 50 [7]) states_init = Ok (m, w, s, (3, false))) /\ (exists m w s, run 9 (Mbtowc None (Some 14) 1) text (mem_of 50 [7]) states_init = Ok (m, w, s, (-1, true))).
Proof.
  assert (A : forall a l, (forall i, (i < length l)%nat -> text (a + Z.of_nat i) = nth_error l i) -> forallb (fun b => (0 <=? b) && (b <? 256)) l = true -> input text a l).
  { intros a l B F. split; [exact B|]. apply Forall_forall. intros x I. rewrite forallb_forall in F. specialize (F x I). lia. }
  split; [|split; [|split; [|split; [eexists _, _, _; reflexivity|eexists _, _, _; reflexivity]]]].
  - exists [226;130;172;97;128]. split; [apply A; [intros [|[|[|[|[|i]]]]] I; try reflexivity; cbn in I; lia|reflexivity]|]. split; [reflexivity|]. right. exists [226;130;172], 8364. split; [cbn [wf_char]; unfold pair3, isc; lia|exists [97;128]; reflexivity].
  - split; [|cbn; discriminate]. exists [97;128]. split; [apply A; [intros [|[|i]] I; try reflexivity; cbn in I; lia|reflexivity]|]. split; [reflexivity|]. right. exists [97], 97. split; [cbn [wf_char]; lia|exists [128]; reflexivity].
  - split; [|exact I]. exists [128]. split; [apply A; [intros [|i] I; try reflexivity; cbn in I; lia|reflexivity]|]. split; [reflexivity|]. left. exists [], 128, []. split; [reflexivity|]. split; [exists [97], 97; split; [discriminate|cbn; lia]|].
    intros (r & c & W). destruct r as [|b1 [|b2 [|b3 [|b4 r]]]]; cbn [wf_char app] in W; unfold pair3, pair4, isc in W; try contradiction; lia.
Qed.

(** mbtowc on a cut character does not fail but returns the number of bytes, stores nothing, and after that refuses any ASCII character,
    even if it was reset with mbtowc(NULL, NULL, 0). *)
Theorem C87_mbtowc_cut_refuted : forall fuel m w s wc p u q b n, (4 < fuel)%nat -> reached fuel m w s -> viable u -> u <> [] -> input m p u -> m q = Some b -> 0 < b <= 127 -> (0 < n)%nat ->
  exists s1 s2 s3, run fuel (Mbtowc wc (Some p) (length u)) m w s = Ok (m, w, s1, (Z.of_nat (length u), false)) /\
    run fuel (Mbtowc None None 0) m w s1 = Ok (m, w, s2, (0, false)) /\ run fuel (Mbtowc wc (Some q) n) m w s2 = Ok (m, w, s3, (-1, true)).
Proof.
  intros fuel m w s wc p u q b n F R V NE [B BY] Q Hb N. destruct (reached_good _ _ _ _ F R) as (G1 & G2 & G3). destruct (mbtowc_cut fuel m w s wc p u) as (st & E & RS); try assumption.
  eexists _, _, _. split; [cbn [run]; rewrite E; reflexivity|]. split; [reflexivity|]. cbn [run mbtowc mblen_st mbtowc_st wctomb_st]. unfold load. rewrite Q. cbn [bind]. destruct (Z.eqb_spec b 0) as [X|_]; [lia|]. destruct (Nat.eqb_spec n 0) as [X|_]; [lia|].
  destruct (decode_after fuel m (match wc with Some _ => w | None => upd (fun _ => None) 0 0 end) (match wc with Some q => q | None => 0 end) q (Nat.min n 4) st u b) as (it & D); try assumption; try lia. rewrite D. cbn [bind]. destruct wc; reflexivity.
Qed.
(** mblen on a cut character fails, as it should, but so does the next call on an ASCII character; mblen(NULL, 0) does reset it. *)
Theorem C87_mblen_cut_refuted : forall fuel m w s p u q b n, (4 < fuel)%nat -> reached fuel m w s -> viable u -> u <> [] -> input m p u -> m q = Some b -> 0 < b <= 127 -> (0 < n)%nat ->
  exists s1 s2 s3 s4, run fuel (Mblen (Some p) (length u)) m w s = Ok (m, w, s1, (-1, true)) /\ run fuel (Mblen (Some q) n) m w s1 = Ok (m, w, s2, (-1, true)) /\
    run fuel (Mblen None 0) m w s2 = Ok (m, w, s3, (0, false)) /\ run fuel (Mblen (Some q) n) m w s3 = Ok (m, w, s4, (1, false)).
Proof.
  intros fuel m w s p u q b n F R V NE [B BY] Q Hb N. destruct (reached_good _ _ _ _ F R) as (G1 & G2 & G3). destruct (mblen_cut fuel m s p u) as (st & E & RS); try assumption.
  destruct (mblen_char fuel m {| mblen_st := mb_init; mbtowc_st := mbtowc_st s; wctomb_st := wctomb_st s |} q n [b] b) as (st4 & E4 & _); [apply Utf8Conv_Proof.rep_init|cbn; lia|intros i I; cbn in I; replace i with 0%nat by lia; rewrite Z.add_0_r; exact Q|cbn; lia|exact F|].
  eexists _, _, _, _. split; [cbn [run]; rewrite E; reflexivity|]. split.
  - cbn [run mblen mblen_st mbtowc_st wctomb_st]. destruct (decode_after fuel m (upd (fun _ => None) 0 0) 0 q n st u b) as (it & D); try assumption; try lia. change (0 + 1) with 1 in D. rewrite D. reflexivity.
  - split; [reflexivity|]. cbn [run mblen mblen_st mbtowc_st wctomb_st bind] in *. rewrite E4. destruct (Z.eqb_spec b 0) as [X|_]; [lia|]. reflexivity.
Qed.
(** mblen with no bytes at all returns 0, as for a null character. *)
Theorem C87_mblen_zero_refuted : forall fuel m w s p, (4 < fuel)%nat -> reached fuel m w s -> exists s', run fuel (Mblen (Some p) 0) m w s = Ok (m, w, s', (0, false)).
Proof.
  intros fuel m w s p F R. destruct (reached_good _ _ _ _ F R) as (G1 & _). destruct (mblen_st s) as [g c] eqn:E. cbn in G1. destruct fuel as [|fuel]; [lia|]. cbn [run mblen]. rewrite E. unfold decode_wtranscode. cbn [Z.eqb Z.of_nat dloop]. rewrite Z.add_0_r, Z.eqb_refl. cbn [orb bind fst].
  destruct G1 as [-> _]. cbn [Z.eqb negb]. rewrite Z.eqb_refl. cbn [bind]. rewrite Z.sub_diag. eexists. reflexivity.
Qed.
(** the first byte of U+20AC, then "a" *)
Example C87_cut_instance : viable [226] /\ input text 10 [226] /\ text 13 = Some 97 /\ reached 9 text (mem_of 50 [7]) states_init.
Proof.
  split; [exists [130;172], 8364; split; [discriminate|cbn [wf_char app]; unfold pair3, isc; lia]|]. split; [split; [intros [|i] I; [reflexivity|cbn in I; lia]|constructor; [lia|constructor]]|]. split; [reflexivity|constructor].
Qed.

Print Assumptions C87_independent_partial.
Print Assumptions C87_mbtowc_cut_refuted.
Print Assumptions C87_mblen_cut_refuted.
Print Assumptions C87_mblen_zero_refuted.
