(** Properties C14, C15, C16, C46: UTF-8 multibyte conversions. *)
From Verif Require Import Base Str_Spec Utf8_Model Utf8_Spec Utf8_Client Utf8_Proof Utf8Conv_Proof Check.
Open Scope Z_scope.

(** Table 3-7 describes exactly the encodings of the Unicode scalar values. *)
Theorem C14_table : forall l c, wf_char l c <-> scalar c /\ l = utf8 c.
Proof. exact wf_utf8. Qed.
Print Assumptions C14_table.

(** Every byte sequence decodes in exactly one way: a number of complete characters followed by nothing, by an
    unfinished character, or by an ill-formed sequence. *)
Theorem C14_classified : forall l, Forall (fun b => 0 <= b < 256) l -> exists cs e, outcome l cs e.
Proof. intros l H. exact (outcome_exists (length l) l (le_n _) H). Qed.
Theorem C14_classified_unique : forall l cs e cs' e', outcome l cs e -> outcome l cs' e' -> cs = cs' /\ e = e'.
Proof. exact outcome_fun. Qed.
Print Assumptions C14_classified.
Print Assumptions C14_classified_unique.

(** mbrtowc in the initial state: a well-formed sequence within the limit yields its code point and length
    (0 for the null character), reading no byte after it and writing only *wcp *)
Theorem C14_mbrtowc_char : forall fuel m w wp mbs n u c,
  wf_char u c -> bytes_at m mbs u -> (length u <= n)%nat -> w wp <> None -> (length u < fuel)%nat ->
  exists w' st', mbrtowc fuel m w (Some wp) mbs n mb_init =
      Ok (w', if c =? 0 then 0 else Z.of_nat (length u), st', false) /\ written w w' wp [c] /\ fst st' = 0.
Proof.
  intros fuel m w wp mbs n u c W Hb Hn Hw Hf.
  destruct (mbrtowc_char fuel m w wp mbs n mb_init [] u c rep_init W (wf_nonempty _ _ W) Hb Hn Hw Hf) as (w' & st' & E & Wr & R).
  exists w', st'. split; [exact E|]. split; [exact Wr|]. apply (rep_progress _ _ R). reflexivity.
Qed.
Print Assumptions C14_mbrtowc_char.

(** an unfinished character up to the limit yields -2 *)
Theorem C14_mbrtowc_unfinished : forall fuel m w wp mbs u,
  viable u -> u <> [] -> bytes_at m mbs u -> Forall (fun b => 0 <= b < 256) u -> (length u < fuel)%nat ->
  exists st', mbrtowc fuel m w (Some wp) mbs (length u) mb_init = Ok (w, -2, st', false).
Proof.
  intros fuel m w wp mbs u V Hu Hb Hby Hf.
  destruct (mbrtowc_viable fuel m w wp mbs mb_init [] u rep_init V Hu Hb Hby Hf) as (st' & E & _). eauto.
Qed.
Print Assumptions C14_mbrtowc_unfinished.

(** at the first byte [b] with which no well-formed sequence continues, -1 and EILSEQ; nothing is written and no
    byte after [b] is read *)
Theorem C14_mbrtowc_illegal : forall fuel m w wp mbs n q b,
  viable q -> dead (q ++ [b]) -> bytes_at m mbs (q ++ [b]) -> Forall (fun b => 0 <= b < 256) (q ++ [b]) ->
  (length q < n)%nat -> (length q < fuel)%nat ->
  mbrtowc fuel m w (Some wp) mbs n mb_init = Ok (w, -1, mb_init, true).
Proof.
  intros fuel m w wp mbs n q b V D Hb Hby Hn Hf.
  exact (mbrtowc_dead fuel m w wp mbs n mb_init [] q b rep_init V D Hb Hby Hn Hf).
Qed.
Print Assumptions C14_mbrtowc_illegal.

(** with a null wcp, the same return value and state *)
Theorem C14_mbrtowc_null : forall fuel m w mbs n st w0 r st' er,
  mbrtowc fuel m (upd (fun _ => None) 0 0) (Some 0) mbs n st = Ok (w0, r, st', er) ->
  mbrtowc fuel m w None mbs n st = Ok (w, r, st', er).
Proof. exact mbrtowc_null. Qed.

(** mbstowcs of a well-formed string: the first [limit] wide characters of the result and its terminator *)
Theorem C14_mbstowcs : forall fuel m w wcs mbs s cs limit,
  0 < mbs -> str_at m mbs s -> decodes s cs -> (0 < limit)%nat ->
  mapped w wcs (Nat.min limit (length cs + 1)) -> (length s + 1 < fuel)%nat ->
  exists w', mbstowcs fuel m w (Some wcs) mbs limit = Ok (w', Z.of_nat (Nat.min limit (length cs)), false) /\
    written w w' wcs (firstn limit (cs ++ [0])).
Proof. exact mbstowcs_ok. Qed.
Print Assumptions C14_mbstowcs.

(** an ill-formed sequence among the first [limit] characters (the terminator included) yields -1 and EILSEQ *)
Theorem C14_mbstowcs_illegal : forall fuel m w wcs mbs s a cs p b r limit,
  0 < mbs -> str_at m mbs s -> s ++ [0] = a ++ p ++ b :: r -> decodes a cs -> viable p -> dead (p ++ [b]) ->
  (length cs < limit)%nat -> mapped w wcs limit -> (length s + 1 < fuel)%nat ->
  exists w', mbstowcs fuel m w (Some wcs) mbs limit = Ok (w', -1, true) /\ same_outside w w' wcs limit.
Proof. exact mbstowcs_err. Qed.
Print Assumptions C14_mbstowcs_illegal.

(** if the limit is reached first, what follows does not matter (it need not even be readable) *)
Theorem C14_mbstowcs_limit : forall fuel m w wcs mbs a cs,
  0 < mbs -> bytes_at m mbs a -> decodes a cs -> ~ In 0 a -> cs <> [] -> mapped w wcs (length cs) -> (length a < fuel)%nat ->
  exists w', mbstowcs fuel m w (Some wcs) mbs (length cs) = Ok (w', Z.of_nat (length cs), false) /\ written w w' wcs cs.
Proof. exact mbstowcs_limit. Qed.
Print Assumptions C14_mbstowcs_limit.

Theorem C14_mbstowcs_count : forall fuel m w mbs s cs limit,
  0 < mbs -> str_at m mbs s -> decodes s cs -> (length s + 1 < fuel)%nat ->
  mbstowcs fuel m w None mbs limit = Ok (w, Z.of_nat (length cs), false).
Proof. exact mbstowcs_len_ok. Qed.
Print Assumptions C14_mbstowcs_count.

(** mbstowcs with limit 0 should return 0; the code aborts on its internal check *)
Theorem C14_mbstowcs_zero_refuted : exists m w wcs mbs s, str_at m mbs s /\
  mbstowcs 9 m w (Some wcs) mbs 0 = Abort.
Proof. exists (mem_of 10 [97;0]), (mem_of 50 [1]), 50, 10, [97]. chks. Qed.

(** "a" U+20AC U+1F600, then a truncated and an overlong sequence *)
Example C14_hyps :
  decodes [97; 226;130;172; 240;159;152;128] [97; 8364; 128512] /\
  (viable [226;130] /\ dead [226;130;65]) /\ dead [224;128] /\ dead [237;160] /\ dead [192] /\ dead [245].
Proof.
  split.
  - apply (dec_cons [97]); [cbn; lia|]. apply (dec_cons [226;130;172]); [cbn; unfold pair3, isc; lia|].
    apply (dec_cons [240;159;152;128] 128512 [] []); [cbn; unfold pair4, isc; lia|constructor].
  - rewrite viable_iff, !dead_iff. cbn. unfold pair3, pair4, isc.
    repeat match goal with |- _ /\ _ => split end; try lia; intros [c H]; lia.
Qed.
Example C14_mbstowcs_ex :
  let m := mem_of 10 [97; 226;130;172; 240;159;152;128; 0] in
  str_at m 10 [97; 226;130;172; 240;159;152;128] /\ mapped (mem_of 50 [1;1;1;1]) 50 4 /\
  match mbstowcs 20 m (mem_of 50 [1;1;1;1]) (Some 50) 10 9 with
  | Ok (w, n, er) => n = 3 /\ er = false /\ map w [50;51;52;53] = [Some 97; Some 8364; Some 128512; Some 0]
  | _ => False end.
Proof. chks. Qed.

(** C15 *)
Theorem C15_roundtrip : forall fuel m mbs c w wp n,
  scalar c -> mapped m mbs (length (utf8 c)) -> w wp <> None -> (length (utf8 c) <= n)%nat -> (4 < fuel)%nat ->
  exists m' w' st', wcrtomb m mbs c mb_init = Ok (m', Z.of_nat (length (utf8 c)), mb_init, false) /\
    (length (utf8 c) <= 4)%nat /\ wf_char (utf8 c) c /\ written m m' mbs (utf8 c) /\
    mbrtowc fuel m' w (Some wp) mbs n mb_init = Ok (w', if c =? 0 then 0 else Z.of_nat (length (utf8 c)), st', false) /\
    written w w' wp [c] /\ fst st' = 0.
Proof. exact roundtrip. Qed.
Print Assumptions C15_roundtrip.

Theorem C15_rejected : forall m mbs c st, 1114111 < c -> fst st = 0 -> wcrtomb m mbs c st = Ok (m, -1, st, true).
Proof. exact wcrtomb_big. Qed.
Print Assumptions C15_rejected.

Example C15_hyps : scalar 8364 /\ utf8 8364 = [226;130;172] /\ mapped (mem_of 10 [0;0;0]) 10 3.
Proof. unfold scalar. split; [lia|]. chks. Qed.

(** outside the scalar values: a surrogate is encoded without complaint, to bytes that no decoder accepts *)
Example C15_surrogate : exists m', wcrtomb (mem_of 10 [0;0;0]) 10 55296 mb_init = Ok (m', 3, mb_init, false) /\
  map m' [10;11;12] = [Some 237; Some 160; Some 128] /\ dead [237;160].
Proof.
  eexists. split; [vm_compute; reflexivity|]. split; [reflexivity|].
  apply dead_iff. cbn. unfold pair3, pair4, isc. split; [lia|]. intros [c H]; lia.
Qed.

(** C16: what the chunk-feeding client collects depends only on the concatenation of the chunks, and is the
    decoding of that concatenation; the last call returned -2 iff it ends in an unfinished character. *)
Theorem C16_feed : forall fuel m w wp chunks ls,
  Forall2 (chunk_at m) chunks ls -> Forall (Forall (fun b => 0 <= b < 256)) ls -> w wp <> None ->
  (length (concat ls) < fuel)%nat ->
  exists cs e, feed fuel m w wp chunks mb_init = Ok (cs, e) /\ outcome (concat ls) cs e.
Proof. exact feed_ok. Qed.
Print Assumptions C16_feed.

Theorem C16_split : forall fuel m w wp chunks ls fuel' m' w' wp' chunks' ls',
  Forall2 (chunk_at m) chunks ls -> Forall2 (chunk_at m') chunks' ls' -> concat ls = concat ls' ->
  Forall (Forall (fun b => 0 <= b < 256)) ls -> Forall (Forall (fun b => 0 <= b < 256)) ls' ->
  w wp <> None -> w' wp' <> None -> (length (concat ls) < fuel)%nat -> (length (concat ls) < fuel')%nat ->
  feed fuel m w wp chunks mb_init = feed fuel' m' w' wp' chunks' mb_init.
Proof. exact feed_split. Qed.
Print Assumptions C16_split.

(** U+20AC U+1F600 cut inside both characters, and left unfinished *)
Example C16_hyps :
  let m := mem_of 10 [226;130; 172;240;159; 152; 128;97;226] in
  Forall2 (chunk_at m) [(10,2%nat); (12,3%nat); (15,1%nat); (16,3%nat)] [[226;130]; [172;240;159]; [152]; [128;97;226]] /\
  feed 20 m (mem_of 50 [0]) 50 [(10,2%nat); (12,3%nat); (15,1%nat); (16,3%nat)] mb_init = Ok ([8364; 128512; 97], Unfinished).
Proof.
  cbv zeta. split; [|vm_compute; reflexivity].
  repeat constructor; cbn [fst snd]; try chk; try reflexivity; try discriminate.
Qed.

(** C46: wcsrtombs (and wcstombs) converts whole characters up to the limit *)
Theorem C46_wcsrtombs_all : forall fuel m w p wcs ws limit,
  0 < wcs -> bytes_at w wcs (ws ++ [0]) -> Forall (fun c => 0 < c <= 1114111) ws ->
  (length (enc ws) <= limit)%nat -> mapped m p (Nat.min limit (length (enc ws) + 1)) -> (length ws < fuel)%nat ->
  exists m', wcsrtombs fuel m w (Some p) wcs limit mb_init =
    Ok (m', Z.of_nat (length (enc ws)), if (length (enc ws) <? limit)%nat then None else Some (wcs + Z.of_nat (length ws)), mb_init, false)
    /\ written m m' p (firstn limit (enc ws ++ [0])).
Proof. exact wcsrtombs_all. Qed.
Print Assumptions C46_wcsrtombs_all.

Theorem C46_wcsrtombs_cut_partial : forall fuel m w p wcs ws,
  0 < wcs -> bytes_at w wcs ws -> Forall (fun c => 0 < c <= 1114111) ws ->
  mapped m p (length (enc ws)) -> (length ws < fuel)%nat ->
  exists m', wcsrtombs fuel m w (Some p) wcs (length (enc ws)) mb_init =
    Ok (m', Z.of_nat (length (enc ws)), Some (wcs + Z.of_nat (length ws)), mb_init, false) /\ written m m' p (enc ws).
Proof. exact wcsrtombs_cut. Qed.
Print Assumptions C46_wcsrtombs_cut_partial.

Theorem C46_wcsrtombs_illegal : forall fuel m w p wcs ws c limit,
  0 < wcs -> bytes_at w wcs (ws ++ [c]) -> Forall (fun c => 0 < c <= 1114111) ws -> 1114111 < c ->
  (length (enc ws) < limit)%nat -> mapped m p (length (enc ws)) -> (length ws < fuel)%nat ->
  exists m', wcsrtombs fuel m w (Some p) wcs limit mb_init = Ok (m', -1, Some wcs, mb_init, true) /\ written m m' p (enc ws).
Proof. exact wcsrtombs_bad. Qed.
Print Assumptions C46_wcsrtombs_illegal.

Theorem C46_wcsrtombs_count : forall fuel m w wcs ws limit,
  0 < wcs -> bytes_at w wcs (ws ++ [0]) -> Forall (fun c => 0 < c <= 1114111) ws -> (length ws < fuel)%nat ->
  wcsrtombs fuel m w None wcs limit mb_init = Ok (m, Z.of_nat (length (enc ws)), Some wcs, mb_init, false).
Proof. exact wcsrtombs_count. Qed.
Print Assumptions C46_wcsrtombs_count.

(** wcsnrtombs stops before a character that does not fit *)
Theorem C46_wcsnrtombs_cut : forall fuel m w p wcs ws c limit wlimit,
  0 < wcs -> bytes_at w wcs (ws ++ [c]) -> Forall (fun c => 0 < c <= 1114111) (ws ++ [c]) -> (length ws < wlimit)%nat ->
  (length (enc ws) < limit < length (enc ws) + length (utf8 c))%nat -> mapped m p limit -> (length ws < fuel)%nat ->
  exists m', wcsnrtombs fuel m w p wcs wlimit limit mb_init =
    Ok (m', Z.of_nat (length (enc ws)), Some (wcs + Z.of_nat (length ws)), mb_init, false) /\
    bytes_at m' p (enc ws) /\ same_outside m m' p limit.
Proof. exact wcsnrtombs_straddle. Qed.
Print Assumptions C46_wcsnrtombs_cut.

(** wcsrtombs instead aborts the process whenever the limit falls inside a character *)
Theorem C46_wcsrtombs_refuted : forall fuel m w p wcs ws c limit,
  0 < wcs -> bytes_at w wcs (ws ++ [c]) -> Forall (fun c => 0 < c <= 1114111) (ws ++ [c]) ->
  (length (enc ws) < limit < length (enc ws) + length (utf8 c))%nat -> mapped m p limit -> (length ws < fuel)%nat ->
  wcsrtombs fuel m w (Some p) wcs limit mb_init = Abort.
Proof. exact wcsrtombs_straddle. Qed.
Print Assumptions C46_wcsrtombs_refuted.

Example C46_hyps : bytes_at (mem_of 50 [97;8364;0]) 50 [97;8364;0] /\ enc [97;8364] = [97;226;130;172] /\
  wcsrtombs 9 (mem_of 10 [1;1;1;1]) (mem_of 50 [97;8364;0]) (Some 10) 50 3 mb_init = Abort.
Proof. chks. Qed.
