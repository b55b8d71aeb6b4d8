(** Properties C29, C30 and C52: internet addresses as text. *)
From Verif Require Import Base Mem_Proof Str_Spec Str_Proof Strtol_Spec Snprintf_Spec Inet_Model Inet_Spec InetNum_Proof Inet4_Proof Inet6_Proof Check.
Open Scope Z_scope.

(** inet_ntop(AF_INET) stores the dotted quad of the address, cut to the buffer, and fails exactly if it does not fit *)
Theorem C29_ntop : forall m a b c d dst size, octet a -> octet b -> octet c -> octet d -> mapped m dst size ->
  exists m' t, quad a b c d t /\ inet_ntop4 m a b c d dst size = Ok (m', (length t <? size)%nat) /\ written m m' dst (truncated size t).
Proof. exact ntop4_ok. Qed.
Print Assumptions C29_ntop.

(** it always fits 16 bytes, and inet_pton reads the same address back *)
Theorem C29_roundtrip : forall fuel m a b c d dst size, octet a -> octet b -> octet c -> octet d -> mapped m dst size -> (16 <= size)%nat -> (16 <= fuel)%nat ->
  exists m', inet_ntop4 m a b c d dst size = Ok (m', true) /\ same_outside m m' dst size /\ inet_pton4 fuel m' dst = Ok (Some [a; b; c; d]).
Proof.
  intros fuel m a b c d dst size Ha Hb Hc Hd Hm Hs Hf. destruct (ntop4_ok m a b c d dst size Ha Hb Hc Hd Hm) as (m' & t & Q & E & W).
  pose proof (quad_len _ _ _ _ _ Ha Hb Hc Hd Q). rewrite truncated_full in W by lia. replace (length t <? size)%nat with true in E by lia.
  exists m'. split; [exact E|]. split; [eapply same_written; [exact W|lia|rewrite app_length; cbn [length]; lia]|].
  eapply pton4_quad; eauto; [|lia]. eapply written_str_at; [exact W|eapply quad_chars; exact Q].
Qed.
Print Assumptions C29_roundtrip.

(** inet_aton reads back what inet_ntoa prints *)
Theorem C29_ntoa_aton : forall fuel m a b c d buf, octet a -> octet b -> octet c -> octet d -> mapped m buf 16 -> (16 <= fuel)%nat ->
  exists m' t, inet_ntoa m buf a b c d = Ok m' /\ quad a b c d t /\ written m m' buf (t ++ [0]) /\ inet_aton fuel m' buf = Ok (Some [a; b; c; d]).
Proof.
  intros fuel m a b c d buf Ha Hb Hc Hd Hm Hf. destruct (ntoa_ok m a b c d buf Ha Hb Hc Hd Hm) as (m' & t & Q & E & W).
  exists m', t. split; [exact E|]. split; [exact Q|]. split; [exact W|]. pose proof (quad_len _ _ _ _ _ Ha Hb Hc Hd Q).
  eapply aton_quad; eauto; [|lia]. eapply written_str_at; [exact W|eapply quad_chars; exact Q].
Qed.
Print Assumptions C29_ntoa_aton.

(** Acceptance, for texts with at least four fields: accepted exactly if the first four fields are octets of one to
    three digits, with that address.  Missing: texts with fewer than four fields (undefined behaviour, see below), and
    whatever follows the fourth field is ignored from its dot on. *)
Theorem C29_pton_partial : forall fuel m src f1 f2 f3 f4 rest, str_at m src (f1 ++ [46] ++ f2 ++ [46] ++ f3 ++ [46] ++ f4 ++ rest) ->
  dotless f1 -> dotless f2 -> dotless f3 -> dotless f4 -> ends rest -> (length (f1 ++ [46%Z] ++ f2 ++ [46%Z] ++ f3 ++ [46%Z] ++ f4 ++ rest) < fuel)%nat ->
  inet_pton4 fuel m src = Ok (if field_ok f1 && field_ok f2 && field_ok f3 && field_ok f4
                              then Some [digits_value 10 f1; digits_value 10 f2; digits_value 10 f3; digits_value 10 f4] else None).
Proof. exact pton4_fields. Qed.
Print Assumptions C29_pton_partial.

(** "1.2.3.4.x" is accepted *)
Theorem C29_trailing_refuted : exists m src s, str_at m src s /\ s = [49;46;50;46;51;46;52;46;120] /\ inet_pton4 20 m src = Ok (Some [1; 2; 3; 4]).
Proof.
  exists (mem_of 5 [49;46;50;46;51;46;52;46;120;0]), 5, [49;46;50;46;51;46;52;46;120]. split; [|split; [reflexivity|vm_compute; reflexivity]].
  split; [apply (mem_of_bytes 5)|repeat constructor].
Qed.
Print Assumptions C29_trailing_refuted.
(** for "1.2" the parser goes on behind the terminating NUL *)
Theorem C29_short_refuted : exists m src s, str_at m src s /\ s = [49;46;50] /\ inet_pton4 20 m src = UB.
Proof.
  exists (mem_of 5 [49;46;50;0]), 5, [49;46;50]. split; [|split; [reflexivity|vm_compute; reflexivity]].
  split; [apply (mem_of_bytes 5)|repeat constructor].
Qed.
Print Assumptions C29_short_refuted.

Example C29_hyps : octet 192 /\ octet 0 /\ mapped (mem_of 5 (repeat 0 16)) 5 16 /\
  exists m', inet_ntop4 (mem_of 5 (repeat 7 16)) 192 168 0 255 5 16 = Ok (m', true) /\ map m' [5;6;7;8;9;18;19;20] = [Some 49; Some 57; Some 50; Some 46; Some 49; Some 0; Some 7; Some 7].
Proof.
  split; [unfold octet; lia|]. split; [unfold octet; lia|]. split; [apply (mem_of_mapped 5 (repeat 0 16)); cbn; lia|].
  eexists. split; [vm_compute; reflexivity|]. vm_compute. reflexivity.
Qed.
(** "010.256.1.1" is rejected, "010.25.1.1" accepted *)
Example C29_reject : inet_pton4 20 (mem_of 5 [48;49;48;46;50;53;54;46;49;46;49;0]) 5 = Ok None /\
  inet_pton4 20 (mem_of 5 [48;49;48;46;50;53;46;49;46;49;0]) 5 = Ok (Some [10; 25; 1; 1]).
Proof. vm_compute. split; reflexivity. Qed.

(** C52: inet_aton on one to four decimal parts, the last of which fills the remaining octets *)
Theorem C52_aton : forall fuel m s ns ts, parts ns ts -> str_at m s ts -> (length ts < fuel)%nat -> (length ns <= 4)%nat ->
  Forall (fun n => 0 <= n <= 18446744073709551615) ns -> inet_aton fuel m s = Ok (option_map be32 (aton_value ns)).
Proof. exact aton_general. Qed.
Print Assumptions C52_aton.
(** "127.1" *)
Example C52_ex : parts [127; 1] [49;50;55;46;49] /\ inet_aton 20 (mem_of 5 [49;50;55;46;49;0]) 5 = Ok (Some [127; 0; 0; 1]).
Proof.
  split; [|vm_compute; reflexivity]. change [49;50;55;46;49] with ([49;50;55] ++ [46] ++ [49]). constructor.
  - split; [discriminate|]. split; [repeat constructor; try reflexivity; lia|]. split; [reflexivity|]. cbn. lia.
  - constructor. split; [discriminate|]. split; [repeat constructor; try reflexivity; lia|]. split; [reflexivity|]. cbn. lia.
Qed.

(** C30: for every address that is not IPv4-mapped, inet_ntop stores the recommended text if it fits, and otherwise
    fails, in both cases without touching anything outside the buffer.  Missing: buffers too short for a text that ends
    in "::" (refuted below). *)
Theorem C30_ntop_partial : forall m gs dst size, length gs = 8%nat -> Forall group gs -> ~ mapped4 gs -> mapped m dst size ->
  exists t, canonical6 gs t /\
    ((length t < size)%nat -> exists m', inet_ntop6 m gs dst size = Ok (m', true) /\ str_at m' dst t /\ same_outside m m' dst size) /\
    ((size <= length t)%nat -> last t 0 <> 58 -> exists m', inet_ntop6 m gs dst size = Ok (m', false) /\ same_outside m m' dst size).
Proof. exact ntop6_ok. Qed.
Print Assumptions C30_ntop_partial.

(** an IPv4-mapped address *)
Theorem C30_ntop_mapped : forall m g h dst size, group g -> group h -> mapped m dst size ->
  exists m' t, quad (g / 256) (g mod 256) (h / 256) (h mod 256) t /\
    inet_ntop6 m [0;0;0;0;0;65535;g;h] dst size = Ok (m', (7 + length t <? size)%nat) /\
    written m m' dst (truncated size ([58;58;102;102;102;102;58] ++ t)).
Proof. exact ntop6_mapped. Qed.
Print Assumptions C30_ntop_mapped.

(** inet_pton accepts every text of an address written as hexadecimal groups, abbreviated or not *)
Theorem C30_pton : forall fuel m src gs t, Forall group gs -> v6text gs t -> str_at m src t -> (length t < fuel)%nat -> inet_pton6 fuel m src = Ok (Some gs).
Proof. exact pton6_ok. Qed.
Print Assumptions C30_pton.

(** 46 bytes are always enough, and inet_pton reads the address back.  Missing: IPv4-mapped addresses (refuted below) *)
Lemma groups_len gs ts : groups gs ts -> Forall group gs -> (length ts <= 5 * length gs)%nat.
Proof.
  intros G F. induction G as [|g t N|g t gs ts N G IH Ne]; [cbn; lia| |]; inversion F as [|? ? Hg Fs]; subst;
    pose proof (numeral_len 16 g t 4 ltac:(lia) N ltac:(unfold group in Hg; cbn; lia) ltac:(lia)).
  - cbn [length]. lia.
  - specialize (IH Fs). rewrite !app_length. cbn [length]. lia.
Qed.
Theorem C30_roundtrip_partial : forall fuel m gs dst size, length gs = 8%nat -> Forall group gs -> ~ mapped4 gs -> mapped m dst size -> (46 <= size)%nat -> (46 <= fuel)%nat ->
  exists m', inet_ntop6 m gs dst size = Ok (m', true) /\ same_outside m m' dst size /\ inet_pton6 fuel m' dst = Ok (Some gs).
Proof.
  intros fuel m gs dst size L F N Hm Hs Hf. destruct (ntop6_ok m gs dst size L F N Hm) as (t & Ct & A & _).
  assert (Lt : (length t <= 42)%nat).
  { destruct Ct as [t' _ G _|pre suf z tp ts E Z _ G1 G2 _].
    - pose proof (groups_len _ _ G F). lia.
    - assert (length pre + length suf <= 6)%nat by (rewrite E, !app_length, repeat_length in L; lia). rewrite E in F. apply Forall_app in F as [F1 F2]. apply Forall_app in F2 as [_ F2].
      pose proof (groups_len _ _ G1 F1). pose proof (groups_len _ _ G2 F2). rewrite !app_length. cbn [length]. lia. }
  destruct (A ltac:(lia)) as (m' & E & S & O). exists m'. split; [exact E|]. split; [exact O|].
  eapply pton6_ok; eauto using canonical_v6text. lia.
Qed.
Print Assumptions C30_roundtrip_partial.

(** the text of ::ffff:10.0.0.1 is not accepted *)
Theorem C30_mapped_refuted : exists m gs dst m', Forall group gs /\ length gs = 8%nat /\ mapped m dst 46 /\
  inet_ntop6 m gs dst 46 = Ok (m', true) /\ inet_pton6 60 m' dst = Ok None.
Proof.
  exists (mem_of 5 (repeat 0 46)), [0;0;0;0;0;65535;2560;1], 5. eexists. split; [repeat constructor; unfold group; lia|]. split; [reflexivity|].
  split; [apply (mem_of_mapped 5 (repeat 0 46)); cbn; lia|]. split; [vm_compute; reflexivity|]. vm_compute. reflexivity.
Qed.
Print Assumptions C30_mapped_refuted.
(** inet_ntop(AF_INET6, all zeros, dst, 2) stores a byte behind the buffer *)
Theorem C30_overrun_refuted : exists m gs dst, Forall group gs /\ length gs = 8%nat /\ mapped m dst 2 /\ inet_ntop6 m gs dst 2 = UB.
Proof.
  exists (mem_of 5 [0;0]), (repeat 0 8), 5. split; [repeat constructor; unfold group; lia|]. split; [reflexivity|]. split; [apply (mem_of_mapped 5 [0;0]); cbn; lia|]. vm_compute. reflexivity.
Qed.
Print Assumptions C30_overrun_refuted.

(** 2001:db8::1:0:0:1 : the first of two runs of equal length is abbreviated *)
Example C30_ex : exists m', inet_ntop6 (mem_of 5 (repeat 7 46)) [8193;3512;0;0;1;0;0;1] 5 46 = Ok (m', true) /\
  map m' [5;6;7;8;9;10;11;12;13;14;15;16;17;18;19;20;21;22;23] =
    map Some [50;48;48;49;58;100;98;56;58;58;49;58;48;58;48;58;49;0;7] /\ inet_pton6 60 m' 5 = Ok (Some [8193;3512;0;0;1;0;0;1]).
Proof. eexists. split; [vm_compute; reflexivity|]. split; vm_compute; reflexivity. Qed.
Example C30_hyps : ~ mapped4 [8193;3512;0;0;1;0;0;1] /\ Forall group [8193;3512;0;0;1;0;0;1].
Proof. split; [intros (g & h & E); discriminate E|]. repeat constructor; unfold group; lia. Qed.
