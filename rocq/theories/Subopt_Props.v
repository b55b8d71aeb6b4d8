(** C45: getsubopt. *)
From Verif Require Import Base Check Str_Spec Str_Proof Subopt_Model Subopt_Spec Subopt_Proof.
Open Scope Z_scope.

(** The usual loop reports every suboption once and in order: the index of its name in the key list, or
    -1, and its value.  Values that were reported stay readable, the option pointer ends at the
    terminating NUL, and only commas and equals signs are overwritten. *)
Theorem C45_parse : forall fuel calls m p s addrs keys,
  str_at m p s -> keys_at m p s addrs keys -> (length s < fuel)%nat -> (length s < calls)%nat ->
  s = [] \/ suboptions s <> [] ->
  exists m' rs, parse calls fuel m p addrs = Ok (m', p + Z.of_nat (length s), rs) /\
    Forall2 (is_result m' p s keys) rs (suboptions s) /\ only_delims_changed m m' p s [44; 61].
Proof. intros. eapply parse_ok; eauto. Qed.
(** A string of separators only: one result -1 without a value. *)
Theorem C45_no_suboption : forall fuel m p s addrs, str_at m p s -> (length s < fuel)%nat -> suboptions s = [] ->
  getsubopt fuel m (Some p) addrs = Ok (m, Some (p + Z.of_nat (length s)), None, -1).
Proof. exact call_empty. Qed.
(** One call: it reports the first suboption and leaves the others to later calls. *)
Theorem C45_one_call : forall fuel m p s addrs keys f fs,
  str_at m p s -> keys_at m p s addrs keys -> (length s < fuel)%nat -> suboptions s = f :: fs ->
  exists m' q v r rest, getsubopt fuel m (Some p) addrs = Ok (m', Some q, v, r) /\
    is_result m' p s keys (r, v) f /\ str_at m' q rest /\ suboptions rest = fs /\ in_place p s q rest /\
    only_delims_changed m m' p s [44; 61].
Proof.
  intros fuel m p s addrs keys f fs Hs K Hf S.
  destruct (call_holds fuel m p s addrs keys Hs K Hf) as (m1 & q & v & r & d & f' & rest & E & ES & EQ & DN & SU & RN & HR & K1 & IX & VL & OD); [congruence|].
  rewrite S in SU. injection SU as -> ->. exists m1, q, v, r, rest. split; [exact E|]. split.
  - split; [exact IX|]. cbn [snd]. destruct (value f'); [|exact VL]. destruct VL as (t & A & B & C & _). eauto.
  - split; [exact HR|]. split; [reflexivity|]. split; [exists d, []; rewrite app_nil_r; auto|]. rewrite ES. apply odc_head, OD.
Qed.
(** A null option pointer. *)
Theorem C45_null : forall fuel m addrs, getsubopt fuel m None addrs = Ok (m, None, None, -1).
Proof. reflexivity. Qed.

(** Non-vacuity: " ro,, size=4=k ,x," with the keys "size" and "ro". *)
Definition m0 : mem := munion (mem_of 100 [32; 114; 111; 44; 44; 32; 115; 105; 122; 101; 61; 52; 61; 107; 32; 44; 120; 44; 0])
  (munion (mem_of 10 [115; 105; 122; 101; 0]) (mem_of 20 [114; 111; 0])).
Example C45_example :
  let s := [32; 114; 111; 44; 44; 32; 115; 105; 122; 101; 61; 52; 61; 107; 32; 44; 120; 44] in
  let keys := [[115; 105; 122; 101]; [114; 111]] in
  str_at m0 100 s /\ keys_at m0 100 s [10; 20] keys /\
  suboptions s = [[114; 111]; [115; 105; 122; 101; 61; 52; 61; 107; 32]; [120]] /\
  map value (suboptions s) = [None; Some [52; 61; 107; 32]; None] /\
  match parse 10 30 m0 100 [10; 20] with Ok (_, q, rs) => q = 118 /\ rs = [(1, None); (0, Some 111); (-1, None)] | _ => False end.
Proof.
  cbv zeta. split; [chk|]. split; [repeat constructor; try chk; unfold disjoint; cbn; lia|]. vm_compute. auto.
Qed.

Print Assumptions C45_parse.
Print Assumptions C45_no_suboption.
Print Assumptions C45_one_call.
Print Assumptions C45_null.
