(** Properties C04-C11: string functions.  See Str_Spec.v and Base.v for the vocabulary. *)
From Coq Require Import Sorted.
From Verif Require Import Base Mem_Model Str_Model Str_Spec Str_Client Str_Proof StrSearch_Proof StrTok_Proof Check.
Open Scope Z_scope.

(** *** C04 *)
Theorem C04_strlen : forall fuel m p s, str_at m p s -> (length s < fuel)%nat -> strlen fuel m p = Ok (length s).
Proof. exact strlen_ok. Qed.
(** [nstr_at] asks for nothing beyond the first NUL or the bound, so the theorem also says that nothing
    beyond is read (a read of unmapped memory would be [UB]) *)
Theorem C04_strnlen : forall m p s n, nstr_at m p n s -> strnlen m p n = Ok (length s).
Proof. exact strnlen_ok. Qed.
Theorem C04_strnlen_min : forall m p s n, str_at m p s -> strnlen m p n = Ok (Nat.min (length s) n).
Proof.
  intros m p s n H. rewrite (strnlen_ok m p (firstn n s) n (str_nstr m p s n H)), firstn_length, Nat.min_comm. reflexivity.
Qed.
Example C04_hyps : str_at (mem_of 100 [104;105;0]) 100 [104;105] /\ nstr_at (mem_of 100 [104;105;106]) 100 3 [104;105;106]
  /\ nstr_at (mem_of 100 [104;0]) 100 3 [104].
Proof. chks. Qed.

(** *** C05: each function writes exactly the given bytes at the given place and nothing else *)
Theorem C05_strcpy : forall fuel m d p s, str_at m p s -> mapped m d (length s + 1) ->
  disjoint d (length s + 1) p (length s + 1) -> (length s < fuel)%nat ->
  exists m', strcpy fuel m d p = Ok (m', d) /\ written m m' d (s ++ [0]).
Proof. exact strcpy_ok. Qed.
Theorem C05_stpcpy : forall fuel m d p s, str_at m p s -> mapped m d (length s + 1) ->
  disjoint d (length s + 1) p (length s + 1) -> (length s < fuel)%nat ->
  exists m', stpcpy fuel m d p = Ok (m', d + Z.of_nat (length s)) /\ written m m' d (s ++ [0]).
Proof. exact stpcpy_ok. Qed.
Theorem C05_strcat : forall fuel m d p s t, str_at m d t -> str_at m p s ->
  mapped m d (length t + length s + 1) -> disjoint d (length t + length s + 1) p (length s + 1) ->
  (length t + length s < fuel)%nat ->
  exists m', strcat fuel m d p = Ok (m', d) /\ written m m' (d + Z.of_nat (length t)) (s ++ [0])
             /\ str_at m' d (t ++ s).
Proof. exact strcat_ok. Qed.
Theorem C05_strlcpy : forall fuel m d p s n, str_at m p s -> mapped m d (Nat.min n (length s + 1)) ->
  disjoint d (Nat.min n (length s + 1)) p (length s + 1) -> (length s < fuel)%nat ->
  exists m', strlcpy fuel m d p n = Ok (m', Z.of_nat (length s)) /\
    written m m' d (match n with O => [] | S k => firstn k s ++ [0] end).
Proof. exact strlcpy_ok. Qed.
Theorem C05_strlcat : forall fuel m d p s t n, nstr_at m d n t -> str_at m p s ->
  mapped m d (Nat.min n (length t + length s + 1)) ->
  disjoint d (Nat.min n (length t + length s + 1)) p (length s + 1) -> (length s < fuel)%nat ->
  exists m', strlcat fuel m d p n = Ok (m', Z.of_nat (length t + length s)) /\
    (length t = n -> m' = m) /\
    ((length t < n)%nat ->
      written m m' (d + Z.of_nat (length t)) (firstn (n - length t - 1) s ++ [0]) /\
      str_at m' d (t ++ firstn (n - length t - 1) s)).
Proof. exact strlcat_ok. Qed.

(** The bounded copies are proved for NUL-terminated sources.  C and POSIX also allow a source of [n] bytes
    without a NUL ([nstr_at m p n s]); there the code reads beyond the array, see the refutations. *)
Theorem C05_strncpy_partial : forall m d p s n, str_at m p s -> mapped m d n -> disjoint d n p (length s + 1) ->
  exists m', strncpy m d p n = Ok (m', d) /\ written m m' d (firstn n s ++ repeat 0 (n - length s)).
Proof. exact strncpy_ok. Qed.
Theorem C05_stpncpy_partial : forall fuel m d p s n, str_at m p s -> mapped m d n -> disjoint d n p (length s + 1) ->
  (length s < fuel)%nat ->
  exists m', stpncpy fuel m d p n = Ok (m', d + Z.of_nat (length (firstn n s))) /\
    written m m' d (firstn n s ++ repeat 0 (n - length s)).
Proof. exact stpncpy_ok. Qed.
Theorem C05_strncat_partial : forall fuel m d p s t n, str_at m d t -> str_at m p s ->
  mapped m d (length t + length (firstn n s) + 1) ->
  disjoint d (length t + length (firstn n s) + 1) p (length s + 1) ->
  (length t < fuel)%nat ->
  exists m', strncat fuel m d p n = Ok (m', d) /\ written m m' (d + Z.of_nat (length t)) (firstn n s ++ [0])
             /\ str_at m' d (t ++ firstn n s).
Proof. exact strncat_ok. Qed.

Definition C05_mem : mem := munion (mem_of 100 [65;66;67]) (mem_of 200 [88;0;9;9;9;9]).
Theorem C05_strncpy_refuted : exists m d p s n,
  nstr_at m p n s /\ mapped m d n /\ disjoint d n p n /\ strncpy m d p n = UB.
Proof. exists C05_mem, 200, 100, [65;66;67], 3%nat. chks. Qed.
Theorem C05_strncat_refuted : exists fuel m d p s t n,
  str_at m d t /\ nstr_at m p n s /\ mapped m d (length t + n + 1) /\ disjoint d (length t + n + 1) p n /\
  strncat fuel m d p n = UB.
Proof. exists 10%nat, C05_mem, 200, 100, [65;66;67], [88], 3%nat. chks. Qed.
Theorem C05_stpncpy_refuted : exists fuel m d p s n,
  nstr_at m p n s /\ mapped m d n /\ disjoint d n p n /\ stpncpy fuel m d p n = UB.
Proof. exists 10%nat, C05_mem, 200, 100, [65;66;67], 3%nat. chks. Qed.

Definition C05_mem2 : mem := munion (mem_of 100 [65;66;67;0]) (mem_of 200 [88;0;9;9;9;9]).
Example C05_hyps : str_at C05_mem2 100 [65;66;67] /\ str_at C05_mem2 200 [88] /\ mapped C05_mem2 200 (1 + 3 + 1)
  /\ disjoint 200 (1 + 3 + 1) 100 4 /\ nstr_at C05_mem2 200 6 [88].
Proof. split; [chk|]. split; [chk|]. split; [chk|]. split; [chk|]. chk. Qed.

(** *** C06 *)
Theorem C06_memcmp : forall m p q a b, bytes_at m p a -> bytes_at m q b -> length a = length b ->
  exists r, memcmp m p q (length a) = Ok r /\ (r ?= 0) = lex a b.
Proof. exact memcmp_ok. Qed.
Theorem C06_strcmp : forall fuel m p q a b, str_at m p a -> str_at m q b -> (length a < fuel)%nat ->
  exists r, strcmp fuel m p q = Ok r /\ (r ?= 0) = lex a b.
Proof. exact strcmp_ok. Qed.
Theorem C06_strncmp : forall m p q a b n, nstr_at m p n a -> nstr_at m q n b ->
  exists r, strncmp m p q n = Ok r /\ (r ?= 0) = lex a b.
Proof. exact strncmp_ok. Qed.
(** [lex] is a total order whose equality is equality of the byte sequences *)
Theorem C06_order : (forall a b, lex a b = Eq <-> a = b) /\ (forall a b, lex b a = CompOpp (lex a b)) /\
  (forall a b c, lex a b = Lt -> lex b c = Lt -> lex a c = Lt).
Proof. exact (conj lex_eq (conj lex_antisym lex_trans)). Qed.
Example C06_hyps : exists m, str_at m 10 [200;1] /\ str_at m 20 [100;1;1] /\ nstr_at m 10 1 [200] /\ nstr_at m 30 2 [5;6]
  /\ strcmp 5 m 10 20 = Ok 1.
Proof.
  exists (munion (mem_of 10 [200;1;0]) (munion (mem_of 20 [100;1;1;0]) (mem_of 30 [5;6]))).
  split; [chk|]. split; [chk|]. split; [chk|]. split; [chk|]. reflexivity.
Qed.

(** *** C07 *)
Theorem C07_memchr : forall m p c l n, bytes_at m p l ->
  (length l = n \/ ((length l <= n)%nat /\ In (c mod 256) l)) ->
  exists r, memchr m p c n = Ok r /\
    match r with
    | Some q => exists i, q = p + Z.of_nat i /\ first_ix (eq (c mod 256)) l i
    | None => ~ In (c mod 256) l
    end.
Proof. exact memchr_ok. Qed.
Theorem C07_memrchr : forall m p c l, bytes_at m p l ->
  exists r, memrchr m p c (length l) = Ok r /\
    match r with
    | Some q => exists i, q = p + Z.of_nat i /\ last_ix (eq (c mod 256)) l i
    | None => ~ In (c mod 256) l
    end.
Proof. exact memrchr_ok. Qed.
Theorem C07_strchr : forall fuel m p s c, str_at m p s -> (length s < fuel)%nat ->
  exists r, strchr fuel m p c = Ok r /\
    match r with
    | Some q => exists i, q = p + Z.of_nat i /\ first_ix (eq (c mod 256)) (s ++ [0]) i
    | None => ~ In (c mod 256) (s ++ [0])
    end.
Proof. exact strchr_ok. Qed.
Theorem C07_strrchr : forall fuel m p s c, str_at m p s -> (length s < fuel)%nat ->
  exists r, strrchr fuel m p c = Ok r /\
    match r with
    | Some q => exists i, q = p + Z.of_nat i /\ last_ix (eq (c mod 256)) (s ++ [0]) i
    | None => ~ In (c mod 256) (s ++ [0])
    end.
Proof. exact strrchr_ok. Qed.
Theorem C07_strchrnul : forall fuel m p s c, str_at m p s -> (length s < fuel)%nat ->
  exists k, strchrnul fuel m p c = Ok (p + Z.of_nat k) /\
    first_ix (fun x => x = c mod 256 \/ x = 0) (s ++ [0]) k.
Proof. exact strchrnul_ok. Qed.
Example C07_hyps : str_at (mem_of 10 [97;98;97;0]) 10 [97;98;97]
  /\ strrchr 9 (mem_of 10 [97;98;97;0]) 10 97 = Ok (Some 12)
  /\ strchr 9 (mem_of 10 [97;98;97;0]) 10 (-159) = Ok (Some 10).
Proof. split; [chk|]. split; reflexivity. Qed.

(** *** C08 *)
Theorem C08_strspn : forall fuel m p q s cs, str_at m p s -> str_at m q cs ->
  (length s < fuel)%nat -> (length cs < fuel)%nat ->
  exists k, strspn fuel m p q = Ok k /\ first_ix (fun c => ~ In c cs) (s ++ [0]) k.
Proof. exact strspn_ok. Qed.
Theorem C08_strcspn : forall fuel m p q s cs, str_at m p s -> str_at m q cs ->
  (length s < fuel)%nat -> (length cs < fuel)%nat ->
  exists k, strcspn fuel m p q = Ok k /\ first_ix (fun c => In c cs \/ c = 0) (s ++ [0]) k.
Proof. exact strcspn_ok. Qed.
Theorem C08_strpbrk : forall fuel m p q s cs, str_at m p s -> str_at m q cs ->
  (length s < fuel)%nat -> (length cs < fuel)%nat ->
  exists r, strpbrk fuel m p q = Ok r /\
    match r with
    | Some a => exists k, a = p + Z.of_nat k /\ first_ix (fun c => In c cs) s k
    | None => forall c, In c s -> ~ In c cs
    end.
Proof. exact strpbrk_ok. Qed.

Definition C08_mem : mem := munion (mem_of 10 [97;98;99;97;0]) (mem_of 20 [98;99;0]).
Example C08_hyps : str_at C08_mem 10 [97;98;99;97] /\ str_at C08_mem 20 [98;99] /\
  strspn 9 C08_mem 11 20 = Ok 2%nat /\ strcspn 9 C08_mem 10 20 = Ok 1%nat /\ strpbrk 9 C08_mem 10 20 = Ok (Some 11).
Proof. chks. Qed.

(** *** C09 *)
Theorem C09_strstr : forall fuel m p q s pat, str_at m p s -> str_at m q pat ->
  (length s < fuel)%nat -> (length pat < fuel)%nat ->
  exists r, strstr fuel m p q = Ok r /\ leftmost pat s p r.
Proof. exact strstr_ok. Qed.
(** memmem is proved unless haystack and needle are both empty; there it returns NULL (refutation) *)
Theorem C09_memmem_partial : forall m p q s pat, bytes_at m p s -> bytes_at m q pat -> (s <> [] \/ pat <> []) ->
  exists r, memmem m p (length s) q (length pat) = Ok r /\ leftmost pat s p r.
Proof. exact memmem_ok. Qed.
Theorem C09_memmem_refuted : exists m p q s pat r, bytes_at m p s /\ bytes_at m q pat /\
  memmem m p (length s) q (length pat) = Ok r /\ ~ leftmost pat s p r.
Proof.
  exists (fun _ => None), 1, 2, [], [], None. split; [chk|]. split; [chk|]. split; [reflexivity|].
  intros H. apply (H 0%nat). exists [], []. auto.
Qed.

Example C09_hyps : str_at C08_mem 10 [97;98;99;97] /\ str_at C08_mem 20 [98;99] /\
  strstr 9 C08_mem 10 20 = Ok (Some 11) /\ memmem C08_mem 10 4 20 2 = Ok (Some 11).
Proof. chks. Qed.

(** *** C10 *)
(** one call, from any state of the tokeniser: delimiters [d] are skipped, the token [a] is returned *)
Theorem C10_strtok_call : forall fuel m p q s ds, str_at m p s -> str_at m q ds ->
  disjoint p (length s + 1) q (length ds + 1) ->
  (length s < fuel)%nat -> (length ds < fuel)%nat ->
  exists d a, Forall (fun c => isd ds c = true) d /\ Forall (fun c => isd ds c = false) a /\
  ((s = d ++ a /\ forall st sv, (match st with Some x => Some x | None => sv end) = Some p ->
      strtok_r fuel m st q sv =
      Ok (m, None, match a with [] => None | _ => Some (p + Z.of_nat (length d)) end)) \/
  (exists c b, s = d ++ a ++ c :: b /\ a <> [] /\ isd ds c = true /\
     forall st sv, (match st with Some x => Some x | None => sv end) = Some p ->
     strtok_r fuel m st q sv =
       Ok (upd m (p + Z.of_nat (length d) + Z.of_nat (length a)) 0,
           Some (p + Z.of_nat (length d) + Z.of_nat (length a) + 1), Some (p + Z.of_nat (length d))))).
Proof. exact strtok_step. Qed.
(** all calls up to the first NULL *)
Theorem C10_strtok : forall calls fuel m p q s ds sv,
  str_at m p s -> str_at m q ds -> disjoint p (length s + 1) q (length ds + 1) ->
  (length s < fuel)%nat -> (length ds < fuel)%nat -> (length (tokens ds s) < calls)%nat ->
  exists m' ts, strtok_all calls fuel m (Some p) q sv = Ok (m', None, ts) /\
    Forall2 (fun t f => str_at m' t f /\ in_place p s t f) ts (tokens ds s) /\
    StronglySorted Z.lt ts /\ only_delims_changed m m' p s ds.
Proof. intros. eapply strtok_all_ok; try eassumption; [apply Nat.le_refl|reflexivity]. Qed.
(** and NULL for ever after that *)
Theorem C10_strtok_after : forall fuel m q, strtok_r fuel m None q None = Ok (m, None, None).
Proof. exact strtok_none_stable. Qed.
Definition C10_mem : mem := munion (mem_of 100 [44;97;98;44;44;99;0]) (mem_of 200 [44;0]).
Example C10_hyps : str_at C10_mem 100 [44;97;98;44;44;99] /\ str_at C10_mem 200 [44] /\
  tokens [44] [44;97;98;44;44;99] = [[97;98];[99]] /\ disjoint 100 7 200 2.
Proof. split; [chk|]. split; [chk|]. split; [reflexivity|chk]. Qed.

(** *** C11 *)
Theorem C11_strsep : forall calls fuel m p q s ds,
  str_at m p s -> str_at m q ds -> disjoint p (length s + 1) q (length ds + 1) ->
  (length s < fuel)%nat -> (length ds < fuel)%nat -> (length (fields ds s) < calls)%nat ->
  exists m' ts, strsep_all calls fuel m (Some p) q = Ok (m', None, ts) /\
    Forall2 (fun t f => str_at m' t f /\ in_place p s t f) ts (fields ds s) /\
    StronglySorted Z.lt ts /\ only_delims_changed m m' p s ds.
Proof. intros. eapply strsep_all_ok; try eassumption. apply Nat.le_refl. Qed.
Example C11_hyps : fields [44] [44;97;98;44;44;99] = [[];[97;98];[];[99]]
  /\ str_at C10_mem 100 [44;97;98;44;44;99] /\ str_at C10_mem 200 [44].
Proof. split; [reflexivity|]. split; chk. Qed.

Print Assumptions C05_strlcat.
Print Assumptions C06_strncmp.
Print Assumptions C09_strstr.
Print Assumptions C10_strtok.
Print Assumptions C11_strsep.
