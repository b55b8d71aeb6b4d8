(** C75: wide strings. *)
From Coq Require Import Sorted.
From Verif Require Import Base Check Str_Spec Wcs_Model Wcs_Spec Wcs_Client Wcs_Proof.
Open Scope Z_scope.

Theorem C75_wcslen : forall fuel m p s, wstr_at m p s -> (length s < fuel)%nat -> wcslen fuel m p = Ok (length s).
Proof. exact wcslen_ok. Qed.

(** copying writes exactly the cells it should *)
Theorem C75_wmemset : forall n m d c, mapped m d n ->
  exists m', wmemset n m d c = Ok m' /\ written m m' d (repeat c n).
Proof. exact wmemset_ok. Qed.
Theorem C75_wcscpy : forall fuel m d p s, wstr_at m p s -> mapped m d (length s + 1) ->
  disjoint d (length s + 1) p (length s + 1) -> (length s < fuel)%nat ->
  exists m', wcscpy fuel m d p = Ok m' /\ written m m' d (s ++ [0]).
Proof. intros fuel m d p s. exact (wcscpy_ok s fuel m d p). Qed.
Theorem C75_wcsncpy : forall n m d p s, wnstr_at m p n s -> mapped m d n -> disjoint d n p n ->
  exists m', wcsncpy n m d p = Ok m' /\ written m m' d (s ++ repeat 0 (n - length s)).
Proof. intros n m d p s. exact (wcsncpy_ok s n m d p). Qed.
Theorem C75_wcscat : forall fuel m d p s t, wstr_at m d t -> wstr_at m p s -> mapped m d (length t + length s + 1) ->
  disjoint d (length t + length s + 1) p (length s + 1) -> (length t < fuel)%nat -> (length s < fuel)%nat ->
  exists m', wcscat fuel m d p = Ok m' /\ written m m' (d + Z.of_nat (length t)) (s ++ [0]) /\ wstr_at m' d (t ++ s).
Proof. exact wcscat_ok. Qed.
(** wcsncat: for a terminated source *)
Theorem C75_wcsncat_partial : forall fuel m d p s t n, wstr_at m d t -> wstr_at m p s ->
  mapped m d (length t + length (firstn n s) + 1) ->
  disjoint d (length t + length (firstn n s) + 1) p (length s + 1) -> (length t < fuel)%nat ->
  exists m', wcsncat fuel m d p n = Ok m' /\ written m m' (d + Z.of_nat (length t)) (firstn n s ++ [0]) /\
             wstr_at m' d (t ++ firstn n s).
Proof. exact wcsncat_ok. Qed.

(** an array of n characters without terminator is a valid source for wcsncat, which reads behind its end *)
Definition C75_mem : mem := munion (mem_of 100 [66000; 66; 67]) (mem_of 200 [88; 0; 9; 9; 9; 9]).
Theorem C75_wcsncat_refuted : exists fuel m d p s t n,
  wstr_at m d t /\ wnstr_at m p n s /\ mapped m d (length t + n + 1) /\ disjoint d (length t + n + 1) p n /\
  wcsncat fuel m d p n = UB.
Proof.
  exists 10%nat, C75_mem, 200, 100, [66000; 66; 67], [88], 3%nat.
  split; [split; [chk|repeat apply Forall_cons; try apply Forall_nil; discriminate]|].
  split; [split; [repeat apply Forall_cons; try apply Forall_nil; discriminate|split; [chk|now left]]|].
  split; [chk|]. split; [chk|]. vm_compute. reflexivity.
Qed.

(** comparisons *)
Theorem C75_wcscmp_partial : forall fuel m p q a b, wstr_at m p a -> wstr_at m q b ->
  Forall (fun c => 0 < c <= 2147483647) a -> Forall (fun c => 0 < c <= 2147483647) b -> (length a < fuel)%nat ->
  exists r, wcscmp fuel m p q = Ok r /\ (r ?= 0) = lex a b.
Proof. exact wcscmp_positive. Qed.
(** characters far apart: the difference overflows an int.  WCHAR_MIN and WCHAR_MAX themselves are wide characters *)
Theorem C75_wcscmp_refuted : exists m p q a b, wstr_at m p a /\ wstr_at m q b /\
  Forall wchar a /\ Forall wchar b /\ forall fuel, (0 < fuel)%nat -> wcscmp fuel m p q = UB.
Proof.
  exists (munion (mem_of 100 [-2147483648; 0]) (mem_of 200 [2147483647; 0])), 100, 200, [-2147483648], [2147483647].
  split; [split; [chk|apply Forall_cons; [discriminate|apply Forall_nil]]|].
  split; [split; [chk|apply Forall_cons; [discriminate|apply Forall_nil]]|].
  split; [apply Forall_cons; [unfold wchar; lia|apply Forall_nil]|].
  split; [apply Forall_cons; [unfold wchar; lia|apply Forall_nil]|].
  intros [|f] F; [lia|reflexivity].
Qed.
Theorem C75_wcsncmp : forall n m p q a b, wnstr_at m p n a -> wnstr_at m q n b ->
  exists r, wcsncmp n m p q = Ok r /\ (r ?= 0) = lex (seen n a) (seen n b).
Proof. intros n m p q a b. exact (wcsncmp_ok a n m p q b). Qed.
Theorem C75_wmemcmp : forall m p q a b, bytes_at m p a -> bytes_at m q b -> length a = length b ->
  exists r, wmemcmp (length a) m p q = Ok r /\ (r ?= 0) = lex a b.
Proof. intros m p q a b. exact (wmemcmp_ok a m p q b). Qed.

(** searches *)
Theorem C75_wmemchr : forall m p c l, bytes_at m p l ->
  exists r, wmemchr (length l) m p c = Ok r /\ found_first p r (eq c) l.
Proof. intros m p c l. exact (wmemchr_ok l m p c). Qed.
Theorem C75_wcschr : forall fuel m p s c, wstr_at m p s -> (length s < fuel)%nat ->
  exists r, wcschr fuel m p c = Ok r /\ found_first p r (eq c) (s ++ [0]).
Proof. exact wcschr_ok. Qed.
Theorem C75_wcsrchr : forall fuel m p s c, wstr_at m p s -> (length s < fuel)%nat ->
  exists r, wcsrchr fuel m p c = Ok r /\
    match r with
    | Some q => exists i, q = p + Z.of_nat i /\ last_ix (eq c) (s ++ [0]) i
    | None => ~ In c (s ++ [0])
    end.
Proof. exact wcsrchr_ok. Qed.
Theorem C75_wcsspn : forall fuel m p q s ds, wstr_at m p s -> wstr_at m q ds ->
  (length s < fuel)%nat -> (length ds < fuel)%nat ->
  exists k, wcsspn fuel m p q = Ok k /\ first_ix (fun c => ~ In c ds) (s ++ [0]) k.
Proof. exact wcsspn_first. Qed.
Theorem C75_wcscspn : forall fuel m p q s ds, wstr_at m p s -> wstr_at m q ds ->
  (length s < fuel)%nat -> (length ds < fuel)%nat ->
  exists k, wcscspn fuel m p q = Ok k /\ first_ix (fun c => In c ds \/ c = 0) (s ++ [0]) k.
Proof. exact wcscspn_first. Qed.
Theorem C75_wcspbrk : forall g fuel m p q s ds, wstr_at m p s -> wstr_at m q ds ->
  (length s < fuel)%nat -> (length ds < g)%nat ->
  exists r, wcspbrk g fuel m p q = Ok r /\ found_first p r (fun c => In c ds) s.
Proof. intros g fuel m p q s ds. exact (wcspbrk_ok g s fuel m p q ds). Qed.

(** wcsstr, unless both strings are empty *)
Theorem C75_wcsstr_partial : forall g fuel m p q s pat, wstr_at m p s -> wstr_at m q pat -> s <> [] \/ pat <> [] ->
  (length s < fuel)%nat -> (length pat < g)%nat ->
  exists r, wcsstr g fuel m p q = Ok r /\ leftmost pat s p r.
Proof. intros g fuel m p q s pat. exact (wcsstr_ok g pat s fuel m p q). Qed.
Theorem C75_wcsstr_refuted : exists m p q r, wstr_at m p [] /\ wstr_at m q [] /\
  wcsstr 1 1 m p q = Ok r /\ ~ leftmost [] [] p r.
Proof.
  exists (mem_of 100 [0]), 100, 100, None. split; [split; [chk|constructor]|]. split; [split; [chk|constructor]|].
  split; [reflexivity|]. intros H. apply (H 0%nat). exists [], []. auto.
Qed.

(** wcstok, called until it returns NULL, yields the maximal runs without delimiters *)
Theorem C75_wcstok : forall calls fuel m p q s ds sv,
  wstr_at m p s -> wstr_at m q ds -> disjoint p (length s + 1) q (length ds + 1) ->
  (length s < fuel)%nat -> (length ds < fuel)%nat -> (length (tokens ds s) < calls)%nat ->
  exists m' ts, wcstok_all calls fuel m (Some p) q sv = Ok (m', None, ts) /\
    Forall2 (fun t f => wstr_at m' t f /\ in_place p s t f) ts (tokens ds s) /\
    StronglySorted Z.lt ts /\ only_delims_changed m m' p s ds.
Proof. intros. eapply wcstok_all_ok; try eassumption; [apply Nat.le_refl|reflexivity]. Qed.
Theorem C75_wcstok_after : forall fuel m q, wcstok fuel m None q None = Ok (m, None, None).
Proof. reflexivity. Qed.

Definition C75_mem2 : mem :=
  munion (mem_of 100 [8364; 97; 98; 8364; 59; 99; 0]) (munion (mem_of 200 [59; 8364; 0]) (mem_of 300 [9; 9; 9; 9; 9; 9; 9; 9])).
Example C75_hyps : wstr_at C75_mem2 100 [8364; 97; 98; 8364; 59; 99] /\ wstr_at C75_mem2 200 [59; 8364] /\
  wnstr_at C75_mem2 100 3 [8364; 97; 98] /\ mapped C75_mem2 300 8 /\ disjoint 300 8 100 7 /\ disjoint 100 7 200 3 /\
  tokens [59; 8364] [8364; 97; 98; 8364; 59; 99] = [[97; 98]; [99]] /\
  wcsrchr 9 C75_mem2 100 8364 = Ok (Some 103) /\ wcscspn 9 C75_mem2 101 200 = Ok 2%nat /\
  wcsstr 9 9 C75_mem2 100 103 = Ok (Some 103).
Proof.
  split; [split; [chk|repeat apply Forall_cons; try apply Forall_nil; discriminate]|].
  split; [split; [chk|repeat apply Forall_cons; try apply Forall_nil; discriminate]|].
  split; [split; [repeat apply Forall_cons; try apply Forall_nil; discriminate|split; [chk|now left]]|].
  split; [chk|]. split; [chk|]. split; [chk|]. split; [reflexivity|]. split; [reflexivity|]. split; reflexivity.
Qed.

Print Assumptions C75_wcscpy.
Print Assumptions C75_wcsncmp.
Print Assumptions C75_wcsstr_partial.
Print Assumptions C75_wcstok.
