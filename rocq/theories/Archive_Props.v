(** C103: reading locale archives and locale files. *)
From Verif Require Import Base Archive_Model Archive_Spec Archive_Proof.
From Coq Require Import Znumtheory.
Open Scope Z_scope.

(** In a well-built archive the lookup ends and gives the record of the first of the names that the archive has, or nothing if it has none. *)
Theorem C103_finds : forall f t names fuel, archive f t -> well_built t -> (length t <= fuel)%nat ->
  exists a, find_record fuel f names = Ok a /\ answer t names a.
Proof.
  intros f t names fuel A W L. destruct (find_table f t fuel names A) as (tb & -> & N & F & ST). apply search_found; auto.
Qed.
Print Assumptions C103_finds.

(** Whatever the archive contains, nothing outside it is read, if it has at least the size of a record (108 bytes). *)
Theorem C103_bounds_partial : forall f names c fuel, bytes f -> 108 <= size f < 2 ^ 64 -> 0 <= c <= 12 ->
  lookup_category fuel f names c <> UB /\ lookup_category fuel f names c <> Abort.
Proof. intros. apply lookup_safe; auto. Qed.
Print Assumptions C103_bounds_partial.

(** What is found is a part of the archive: the one that the record names. *)
Theorem C103_category : forall f rec c b, bytes f -> category_bytes f rec c = Ok (Some b) ->
  exists off len pre post, word_at f (rec + 4 + 8 * c) off /\ word_at f (rec + 4 + 8 * c + 4) len /\ f = pre ++ b ++ post /\ size pre = off /\ size b = len /\ len <> 0.
Proof.
  intros f rec c b BY H. unfold category_bytes in H. destruct (rd32 f (rec + 4 + 8 * c)) as [off| | |] eqn:O1; try discriminate. destruct (rd32 f (rec + 4 + 8 * c + 4)) as [len| | |] eqn:L1; try discriminate. cbn [bind] in H.
  destruct (Z.eqb_spec off 0); [discriminate|]. destruct (Z.eqb_spec len 0); [discriminate|]. cbn [orb] in H. destruct (Z.ltb_spec (size f) off); [discriminate|]. destruct (Z.ltb_spec (size f - off) len); [discriminate|]. cbn [orb] in H. injection H as <-.
  pose proof (rd32_range _ _ _ BY O1). pose proof (rd32_range _ _ _ BY L1). destruct (slice_parts f off (off + len)) as (a & b & E & A & B); [lia|lia|]. replace (off + len - off) with len in * by ring.
  exists off, len, a, b. split; [now apply word_intro|]. split; [now apply word_intro|]. auto.
Qed.
Print Assumptions C103_category.

(** An item of a category is the bytes from its offset to the next one, or to the end; it is missing if they are not in order or not inside. *)
Theorem C103_items : forall c r n i, bytes r -> size r < 2 ^ 32 -> elements c r = Ok (Some n) -> 0 <= i < n ->
  exists o e x, word_at r (8 + 4 * i) o /\ (i + 1 < n -> word_at r (8 + 4 * (i + 1)) e) /\ (i + 1 = n -> e = size r) /\ item r n i = Ok x /\
    match x with
    | Some s => exists pre post, r = pre ++ s ++ post /\ size pre = o /\ size s = e - o
    | None => ~ (o <= e <= size r)
    end.
Proof.
  intros c r n i BY SZ EL I. apply elements_ok in EL; auto. destruct (item_ok r n i BY SZ) as (o & e & A & B & C & D); [lia|lia|].
  exists o, e, (if (o <=? e) && (e <=? size r) then Some (slice r o (e - o)) else None). split; [now apply word_intro|]. split; [intros H; apply word_intro; auto|]. split; auto. split; auto.
  pose proof (rd32_range _ _ _ BY A). destruct (Z.leb_spec o e); destruct (Z.leb_spec e (size r)); cbn [andb]; try lia. destruct (slice_parts r o e) as (a & b & E & L1 & L2); [lia|lia|]. exists a, b. auto.
Qed.
Print Assumptions C103_items.
(** A file is taken for a category only if it has its magic number and room for its offsets. *)
Theorem C103_magic : forall c r, bytes r ->
  (elements c r = Ok None \/ exists n, elements c r = Ok (Some n) /\ word_at r 0 (magic c) /\ word_at r 4 n /\ 8 + 4 * n <= size r).
Proof.
  intros c r BY. unfold elements. destruct (Z.ltb_spec (size r) 8); auto. destruct (rd32_in r 0) as [m M]; [lia|lia|]. rewrite M. cbn [bind]. destruct (Z.eqb_spec m (magic c)) as [->|]; auto. cbn [negb].
  destruct (rd32_in r 4) as [n N]; [lia|lia|]. rewrite N. cbn [bind]. destruct (Z.ltb_spec (size r) (8 + 4 * n)); auto. right. exists n. split; auto. split; [now apply word_intro|]. split; [now apply word_intro|auto].
Qed.
Print Assumptions C103_magic.
Theorem C103_magic_values : map magic [0; 1; 2; 3; 4; 5; 7; 8; 9; 10; 11; 12] =
  [537462560; 537071892; 537071895; 537202711; 537071889; 537071888; 537071890; 537071901; 537071900; 537071903; 537071902; 537071897].
Proof. now vm_compute. Qed.
Print Assumptions C103_magic_values.

(** A string ends with its first zero byte. *)
Theorem C103_string_partial : forall s r, ~ In 0 s -> parse_string (s ++ 0 :: r) = s ++ [0].
Proof.
  intros s r N. unfold parse_string. rewrite cstr_stop by auto. rewrite Nat.min_l by (rewrite app_length; cbn; lia). rewrite firstn_app, firstn_all2 by lia. f_equal. replace (length s + 1 - length s)%nat with 1%nat by lia. reflexivity.
Qed.
Print Assumptions C103_string_partial.
(** Refuted: every string from a locale file ends with a zero byte.  If an item has none, it is used without one. *)
Theorem C103_string_refuted : forall s, ~ In 0 s -> parse_string s = s.
Proof. intros s N. unfold parse_string. rewrite cstr_none by auto. apply firstn_all2. lia. Qed.
Print Assumptions C103_string_refuted.

(** Refuted: the lookup of a name always ends.  With a full table it never does for a name that is not in it. *)
Theorem C103_end_refuted : forall f t e l, archive f t -> ~ In None t -> (forall r, ~ In (Some (e, r)) t) -> forall fuel, find_record fuel f (e :: l) = Fuel.
Proof.
  intros f t e l A FULL NE fuel. destruct (find_table f t fuel (e :: l) A) as (tb & -> & N & F & ST). cbn [search]. rewrite hash_same.
  rewrite <- (tried0 t (hash e)). rewrite (probe_loops f t tb); auto.
Qed.
Print Assumptions C103_end_refuted.

(** Non-vacuity: an archive with a table of three slots *)
Definition w (v : Z) : list Z := [v mod 256; v / 256 mod 256; v / 65536 mod 256; v / 16777216].
Definition de : list Z := [100; 101].
Definition fr : list Z := [102; 114].
Definition header : list Z := w 3724673289 ++ w 0 ++ w 56 ++ w 1 ++ w 3 ++ flat_map (fun _ => w 0) (seq 0 9).
Definition strings : list Z := de ++ [0] ++ fr ++ [0] ++ [97; 0].
Definition record : list Z := w 1 ++ flat_map (fun c => w 208 ++ w 4) (seq 0 13).
Definition build (slots : list Z) : list Z := header ++ slots ++ strings ++ record ++ [1; 2; 3; 4].
Definition used (nm : list Z) (o : Z) : list Z := w (hash nm) ++ w o ++ w 100.
Definition empty : list Z := w 0 ++ w 0 ++ w 0.
Definition f1 : list Z := build (used de 92 ++ used [97] 98 ++ empty).
Definition t1 : table := [Some (de, 100); Some ([97], 100); None].
Definition f2 : list Z := build (used de 92 ++ used [97] 98 ++ used fr 95).
Definition t2 : table := [Some (de, 100); Some ([97], 100); Some (fr, 100)].
Ltac check_archive t := 
  split; [apply bytes_check; now vm_compute|]; split; [now vm_compute|]; exists 56;
  split; [apply word_intro; now vm_compute|]; split; [apply word_intro; now vm_compute|]; split; [lia|]; split; [now vm_compute|]; split; [now vm_compute|];
  intros i I; assert (X : i = 0 \/ i = 1 \/ i = 2) by (change (0 <= i < 3) in I; lia); destruct X as [->|[->| ->]].
Ltac check_slot nm o := match goal with |- stored ?f ?p _ => change (stored f p (Some (nm, 100))) end; exists o; split; [apply word_intro; now vm_compute|]; split; [apply word_intro; now vm_compute|]; split; [apply word_intro; now vm_compute|]; split; [reflexivity|]; split; [apply string_intro; now vm_compute|now vm_compute].
Example C103_archive1 : archive f1 t1.
Proof.
  check_archive t1; [check_slot de 92|check_slot [97] 98|].
  match goal with |- stored ?f ?p _ => change (stored f p None) end. exists 0, 0. split; [apply word_intro; now vm_compute|]. split; apply word_intro; now vm_compute.
Qed.
Example C103_well_built1 : well_built t1.
Proof.
  split; [exact prime_3|]. split; [now (right; right; left)|]. intros nm r [H|[H|[H|[]]]]; [| |discriminate]; injection H as <- <-.
  - exists 0. split; [lia|]. split; [now vm_compute|]. intros j J. lia.
  - exists 1. split; [lia|]. split; [now vm_compute|]. intros j J. replace j with 0 by lia. now vm_compute.
Qed.
Example C103_find1 : find_record 3 f1 [fr; [97]; de] = Ok (Some 100) /\ find_record 3 f1 [fr] = Ok None /\ lookup_category 3 f1 [fr; [97]] 5 = Ok (Some [1; 2; 3; 4]).
Proof. now vm_compute. Qed.
Example C103_archive2 : archive f2 t2 /\ ~ In None t2 /\ forall r, ~ In (Some ([98], r)) t2.
Proof.
  split; [check_archive t2; [check_slot de 92|check_slot [97] 98|check_slot fr 95]|]. split; cbn; [intuition discriminate|]. intros r. intuition discriminate.
Qed.
(** Refuted: nothing outside an archive is read.  The size of a record is subtracted from a smaller size. *)
Theorem C103_bounds_refuted : exists f, bytes f /\ 56 <= size f < 108 /\ find_record 3 f [de] = Ok (Some 100) /\ lookup_category 3 f [de] 0 = UB.
Proof.
  exists (header ++ (used de 92 ++ empty ++ empty) ++ strings). split; [apply bytes_check; now vm_compute|]. split; [now vm_compute|]. now vm_compute.
Qed.
Print Assumptions C103_bounds_refuted.
(** a category of two items, the second one without end *)
Example C103_item_example : let r := w (magic 5) ++ w 2 ++ w 16 ++ w 18 ++ [121; 0; 110; 111] in
  elements 5 r = Ok (Some 2) /\ item r 2 0 = Ok (Some [121; 0]) /\ item r 2 1 = Ok (Some [110; 111]) /\ parse_string [110; 111] = [110; 111] /\ elements 4 r = Ok None.
Proof. now vm_compute. Qed.
