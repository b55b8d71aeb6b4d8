(** C88: walking a file tree.  The definitions of the tree and of the order of the calls are in Ftw_Spec.v. *)
From Verif Require Import Base Ftw_Model Ftw_Spec Ftw_Proof.
Open Scope Z_scope.

(** the calls nftw makes on the tree at [p], for any file system, callback and flags: those of the levels down to [fd_limit], in order, until a call
    returns something else than 0, which is then returned *)
Theorem C88_walk_levels : forall stat lstat open entries fn fl p fd_limit t,
  0 < fd_limit -> Z.of_nat (length p) <= PATH_MAX -> holds stat lstat open entries (negb (phys fl)) p t -> marked [] t ->
  exists b k, last_component p b /\
    let r := until_nonzero fn [] ((if depth fl then postorder else preorder) 0 b p (top_levels (Z.to_nat fd_limit) (if mount fl then one_device t else t))) in
    nftw stat lstat open entries fn fl p fd_limit = (fst r, (snd r, k)).
Proof.
  intros stat lstat open entries fn fl p fd_limit t F LP H M. destruct (nftw_walk stat lstat open entries fn fl p fd_limit t F LP H M) as (b & k & B & E & _).
  exists b, k. split; [exact B|exact E].
Qed.
Print Assumptions C88_walk_levels.

(** full property: every object of the tree is reported, whatever [fd_limit] is.  Missing: trees deeper than [fd_limit] (see C88_fd_limit_refuted). *)
Theorem C88_walk_partial : forall stat lstat open entries fn fl p fd_limit t,
  0 < fd_limit -> Z.of_nat (length p) <= PATH_MAX -> holds stat lstat open entries (negb (phys fl)) p t -> marked [] t -> Z.of_nat (height t) <= fd_limit ->
  exists b k, last_component p b /\
    let r := until_nonzero fn [] ((if depth fl then postorder else preorder) 0 b p (if mount fl then one_device t else t)) in
    nftw stat lstat open entries fn fl p fd_limit = (fst r, (snd r, k)).
Proof.
  intros stat lstat open entries fn fl p fd_limit t F LP H M HT. destruct (nftw_walk stat lstat open entries fn fl p fd_limit t F LP H M) as (b & k & B & E & _).
  exists b, k. split; [exact B|]. cbv zeta in *. rewrite top_levels_whole in E; [exact E|].
  destruct (mount fl); [apply height_one_device|]; lia.
Qed.
Print Assumptions C88_walk_partial.

(** full property: nftw closes every descriptor it opened.  Missing: a callback that stops the walk at a directory reported before its contents, and
    directories that are met again (see the refutations). *)
Theorem C88_descriptors_partial : forall stat lstat open entries fn fl p fd_limit t,
  0 < fd_limit -> Z.of_nat (length p) <= PATH_MAX -> holds stat lstat open entries (negb (phys fl)) p t -> marked [] t -> loop_free t ->
  exists v calls k, nftw stat lstat open entries fn fl p fd_limit = (v, (calls, k)) /\ 0 <= k <= 1 /\ (v = 0 \/ depth fl = true -> k = 0).
Proof.
  intros stat lstat open entries fn fl p fd_limit t F LP H M LF. destruct (nftw_walk stat lstat open entries fn fl p fd_limit t F LP H M) as (b & k & _ & E & K).
  cbv zeta in *. specialize (K LF). do 3 eexists. split; [exact E|]. destruct (lk_bounds fd_limit (until_nonzero fn [] ((if depth fl then postorder else preorder) 0 b p (top_levels (Z.to_nat fd_limit) (if mount fl then one_device t else t))))) as [B1 B2].
  rewrite K. split; [exact B1|]. intros [V|D]; [apply B2, V|]. rewrite D. apply lk_post.
Qed.
Print Assumptions C88_descriptors_partial.

(** nothing is reported if [fd_limit] is not positive or the path is too long *)
Theorem C88_refused : forall stat lstat open entries fn fl p fd_limit,
  fd_limit <= 0 \/ PATH_MAX < Z.of_nat (length p) ->
  nftw stat lstat open entries fn fl p fd_limit = (if fd_limit <=? 0 then 0 else -1, ([], 0)).
Proof.
  intros stat lstat open entries fn fl p fd_limit H. unfold nftw. destruct (Z.leb_spec fd_limit 0); [reflexivity|].
  destruct (Z.ltb_spec PATH_MAX (Z.of_nat (length p))); [reflexivity|lia].
Qed.
Print Assumptions C88_refused.

(** a directory that cannot be opened for another reason than permission, or a path without status, ends the walk with -1 *)
Theorem C88_failure : forall stat lstat open entries fn fl p fd_limit e,
  0 < fd_limit -> Z.of_nat (length p) <= PATH_MAX -> e <> EACCES ->
  let look := if phys fl then lstat p else stat p in
  (look = inr e /\ lstat p = inr e -> nftw stat lstat open entries fn fl p fd_limit = (-1, ([], 0))) /\
  (forall d i, look = inl (DIR, d, i) -> open p = Some e -> exists v calls, nftw stat lstat open entries fn fl p fd_limit = (v, (calls, 0)) /\
     (if depth fl then v = -1 /\ calls = [] else exists b, calls = [{| e_path := p; e_dev := d; e_ino := i; e_type := FTW_D; e_level := 0; e_base := b |}] /\
        v = (let w := fn [] {| e_path := p; e_dev := d; e_ino := i; e_type := FTW_D; e_level := 0; e_base := b |} in if w =? 0 then -1 else w))).
Proof. exact nftw_failure. Qed.
Print Assumptions C88_failure.

(** ** A file system: r is a directory with the directory d, which holds the file x, and the symbolic link f to r *)
Definition r_ := [114]. Definition d_ := [114; 47; 100]. Definition x_ := [114; 47; 100; 47; 120]. Definition f_ := [114; 47; 102].
Definition is (p q : list Z) : bool := if list_Z_eq_dec p q then true else false.
Definition ex_lstat (p : list Z) : stat_t + Z :=
  if is p r_ then inl (DIR, 1, 1) else if is p d_ then inl (DIR, 1, 2) else if is p x_ then inl (OTHER, 1, 4) else if is p f_ then inl (LNK, 1, 3) else inr ENOENT.
Definition ex_stat (p : list Z) : stat_t + Z := if is p f_ then inl (DIR, 1, 1) else ex_lstat p.
Definition ex_open (p : list Z) : option Z := match ex_stat p with inl _ => None | inr e => Some e end.
Definition ex_entries (p : list Z) : list (list Z) :=
  if is p r_ then [[46]; [46; 46]; [100]; [102]] else if is p d_ then [[46]; [120]; [46; 46]] else if is p f_ then [[46]; [46; 46]; [100]; [102]] else [].
Definition ex_tree (last : what) (ino : Z) : tree := T Dir 1 1 [([100], T Dir 1 2 [([120], T File 1 4 [])]); ([102], T last 1 ino [])].

Lemma ex_holds_phys : holds ex_stat ex_lstat ex_open ex_entries false r_ (ex_tree Symlink 3).
Proof.
  constructor; [split; reflexivity|reflexivity|congruence| |].
  - intros n t [E|[E|[]]]; injection E as <- <-; reflexivity.
  - intros n t [E|[E|[]]]; injection E as <- <-.
    + constructor; [split; reflexivity|reflexivity|congruence| |]; intros n t [E|[]]; injection E as <- <-; [reflexivity|].
      constructor; [reflexivity|discriminate|reflexivity|intros n t []|intros n t []].
    + constructor; [split; reflexivity|discriminate|reflexivity|intros n t []|intros n t []].
Qed.
Lemma ex_holds_follow : holds ex_stat ex_lstat ex_open ex_entries true r_ (ex_tree Loop 1).
Proof.
  constructor; [split; reflexivity|reflexivity|congruence| |].
  - intros n t [E|[E|[]]]; injection E as <- <-; reflexivity.
  - intros n t [E|[E|[]]]; injection E as <- <-.
    + constructor; [split; reflexivity|reflexivity|congruence| |]; intros n t [E|[]]; injection E as <- <-; [reflexivity|].
      constructor; [reflexivity|discriminate|reflexivity|intros n t []|intros n t []].
    + constructor; [split; reflexivity|discriminate|reflexivity|intros n t []|intros n t []].
Qed.
Ltac not_there := split; [discriminate|cbn; intros I; repeat (destruct I as [I|I]; [discriminate I|]); destruct I].
Lemma ex_marked : marked [] (ex_tree Symlink 3) /\ loop_free (ex_tree Symlink 3) /\ marked [] (ex_tree Loop 1).
Proof.
  split; [|split].
  - constructor; [not_there|]. intros n t [E|[E|[]]]; injection E as <- <-; (constructor; [not_there|]); intros n t I; [|destruct I].
    destruct I as [E|[]]. injection E as <- <-. constructor; [not_there|intros n t []].
  - constructor; [discriminate|]. intros n t [E|[E|[]]]; injection E as <- <-; (constructor; [discriminate|]); intros n t I; [|destruct I].
    destruct I as [E|[]]. injection E as <- <-. constructor; [discriminate|intros n t []].
  - constructor; [not_there|]. intros n t [E|[E|[]]]; injection E as <- <-.
    + constructor; [not_there|]. intros n t [E|[]]. injection E as <- <-. constructor; [not_there|intros n t []].
    + constructor; [|intros n t []]. split; [intros _; left; reflexivity|reflexivity].
Qed.
(** the hypotheses of the theorems hold for it, and the calls are what one expects *)
Example C88_walk_example :
  holds ex_stat ex_lstat ex_open ex_entries false r_ (ex_tree Symlink 3) /\ marked [] (ex_tree Symlink 3) /\ loop_free (ex_tree Symlink 3) /\ height (ex_tree Symlink 3) = 2%nat /\
  nftw ex_stat ex_lstat ex_open ex_entries (fun _ _ => 0) {| phys := true; mount := false; depth := true |} r_ 2 =
  (0, ([{| e_path := x_; e_dev := 1; e_ino := 4; e_type := FTW_F; e_level := 2; e_base := 4 |};
        {| e_path := d_; e_dev := 1; e_ino := 2; e_type := FTW_DP; e_level := 1; e_base := 2 |};
        {| e_path := f_; e_dev := 1; e_ino := 3; e_type := FTW_SL; e_level := 1; e_base := 2 |};
        {| e_path := r_; e_dev := 1; e_ino := 1; e_type := FTW_DP; e_level := 0; e_base := 0 |}], 0)).
Proof. split; [exact ex_holds_phys|]. destruct ex_marked as (A & B & _). repeat (split; [assumption || reflexivity|]). reflexivity. Qed.
Example C88_last_component_example : last_component [97; 47; 98; 98; 47; 47] 2.
Proof. exists [97; 47], [98; 98], [47; 47]. cbn. unfold slash. intuition (discriminate || congruence || auto). Qed.

(** with one descriptor the walk of this tree succeeds without a word about the file x *)
Theorem C88_fd_limit_refuted : exists stat lstat open entries fn fl p t calls k e,
  holds stat lstat open entries (negb (phys fl)) p t /\ marked [] t /\ (forall past ev, fn past ev = 0) /\ depth fl = false /\ mount fl = false /\
  nftw stat lstat open entries fn fl p 1 = (0, (calls, k)) /\ In e (preorder 0 0 p t) /\ ~ In e calls.
Proof.
  exists ex_stat, ex_lstat, ex_open, ex_entries, (fun _ _ => 0), {| phys := true; mount := false; depth := false |}, r_, (ex_tree Symlink 3).
  do 2 eexists. exists {| e_path := x_; e_dev := 1; e_ino := 4; e_type := FTW_F; e_level := 2; e_base := 4 |}.
  destruct ex_marked as (A & _ & _). split; [exact ex_holds_phys|]. split; [exact A|]. split; [reflexivity|]. split; [reflexivity|]. split; [reflexivity|].
  split; [cbv -[Z.add Z.of_nat]; reflexivity|]. split; [cbn; auto|]. cbn. intuition discriminate.
Qed.
Print Assumptions C88_fd_limit_refuted.
(** a callback that stops the walk at a directory leaves its descriptor open *)
Theorem C88_stop_refuted : exists stat lstat open entries fn fl p t calls v k,
  holds stat lstat open entries (negb (phys fl)) p t /\ marked [] t /\ loop_free t /\
  nftw stat lstat open entries fn fl p 5 = (v, (calls, k)) /\ v <> 0 /\ k = 1.
Proof.
  exists ex_stat, ex_lstat, ex_open, ex_entries, (fun _ _ => 7), {| phys := true; mount := false; depth := false |}, r_, (ex_tree Symlink 3).
  do 3 eexists. destruct ex_marked as (A & B & _). split; [exact ex_holds_phys|]. split; [exact A|]. split; [exact B|]. split; [reflexivity|]. split; [discriminate|reflexivity].
Qed.
Print Assumptions C88_stop_refuted.
(** following a symbolic link to a directory above leaves its descriptor open although the walk succeeds; and with FTW_DEPTH the link is not reported *)
Theorem C88_loop_refuted : exists stat lstat open entries fn p t calls,
  holds stat lstat open entries true p t /\ marked [] t /\
  (exists calls', nftw stat lstat open entries fn {| phys := false; mount := false; depth := false |} p 5 = (0, (calls', 1))) /\
  nftw stat lstat open entries fn {| phys := false; mount := false; depth := true |} p 5 = (0, (calls, 1)) /\
  In [102] (entries p) /\ ~ In (join p [102]) (map e_path calls).
Proof.
  exists ex_stat, ex_lstat, ex_open, ex_entries, (fun _ _ => 0), r_, (ex_tree Loop 1). eexists.
  destruct ex_marked as (_ & _ & A). split; [exact ex_holds_follow|]. split; [exact A|]. split; [eexists; reflexivity|]. split; [reflexivity|].
  split; [cbn; auto|]. cbn. intuition discriminate.
Qed.
Print Assumptions C88_loop_refuted.
