(** C86: the user and group files. *)
From Verif Require Import Base Mem_Model Inet_Model Hosts_Spec Users_Model Users_Spec Users_Proof.
Open Scope Z_scope.

(** the entry with the fields of a user (group) *)
Definition user_entry (u : user) : passwd := {| pw_name := u_name u; pw_passwd := u_pass u; pw_uid := u_uid u; pw_gid := u_gid u; pw_gecos := u_full u; pw_dir := u_dir u; pw_shell := u_shell u |}.
Definition group_entry (g : grp) : group := {| gr_name := g_name g; gr_passwd := g_pass g; gr_gid := g_gid g; gr_mem := g_members g |}.
Definition len (s : list Z) : Z := Z.of_nat (length s).

(** a decimal parser, for the examples *)
Definition parse_dec (l : list Z) : option Z := Some (fold_left (fun a c => 10 * a + (c - 48)) l 0).
Theorem parse_dec_reads : reads_numbers parse_dec.
Proof.
  intros l v D _. unfold parse_dec. f_equal. induction D as [d D|l v d _ IH D]; [cbn [fold_left]; lia|]. rewrite fold_left_app, IH. cbn [fold_left]. lia.
Qed.

(** Users: getpwnam and getpwuid find the first user with that name (number), with all the fields of the line. *)
Theorem C86_user : forall to_number us f, reads_numbers to_number -> user_file us f -> forall n, (length f < n)%nat ->
  (forall name r, first (fun u => u_name u = name) us r -> getpwnam to_number n name f = Ok (option_map user_entry r)) /\
  (forall uid r, first (fun u => u_uid u = uid) us r -> getpwuid to_number n uid f = Ok (option_map user_entry r)).
Proof.
  intros to_number us f NUM F n N. split.
  - intros name r R. unfold getpwnam. rewrite (find_pw_ok _ NUM _ _ _ F _ N). f_equal. apply (find_is to_pw _ (fun u => u_name u = name)); [intros u; apply same_iff|exact R].
  - intros uid r R. unfold getpwuid. rewrite (find_pw_ok _ NUM _ _ _ F _ N). f_equal. apply (find_is to_pw _ (fun u => u_uid u = uid)); [intros u; apply Z.eqb_eq|exact R].
Qed.

(** The reentrant forms: status 0 with no result if there is no such user; the strings in the buffer, and nothing outside of it changed,
    if they fit; ERANGE (34) and memory unchanged otherwise.  The full name is not copied: it is left in memory that nobody frees. *)
Theorem C86_user_r : forall to_number us f name m buf size, reads_numbers to_number -> user_file us f -> 0 <= size -> mapped m buf (Z.to_nat size) -> forall n, (length f < n)%nat ->
  (first (fun u => u_name u = name) us None -> getpwnam_r to_number n name f m buf size = Ok (0, None)) /\
  (forall u, first (fun u => u_name u = name) us (Some u) ->
     (size < len (u_name u) + len (u_pass u) + len (u_dir u) + len (u_shell u) + 4 -> getpwnam_r to_number n name f m buf size = Ok (34, None)) /\
     (len (u_name u) + len (u_pass u) + len (u_dir u) + len (u_shell u) + 4 <= size ->
      exists m' pn pd ps pp, getpwnam_r to_number n name f m buf size = Ok (0, Some (user_entry u, m', (pn, pd, ps, pp))) /\
        str_at m' pn (u_name u) /\ str_at m' pd (u_dir u) /\ str_at m' ps (u_shell u) /\ str_at m' pp (u_pass u) /\
        same_outside m m' buf (Z.to_nat size) /\ buf <= pn /\ pn + len (u_name u) + 1 <= buf + size /\ buf <= pd /\ pd + len (u_dir u) + 1 <= buf + size /\
        buf <= ps /\ ps + len (u_shell u) + 1 <= buf + size /\ buf <= pp /\ pp + len (u_pass u) + 1 <= buf + size)).
Proof.
  intros to_number us f name m buf size NUM F S0 MP n N. unfold getpwnam_r, find_pw_r.
  assert (E : forall r, first (fun u => u_name u = name) us r -> find_pw to_number n (fun e => same (pw_name e) name) f = Ok (option_map user_entry r)) by (intros r; apply (C86_user _ _ _ NUM F _ N)).
  split; [intros R; rewrite (E _ R); reflexivity|]. intros u R. rewrite (E _ R). cbn [bind option_map]. apply first_in in R as [I _]. pose proof (file_users _ _ F) as FU. rewrite Forall_forall in FU. destruct (FU _ I) as (l & L). apply user_field in L as (F1 & F2 & F3 & F4).
  split; intros SZ.
  - rewrite pw_copy_small; [reflexivity|]. unfold pw_size, size_of, len in *. cbn. lia.
  - destruct (pw_copy_ok m buf size (user_entry u)) as (m' & pd & ps & pp & -> & A & B & C & D & O & BD); try (apply field_bytes; assumption); [unfold pw_size, size_of, len in *; cbn; lia|exact MP|]. cbn [bind].
    exists m', buf, pd, ps, pp. split; [reflexivity|]. unfold size_of, len in *. cbn in BD, A, B, C, D. split; [exact A|]. split; [exact B|]. split; [exact C|]. split; [exact D|]. split; [exact O|]. lia.
Qed.
Theorem C86_user_number_r : forall to_number us f uid m buf size, reads_numbers to_number -> user_file us f -> 0 <= size -> mapped m buf (Z.to_nat size) -> forall n, (length f < n)%nat ->
  (first (fun u => u_uid u = uid) us None -> getpwuid_r to_number n uid f m buf size = Ok (0, None)) /\
  (forall u, first (fun u => u_uid u = uid) us (Some u) ->
     (size < len (u_name u) + len (u_pass u) + len (u_dir u) + len (u_shell u) + 4 -> getpwuid_r to_number n uid f m buf size = Ok (34, None)) /\
     (len (u_name u) + len (u_pass u) + len (u_dir u) + len (u_shell u) + 4 <= size ->
      exists m' pn pd ps pp, getpwuid_r to_number n uid f m buf size = Ok (0, Some (user_entry u, m', (pn, pd, ps, pp))) /\
        str_at m' pn (u_name u) /\ str_at m' pd (u_dir u) /\ str_at m' ps (u_shell u) /\ str_at m' pp (u_pass u) /\ same_outside m m' buf (Z.to_nat size))).
Proof.
  intros to_number us f uid m buf size NUM F S0 MP n N. unfold getpwuid_r, find_pw_r.
  assert (E : forall r, first (fun u => u_uid u = uid) us r -> find_pw to_number n (fun e => pw_uid e =? uid) f = Ok (option_map user_entry r)) by (intros r; apply (C86_user _ _ _ NUM F _ N)).
  split; [intros R; rewrite (E _ R); reflexivity|]. intros u R. rewrite (E _ R). cbn [bind option_map]. apply first_in in R as [I _]. pose proof (file_users _ _ F) as FU. rewrite Forall_forall in FU. destruct (FU _ I) as (l & L). apply user_field in L as (F1 & F2 & F3 & F4).
  split; intros SZ.
  - rewrite pw_copy_small; [reflexivity|]. unfold pw_size, size_of, len in *. cbn. lia.
  - destruct (pw_copy_ok m buf size (user_entry u)) as (m' & pd & ps & pp & -> & A & B & C & D & O & BD); try (apply field_bytes; assumption); [unfold pw_size, size_of, len in *; cbn; lia|exact MP|]. cbn [bind].
    exists m', buf, pd, ps, pp. split; [reflexivity|]. split; [exact A|]. split; [exact B|]. split; [exact C|]. split; [exact D|]. exact O.
Qed.

(** Written and read back: putpwent refuses fields with a newline or a colon, and what it writes is read back as it was. *)
Theorem C86_user_trip : forall to_number u f, reads_numbers to_number ->
  (field (u_name u) -> field (u_pass u) -> field (u_full u) -> field (u_dir u) -> field (u_shell u) -> 0 <= u_uid u < 2 ^ 31 -> 0 <= u_gid u < 2 ^ 31 ->
   exists l, putpwent (user_entry u) = Some l /\ ((length l <= 511)%nat -> fgetpwent to_number (l ++ f) = (Some (user_entry u), f))) /\
  (putpwent (user_entry u) = None <-> exists s, In s [u_name u; u_pass u; u_full u; u_dir u; u_shell u] /\ (In 10 s \/ In 58 s)).
Proof.
  intros to_number u f NUM. split.
  - intros F1 F2 F3 F4 F5 U G. eexists. split; [unfold putpwent; cbn [user_entry pw_name pw_passwd pw_gecos pw_dir pw_shell]; rewrite !bad_false by assumption; reflexivity|]. intros L.
    assert (UL : user_line u (u_name u ++ 58 :: u_pass u ++ 58 :: num 10 (u_uid u) ++ 58 :: num 10 (u_gid u) ++ 58 :: u_full u ++ 58 :: u_dir u ++ 58 :: u_shell u ++ [10])).
    { exists (num 10 (u_uid u)), (num 10 (u_gid u)). split; [apply number_decimal; [change (2 ^ Z.of_nat 64) with 18446744073709551616; lia|lia]|]. split; [apply number_decimal; [change (2 ^ Z.of_nat 64) with 18446744073709551616; lia|lia]|]. split; [lia|]. split; [lia|]. repeat (split; [assumption|]). reflexivity. }
    unfold fgetpwent. cbn [user_entry pw_name pw_passwd pw_gecos pw_dir pw_shell pw_uid pw_gid] in *. destruct (fgets_line _ f (user_nl _ _ UL) L) as [E NE]. rewrite E. rewrite (extract_user _ NUM _ _ UL).
    destruct (u_name u ++ 58 :: _) eqn:K; [contradiction|reflexivity].
  - unfold putpwent. cbn [user_entry pw_name pw_passwd pw_gecos pw_dir pw_shell].
    destruct (bad_field (u_name u) || bad_field (u_pass u) || bad_field (u_full u) || bad_field (u_dir u) || bad_field (u_shell u)) eqn:B.
    + split; [intros _|reflexivity]. rewrite !orb_true_iff in B. destruct B as [[[[B|B]|B]|B]|B]; apply bad_true in B; eexists; (split; [|exact B]); cbn; tauto.
    + split; [discriminate|]. intros (s & I & H). apply bad_true in H. rewrite !orb_false_iff in B. destruct B as [[[[B1 B2] B3] B4] B5]. cbn in I. destruct I as [<-|[<-|[<-|[<-|[<-|[]]]]]]; congruence.
Qed.

(** Groups: getgrnam and getgrgid find the first group with that name (number), with all its members. *)
Theorem C86_group_partial : forall to_number gs f, reads_numbers to_number -> group_file gs f -> forall n, (length f < n)%nat ->
  (forall name r, first (fun g => g_name g = name) gs r -> getgrnam to_number n name f = Ok (option_map group_entry r)) /\
  (forall gid r, first (fun g => g_gid g = gid) gs r -> getgrgid to_number n gid f = Ok (option_map group_entry r)).
Proof.
  intros to_number gs f NUM F n N. split.
  - intros name r R. unfold getgrnam. rewrite (walk_ok _ NUM _ _ _ F _ N). f_equal. apply (find_is to_gr _ (fun g => g_name g = name)); [intros g; apply same_iff|exact R].
  - intros gid r R. unfold getgrgid. rewrite (walk_ok _ NUM _ _ _ F _ N). f_equal. apply (find_is to_gr _ (fun g => g_gid g = gid)); [intros g; apply Z.eqb_eq|exact R].
Qed.

(** The groups of a user: the given group and those that list the user, in the order of the file.  If there is room for all of them their
    number is returned, otherwise -1; the number is stored in both cases, and as many groups as there is room for. *)
Theorem C86_group_list : forall to_number gs f user gid limit sel, reads_numbers to_number -> group_file gs f -> 0 <= limit ->
  (forall g, sel g = true <-> In user (g_members g)) -> forall n, (length f < n)%nat ->
  let all := gid :: map g_gid (filter sel gs) in
  getgrouplist to_number n user gid limit f = Ok (if len all <=? limit then len all else -1, len all, firstn (Z.to_nat limit) all).
Proof.
  intros to_number gs f user gid limit sel NUM F L0 SEL n N all. assert (E : filter (lists user) gs = filter sel gs).
  { apply filter_ext. intros g. destruct (sel g) eqn:K; [apply lists_iff, SEL; exact K|]. destruct (lists user g) eqn:K'; [|reflexivity]. apply lists_iff, SEL in K'. congruence. }
  assert (LA : len all = 1 + Z.of_nat (length (filter (lists user) gs))) by (unfold len, all; cbn [length]; rewrite map_length, E; lia).
  unfold getgrouplist. rewrite (collect_ok _ NUM _ _ _ _ F); [|exact N|lia|destruct (Z.leb_spec 1 limit); cbn [length]; lia]. cbn [bind]. f_equal. rewrite <- LA. f_equal; [f_equal|].
  - destruct (Z.ltb_spec limit (len all)), (Z.leb_spec (len all) limit); try reflexivity; lia.
  - rewrite E. unfold all. destruct (Z.leb_spec 1 limit).
    + replace (Z.to_nat limit) with (S (Z.to_nat (limit - 1))) by lia. reflexivity.
    + replace limit with 0 by lia. reflexivity.
Qed.

(** The reentrant forms, for a buffer aligned to pointers: the strings and the array of members in the buffer if it has room for them and the
    password; ERANGE if it has not even room for the others; ESRCH (3) if there is no such group. *)
Definition group_room (g : grp) : Z := 8 * (Z.of_nat (length (g_members g)) + 1) + fold_right (fun s a => len s + 1 + a) 0 (g_members g) + len (g_name g) + 1.
Lemma room_size g : group_room g = gr_size (group_entry g).
Proof.
  unfold group_room, gr_size. rewrite members_sum. cbn [group_entry gr_mem gr_name]. assert (E : fold_right (fun s a => len s + 1 + a) 0 (g_members g) = strings_size (g_members g)); [|rewrite E; unfold size_of, len; lia].
  induction (g_members g) as [|s r IH]; [reflexivity|]. cbn [fold_right strings_size]. rewrite IH. unfold size_of, len. lia.
Qed.
Theorem C86_group_r_partial : forall to_number gs f name m buf size, reads_numbers to_number -> group_file gs f -> 0 <= size -> mapped m buf (Z.to_nat size) -> buf mod 8 = 0 -> forall n, (length f < n)%nat ->
  (first (fun g => g_name g = name) gs None -> getgrnam_r to_number n name f m buf size = Ok (3, None)) /\
  (forall g, first (fun g => g_name g = name) gs (Some g) ->
     (size < group_room g -> getgrnam_r to_number n name f m buf size = Ok (34, None)) /\
     (group_room g + len (g_pass g) + 1 <= size ->
      exists m' pm pn pp, getgrnam_r to_number n name f m buf size = Ok (0, Some (group_entry g, m', (pm, pn, pp))) /\
        str_at m' pn (g_name g) /\ str_at m' pp (g_pass g) /\ strings_at m' buf (buf + size) pm (g_members g) /\ same_outside m m' buf (Z.to_nat size) /\
        buf <= pn /\ pn + len (g_name g) + 1 <= buf + size /\ buf <= pp /\ pp + len (g_pass g) + 1 <= buf + size)).
Proof.
  intros to_number gs f name m buf size NUM F S0 MP AL n N. unfold getgrnam_r, find_gr_r.
  assert (E : forall r, first (fun g => g_name g = name) gs r -> walk_gr to_number n (fun g => same (gr_name g) name) f = Ok (option_map group_entry r)) by (intros r; apply (C86_group_partial _ _ _ NUM F _ N)).
  split; [intros R; rewrite (E _ R); reflexivity|]. intros g R. rewrite (E _ R). cbn [bind option_map]. apply first_in in R as [I _]. pose proof (file_groups _ _ F) as FU. rewrite Forall_forall in FU. destruct (FU _ I) as (l & dg & ms & _ & _ & F1 & F2 & FM & _).
  rewrite room_size. split; intros SZ.
  - rewrite gr_copy_small; [reflexivity|exact AL|exact SZ].
  - destruct (gr_copy_ok m buf size (group_entry g)) as (m' & pn & pp & -> & A & B & C & O & BD); [exact AL|apply field_bytes; exact F1|apply field_bytes; exact F2|apply Forall_forall; intros s IS; apply field_bytes; apply FM; exact IS|unfold size_of, len in *; cbn in *; lia|exact MP|]. cbn [bind].
    exists m', buf, pn, pp. split; [reflexivity|]. split; [exact A|]. split; [exact B|]. split; [exact C|]. split; [exact O|]. unfold size_of, len in *. cbn in BD. lia.
Qed.
Theorem C86_group_number_r_partial : forall to_number gs f gid m buf size, reads_numbers to_number -> group_file gs f -> 0 <= size -> mapped m buf (Z.to_nat size) -> buf mod 8 = 0 -> forall n, (length f < n)%nat ->
  (first (fun g => g_gid g = gid) gs None -> getgrgid_r to_number n gid f m buf size = Ok (3, None)) /\
  (forall g, first (fun g => g_gid g = gid) gs (Some g) ->
     (size < group_room g -> getgrgid_r to_number n gid f m buf size = Ok (34, None)) /\
     (group_room g + len (g_pass g) + 1 <= size ->
      exists m' pm pn pp, getgrgid_r to_number n gid f m buf size = Ok (0, Some (group_entry g, m', (pm, pn, pp))) /\
        str_at m' pn (g_name g) /\ str_at m' pp (g_pass g) /\ strings_at m' buf (buf + size) pm (g_members g) /\ same_outside m m' buf (Z.to_nat size))).
Proof.
  intros to_number gs f gid m buf size NUM F S0 MP AL n N. unfold getgrgid_r, find_gr_r.
  assert (E : forall r, first (fun g => g_gid g = gid) gs r -> walk_gr to_number n (fun g => gr_gid g =? gid) f = Ok (option_map group_entry r)) by (intros r; apply (C86_group_partial _ _ _ NUM F _ N)).
  split; [intros R; rewrite (E _ R); reflexivity|]. intros g R. rewrite (E _ R). cbn [bind option_map]. apply first_in in R as [I _]. pose proof (file_groups _ _ F) as FU. rewrite Forall_forall in FU. destruct (FU _ I) as (l & dg & ms & _ & _ & F1 & F2 & FM & _).
  rewrite room_size. split; intros SZ.
  - rewrite gr_copy_small; [reflexivity|exact AL|exact SZ].
  - destruct (gr_copy_ok m buf size (group_entry g)) as (m' & pn & pp & -> & A & B & C & O & BD); [exact AL|apply field_bytes; exact F1|apply field_bytes; exact F2|apply Forall_forall; intros s IS; apply field_bytes; apply FM; exact IS|unfold size_of, len in *; cbn in *; lia|exact MP|]. cbn [bind].
    exists m', buf, pn, pp. split; [reflexivity|]. split; [exact A|]. split; [exact B|]. split; [exact C|]. exact O.
Qed.

(** Written and read back, for members that are not empty and have no comma. *)
Theorem C86_group_trip_partial : forall to_number g f, reads_numbers to_number ->
  (field (g_name g) -> field (g_pass g) -> (forall s, In s (g_members g) -> field s /\ s <> [] /\ ~ In 44 s) -> 0 <= g_gid g < 2 ^ 31 ->
   exists l, putgrent (group_entry g) = Some l /\ ((length l <= 511)%nat -> fgetgrent to_number (l ++ f) = Ok (Some (group_entry g), f))) /\
  (putgrent (group_entry g) = None <-> exists s, In s (g_name g :: g_pass g :: g_members g) /\ (In 10 s \/ In 58 s)).
Proof.
  intros to_number g f NUM. split.
  - intros F1 F2 FM G. assert (BM : existsb bad_field (g_members g) = false).
    { destruct (existsb bad_field (g_members g)) eqn:E; [|reflexivity]. apply existsb_exists in E as (s & I & H). rewrite bad_false in H by (apply FM; exact I). discriminate. }
    eexists. split; [unfold putgrent; cbn [group_entry gr_name gr_passwd gr_mem]; rewrite !bad_false, BM by assumption; reflexivity|]. intros L.
    assert (GL : group_line g (g_name g ++ 58 :: g_pass g ++ 58 :: num 10 (g_gid g) ++ 58 :: print_members true (g_members g) ++ [10])).
    { exists (num 10 (g_gid g)), (print_members true (g_members g)). split; [apply number_decimal; [change (2 ^ Z.of_nat 64) with 18446744073709551616; lia|lia]|]. split; [lia|]. split; [exact F1|]. split; [exact F2|]. split; [exact FM|]. split; [apply print_joined|reflexivity]. }
    unfold fgetgrent. cbn [group_entry gr_name gr_passwd gr_mem gr_gid] in *. destruct (fgets_line _ f (group_nl _ _ GL) L) as [E NE]. rewrite E. rewrite (extract_group _ NUM _ _ GL).
    destruct (g_name g ++ 58 :: _) eqn:K; [contradiction|reflexivity].
  - unfold putgrent. cbn [group_entry gr_name gr_passwd gr_mem]. destruct (bad_field (g_name g) || bad_field (g_pass g) || existsb bad_field (g_members g)) eqn:B.
    + split; [intros _|reflexivity]. rewrite !orb_true_iff in B. destruct B as [[B|B]|B]; [| |apply existsb_exists in B as (s & I & B)]; apply bad_true in B; eexists; (split; [|exact B]); cbn; auto.
    + split; [discriminate|]. intros (s & I & H). apply bad_true in H. rewrite !orb_false_iff in B. destruct B as [[B1 B2] B3]. cbn in I. destruct I as [<-|[<-|I]]; [congruence|congruence|].
      assert (existsb bad_field (g_members g) = true) by (apply existsb_exists; exists s; auto). congruence.
Qed.

(** What fails.  The room for the password is not counted: with a buffer between the two sizes the password is written behind its end. *)
Theorem C86_group_overrun_refuted : forall to_number gs f name m buf size g, reads_numbers to_number -> group_file gs f -> buf mod 8 = 0 ->
  first (fun g => g_name g = name) gs (Some g) -> group_room g <= size < group_room g + len (g_pass g) + 1 -> forall n, (length f < n)%nat ->
  forall r, getgrnam_r to_number n name f m buf size <> Ok r.
Proof.
  intros to_number gs f name m buf size g NUM F AL R SZ n N r. unfold getgrnam_r, find_gr_r. rewrite room_size in SZ. destruct (C86_group_partial _ _ _ NUM F _ N) as [E _]. unfold getgrnam in E. rewrite (E _ _ R). cbn [bind option_map].
  pose proof (gr_copy_over m buf size (group_entry g) AL) as O. destruct (gr_copy m buf size (group_entry g)) as [x| | |]; cbn [bind]; try discriminate. intros _. apply (O ltac:(unfold size_of, len in *; cbn in *; lia) x). reflexivity.
Qed.
(** A buffer that is not aligned is moved on by 8 bytes, so that it is not aligned either. *)
Theorem C86_group_misaligned_refuted : forall to_number gs f name m buf size g, reads_numbers to_number -> group_file gs f -> buf mod 8 <> 0 ->
  first (fun g => g_name g = name) gs (Some g) -> group_room g + 8 <= size -> forall n, (length f < n)%nat -> getgrnam_r to_number n name f m buf size = UB.
Proof.
  intros to_number gs f name m buf size g NUM F AL R SZ n N. unfold getgrnam_r, find_gr_r. rewrite room_size in SZ. destruct (C86_group_partial _ _ _ NUM F _ N) as [E _]. unfold getgrnam in E. rewrite (E _ _ R). cbn [bind option_map].
  rewrite gr_copy_misaligned; [reflexivity|exact AL|exact SZ].
Qed.
(** A line with a fifth field, even in a comment, terminates the process, whatever group is looked up. *)
Theorem C86_group_fields_refuted : forall to_number l f name, (exists t, l = t ++ [10] /\ ~ In 10 t) -> (length l <= 511)%nat -> (3 < colons l)%nat -> forall n, (0 < n)%nat -> getgrnam to_number n name (l ++ f) = Abort.
Proof.
  intros to_number l f name NL L C n N. destruct n as [|n]; [lia|]. unfold getgrnam. cbn [walk_gr]. destruct (fgets_line l f NL L) as [-> NE]. destruct l as [|c l]; [contradiction|]. rewrite extract_abort; [reflexivity|destruct NL as (t & E & _); exists t; exact E|exact C].
Qed.
(** A line that ends behind the number, or a last line without a newline and without members, dereferences a null pointer. *)
Theorem C86_group_no_members_refuted : forall to_number name pass gid v, reads_numbers to_number -> ~ In 58 name -> ~ In 58 pass -> decimal gid v -> v < 2 ^ 31 ->
  extract_gr to_number (name ++ [58] ++ pass ++ [58] ++ gid ++ [10]) = UB /\ extract_gr to_number (name ++ [58] ++ pass ++ [58] ++ gid ++ [58]) = UB.
Proof. exact extract_no_members. Qed.
(** A group with a line of more than 511 bytes loses the members behind them: "g:x:1:aaa...,b". *)
Definition long_group : grp := {| g_name := [103]; g_pass := [120]; g_gid := 1; g_members := [repeat 97 600; [98]] |}.
Definition long_line : list Z := [103;58;120;58;49;58] ++ repeat 97 600 ++ [44;98;10].
Theorem C86_group_long_refuted : group_line long_group long_line /\ getgrouplist parse_dec 1000 [98] 7 10 long_line = Ok (1, 1, [7]).
Proof.
  split; [|vm_compute; reflexivity]. exists [49], (repeat 97 600 ++ [44] ++ [98]). split; [exact (d_one 1 ltac:(lia))|]. split; [cbn; lia|]. split; [intros c I; cbn in I; lia|]. split; [intros c I; cbn in I; lia|].
  assert (R : forall k c, In c (repeat 97 k) -> c = 97) by (intros k c I; apply repeat_spec in I; exact I). split.
  - intros s [<-|[<-|[]]]; (split; [|split]).
    + intros c I. rewrite (R _ _ I). lia. + discriminate. + intros I. specialize (R _ _ I). discriminate.
    + intros c I. cbn in I. lia. + discriminate. + intros I. cbn in I. lia.
  - split; [apply (j_more (repeat 97 600) [[98]]); [discriminate|constructor]|]. unfold long_line. cbn [g_name g_pass long_group]. rewrite <- !app_assoc. reflexivity.
Qed.
(** putgrent does not refuse a member with a comma: it is read back as two. *)
Theorem C86_group_comma_refuted : exists g l, putgrent g = Some l /\ fgetgrent parse_dec l = Ok (Some {| gr_name := gr_name g; gr_passwd := gr_passwd g; gr_gid := gr_gid g; gr_mem := [[97]; [98]] |}, []) /\ gr_mem g = [[97; 44; 98]].
Proof. exists {| gr_name := [103]; gr_passwd := [120]; gr_gid := 1; gr_mem := [[97; 44; 98]] |}. eexists. split; [reflexivity|]. split; reflexivity. Qed.

(** "# c\n" and "r:x:0:0:R:/:s\n" *)
Definition users_text : list Z := [35;32;99;10] ++ [114;58;120;58;48;58;48;58;82;58;47;58;115;10].
Definition root : user := {| u_name := [114]; u_pass := [120]; u_uid := 0; u_gid := 0; u_full := [82]; u_dir := [47]; u_shell := [115] |}.
Ltac fld := let c := fresh in let I := fresh in intros c I; cbn in I; lia.
Example C86_user_instance : user_file [root] users_text /\ getpwnam parse_dec 30 [114] users_text = Ok (Some (user_entry root)) /\ getpwuid parse_dec 30 5 users_text = Ok None /\
  (exists m a, getpwnam_r parse_dec 30 [114] users_text (mem_of 100 (repeat 0 8)) 100 8 = Ok (0, Some (user_entry root, m, a))) /\ getpwnam_r parse_dec 30 [114] users_text (mem_of 100 (repeat 0 8)) 100 7 = Ok (34, None).
Proof.
  split; [|split; [reflexivity|split; [reflexivity|split; [eexists _, _; reflexivity|reflexivity]]]].
  apply (uf_other [35;32;99;10] _ [114;58;120;58;48;58;48;58;82;58;47;58;115;10]); [split; [exists [35;32;99]; split; [reflexivity|intros I; cbn in I; lia]|left; cbn; lia]|cbn; lia|].
  apply (uf_user root [114;58;120;58;48;58;48;58;82;58;47;58;115;10] [] []); [|cbn; lia|constructor].
  exists [48], [48]. split; [exact (d_one 0 ltac:(lia))|]. split; [exact (d_one 0 ltac:(lia))|]. split; [cbn; lia|]. split; [cbn; lia|]. repeat (split; [fld|]). reflexivity.
Qed.
(** "g:x:5:a,b\n" *)
Definition groups_text : list Z := [103;58;120;58;53;58;97;44;98;10].
Definition grp5 : grp := {| g_name := [103]; g_pass := [120]; g_gid := 5; g_members := [[97];[98]] |}.
Example C86_group_instance : group_file [grp5] groups_text /\ getgrnam parse_dec 30 [103] groups_text = Ok (Some (group_entry grp5)) /\ getgrgid parse_dec 30 6 groups_text = Ok None /\
  getgrouplist parse_dec 30 [98] 7 10 groups_text = Ok (2, 2, [7; 5]) /\ getgrouplist parse_dec 30 [98] 7 1 groups_text = Ok (-1, 2, [7]) /\ group_room grp5 = 30 /\
  (exists m a, getgrnam_r parse_dec 30 [103] groups_text (mem_of 800 (repeat 0 32)) 800 32 = Ok (0, Some (group_entry grp5, m, a))) /\
  getgrnam_r parse_dec 30 [103] groups_text (mem_of 800 (repeat 0 31)) 800 31 = UB /\ getgrnam_r parse_dec 30 [103] groups_text (mem_of 800 (repeat 0 40)) 800 31 = Abort.
Proof.
  split; [|split; [reflexivity|split; [reflexivity|split; [reflexivity|split; [reflexivity|split; [reflexivity|split; [eexists _, _; reflexivity|split; reflexivity]]]]]]].
  apply (gf_group grp5 groups_text [] []); [|cbn; lia|constructor]. exists [53], [97;44;98]. split; [exact (d_one 5 ltac:(lia))|]. split; [cbn; lia|]. split; [fld|]. split; [fld|].
  split; [intros s [<-|[<-|[]]]; (split; [fld|split; [discriminate|intros I; cbn in I; lia]])|]. split; [apply (j_more [97] [[98]]); [discriminate|constructor]|reflexivity].
Qed.
(** "# a:b:c:d\n" has three colons; "# a:b:c:d:e\n" has four *)
Example C86_group_fields_instance : getgrnam parse_dec 30 [103] ([35;58;98;58;99;58;100;58;101;10] ++ groups_text) = Abort.
Proof. reflexivity. Qed.

Print Assumptions C86_user.
Print Assumptions C86_user_r.
Print Assumptions C86_user_number_r.
Print Assumptions C86_user_trip.
Print Assumptions C86_group_partial.
Print Assumptions C86_group_list.
Print Assumptions C86_group_r_partial.
Print Assumptions C86_group_number_r_partial.
Print Assumptions C86_group_trip_partial.
Print Assumptions C86_group_overrun_refuted.
Print Assumptions C86_group_misaligned_refuted.
Print Assumptions C86_group_fields_refuted.
Print Assumptions C86_group_no_members_refuted.
Print Assumptions C86_group_long_refuted.
Print Assumptions C86_group_comma_refuted.
