(** C93: syslog. *)
From Verif Require Import Base Mem_Model Inet_Model Hosts_Spec Syslog_Model Syslog_Spec Syslog_Proof.
Open Scope Z_scope.

(** After any calls, a message whose level is enabled goes out as exactly one line with the priority, facility and name set by these calls.  It is sent
    once more only if the daemon had gone away and could be reached again; text and name never overflow the buffer.  Missing: messages whose number
    has no bit in common with the mask, which are lost, see below. *)
Theorem C93_send_partial : forall ans pid cs, Forall proper_call cs -> exists s h, run ans pid cs (init, []) = Ok (s, h) /\
  forall p time text, length time = 15%nat -> enabled (mask_of cs) p -> Z.land p (mask_of cs) <> 0 ->
  exists d s' h' opening fd, canonical d (full_priority p (facility_of cs)) /\ run ans pid (cs ++ [Syslog p time (Some text)]) (init, []) = Ok (s', h') /\
    (0 <= log_fd s -> opening = [] /\ fd = log_fd s) /\ (log_fd s < 0 -> opening = [Socket] /\ fd < 0 \/ opening = [Connect fd; Socket]) /\
    let ln := line d time (ident_of cs) text in let h1 := opening ++ h in
    ((use_mlibc_logger s' = true /\ h' = Info (firstn 1023 text) :: h1) \/
     (use_mlibc_logger s' = false /\
       ((h' = Send fd ln :: h1 /\ ~ lost (ans h')) \/
        (h' = Connect fd :: Send fd ln :: h1 /\ lost (ans (Send fd ln :: h1)) /\ ans h' <> 0) \/
        (h' = Send fd ln :: Connect fd :: Send fd ln :: h1 /\ lost (ans (Send fd ln :: h1)) /\ ans (Connect fd :: Send fd ln :: h1) = 0)))).
Proof.
  intros ans pid cs P. destruct (run_fields ans pid cs init [] init_good init_facility P) as (s & h & new & R & G & F & A & B & C & _ & _ & _).
  exists s, h. split; [exact R|]. intros p time text T E N. unfold mask_of in *. cbn [init log_mask] in C. rewrite <- C in *.
  destruct (vsyslog_ok ans pid p time (Some text) s h G T E N) as (h' & V & D). cbv zeta in *.
  exists (dec (full_priority p (facility_of cs))), (fst (connected ans (s, h))), h'.
  assert (RR : forall cs x, run ans pid (cs ++ [Syslog p time (Some text)]) x = (y <- run ans pid cs x ;; step ans pid (Syslog p time (Some text)) y)).
  { clear. induction cs as [|c cs IH]; intro x; cbn [app run bind].
    - destruct (step ans pid (Syslog p time (Some text)) x); reflexivity.
    - destruct (step ans pid c x); cbn [bind]; [apply IH|reflexivity|reflexivity|reflexivity]. }
  assert (BI : facility_of cs = log_facility s) by (rewrite B; reflexivity). assert (AI : ident_of cs = log_ident s) by (rewrite A; reflexivity).
  rewrite BI, AI.
  assert (CN : exists opening fd, snd (connected ans (s, h)) = opening ++ h /\ fd = log_fd (fst (connected ans (s, h))) /\ (0 <= log_fd s -> opening = [] /\ fd = log_fd s) /\ (log_fd s < 0 -> opening = [Socket] /\ fd < 0 \/ opening = [Connect fd; Socket])).
  { unfold connected. cbn [fst]. destruct (Z.ltb_spec (log_fd s) 0).
    - destruct (open_fields ans (s, h)) as (_ & _ & _ & [(O1 & O2 & _)|(O1 & O2 & _)]); cbn [fst snd] in *.
      + exists [Socket]. eexists. split; [exact O1|]. split; [reflexivity|]. split; [lia|]. auto.
      + exists [Connect (log_fd (fst (open_log ans (s, h)))); Socket]. eexists. split; [exact O1|]. split; [reflexivity|]. split; [lia|]. auto.
    - exists [], (log_fd s). cbn. repeat split; auto; lia. }
  destruct CN as (opening & fd & C1 & C2 & C3 & C4). exists opening, fd. split; [apply dec_canonical, full_range; [exact (proj1 E)|exact F]|].
  split; [rewrite RR, R; exact V|]. split; [exact C3|]. split; [exact C4|]. cbv zeta. rewrite C1, <- C2 in D.
  destruct (use_mlibc_logger (fst (connected ans (s, h)))); [left; auto|right]. split; [reflexivity|exact D].
Qed.
Print Assumptions C93_send_partial.

(** A connected program and a listening daemon: exactly one line. *)
Theorem C93_one_line : forall ans pid cs s h, Forall proper_call cs -> run ans pid cs (init, []) = Ok (s, h) -> 0 <= log_fd s -> use_mlibc_logger s = false ->
  forall p time text, length time = 15%nat -> enabled (mask_of cs) p -> Z.land p (mask_of cs) <> 0 -> (forall l, ans (Send (log_fd s) l :: h) = 0) ->
  exists d s', canonical d (full_priority p (facility_of cs)) /\ run ans pid (cs ++ [Syslog p time (Some text)]) (init, []) = Ok (s', Send (log_fd s) (line d time (ident_of cs) text) :: h).
Proof.
  intros ans pid cs s h P R FD U p time text T E N A. destruct (C93_send_partial ans pid cs P) as (s1 & h1 & R1 & H). rewrite R in R1. inversion R1; subst s1 h1.
  destruct (H p time text T E N) as (d & s' & h' & opening & fd & D & R' & O1 & _ & K). destruct (O1 FD) as [-> ->]. exists d, s'. split; [exact D|]. rewrite R'. cbn [app] in K.
  assert (U' : use_mlibc_logger s' = false).
  { destruct (run_fields ans pid cs init [] init_good init_facility P) as (s2 & h2 & new & R2 & G & F & A2 & B2 & C2 & _). rewrite R in R2. inversion R2; subst s2 h2.
    assert (MK : log_mask s = mask_of cs) by exact C2. rewrite <- MK in *.
    destruct (vsyslog_ok ans pid p time (Some text) s h G T E N) as (h2 & V & _). cbv zeta in V.
    assert (RR : forall cs x, run ans pid (cs ++ [Syslog p time (Some text)]) x = (y <- run ans pid cs x ;; step ans pid (Syslog p time (Some text)) y)).
    { clear. induction cs as [|c cs IH]; intro x; cbn [app run bind].
      - destruct (step ans pid (Syslog p time (Some text)) x); reflexivity.
      - destruct (step ans pid c x); cbn [bind]; [apply IH|reflexivity|reflexivity|reflexivity]. }
    rewrite RR, R in R'. cbn [bind step] in R'. rewrite V in R'. unfold connected in R'. cbn [fst] in R'. destruct (Z.ltb_spec (log_fd s) 0); [lia|]. cbn [fst] in R'. inversion R'; subst. exact U. }
  destruct K as [[K _]|[_ [[-> _]|[(_ & K & _)|(_ & K & _)]]]]; [congruence|reflexivity| |]; rewrite A in K; unfold lost in K; lia.
Qed.
Print Assumptions C93_one_line.

(** Messages of a level that is not enabled, or with a number that is no level and facility, change nothing. *)
Theorem C93_masked : forall ans pid cs s h p time text, Forall proper_call cs -> run ans pid cs (init, []) = Ok (s, h) -> ~ enabled (mask_of cs) p -> vsyslog ans pid p time text (s, h) = Ok (s, h).
Proof.
  intros ans pid cs s h p time text P R E. destruct (run_fields ans pid cs init [] init_good init_facility P) as (s1 & h1 & new & R1 & _ & _ & _ & _ & C & _).
  rewrite R in R1. inversion R1; subst s1 h1. apply vsyslog_off. left. change (log_mask s = mask_of cs) in C. rewrite C. exact E.
Qed.
Print Assumptions C93_masked.
(** setlogmask returns the mask set before. *)
Theorem C93_setlogmask : forall ans pid cs s h m, Forall proper_call cs -> run ans pid cs (init, []) = Ok (s, h) -> fst (setlogmask m (s, h)) = mask_of cs.
Proof.
  intros ans pid cs s h m P R. destruct (run_fields ans pid cs init [] init_good init_facility P) as (s1 & h1 & new & R1 & _ & _ & _ & _ & C & _).
  rewrite R in R1. inversion R1; subst s1 h1. exact C.
Qed.
Print Assumptions C93_setlogmask.

(** The socket used is always the last one made; after closelog there is none, so the next message makes a new one (C93_send_partial). *)
Theorem C93_socket : forall ans pid cs s h, run ans pid cs (init, []) = Ok (s, h) -> log_fd s = current ans h /\
  forall s' h', run ans pid (cs ++ [Closelog]) (init, []) = Ok (s', h') -> log_fd s' = -1 /\ h' = Close (current ans h) :: h.
Proof.
  intros ans pid cs s h R. assert (X : log_fd s = current ans h) by (apply (run_current ans pid cs init []); auto). split; [exact X|].
  intros s' h' R'. rewrite run_app, R in R'. cbn [bind run step closelog] in R'. injection R' as <- <-. rewrite X. auto.
Qed.
Print Assumptions C93_socket.

(** Refuted: an enabled message is lost if its number has no bit in common with the mask.  So LOG_EMERG without a facility is never logged, and with
    setlogmask(LOG_MASK(LOG_ERR)) no LOG_ERR is. *)
Theorem C93_lost_refuted : forall ans pid s h p time text, Z.land p (log_mask s) = 0 -> vsyslog ans pid p time text (s, h) = Ok (s, h).
Proof. intros. apply vsyslog_off. auto. Qed.
Print Assumptions C93_lost_refuted.
Theorem C93_emerg_refuted : enabled 255 0 /\ enabled 8 3 /\ forall ans pid s h time text,
  vsyslog ans pid 0 time text (s, h) = Ok (s, h) /\ (log_mask s = 8 -> vsyslog ans pid 3 time text (s, h) = Ok (s, h)).
Proof.
  split; [split; [lia|reflexivity]|]. split; [split; [lia|reflexivity]|]. intros. split; [apply C93_lost_refuted; reflexivity|]. intro M. apply C93_lost_refuted. rewrite M. reflexivity.
Qed.
Print Assumptions C93_emerg_refuted.
(** Refuted: the options LOG_PERROR, LOG_CONS and LOG_PID have no effect: nothing is ever written to standard error or the console, and no line has the
    process number (C93_send_partial). *)
Theorem C93_options_refuted : forall ans pid cs s h, Forall proper_call cs -> run ans pid cs (init, []) = Ok (s, h) ->
  forall e, In e h -> match e with OpenConsole | Console _ _ | Stderr _ => False | _ => True end.
Proof.
  intros ans pid cs s h P R e I. destruct (run_fields ans pid cs init [] init_good init_facility P) as (s1 & h1 & new & R1 & _ & _ & _ & _ & _ & D & _ & N).
  rewrite R in R1. injection R1 as <- <-. rewrite app_nil_r in D. subst h. rewrite Forall_forall in N. specialize (N e I). destruct e; exact N || exact Logic.I.
Qed.
Print Assumptions C93_options_refuted.
(** Refuted: after one failing connect nothing is sent to the daemon any more, even after closelog and openlog. *)
Theorem C93_fallback_refuted : forall ans pid cs s h cs' s' h', Forall proper_call cs -> Forall proper_call cs' -> run ans pid cs (init, []) = Ok (s, h) -> use_mlibc_logger s = true ->
  run ans pid cs' (s, h) = Ok (s', h') -> exists new, h' = new ++ h /\ forall e, In e new -> match e with Send _ _ => False | _ => True end.
Proof.
  intros ans pid cs s h cs' s' h' P P' R U R'. destruct (run_fields ans pid cs init [] init_good init_facility P) as (s1 & h1 & new & R1 & G & F & _).
  rewrite R in R1. injection R1 as <- <-. destruct (run_fields ans pid cs' s h G F P') as (s2 & h2 & new2 & R2 & _ & _ & _ & _ & _ & D & _ & N). rewrite R' in R2. injection R2 as <- <-.
  exists new2. split; [exact D|]. intros e I. rewrite Forall_forall in N. specialize (N e I). rewrite U in N. destruct e; cbn in N; try exact Logic.I. discriminate.
Qed.
Print Assumptions C93_fallback_refuted.
(** Refuted: setlogmask(0), which should only ask for the mask, turns logging off. *)
Theorem C93_mask_zero_refuted : forall ans pid s h p time text, vsyslog ans pid p time text (snd (setlogmask 0 (s, h))) = Ok (snd (setlogmask 0 (s, h))).
Proof. intros. unfold setlogmask. cbn [snd]. apply C93_lost_refuted. cbn [log_mask]. apply Z.land_0_r. Qed.
Print Assumptions C93_mask_zero_refuted.

(** Instances: socket 3, the daemon listens.  "<14>Nov 16 18:30:00 ab: hi" *)
Definition tm15 : list Z := [78;111;118;32;49;54;32;49;56;58;51;48;58;48;48].
Definition up (h : list event) : Z := match h with Socket :: _ => 3 | _ => 0 end.
Example C93_instance_send : run up 77 [Openlog (Some [97; 98]) LOG_PID 8; Syslog 6 tm15 (Some [104; 105])] (init, []) =
  Ok (set_fd {| log_ident := [97; 98]; log_options := 1; log_facility := 8; log_fd := 3; log_opt := 0; log_mask := 255; use_mlibc_logger := false |} 3 false,
      [Send 3 ([60; 49; 52; 62] ++ tm15 ++ [32; 97; 98; 58; 32; 104; 105; 10]); Connect 3; Socket]).
Proof. vm_compute. reflexivity. Qed.
Example C93_instance_enabled : enabled 255 6 /\ Z.land 6 255 <> 0 /\ ~ enabled 255 1024 /\ ~ enabled 8 6.
Proof. unfold enabled. cbn. repeat split; try lia; try discriminate; intros [? ?]; (lia || discriminate). Qed.
Example C93_instance_down : match run (fun h => match h with Socket :: _ => 3 | Connect _ :: _ => 111 | _ => 0 end) 77 [Syslog 6 tm15 (Some [104; 105])] (init, []) with
  | Ok (s, h) => use_mlibc_logger s = true /\ h = [Info [104; 105]; Connect 3; Socket] | _ => False end.
Proof. vm_compute. auto. Qed.
