(** C43: random and its state arrays. *)
From Verif Require Import Random_Model Random_Spec Random_Proof.
Open Scope Z_scope.

(** For every permitted history of random, srandom, initstate and setstate calls the results are
    those of independent generators, one for each array, and no access is outside an array. *)
Theorem C43_independent_generators : forall mem os w rs,
  ideal_run (caps mem) initial os = Some (w, rs) -> exists s, run (start mem) os = Some (s, rs).
Proof.
  intros mem os w rs H. destruct (run_ok _ _ _ _ _ _ (start_ok mem) H) as (s & E & _). eauto.
Qed.
(** All results of random are in range. *)
Theorem C43_range : forall mem os w rs s rs', ideal_run (caps mem) initial os = Some (w, rs) ->
  run (start mem) os = Some (s, rs') -> Forall (fun r => match r with Num v => 0 <= v < 2 ^ 31 | Array _ => True end) rs'.
Proof.
  intros mem os w rs s rs' H E. destruct (run_ok _ _ _ _ _ _ (start_ok mem) H) as (s1 & E1 & _).
  rewrite E in E1. injection E1 as _ ->. exact (run_range _ _ _ _ _ H).
Qed.
(** Switching away from an array [a] and back resumes the sequence: after any history, [k] calls of
    random return the same values now as they do after the program has switched to another array [b],
    made any calls that leave [a] alone, and switched back. *)
Theorem C43_resume : forall mem os1 b os2 k w1 rs1 w3 rs3,
  ideal_run (caps mem) initial os1 = Some (w1, rs1) -> b <> current w1 -> Forall (elsewhere (current w1)) os2 ->
  ideal_run (caps mem) w1 (Setstate b :: os2) = Some (w3, rs3) ->
  exists s s' vs, run (start mem) (os1 ++ repeat Random k) = Some (s, rs1 ++ vs) /\
    run (start mem) (os1 ++ (Setstate b :: os2) ++ [Setstate (current w1)] ++ repeat Random k)
      = Some (s', rs1 ++ rs3 ++ [Array (Some (current w3))] ++ vs) /\ length vs = k.
Proof.
  intros mem os1 b os2 k w1 rs1 w3 rs3 H1 NB EL H3.
  destruct (run_ok _ _ _ _ _ _ (start_ok mem) H1) as (s1 & E1 & R1).
  assert (G : exists g, gens w1 (current w1) = Some g) by (destruct (r_here _ _ _ R1) as (g & G & _); eauto).
  assert (K : forall k w, (exists g, gens w (current w) = Some g) -> exists w' vs, ideal_run (caps mem) w (repeat Random k) = Some (w', vs) /\ length vs = k).
  { clear. induction k as [|k IH]; intros w [g G]; [eexists _, _; split; reflexivity|]. cbn [repeat ideal_run ideal_step]. rewrite G.
    destruct (next g) as [g' v]. destruct (IH (put w (current w) g')) as (w' & vs & E & L).
    - cbn [put gens current]. rewrite Z.eqb_refl. eauto.
    - rewrite E. cbn [option_map]. eexists _, _. split; [reflexivity|]. cbn [length]. lia. }
  destruct (K k w1 G) as (w2 & vs & E2 & LV).
  assert (S3 : gens w3 (current w1) = gens w1 (current w1)).
  { cbn [ideal_run ideal_step] in H3. destruct (gens w1 b) eqn:GB; [|discriminate].
    destruct (ideal_run (caps mem) {| gens := gens w1; current := b |} os2) as [[w2' rs']|] eqn:E3; [|discriminate]. injection H3 as <- _.
    destruct (elsewhere_run _ (current w1) os2 {| gens := gens w1; current := b |} _ _ NB EL E3) as [X _]. exact X. }
  destruct G as (g & G).
  pose proof (randoms_same (caps mem) k w1 {| gens := gens w3; current := current w1 |} ltac:(cbn [gens current]; congruence)) as SA.
  rewrite E2 in SA. cbn [option_map snd] in SA.
  destruct (ideal_run (caps mem) {| gens := gens w3; current := current w1 |} (repeat Random k)) as [[w4 vs']|] eqn:E4; [|discriminate].
  injection SA as <-.
  destruct (run_ok (caps mem) (os1 ++ repeat Random k) initial (start mem) w2 (rs1 ++ vs) (start_ok mem)) as (s & E & _).
  { rewrite ideal_run_app, H1, E2. reflexivity. }
  destruct (run_ok (caps mem) (os1 ++ (Setstate b :: os2) ++ [Setstate (current w1)] ++ repeat Random k) initial (start mem) w4
    (rs1 ++ rs3 ++ [Array (Some (current w3))] ++ vs) (start_ok mem)) as (s' & E' & _).
  { rewrite ideal_run_app, H1, ideal_run_app, H3. cbn [app ideal_run ideal_step]. rewrite S3, G.
    rewrite E4. reflexivity. }
  exists s, s', vs. auto.
Qed.
(** Without a call of srandom the sequence is that of srandom(1). *)
Theorem C43_default_seed : forall mem k, exists s s' vs,
  run (start mem) (repeat Random k) = Some (s, vs) /\ run (start mem) (Srandom 1 :: repeat Random k) = Some (s', Num 0 :: vs) /\ length vs = k.
Proof.
  intros mem k.
  assert (K : forall k w, (exists g, gens w (current w) = Some g) -> exists w' vs, ideal_run (caps mem) w (repeat Random k) = Some (w', vs) /\ length vs = k).
  { clear. induction k as [|k IH]; intros w [g G]; [eexists _, _; split; reflexivity|]. cbn [repeat ideal_run ideal_step]. rewrite G.
    destruct (next g) as [g' v]. destruct (IH (put w (current w) g')) as (w' & vs & E & L).
    - cbn [put gens current]. rewrite Z.eqb_refl. eauto.
    - rewrite E. cbn [option_map]. eexists _, _. split; [reflexivity|]. cbn [length]. lia. }
  destruct (K k initial ltac:(eexists; reflexivity)) as (w2 & vs & E2 & LV).
  set (w1 := put initial 0 (seeded 31 1)).
  pose proof (randoms_same (caps mem) k initial w1 eq_refl) as SA. rewrite E2 in SA. cbn [option_map snd] in SA.
  destruct (ideal_run (caps mem) w1 (repeat Random k)) as [[w4 vs']|] eqn:E4; [|discriminate]. injection SA as <-.
  destruct (run_ok _ _ _ _ _ _ (start_ok mem) E2) as (s & E & _).
  destruct (run_ok (caps mem) (Srandom 1 :: repeat Random k) initial (start mem) w4 (Num 0 :: vs) (start_ok mem)) as (s' & E' & _).
  { cbn [ideal_run]. replace (ideal_step (caps mem) initial (Srandom 1)) with (Some (w1, Num 0)) by reflexivity. rewrite E4. reflexivity. }
  exists s, s', vs. auto.
Qed.

(** Non-vacuity: a history with arrays of three sizes. *)
Definition history : list op :=
  [Random; Initstate 42 1 64; Random; Random; Initstate 7 2 8; Random; Setstate 1; Random; Srandom 5; Random; Setstate 0; Random].
Definition some_mem (a : Z) : list Z := repeat 7 16.
Example C43_example :
  option_map snd (ideal_run (caps some_mem) initial history) = option_map snd (run (start some_mem) history) /\
  option_map snd (run (start some_mem) history) =
    Some [Num 262836907; Array (Some 0); Num 2058979096; Num 1114567745; Array (Some 1); Num 1282168116; Array (Some 2); Num 1168098319;
          Num 0; Num 233101853; Array (Some 1); Num 2022765545].
Proof. vm_compute. split; reflexivity. Qed.
Example C43_resume_example : exists w1 rs1 w3 rs3,
  ideal_run (caps some_mem) initial [Initstate 42 1 64; Setstate 0] = Some (w1, rs1) /\ 1 <> current w1 /\
  ideal_run (caps some_mem) w1 [Setstate 1; Srandom 3; Random] = Some (w3, rs3) /\ Forall (elsewhere (current w1)) [Srandom 3; Random].
Proof.
  eexists _, _, _, _. split; [cbn [ideal_run ideal_step initial]; reflexivity|]. split; [discriminate|].
  split; [cbn [ideal_run ideal_step]; reflexivity|]. repeat constructor.
Qed.

Print Assumptions C43_independent_generators.
Print Assumptions C43_range.
Print Assumptions C43_resume.
Print Assumptions C43_default_seed.
