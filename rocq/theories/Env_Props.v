(** Property C23: the environment is a map. *)
From Verif Require Import Base Env_Model Env_Spec Env_Proof.
Open Scope Z_scope.

(** Starting from the empty environment (the initial value of environ) or from any array of strings in which no name is
    assigned twice, every history of setenv, putenv, unsetenv and assignments to environ makes getenv return the value
    of the map, and environ lists exactly the variables of the map as name=value. *)
Theorem C23_map : forall l m ops m', unambiguous l -> lists l m -> map_run m ops m' ->
  exists s, run (set_environ l) ops = Ok s /\ (forall name, getenv s name = Ok (m' name)) /\
            lists (env s) m' /\ unambiguous (env s).
Proof.
  intros l m ops m' U L M. destruct (run_ok m ops m' M (set_environ l) (conj U L)) as (s & E & I).
  exists s. split; [exact E|]. split; [intros name; apply getenv_ok, I|]. destruct I; auto.
Qed.
Print Assumptions C23_map.

(** setenv fails exactly on names containing '=', changing nothing *)
Theorem C23_setenv_invalid : forall s name value ow, In 61 name -> setenv s name value ow = Ok (s, false).
Proof.
  intros s name value ow H. unfold setenv. destruct (find_eq name) as [k|] eqn:E; [reflexivity|].
  apply find_eq_none in E. contradiction.
Qed.
Theorem C23_setenv_valid : forall l m ops m' s name value ow, unambiguous l -> lists l m -> map_run m ops m' ->
  run (set_environ l) ops = Ok s -> ~ In 61 name -> exists s', setenv s name value ow = Ok (s', true).
Proof.
  intros l m ops m' s name value ow U L M R H. destruct (run_ok m ops m' M (set_environ l) (conj U L)) as (s1 & E & I).
  rewrite R in E. injection E as <-. unfold setenv. rewrite (proj2 (find_eq_none name) H).
  destruct (assign_ok (update_vector s) m' name value ow eq_refl I H) as (s' & -> & _). cbn. eauto.
Qed.
Print Assumptions C23_setenv_invalid.
Print Assumptions C23_setenv_valid.

(** clearenv does not clear the environment: every variable survives *)
Theorem C23_clearenv_refuted : forall s name, exists s', clearenv s = Ok s' /\ getenv s' name = getenv s name.
Proof. intros s name. exists (update_vector s). auto. Qed.
(** an environment inherited with the same name twice: unsetenv leaves the second value visible *)
Theorem C23_duplicate_refuted : exists l name s, unsetenv (set_environ l) name = Ok s /\ getenv s name <> Ok None.
Proof. exists [[65;61;49];[65;61;50]], [65]. eexists. split; [vm_compute; reflexivity|]. vm_compute. discriminate. Qed.
(** POSIX requires EINVAL for an empty name; setenv accepts it *)
Theorem C23_empty_name_refuted : exists s, setenv (set_environ []) [] [49] true = Ok (s, true) /\ env s = [[61;49]].
Proof. eexists. split; [vm_compute; reflexivity|]. reflexivity. Qed.
Print Assumptions C23_clearenv_refuted.
Print Assumptions C23_duplicate_refuted.

(** A=1, B=2, A=3 only if unset, then B removed *)
Example C23_hyps : exists m, unambiguous [] /\ lists [] (fun _ => None) /\
  map_run (fun _ => None) [Setenv [65] [49] true; Putenv [66] [50]; Setenv [65] [51] false; Unsetenv [66]] m /\
  m [65] = Some [49] /\ m [66] = None.
Proof.
  eexists. split; [intros i j n v w _ H; destruct i; discriminate|].
  split; [intros n v; split; [intros _; split; [intros []|discriminate]|reflexivity]|].
  split; [|split].
  - repeat (eapply MCons; [econstructor|]); try (intros [H|[]]; discriminate H). constructor.
  - reflexivity.
  - reflexivity.
Qed.
