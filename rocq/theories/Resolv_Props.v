(** The name server of /etc/resolv.conf. *)
From Verif Require Import Base Resolv_Model Resolv_Spec Resolv_Proof.

(** for every file, the server is that of the first line of at most 126 bytes that has "nameserver", and there is none if that line has no name *)
Theorem C112_first_partial : forall f, get_nameserver (Some f) = Ok (first_server f).
Proof. exact nameserver_ok. Qed.
Print Assumptions C112_first_partial.

(** a line "nameserver", white space, a name, and perhaps white space and more, gives the name, whatever comes after it *)
Theorem C112_entry : forall ws name rest f, ws <> [] -> name <> [] -> Forall (fun c => isspace c = true) ws -> Forall (fun c => isspace c = false) name ->
  (rest = [] \/ exists c r, rest = c :: r /\ isspace c = true) -> ~ In 10%Z (ws ++ name ++ rest) -> length (ws ++ name ++ rest) <= 116 ->
  get_nameserver (Some ((keyword ++ ws ++ name ++ rest) ++ 10%Z :: f)) = Ok (Some name).
Proof. exact entry_ok. Qed.
Print Assumptions C112_entry.

(** other lines, and lines that are too long, are as if they were not there *)
Theorem C112_skip : forall l f, ~ In 10%Z l -> 126 < length l \/ entry l = false -> get_nameserver (Some (l ++ 10%Z :: f)) = get_nameserver (Some f).
Proof. exact skip_ok. Qed.
Print Assumptions C112_skip.

(** no file, no server *)
Theorem C112_no_file : get_nameserver None = Ok None.
Proof. reflexivity. Qed.
Print Assumptions C112_no_file.

(** a line "nameserver" without a name hides all servers after it *)
Theorem C112_unnamed_refuted : forall f, get_nameserver (Some (keyword ++ [32; 10]%Z ++ f)) = Ok None.
Proof. intros f. rewrite nameserver_ok. reflexivity. Qed.
Print Assumptions C112_unnamed_refuted.

Definition conf : list Z := [35; 32; 120; 10]%Z ++ repeat 110%Z 200 ++ [10]%Z ++ keyword ++ [115; 32; 56; 10]%Z ++ keyword ++ [9; 32; 49; 46; 49; 32; 35; 10]%Z ++ keyword ++ [32; 50; 10]%Z.
Example c112_conf : get_nameserver (Some conf) = Ok (Some [49; 46; 49]%Z).
Proof. reflexivity. Qed.
Example c112_last : get_nameserver (Some (keyword ++ [32; 50]%Z)) = Ok (Some [50%Z]) /\ get_nameserver (Some keyword) = Ok None.
Proof. split; reflexivity. Qed.
Example c112_long : get_nameserver (Some (keyword ++ [32]%Z ++ repeat 49%Z 115 ++ [10]%Z ++ keyword ++ [32; 50]%Z)) = Ok (Some (repeat 49%Z 115)) /\
  get_nameserver (Some (keyword ++ [32]%Z ++ repeat 49%Z 116 ++ [10]%Z ++ keyword ++ [32; 50]%Z)) = Ok (Some [50%Z]).
Proof. split; reflexivity. Qed.
